(** * C13: a byte order mark only shifts locations *)
Require Import Verif.Base Verif.MaybeByteM Verif.Utf8M Verif.InputM Verif.DiagnosticM Verif.TokensM Verif.BufferM Verif.LexStateM
  Verif.LexerM Verif.LexIdentM Verif.LexMainM Verif.ParserClientM
  Verif.SourceSpec Verif.SourceProofs Verif.Wp Verif.BufInv Verif.LexSpec Verif.NewlineInv Verif.MainInv Verif.RunInv Verif.FuelMono Verif.Prop_Lexer
  Verif.ReadSpec Verif.YylexSpec Verif.Reach Verif.NumberSpec Verif.NumRead Verif.Prop_Number Verif.IdentSpec Verif.IdentRead Verif.IdentStep Verif.Prop_Ident Verif.Prop_Var Verif.Prop_End Verif.Prop_White Verif.Prop_Crlf.
Require Import ZifyBool ZifyNat ZifyN.

(** ** Specification *)
Definition bom : list N := [239; 187; 191]%N.

(** The token, three bytes further *)
Definition shift3 (t : Token) : Token :=
  mkToken (token_type t) (token_value t) (mkLoc (loc_begin (token_loc t) + 3) (loc_end (token_loc t) + 3)).

(** ** The start of a source with a mark *)
Lemma start_bom : forall r e name, exists b, lexer_new (bom ++ r) name e = Ok tt (lexer_init b) /\ Fresh (bom ++ r) b /\
  pcur b = 3 /\ in_order b /\ (r <> [] -> upcoming b 3).
Proof.
  intros r e name. set (B := bom ++ r). assert (HNL := NL_pos B).
  assert (HB : B = (239 :: 187 :: 191 :: r)%N) by reflexivity. assert (HLB : List.length B = 3 + List.length r) by reflexivity. clearbody B.
  set (P := fun b => pcur b = 3 /\ in_order b /\ (r <> [] -> upcoming b 3)).
  assert (H : wp e (buffer_new name B) (fun _ b => Fresh B b /\ P b) (buffer_default (named name))).
  { apply wp_and. { apply buffer_new_ok. auto. }
    unfold buffer_new, prepare. ws. ws. ws. unfold b_nextc. ws. ws. ws.
    cbn [buffer_default pcur pend Nat.eqb orb]. unfold b_nextline. ws. ws. ws. ws.
    cbn [buffer_default nextline eofp pbeg pend Nat.eqb Nat.ltb Nat.leb].
    ws. ws. ws. unfold getline. ws. ws.
    cbn [set_nextline buffer_default line_count input].
    destruct (0 <? List.length (d_lines (update_bytes B (named name)))) eqn:E0.
    2: { exfalso. rewrite update_bytes_lines in E0. unfold NL in HNL. lia. }
    ws. ws. ws. ws. ws.
    apply (load_line_ok B); [apply update_bytes_lines|lia|].
    intros b1 I1 I2 I3 I4 I5 I6 I7 I8 I9 I10 I11 I12 I13 I14. cbn in I1, I2, I3, I5, I10. rewrite lstart_0 in *.
    assert (HLe : 3 <= lend B 0 /\ (r <> [] -> 3 < lend B 0)).
    { pose proof (line_bounds B 0 ltac:(lia)) as LB. rewrite lstart_0 in LB.
      assert (HE : lend B 0 <> 0).
      { intros E. destruct (empty_last_line B 0 ltac:(lia)) as (_ & A & _); [rewrite lstart_0; auto|]. clear - A E HLB. lia. }
      destruct (Nat.eq_dec (lend B 0) (List.length B)) as [E|E].
      - rewrite E, HLB. split; [lia|]. intros Hr. destruct r; [congruence|cbn; lia].
      - assert (H : nth_error B (lend B 0 - 1) = Some 10%N).
        { destruct (Nat.eq_dec (0 + 1) (NL B)) as [E2|E2]; [destruct (line_last B 0 E2); lia|]. apply (line_newline B 0). lia. }
        remember (lend B 0 - 1) as i eqn:Ei. rewrite HB in H. destruct i as [|[|[|i]]]; try discriminate H. lia. }
    assert (HW1 : BWF B b1).
    { constructor; rewrite ?I2, ?I3, ?I4, ?I5, ?I6, ?I7, ?I8, ?I9, ?lstart_0; auto; try lia.
      - unfold bytes. rewrite I1. apply update_bytes_table.
      - rewrite I1. apply update_bytes_lines.
      - intros p Ep. injection Ep as <-. lia. }
    assert (HR1 : Ready B b1) by (split; auto).
    cbn [negb]. ws. ws. rewrite (rd_at B b1 HR1), I7. rewrite HB at 1. cbn [nth_error]. ws. ws. cbn [N.eqb Pos.eqb].
    ws. ws. ws. cbn [is_eof mbeq N.eqb Pos.eqb]. ws. ws. ws. apply wp_sub_ck; [cbn; lia|].
    change (byte_at (set_pcur (pcur b1 + 1) b1)) with (byte_at b1). cbn [set_pcur pcur pend]. rewrite I7, I8. cbn [Nat.add].
    rewrite (byte_at_B B b1 1 HW1), (byte_at_B B b1 2 HW1).
    assert (H1 : nth_error B 1 = Some 187%N) by (rewrite HB; reflexivity). assert (H2 : nth_error B 2 = Some 191%N) by (rewrite HB; reflexivity). rewrite H1, H2.
    destruct (lend B 0 - 1) as [|[|k]] eqn:Ek; [lia|lia|]. cbn [Nat.leb]. cbn [mbeq N.eqb Pos.eqb andb]. ws. apply wp_modify. apply wp_modify.
    unfold P, in_order, upcoming. cbn [set_pbeg set_pcur pcur pend nextline line_count lastline eofp Nat.add]. rewrite I5. cbn [Nat.eqb].
    splits; [reflexivity|lia|]. intros Hr. splits; auto. left. splits; auto. rewrite I8. apply HLe; auto. }
  unfold wp in H. unfold lexer_new. destruct (buffer_new name B e (buffer_default (named name))) as [[] b|m|]; try contradiction.
  exists b. destruct H as (H1 & H2 & H3 & H4). auto.
Qed.

(** C13.  Behind the mark the lexer reads the characters of the source. *)
Theorem C13_same_characters : forall r e name, exists b b1 b2,
  lexer_new (bom ++ r) name e = Ok tt (lexer_init b) /\ delivers e b (collapse r) b1 /\ b_nextc e b1 = Ok None b2.
Proof.
  intros r e name. destruct (start_bom r e name) as (b & S1 & S2 & S3 & S4 & S5).
  destruct (stream (bom ++ r) e (List.length (bom ++ r)) b 3) as (b1 & b2 & D1 & D2); auto; try lia.
  - apply S2.
  - intros H. apply S5. intros ->. cbn in H. lia.
  - intros H. right. rewrite S3. rewrite app_length in *. cbn in *. lia.
  - exists b, b1, b2. auto.
Qed.
Print Assumptions C13_same_characters.

Lemma layout_shift : forall upper p items text toks, layout upper p items text toks -> layout upper (p + 3) items text (map shift3 toks).
Proof.
  intros upper p items text toks H. induction H as [p sp HS|p sp w k items rest toks HS HI Hr HN IH]; cbn [map].
  - constructor; auto.
  - unfold shift3 at 1. cbn [token_type token_value token_loc loc_begin loc_end].
    replace (p + List.length sp + 3) with (p + 3 + List.length sp) by lia.
    replace (p + List.length sp + List.length w + 3) with (p + 3 + List.length sp + List.length w) by lia.
    apply lo_item; auto. replace (p + 3 + List.length sp + List.length w) with (p + List.length sp + List.length w + 3) by lia. exact IH.
Qed.

(** C13.  A program of words, numbers and variables in any layout gives the same tokens with and without the mark, three bytes
    further.  The full claim, for every program, is false: see [C13_refuted]. *)
Theorem C13_layout_partial : forall items text toks name n upper,
  layout upper 0 items text toks -> text <> [] -> hd_error text <> Some 239%N -> enough (bom ++ text) <= n ->
  (exists s, run_lexer text name (plain_env n upper) = Ok toks s /\ diagnostics s = []) /\
  (exists s, run_lexer (bom ++ text) name (plain_env n upper) = Ok (map shift3 toks) s /\ diagnostics s = []).
Proof.
  intros items text toks name n upper H Hne H239 Hn. pose proof (layout_len _ _ _ _ _ H) as HLen.
  assert (Hn' : enough text <= n) by (unfold enough in *; rewrite app_length in Hn; lia).
  split.
  - destruct (C43_layout items text toks name n upper) as (s & E1 & E2 & _); eauto.
  - destruct (start_bom text (plain_env n upper) name) as (b & S1 & S2 & S3 & S4 & S5).
    destruct (layout_lexes _ _ _ _ _ (layout_shift _ _ _ _ _ H) (bom ++ text) n (lexer_init b)) as (s1 & s' & t & X1 & X2 & X3 & X4 & X5); auto.
    + unfold enough in Hn. lia.
    + destruct S2. constructor; auto; exact I.
    + vm_compute. discriminate.
    + unfold text_at, bom. cbn [Nat.add skipn app]. apply firstn_all.
    + contradiction.
    + exists s'. split; auto. eapply run_exact; eauto. unfold enough in Hn. rewrite map_length. rewrite app_length in Hn. lia.
Qed.
Print Assumptions C13_layout_partial.

(** C13 is false: a heredoc on the first line is not found behind a mark. *)
Theorem C13_refuted : exists text n upper toks s toks' s', ~ In 13%N text /\ enough (bom ++ text) <= n /\
  run_lexer text [] (plain_env n upper) = Ok toks s /\ run_lexer (bom ++ text) [] (plain_env n upper) = Ok toks' s' /\
  diagnostics s = [] /\ diagnostics s' <> [] /\ map token_type toks <> map token_type toks'.
Proof.
  exists (bs "<<A
foo
A
"), 300, (fun _ => false). do 4 eexists. split; [vm_compute; intuition discriminate|]. split; [vm_compute; lia|].
  split; [vm_compute; reflexivity|]. split; [vm_compute; reflexivity|]. split; [reflexivity|]. split; vm_compute; discriminate.
Qed.
Print Assumptions C13_refuted.

(** ** The hypotheses are met *)
Example C13_hypotheses : exists toks, layout (fun _ => false) 0 [(tIDENTIFIER, bs "foo"); (tINTEGER, bs "12"); (tIVAR, bs "@a")] (bs "foo  \
	12 @a ") toks.
Proof. exact C43_layout_sample. Qed.

Example C13_example : exists s, run_lexer (bom ++ bs "foo 12") [] (plain_env 300 (fun _ => false)) =
  Ok [mkToken tIDENTIFIER (bs "foo") (mkLoc 3 6); mkToken tINTEGER (bs "12") (mkLoc 7 9)] s.
Proof. eexists. vm_compute. reflexivity. Qed.
