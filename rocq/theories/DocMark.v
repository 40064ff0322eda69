(** * C58: an embedded document behind a byte order mark *)
Require Import Verif.Base Verif.MaybeByteM Verif.Utf8M Verif.InputM Verif.DiagnosticM Verif.TokensM Verif.BufferM Verif.LexStateM Verif.ScopesM
  Verif.LexerM Verif.LexIdentM Verif.LexMagicM Verif.LexMainM Verif.ParserClientM
  Verif.SourceSpec Verif.SourceProofs Verif.Wp Verif.BufInv Verif.LexSpec Verif.LexInv Verif.MagicInv Verif.NewlineInv Verif.MainInv Verif.RunInv Verif.FuelMono Verif.Prop_Lexer
  Verif.ReadSpec Verif.YylexSpec Verif.Reach Verif.NumberSpec Verif.NumRead Verif.Prop_Number Verif.IdentSpec Verif.IdentRead Verif.IdentStep Verif.Prop_Ident Verif.Prop_Var Verif.Prop_End Verif.Prop_White Verif.OpSpec Verif.OpStep Verif.Blind
  Verif.LineSpec Verif.LineStep Verif.DocStep Verif.LineRun Verif.LineAgree Verif.Prop_Line Verif.Prop_Crlf Verif.Prop_Bom Verif.Prop_Doc.
Require Import ZifyBool ZifyNat ZifyN.

(** The start of a source with a mark: the reader counts the columns of the first line from behind the mark *)
Lemma start_mark : forall r e name, exists b, lexer_new (bom ++ r) name e = Ok tt (lexer_init b) /\ Fresh (bom ++ r) b /\
  pcur b = 3 /\ pbeg b = 3 /\ in_order b /\ (r <> [] -> upcoming b 3).
Proof.
  intros r e name. set (B := bom ++ r). assert (HNL := NL_pos B).
  assert (HB : B = (239 :: 187 :: 191 :: r)%N) by reflexivity. assert (HLB : List.length B = 3 + List.length r) by reflexivity. clearbody B.
  set (P := fun b => pcur b = 3 /\ pbeg b = 3 /\ in_order b /\ (r <> [] -> upcoming b 3)).
  assert (H : wp e (buffer_new name B) (fun _ b => Fresh B b /\ P b) (buffer_default (named name))).
  { apply wp_and. { apply buffer_new_ok. auto. }
    unfold buffer_new, prepare. ws. ws. ws. unfold b_nextc. ws. ws. ws.
    cbn [buffer_default pcur pend Nat.eqb orb]. unfold b_nextline. ws. ws. ws. ws.
    cbn [buffer_default nextline eofp pbeg pend Nat.eqb Nat.ltb Nat.leb].
    ws. ws. ws. unfold getline. ws. ws.
    cbn [set_nextline buffer_default line_count input].
    destruct (0 <? List.length (d_lines (update_bytes B (named name)))) eqn:E0.
    2: { exfalso. rewrite update_bytes_lines in E0. unfold NL in HNL. lia. }
    ws. ws. ws. ws. ws.
    apply (load_line_ok B); [apply update_bytes_lines|lia|].
    intros b1 I1 I2 I3 I4 I5 I6 I7 I8 I9 I10 I11 I12 I13 I14. cbn in I1, I2, I3, I5, I10. rewrite lstart_0 in *.
    assert (HLe : 3 <= lend B 0 /\ (r <> [] -> 3 < lend B 0)).
    { pose proof (line_bounds B 0 ltac:(lia)) as LB. rewrite lstart_0 in LB.
      assert (HE : lend B 0 <> 0).
      { intros E. destruct (empty_last_line B 0 ltac:(lia)) as (_ & A & _); [rewrite lstart_0; auto|]. clear - A E HLB. lia. }
      destruct (Nat.eq_dec (lend B 0) (List.length B)) as [E|E].
      - rewrite E, HLB. split; [lia|]. intros Hr. destruct r; [congruence|cbn; lia].
      - assert (H : nth_error B (lend B 0 - 1) = Some 10%N).
        { destruct (Nat.eq_dec (0 + 1) (NL B)) as [E2|E2]; [destruct (line_last B 0 E2); lia|]. apply (line_newline B 0). lia. }
        remember (lend B 0 - 1) as i eqn:Ei. rewrite HB in H. destruct i as [|[|[|i]]]; try discriminate H. lia. }
    assert (HW1 : BWF B b1).
    { constructor; rewrite ?I2, ?I3, ?I4, ?I5, ?I6, ?I7, ?I8, ?I9, ?lstart_0; auto; try lia.
      - unfold bytes. rewrite I1. apply update_bytes_table.
      - rewrite I1. apply update_bytes_lines.
      - intros p Ep. injection Ep as <-. lia. }
    assert (HR1 : Ready B b1) by (split; auto).
    cbn [negb]. ws. ws. rewrite (rd_at B b1 HR1), I7. rewrite HB at 1. cbn [nth_error]. ws. ws. cbn [N.eqb Pos.eqb].
    ws. ws. ws. cbn [is_eof mbeq N.eqb Pos.eqb]. ws. ws. ws. apply wp_sub_ck; [cbn; lia|].
    change (byte_at (set_pcur (pcur b1 + 1) b1)) with (byte_at b1). cbn [set_pcur pcur pend]. rewrite I7, I8. cbn [Nat.add].
    rewrite (byte_at_B B b1 1 HW1), (byte_at_B B b1 2 HW1).
    assert (H1 : nth_error B 1 = Some 187%N) by (rewrite HB; reflexivity). assert (H2 : nth_error B 2 = Some 191%N) by (rewrite HB; reflexivity). rewrite H1, H2.
    destruct (lend B 0 - 1) as [|[|k]] eqn:Ek; [lia|lia|]. cbn [Nat.leb]. cbn [mbeq N.eqb Pos.eqb andb]. ws. apply wp_modify. apply wp_modify.
    unfold P, in_order, upcoming. cbn [set_pbeg set_pcur pcur pbeg pend nextline line_count lastline eofp Nat.add]. rewrite I5. cbn [Nat.eqb].
    splits; [reflexivity|reflexivity|lia|]. intros Hr. splits; auto. left. splits; auto. rewrite I8. apply HLe; auto. }
  unfold wp in H. unfold lexer_new. destruct (buffer_new name B e (buffer_default (named name))) as [[] b|m|]; try contradiction.
  exists b. destruct H as (H1 & H2 & H3 & H4 & H5). splits; auto.
Qed.

(** The document is found there as at the start of a line *)
Lemma mark_enter : forall B b0 p r0, BWF B b0 -> upcoming b0 p -> in_order b0 -> text_at B p (bs "=begin" ++ r0) -> word_end r0 \/ (r0 = [] /\ p + 6 = List.length B) -> nextline b0 = 0 -> pcur b0 = p -> pbeg b0 = p -> p < pend b0 ->
  exists b1, Ready B b1 /\ pcur b1 = p /\ pbeg b1 = p /\ p < pend b1 /\ in_order b1 /\
    forall e cs seen sn s, lex_step cs seen sn e (set_buffer b0 s) =
      bind (bind (loop (doc_body (mkLoc p (p + 6))) tt) (doc_rest (mkLoc p (p + 6)) sn)) step_end e (set_buffer (goto_eol b1) s).
Proof.
  intros B b0 p r0 HW HU HO HT HX G1 G2 G3 G4. pose proof (text_at_len _ _ _ HT ltac:(discriminate)) as HLen. rewrite app_length in HLen. change (List.length (bs "=begin")) with 6 in HLen.
  pose proof HU as (HE & _). set (b1 := b_token_flush b0).
  assert (R1 : Ready B b1) by (split; [apply BWF_set_ptok; auto|split; auto]). pose proof R1 as (W1 & N1 & E1).
  assert (R2 : pcur b1 = p) by exact G2. assert (R3 : ptok b1 = p) by exact G2. assert (R4 : p < pend b1) by exact G4. assert (R6 : in_order b1) by exact HO.
  assert (HB : pbeg b1 = p) by exact G3. assert (R7 : forall e, b_nextc e (b_token_flush b0) = b_nextc e b1) by reflexivity. clearbody b1.
  exists b1. splits; auto. intros e cs seen sn s.
  assert (Hc : nth_error B p = Some 61%N). { change (bs "=begin" ++ r0) with (61%N :: bs "begin" ++ r0) in HT. apply text_at_cons in HT. tauto. }
  unfold lex_step. unfold bind at 1, gets at 1. unfold bind at 1. unfold token_flush, modb, modify at 1.
  cbn [buffer set_buffer]. unfold bind at 1. unfold nextc, inb, zoom. cbn [buffer set_buffer]. rewrite R7.
  rewrite <- (rd_here e b1 _ R2), (rd_byte B e b1 R1 p 61%N) by (auto; discriminate).
  change (lex_char (Some 61%N) cs sn seen (lex_state (set_buffer b0 s))) with (lex_eq sn).
  change (set_buffer (set_pcur (p + 1) b1) (set_buffer (b_token_flush b0) (set_buffer b0 s))) with (set_buffer (set_pcur (p + 1) b1) s).
  assert (E : lex_eq sn e (set_buffer (set_pcur (p + 1) b1) s) = bind (loop (doc_body (mkLoc p (p + 6))) tt) (doc_rest (mkLoc p (p + 6)) sn) e (set_buffer (goto_eol b1) s)).
  { unfold lex_eq. unfold bind at 1. unfold getb, gets at 1. cbn [buffer set_buffer].
    replace (was_bol (set_pcur (p + 1) b1)) with true by (unfold was_bol; cbn; lia). cbn [andb]. rewrite (begin_word B b1 p r0) by auto.
    unfold lex_embdoc. unfold bind at 1. unfold getb, gets at 1. cbn [buffer set_buffer pcur set_pcur]. unfold bind at 1. unfold sub_ck at 1. replace (1 <=? p + 1) with true by lia. cbn [ret].
    replace (p + 1 - 1) with p by lia. replace (p + 1 + 5) with (p + 6) by lia. unfold bind at 1. unfold modb at 1, modify at 1. cbn [buffer set_buffer]. reflexivity. }
  unfold bind at 1. rewrite E. unfold bind at 3. reflexivity.
Qed.

Lemma mark_step : forall B b0 p doc, BWF B b0 -> upcoming b0 p -> in_order b0 -> text_at B p doc -> document doc -> nextline b0 = 0 -> pcur b0 = p -> pbeg b0 = p -> p < pend b0 ->
  exists bE t, AtE B bE t (p + List.length doc) /\ in_order bE /\
    forall e, 4 * List.length B + 20 < fuel e -> forall cs seen sn s,
      lex_step cs seen sn e (set_buffer b0 s) =
      Ok (inl sn) (set_comments (comments s ++ [mkComment (mkLoc p (p + List.length doc)) Document]) (set_buffer bE s)).
Proof.
  intros B b0 p doc HW HU HO HT HD G1 G2 G3 G4. destruct HD as [r0 ls r1 Hw0 Hl0 HF Hw1 Hl1].
  set (doc := bs "=begin" ++ r0 ++ List.concat ls ++ bs "=end" ++ r1) in *.
  pose proof (text_at_len _ _ _ HT ltac:(discriminate)) as HLen.
  assert (Hd : 10 + List.length ls <= List.length doc). { pose proof (lines_short ls HF). unfold doc. rewrite !app_length. change (List.length (bs "=begin")) with 6. change (List.length (bs "=end")) with 4. lia. }
  assert (HT3 := HT). unfold doc in HT. rewrite app_assoc in HT. apply text_at_app in HT. destruct HT as (HT1 & HT2). apply text_at_app in HT2. destruct HT2 as (HT2 & HT4).
  destruct (mark_enter B b0 p r0 HW HU HO HT1 (or_introl Hw0) G1 G2 G3 G4) as (b1 & R1 & R2 & R3 & R4 & R5 & R6).
  destruct (line_end_at B b1 p (bs "=begin" ++ r0) R1) as (t1 & HE); auto; [lia| |].
  { apply full_app; auto. cbn. intuition discriminate. }
  destruct (doc_lines ls B (goto_eol b1) t1 _ HF HE R5 HT2) as (b2 & t2 & A1 & A2 & A3).
  destruct (doc_line B b2 t2 _ (bs "=end" ++ r1) A1 A2 HT4) as (b3 & t3 & C1 & C2 & _ & C4).
  { apply full_app; auto. cbn. intuition discriminate. }
  assert (EL : p + List.length (bs "=begin" ++ r0) + List.length (List.concat ls) + List.length (bs "=end" ++ r1) = p + List.length doc).
  { unfold doc. rewrite !app_length. lia. }
  rewrite EL in C1. exists (goto_eol b3), t3. splits; auto.
  intros e Hf cs seen sn s. rewrite R6. set (l := mkLoc p (p + 6)). unfold bind at 1 2. unfold loop.
  replace (fuel e) with (List.length ls + S (fuel e - List.length ls - 1)) by lia. rewrite A3. cbn [loop_n]. unfold bind at 1. rewrite C4 by (exists r1; auto). cbn [ret]. unfold doc_rest. cbn [negb].
  unfold bind at 1. unfold modb, modify at 1. cbn [buffer set_buffer]. unfold bind at 1. unfold modify at 1. cbn [buffer set_buffer comments].
  change (goto_eol (set_pcur (p + List.length (bs "=begin" ++ r0) + List.length (List.concat ls) + 1) b3)) with (goto_eol b3).
  assert (EC : comment_new (with_end l (pcur (goto_eol b3))) (input (goto_eol b3)) = mkComment (mkLoc p (p + List.length doc)) Document).
  { rewrite (ae_pcur _ _ _ _ C1). unfold comment_new, with_end, l. cbn [loc_begin].
    change (loc_source (mkLoc p (p + List.length doc)) (input (goto_eol b3))) with (b_substr_at (goto_eol b3) p (p + List.length doc)).
    rewrite (MagicInv.substr_some B) by (try (exact (ae_wf _ _ _ _ C1)); lia). replace (p + List.length doc - p) with (List.length doc) by lia.
    unfold text_at in HT3. rewrite HT3. reflexivity. }
  rewrite EC. reflexivity.
Qed.

(** C58.  A source may start with a byte order mark and a document: the first token is the one behind the document *)
Theorem C58_marked_document : forall doc rest name n upper,
  let B := bom ++ doc ++ rest in
  document doc -> plain_start B (3 + List.length doc) -> enough B <= n ->
  exists b b', lexer_new B name (plain_env n upper) = Ok tt (lexer_init b) /\ upcoming b' (3 + List.length doc) /\ in_order b' /\
    agree (yylex (plain_env n upper) (lexer_init b))
      (yylex (plain_env n upper) (set_comments [mkComment (mkLoc 3 (3 + List.length doc)) Document] (set_buffer b' (lexer_init b)))).
Proof.
  intros doc rest name n upper B HD HP Hn. set (e := plain_env n upper).
  assert (Hf : 4 * List.length B + 20 < fuel e) by (change (fuel e) with n; unfold enough in Hn; lia).
  destruct (start_mark (doc ++ rest) e name) as (b & S1 & S2 & S3 & S4 & S5 & S6). fold B in S1, S2.
  assert (Hne : doc ++ rest <> []) by (destruct HD; discriminate). specialize (S6 Hne).
  set (s := lexer_init b). assert (HL : LInv B s) by (destruct S2; constructor; auto; exact I).
  pose proof HL as [HW _ _ _]. change (buffer s) with b in HW.
  assert (HT : text_at B 3 doc). { unfold text_at, B, bom. cbn [skipn app]. rewrite firstn_app, Nat.sub_diag, firstn_all, app_nil_r. reflexivity. }
  assert (HzL : 3 + List.length doc < List.length B).
  { destruct HP as [(i & Hi & A)|[(x & A & _)|(_ & y & A & _)]].
    - assert (Hin : i <> []) by (destruct Hi; discriminate). pose proof (text_at_len _ _ _ A Hin). destruct Hi; cbn [List.length] in *; lia.
    - apply nth_error_Some. congruence.
    - assert (3 + List.length doc + 1 < List.length B) by (apply nth_error_Some; congruence). lia. }
  assert (HU : nextline b = 0 /\ 3 < pend b).
  { destruct S6 as (_ & [(A1 & A2 & A3)|(l & A1 & A2 & A3)]); [lia|exfalso]. unfold line_at in A1. rewrite (w_lines B b HW) in A1.
    set (v := if nextline b =? 0 then line_count b else nextline b) in *.
    assert (Hv : v < NL B) by (unfold NL; apply nth_error_Some; congruence). destruct (line_some B v Hv) as (l' & L1 & L2 & _). replace l with l' in A2 by congruence. rewrite L2 in A2.
    destruct v as [|v]; [rewrite lstart_0 in A2; lia|]. destruct (line_newline B v) as (_ & A & _); [lia|]. rewrite lend_next in A by lia. replace (v + 1) with (S v) in A by lia. rewrite <- A2 in A. discriminate A. }
  destruct HU as (U1 & U2).
  destruct (mark_step B b 3 doc HW S6 S5 HT HD U1 S3 S4 U2) as (bE & t & A1 & A2 & A3).
  destruct (atE_loaded B bE t _ A1 A2 HzL) as (b' & R1 & R2 & R3 & R4 & R5 & R6 & R7). pose proof R1 as (W1 & N1 & E1).
  assert (HU' : upcoming b' (3 + List.length doc)) by (split; auto; left; splits; auto; lia).
  exists b, b'. splits; auto. set (C := [mkComment _ _]).
  apply (skip_agree e s b' C 1); auto; try lia.
  - eapply request_ends; eauto.
  - intros v. eapply ind_start; [| |exact HP]; auto.
  - set (s1 := set_token_seen true (set_command_start false (set_lval None s))). exists false, true. intros m.
    change s1 with (set_buffer b s1) at 1. cbn [Nat.add loop_n]. unfold bind at 1. rewrite A3 by auto. change (comments s1 ++ _) with C. destruct m as [|m]; [reflexivity|]. cbn [loop_n]. apply bind_same.
    set (X := set_comments C s1).
    change (lex_step (command_start s) (token_seen s) false e (set_buffer bE X) = lex_step (command_start s) (token_seen s) false e (set_buffer b' X)). apply R7.
Qed.
Print Assumptions C58_marked_document.

(** ** The hypotheses are met *)
Example C58_marked_hypotheses :
  let doc := bs "=begin note
a =end
=endless

=end
" in
  document doc /\ plain_start (bom ++ doc ++ bs "y") (3 + List.length doc).
Proof.
  cbn zeta. split; [apply C58_sample_document|]. right. left. exists 121%N. split; [vm_compute; reflexivity|]. left. lia.
Qed.
