(** * States of the lexer between two token requests, and chains of token requests *)
Require Import Verif.Base Verif.MaybeByteM Verif.InputM Verif.DiagnosticM Verif.TokensM Verif.BufferM Verif.LexStateM Verif.LexerM Verif.LexMainM
  Verif.ParserClientM
  Verif.SourceSpec Verif.SourceProofs Verif.Wp Verif.BufInv Verif.LexSpec Verif.NewlineInv Verif.MainInv Verif.RunInv Verif.FuelMono Verif.Prop_Lexer Verif.Prop_Client
  Verif.ReadSpec Verif.YylexSpec.
Require Import ZifyBool ZifyNat ZifyN.

(** [s] is a state of the lexer that some parser reaches on source [B], with the end of input not yet delivered *)
Definition reached (B : list N) (n : nat) (upper : N -> bool) (s : Lexer) : Prop :=
  exists name rec l ts c, run_client B name rec l (plain_env n upper) = Ok ts c /\ c_done c = false /\ c_lexer c = s.

Lemma reached_inv : forall B n upper s, reached B n upper s -> LInv B s.
Proof.
  intros B n upper s (name & rec & l & ts & c & H & Hd & <-).
  set (e' := plain_env (n + (4 * List.length B + 21)) upper).
  assert (E : run_client B name rec l e' = Ok ts c).
  { rewrite <- H. apply run_client_mono; [|congruence]. unfold e', more_fuel. cbn [plain_env fuel decoder upper_oracle]. splits; auto. lia. }
  assert (Hf : 4 * List.length B + 20 < fuel e') by (unfold e'; cbn [plain_env fuel]; lia).
  unfold run_client, lexer_new in E.
  pose proof (buffer_new_ok B e' name (buffer_default (named name)) (fun _ b => Fresh B b) (fun _ H => H)) as HN.
  unfold wp in HN. destruct (buffer_new name B e' (buffer_default (named name))) as [a b|w|]; try contradiction.
  assert (HC : CInv B [] (mkClient (lexer_init b) [] rec [] None false)).
  { constructor; cbn.
    - intros _. split; auto. destruct HN. constructor; auto; exact I.
    - unfold SafeLexer. cbn. auto. }
  pose proof (acts_ok B e' Hf (MagicInv.no_decoder_safe e' B eq_refl) l [] _ (fun _ c => CInv B l c) HC) as H'.
  specialize (H' (fun _ c (H : CInv B ([] ++ l) c) => H)). unfold wp in H'. rewrite E in H'.
  destruct H' as [H1 _]. apply H1. exact Hd.
Qed.

(** A token request keeps the invariant *)
Lemma step_inv : forall B n upper s t s', LInv B s -> yylex (plain_env n upper) s = Ok t s' -> token_type t <> END_OF_INPUT -> LInv B s'.
Proof.
  intros B n upper s t s' HL H Ht.
  set (e' := plain_env (n + (4 * List.length B + 21)) upper).
  assert (E : yylex e' s = Ok t s').
  { rewrite <- H. apply mono_yylex; [|congruence]. unfold e', more_fuel. cbn [plain_env fuel decoder upper_oracle]. splits; auto. lia. }
  assert (Hf : 4 * List.length B + 20 < fuel e') by (unfold e'; cbn [plain_env fuel]; lia).
  pose proof (yylex_ok B e' Hf (MagicInv.no_decoder_safe e' B eq_refl) s (fun t s' => token_type t <> END_OF_INPUT -> LInv B s') HL) as K.
  unfold wp in K. rewrite E in K. apply K; auto. intros t0 s0 (_ & Y2 & _) H0. destruct (Y2 H0). auto.
Qed.

(** The lexer after a token that ends at [q], having reported nothing *)
Record After (B : list N) (s s' : Lexer) (q : nat) (st : LexState) : Prop := mkAfter {
  af_pos : pcur (buffer s') = q;
  af_next : q < List.length B -> nth_error B q <> Some 46%N -> upcoming (buffer s') q;
  af_term : strterm s' = None;
  af_state : lex_state s' = st;
  af_diags : diagnostics s' = diagnostics s;
  af_comments : comments s' = comments s;
  af_order : in_order (buffer s) -> in_order (buffer s')
}.

(** ** The start of a program *)
Lemma start_reading : forall B e name x r, B = x :: r -> x <> 239%N ->
  exists b, lexer_new B name e = Ok tt (lexer_init b) /\ Fresh B b /\ upcoming b 0 /\ pcur b = 0 /\ in_order b.
Proof.
  intros B e name x r HB H239.
  assert (HNL := NL_pos B).
  assert (H : wp e (buffer_new name B) (fun _ b => Fresh B b /\ upcoming b 0 /\ pcur b = 0 /\ in_order b) (buffer_default (named name))).
  { apply wp_conseq with (P := fun a b => Fresh B b /\ (upcoming b 0 /\ pcur b = 0 /\ in_order b)); [|auto]. apply wp_and. { apply buffer_new_ok. auto. }
    unfold buffer_new, prepare. ws. ws. ws. unfold b_nextc. ws. ws. ws.
    cbn [buffer_default pcur pend Nat.eqb orb]. unfold b_nextline. ws. ws. ws. ws.
    cbn [buffer_default nextline eofp pbeg pend Nat.eqb Nat.ltb Nat.leb].
    ws. ws. ws. unfold getline. ws. ws.
    cbn [set_nextline buffer_default line_count input].
    destruct (0 <? List.length (d_lines (update_bytes B (named name)))) eqn:E0.
    2: { exfalso. rewrite update_bytes_lines in E0. unfold NL in HNL. lia. }
    ws. ws. ws. ws. ws.
    apply (load_line_ok B); [apply update_bytes_lines|lia|].
    intros b1 I1 I2 I3 I4 I5 I6 I7 I8 I9 I10 I11 I12 I13 I14. cbn in I1, I2, I3, I5, I10. rewrite lstart_0 in *.
    assert (HLe : 0 < lend B 0).
    { pose proof (line_bounds B 0 ltac:(lia)) as LB. rewrite lstart_0 in LB.
      destruct (Nat.eq_dec 0 (lend B 0)) as [E|E]; [|lia]. rewrite <- (lstart_0 B) in E at 1. destruct (empty_last_line B 0 ltac:(lia) E) as (_ & A & _).
      rewrite <- E, lstart_0, HB in A. discriminate A. }
    assert (HW1 : BWF B b1).
    { constructor; rewrite ?I2, ?I3, ?I4, ?I5, ?I6, ?I7, ?I8, ?I9, ?lstart_0; auto; try lia.
      - unfold bytes. rewrite I1. apply update_bytes_table.
      - rewrite I1. apply update_bytes_lines.
      - intros p Ep. injection Ep as <-. lia. }
    assert (HR1 : Ready B b1) by (split; auto).
    assert (HUp : forall b2, pcur b2 = 0 -> pend b2 = pend b1 -> nextline b2 = 0 -> eofp b2 = false -> line_count b2 = line_count b1 -> lastline b2 = lastline b1 -> upcoming b2 0 /\ pcur b2 = 0 /\ in_order b2).
    { intros b2 U1 U2 U3 U4 U5 U6. unfold upcoming, in_order. splits; auto; [left; lia|]. rewrite U3, U5, U6, I2, I4. reflexivity. }
    assert (HP : forall c b2, pcur b2 = 1 -> pbeg b2 = 0 -> pend b2 = pend b1 -> nextline b2 = 0 -> eofp b2 = false ->
      line_count b2 = line_count b1 -> lastline b2 = lastline b1 ->
      wp e (b_pushback (Some c)) (fun _ b => upcoming b 0 /\ pcur b = 0 /\ in_order b) b2).
    { intros c b2 U1 U2 U3 U4 U5 U6 U7. apply pushback_back; [intros _; lia|]. unfold back. rewrite U1, U2. cbn [Nat.sub Nat.ltb Nat.leb andb].
      apply HUp; auto. }
    cbn [negb]. ws. ws. rewrite (rd_at B b1 HR1), I7. rewrite HB at 1. cbn [nth_error]. ws. ws.
    destruct (N.eqb x 13) eqn:E13.
    { apply N.eqb_eq in E13. subst x. unfold parser_cr. ws. unfold b_peek, b_peek_n. ws. ws. ws. unfold is_eol_n. cbn [pcur pend set_pcur]. rewrite I7, I8. cbn [Nat.add].
      destruct (lend B 0 <=? 1) eqn:Eo.
      - ws. ws. ws. cbn [is_eof]. cbn [mbeq N.eqb Pos.eqb]. apply HP; auto.
      - destruct (bwf_byte B b1 1 HW1) as (y & Hy). { rewrite I8. lia. }
        ws. eapply wp_expect. { cbn [input set_pcur]. rewrite (rd_at B b1 HR1). exact Hy. } ws.
        destruct (N.eqb 10 y) eqn:E10.
        + apply N.eqb_eq in E10. subst y. ws. ws. ws. ws. cbn [is_eof]. cbn [mbeq N.eqb Pos.eqb set_pcur pcur]. apply pushback_back; [intros _; cbn; lia|].
          unfold back. cbn [set_pcur pcur pbeg Nat.add Nat.sub]. rewrite I6.
          change (byte_at (set_pcur 2 (set_pcur 1 b1))) with (byte_at b1). rewrite (byte_at_B B b1 1 HW1), (byte_at_B B b1 0 HW1), Hy.
          assert (H0 : nth_error B 0 = Some 13%N) by (rewrite HB; reflexivity). rewrite H0. cbn [nth_error mbeq N.eqb Pos.eqb Nat.ltb Nat.leb andb].
          apply HUp; auto.
        + ws. ws. cbn [is_eof]. cbn [mbeq N.eqb Pos.eqb]. apply HP; auto. }
    ws. ws. ws. cbn [is_eof]. cbn [pcur]. rewrite I7. cbn [Nat.add].
    destruct (mbeq (Some x) "#").
    - ws. unfold b_peek. 
      assert (HPk : forall Q : bool -> Buffer -> Prop, (forall r, Q r (set_pcur 1 b1)) -> wp e (b_peek_n "!" 0) Q (set_pcur 1 b1)).
      { intros Q HQ. unfold b_peek_n. ws. ws. destruct (is_eol_n _ _) eqn:Eo; [ws; apply HQ|].
        destruct (bwf_byte B b1 1 HW1) as (y & Hy). { rewrite I8. cbn in Eo. unfold is_eol_n in Eo. cbn in Eo. lia. }
        ws. eapply wp_expect. { cbn [input set_pcur pcur Nat.add]. rewrite (rd_at B b1 HR1). exact Hy. } ws. apply HQ. }
      apply HPk. intros r0. ws. apply wp_when; intros _; [apply wp_modify|]; apply HP; auto.
    - replace (mbeq (Some x) 239%N) with false by (cbn; lia). apply HP; auto. }
  unfold wp in H. unfold lexer_new. destruct (buffer_new name B e (buffer_default (named name))) as [[] b|m|]; try contradiction.
  exists b. destruct H as (H1 & H2 & H3 & H4). auto.
Qed.

(** ** Chains of token requests *)
Inductive lexes (e : Env) : Lexer -> list Token -> Lexer -> Prop :=
| lx_nil : forall s, lexes e s [] s
| lx_cons : forall s t s1 ts s2, yylex e s = Ok t s1 -> token_type t <> END_OF_INPUT -> lexes e s1 ts s2 -> lexes e s (t :: ts) s2.

Definition tok_body : list Token -> M Lexer (list Token + list Token) := fun tokens =>
  t <- yylex ;;
  if tok_eqb (token_type t) END_OF_INPUT then ret (inr tokens)
  else ret (inl (tokens ++ [t])).

Lemma tok_end : forall t, tok_eqb t END_OF_INPUT = true -> t = END_OF_INPUT.
Proof. intros t H. destruct t; first [reflexivity|discriminate H]. Qed.

Lemma lexes_loop : forall e s ts s', lexes e s ts s' -> forall m acc,
  loop_n (List.length ts + m) tok_body acc e s = loop_n m tok_body (acc ++ ts) e s'.
Proof.
  intros e s ts s' H. induction H as [s|s t s1 ts s2 H1 H2 H3 IH]; intros m acc.
  - rewrite app_nil_r. reflexivity.
  - cbn [List.length Nat.add loop_n]. unfold bind at 1. unfold tok_body at 1. unfold bind at 1. rewrite H1.
    destruct (tok_eqb (token_type t) END_OF_INPUT) eqn:E; [apply tok_end in E; contradiction|].
    unfold ret at 1. rewrite IH, <- app_assoc. reflexivity.
Qed.

Lemma loop_prefix : forall m acc e s ts s', loop_n m tok_body acc e s = Ok ts s' -> exists more, ts = acc ++ more.
Proof.
  induction m as [|m IH]; intros acc e s ts s' H; cbn [loop_n] in H; [discriminate|].
  unfold bind in H at 1. unfold tok_body in H at 1. unfold bind in H at 1. destruct (yylex e s) as [t s1| |]; try discriminate.
  destruct (tok_eqb (token_type t) END_OF_INPUT); unfold ret in H.
  - injection H as <- <-. exists []. rewrite app_nil_r. reflexivity.
  - destruct (IH _ _ _ _ _ H) as (more & ->). exists (t :: more). rewrite <- app_assoc. reflexivity.
Qed.

(** A run starts with the tokens of any chain from the start *)
Lemma run_prefix : forall B name n upper s0 ts s, lexer_new B name (plain_env n upper) = Ok tt s0 ->
  lexes (plain_env n upper) s0 ts s -> enough B <= n -> List.length ts < n ->
  exists more s', run_lexer B name (plain_env n upper) = Ok (ts ++ more) s'.
Proof.
  intros B name n upper s0 ts s H1 H2 H3 H4. destruct (run_fixed B name upper) as (ts' & s' & R1 & _).
  specialize (R1 n H3). unfold run_lexer in *. rewrite H1 in *. unfold tokenize_until_eof in *.
  change (loop_n n tok_body [] (plain_env n upper) s0 = Ok ts' s') in R1.
  replace n with (List.length ts + (n - List.length ts)) in R1 at 1 by lia.
  pose proof (lexes_loop _ _ _ _ H2 (n - List.length ts) []) as E. rewrite E in R1.
  destruct (loop_prefix _ _ _ _ _ _ R1) as (more & ->). exists more, s'.
  change (loop_n n tok_body [] (plain_env n upper) s0 = Ok (ts ++ more) s').
  replace n with (List.length ts + (n - List.length ts)) at 1 by lia. rewrite E. exact R1.
Qed.
