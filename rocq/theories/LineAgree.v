(** * Requests in front of skipped lines *)
Require Import Verif.Base Verif.MaybeByteM Verif.Utf8M Verif.InputM Verif.DiagnosticM Verif.TokensM Verif.BufferM Verif.LexStateM Verif.ScopesM
  Verif.LexerM Verif.LexIdentM Verif.LexMagicM Verif.LexMainM Verif.ParserClientM
  Verif.SourceSpec Verif.SourceProofs Verif.Wp Verif.BufInv Verif.LexSpec Verif.LexInv Verif.MagicInv Verif.NewlineInv Verif.MainInv Verif.RunInv Verif.FuelMono Verif.Prop_Lexer
  Verif.ReadSpec Verif.YylexSpec Verif.Reach Verif.IdentSpec Verif.IdentRead Verif.Prop_Ident Verif.Prop_End Verif.Prop_White Verif.OpSpec Verif.OpStep Verif.Blind Verif.LineSpec Verif.LineStep Verif.LineRun.
Require Import ZifyBool ZifyNat ZifyN.

Lemma bind_eq : forall S A C (m m' : M S A) (f : A -> M S C) e s, m e s = m' e s -> bind m f e s = bind m' f e s.
Proof. intros * H. unfold bind. rewrite H. reflexivity. Qed.

Lemma agree_bind : forall A C (k : A -> M Lexer C) e r r', agree r r' -> (forall a, Rel (k a) (k a)) ->
  agree (match r with Ok a s => k a e s | Panic w => Panic w | OutOfFuel => OutOfFuel end)
        (match r' with Ok a s => k a e s | Panic w => Panic w | OutOfFuel => OutOfFuel end).
Proof.
  intros A C k e r r' H Hk. destruct r as [a s|w|], r' as [a' s'|w'|]; cbn in H; try contradiction; auto.
  destruct H as (<- & H). apply Hk. exact H.
Qed.

(** The flag for white space makes no difference here *)
Definition indifferent (e : Env) (s : Lexer) : Prop := forall c seen sn sn', lex_step c seen sn e s = lex_step c seen sn' e s.

(** A request that passes over text in [k] steps agrees with one that starts behind it *)
Lemma skip_agree : forall e s b' C k,
  strterm s = None -> k < fuel e -> yylex e s <> OutOfFuel ->
  (forall v, indifferent e (set_comments C (set_token_seen v (set_buffer b' (set_command_start false (set_lval None s)))))) ->
  (exists sn' v, forall m, loop_n (k + m) (lex_step (command_start s) (token_seen s)) false e (set_token_seen true (set_command_start false (set_lval None s))) =
     loop_n m (lex_step (command_start s) (token_seen s)) sn' e (set_comments C (set_token_seen v (set_buffer b' (set_command_start false (set_lval None s)))))) ->
  agree (yylex e s) (yylex e (set_comments C (set_buffer b' s))).
Proof.
  intros e s b' C k ST Hk HNo HI (sn' & v & HL).
  set (body := lex_step (command_start s) (token_seen s)) in *.
  set (X := fun v => set_comments C (set_token_seen v (set_buffer b' (set_command_start false (set_lval None s))))) in *.
  assert (E1 : loop body false e (set_token_seen true (set_command_start false (set_lval None s))) = loop_n (fuel e - k) body false e (X v)).
  { unfold loop. replace (fuel e) with (k + (fuel e - k)) at 1 by lia. rewrite HL. replace (fuel e - k) with (S (fuel e - k - 1)) by lia. cbn [loop_n].
    apply bind_eq. apply (HI v (command_start s) (token_seen s) sn' false). }
  assert (HA : agree (parser_yylex e (set_lval None s)) (parser_yylex e (set_lval None (set_comments C (set_buffer b' s))))).
  { assert (HNo' : parser_yylex e (set_lval None s) <> OutOfFuel).
    { intros A. apply HNo. unfold yylex. unfold bind at 1, modify at 1. unfold bind at 1. rewrite A. reflexivity. }
    revert HNo'. rewrite !parser_yylex_none by exact ST.
    change (command_start (set_lval None (set_comments C (set_buffer b' s)))) with (command_start s). change (token_seen (set_lval None (set_comments C (set_buffer b' s)))) with (token_seen s).
    change (command_start (set_lval None s)) with (command_start s). change (token_seen (set_lval None s)) with (token_seen s). fold body. intros HNo'.
    change (set_token_seen true (set_command_start false (set_lval None (set_comments C (set_buffer b' s))))) with (X true).
    apply agree_bind.
    2: { intros [t|c]; [apply rel_ret|apply blind_parse_ident]. }
    assert (E2 : loop_n (fuel e) body false e (X v) = loop_n (fuel e - k) body false e (X v)).
    { apply mono_loop_n; [intros x; unfold body; mono|lia|unfold more_fuel; auto|]. intros A. apply HNo'. rewrite E1, A. reflexivity. }
    rewrite E1, <- E2. change (loop_n (fuel e) body false e (X v)) with (loop body false e (X v)).
    apply rel_loop; [intros a; unfold body; apply rel_lex_step|]. exists true. reflexivity. }
  unfold yylex. match goal with |- agree (bind _ (fun _ => bind _ ?k) _ _) _ => apply (agree_bind _ _ k e _ _ HA) end. intros a. blind.
Qed.

Lemma step_read : forall c seen sn e s, lex_step c seen sn e s =
  match nextc e (set_buffer (b_token_flush (buffer s)) s) with
  | Ok x s2 => bind (lex_char x c sn seen (lex_state s)) step_end e s2
  | Panic w => Panic w
  | OutOfFuel => OutOfFuel
  end.
Proof. reflexivity. Qed.

Lemma ind_nextc : forall e s,
  (forall x s2, nextc e (set_buffer (b_token_flush (buffer s)) s) = Ok x s2 -> forall c sn sn' seen st, lex_char x c sn seen st e s2 = lex_char x c sn' seen st e s2) ->
  indifferent e s.
Proof.
  intros e s H c seen sn sn'. rewrite !step_read. destruct (nextc e _) as [x s2|w|] eqn:E; [|reflexivity|reflexivity]. apply bind_eq. exact (H x s2 eq_refl c sn sn' seen (lex_state s)).
Qed.

Lemma ind_end : forall B e s, BWF B (buffer s) -> AtEnd B (buffer s) -> indifferent e s.
Proof.
  intros B e s HW HA. apply ind_nextc. intros x s2 E c sn sn' seen st.
  assert (G : wp e b_nextc (fun c _ => c = None) (b_token_flush (buffer s))).
  { apply (end_next B); auto. apply BWF_set_ptok; auto. }
  unfold nextc, inb, zoom in E. cbn [buffer set_buffer] in E. unfold wp in G. destruct (b_nextc e _) as [a b2|w|]; try contradiction. subst a. injection E as <- _. reflexivity.
Qed.

Lemma ind_white : forall B e s q i, BWF B (buffer s) -> upcoming (buffer s) q -> text_at B q i -> white_item i -> indifferent e s.
Proof.
  intros B e s q i HW HU HT Hi c seen sn sn'. destruct (white_step B _ _ _ HW HU HT Hi) as (b2 & _ & _ & _ & _ & _ & _ & _ & S2).
  replace s with (set_buffer (buffer s) s) by (destruct s; reflexivity). rewrite !S2. reflexivity.
Qed.

Lemma ind_byte : forall B e s q x, BWF B (buffer s) -> upcoming (buffer s) q -> nth_error B q = Some x -> heedless x -> indifferent e s.
Proof.
  intros B e s q x HW HU Hx HH. apply ind_nextc. intros y s2 E c sn sn' seen st.
  assert (HL : q < List.length B) by (apply nth_error_Some; congruence).
  destruct (flush_nextc B _ q HW HU HL) as (b1 & R1 & R2 & R3 & R4 & R5 & R6 & R7). pose proof R1 as (W1 & N1 & E1).
  assert (H13 : x <> 13%N) by (unfold heedless in HH; cbn [In] in HH; lia).
  unfold nextc, inb, zoom in E. cbn [buffer set_buffer] in E. rewrite R7, <- (rd_here e b1 q R2), (rd_byte B e b1 R1 q x) in E by auto. injection E as <- <-.
  destruct HH as [HH|HH].
  - assert (HI : lex_other x sn e (set_buffer (set_pcur (q + 1) b1) s) = lex_other x sn' e (set_buffer (set_pcur (q + 1) b1) s)).
    { assert (EI : is_identchar e (set_buffer (set_pcur (q + 1) b1) s) = Ok true (set_buffer (set_pcur (q + 1) b1) s)).
      { unfold is_identchar. unfold bind at 1. unfold getb, gets. cbn [buffer set_buffer eofp set_pcur pcur].
        rewrite E1. unfold bind at 1. unfold sub_ck. replace (1 <=? q + 1) with true by lia. unfold ret at 1. replace (q + 1 - 1) with q by lia.
        change (b_is_identchar (set_pcur (q + 1) b1) q) with (b_is_identchar b1 q).
        replace (b_is_identchar b1 q) with true by (symmetry; apply (identchar_nb B b1 q x R1 Hx); unfold nb, letter, digit; lia). reflexivity. }
      assert (EO : forall a, lex_other x a e (set_buffer (set_pcur (q + 1) b1) s) = (newtok ;;; ret (Ident (Some x))) e (set_buffer (set_pcur (q + 1) b1) s)).
      { intros a. unfold lex_other. unfold bind at 1. rewrite EI. reflexivity. }
      rewrite !EO. reflexivity. }
    assert (Hm : forall z, mbeq (Some x) z = (x =? z)%N) by reflexivity. unfold lex_char. rewrite !Hm. revert HI. generalize (lex_other x sn) (lex_other x sn'). intros l l' HI.
    assert (Hno : forall z, In z [0; 4; 26; 13; 32; 9; 12; 11; 35; 10; 42; 33; 61; 60; 62; 34; 96; 39; 63; 38; 124; 43; 45; 46; 41; 93; 125; 58; 47; 94; 59; 44; 126; 40; 91; 123; 92; 37; 36; 64]%N -> (x =? z)%N = false).
    { intros z Hz. apply N.eqb_neq. intros ->. clear - Hz HH. cbn [In] in Hz. repeat (destruct Hz as [<-|Hz]; [lia|]). contradiction. }
    rewrite !Hno by (cbn [In]; tauto). cbn [orb]. destruct (b_is_digit x); auto. destruct (x =? 95)%N; auto.
  - clear - HH. cbn [In] in HH. repeat (destruct HH as [<-|HH]; [reflexivity|]). contradiction.
Qed.
