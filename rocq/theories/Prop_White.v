(** * C43: white space and continued lines between tokens *)
Require Import Verif.Base Verif.MaybeByteM Verif.Utf8M Verif.InputM Verif.DiagnosticM Verif.TokensM Verif.BufferM Verif.LexStateM
  Verif.LexerM Verif.LexIdentM Verif.LexMainM Verif.ParserClientM
  Verif.SourceSpec Verif.SourceProofs Verif.Wp Verif.BufInv Verif.LexSpec Verif.NewlineInv Verif.MainInv Verif.RunInv Verif.FuelMono Verif.Prop_Lexer
  Verif.ReadSpec Verif.YylexSpec Verif.LineSpec Verif.Reach Verif.NumberSpec Verif.NumRead Verif.Prop_Number Verif.IdentSpec Verif.IdentRead Verif.IdentStep Verif.Prop_Ident Verif.Prop_Var Verif.Prop_End.
Require Import ZifyBool ZifyNat ZifyN.

Lemma parser_yylex_none : forall e s, strterm s = None -> parser_yylex e s =
  match loop (lex_step (command_start s) (token_seen s)) false e (set_token_seen true (set_command_start false s)) with
  | Ok r s' => match r with inl t => ret t | inr c => parse_ident c (command_start s) end e s'
  | Panic w => Panic w
  | OutOfFuel => OutOfFuel
  end.
Proof. intros e s H. unfold parser_yylex. unfold bind at 1, get at 1. rewrite H. reflexivity. Qed.

(** C43.  White space is skipped: a request in front of white space is, token and state, the request at any later point of
    it that still has white space in front of the token. *)
Theorem C43_white_space : forall B n upper s p sp1 sp2,
  reached B n upper s -> strterm s = None -> upcoming (buffer s) p -> text_at B p (sp1 ++ sp2) ->
  white sp1 -> white sp2 -> sp2 <> [] -> (In 10%N (sp1 ++ sp2) -> in_order (buffer s)) -> enough B <= n ->
  exists b', upcoming b' (p + List.length sp1) /\ BWF B b' /\
    yylex (plain_env n upper) s = yylex (plain_env n upper) (set_buffer b' s).
Proof.
  intros B n upper s p sp1 sp2 HR HS HU HT H1 H2 Hne HO Hn. set (e := plain_env n upper).
  pose proof (reached_inv B n upper s HR) as HL. pose proof HL as [HW _ _ _].
  apply text_at_app in HT. destruct HT as (HT1 & HT2).
  assert (HqB : p + List.length sp1 < List.length B).
  { pose proof (text_at_len _ _ _ HT2 Hne). destruct sp2; [congruence|]. cbn [List.length] in *. lia. }
  destruct (white_run B sp1 H1 (buffer s) p HW (fun _ => HU) HT1) as (k & b' & K1 & W' & H' & O' & Z' & P' & S').
  { intros A. apply HO, in_or_app. auto. }
  assert (HU' : upcoming b' (p + List.length sp1)).
  { destruct sp1 as [|z sp1]; [rewrite (Z' eq_refl); cbn; rewrite Nat.add_0_r; exact HU|apply P'; auto; discriminate]. }
  exists b'. splits; auto.
  destruct H2 as [|i w Hi H2]; [congruence|]. apply text_at_app in HT2. destruct HT2 as (HT2 & _).
  destruct (white_step B b' _ i W' HU' HT2 Hi) as (b2 & _ & _ & _ & _ & _ & _ & _ & S2).
  assert (HNo : yylex e s <> OutOfFuel).
  { pose proof (yylex_ok B e) as Y. unfold enough in Hn. specialize (Y ltac:(cbn; lia) (MagicInv.no_decoder_safe e B eq_refl) s (fun _ _ => True) HL (fun _ _ _ => I)).
    unfold wp in Y. destruct (yylex e s); try contradiction; discriminate. }
  assert (HP : parser_yylex e (set_lval None s) = parser_yylex e (set_lval None (set_buffer b' s))).
  { assert (HNo' : parser_yylex e (set_lval None s) <> OutOfFuel).
    { intros A. apply HNo. unfold yylex. unfold bind at 1, modify at 1. unfold bind at 1. rewrite A. reflexivity. }
    revert HNo'. rewrite !parser_yylex_none by exact HS.
    change (command_start (set_lval None (set_buffer b' s))) with (command_start s). change (token_seen (set_lval None (set_buffer b' s))) with (token_seen s).
    change (command_start (set_lval None s)) with (command_start s). change (token_seen (set_lval None s)) with (token_seen s).
    set (s1 := set_token_seen true (set_command_start false (set_lval None s))).
    change (set_token_seen true (set_command_start false (set_lval None (set_buffer b' s)))) with (set_buffer b' s1).
    set (body := lex_step (command_start s) (token_seen s)). intros HNo'.
    assert (Hk : k + 1 < fuel e) by (unfold enough in Hn; unfold e; cbn [fuel plain_env]; lia).
    assert (E1 : loop body false e s1 = loop_n (fuel e - k - 1) body true e (set_buffer b2 s1)).
    { unfold loop. replace (fuel e) with (k + S (fuel e - k - 1)) at 1 by lia. change s1 with (set_buffer (buffer s) s1) at 1. unfold body. rewrite S'.
      cbn [loop_n]. unfold bind at 1. rewrite S2. reflexivity. }
    assert (E2 : loop body false e (set_buffer b' s1) = loop_n (fuel e - 1) body true e (set_buffer b2 s1)).
    { unfold loop. replace (fuel e) with (S (fuel e - 1)) at 1 by lia. cbn [loop_n]. unfold bind at 1. unfold body at 1. rewrite S2. reflexivity. }
    replace (loop body false e (set_buffer b' s1)) with (loop body false e s1); [reflexivity|].
    rewrite E1, E2. symmetry. apply mono_loop_n; [intros x; unfold body; mono|lia|unfold more_fuel; auto|].
    intros A. apply HNo'. rewrite E1, A. reflexivity. }
  unfold yylex. unfold bind at 1, modify at 1. unfold bind at 1. rewrite HP. reflexivity.
Qed.
Print Assumptions C43_white_space.

(** ** Layout: whole programs of words, numbers and variables with any white space between them *)

(** What can stand between white space: numbers, words that are not reserved, variables; with the kind of the token *)
Inductive item (upper : N -> bool) : list N -> Tok -> Prop :=
| it_number : forall w k, number_literal w k -> item upper w k
| it_word : forall w sfx k, word w sfx -> ~ keyword w -> w <> bs "__END__" -> name_token upper w sfx k -> item upper w k
| it_global : forall w k, global_var [] 0 false w k -> item upper w k
| it_object : forall w k, object_var w k -> item upper w k.

(** [layout upper p items text toks]: [text] at position [p] is [items] with white space between them, and around; [toks]
    are the items with their places *)
Inductive layout (upper : N -> bool) : nat -> list (Tok * list N) -> list N -> list Token -> Prop :=
| lo_end : forall p sp, white sp -> layout upper p [] sp []
| lo_item : forall p sp w k items rest toks, white sp -> item upper w k ->
    (rest = [] \/ exists c r, rest = c :: r /\ (blank c \/ c = 92%N)) ->
    layout upper (p + List.length sp + List.length w) items rest toks ->
    layout upper p ((k, w) :: items) (sp ++ w ++ rest) (mkToken k w (mkLoc (p + List.length sp) (p + List.length sp + List.length w)) :: toks).

(** Behind the item there is white space, the end of the line, a comment, or nothing *)
Definition item_ends (B : list N) (q : nat) : Prop := forall c, nth_error B q = Some c -> blank c \/ c = 92%N \/ c = 10%N \/ c = 13%N \/ c = 35%N.

Lemma item_ends_no : forall B q, item_ends B q -> forall c, nth_error B q = Some c ->
  c <> 61%N /\ c <> 58%N /\ c <> 33%N /\ c <> 63%N /\ c <> 46%N /\ ~ letter c /\ ~ digit c /\ (c < 128)%N /\ ~ name_byte c.
Proof. intros B q H c Hc. apply H in Hc. unfold blank in Hc. unfold letter, digit, name_byte. splits; lia. Qed.

Lemma global_anywhere : forall B z w k, global_var [] 0 false w k -> item_ends B z -> global_var B z false w k.
Proof.
  intros B z w k H HE.
  assert (HN : name_ends B z) by (intros c Hc; pose proof (item_ends_no _ _ HE c Hc); tauto).
  destruct H; try (constructor; auto; fail).
  apply (gv_nth B z false); auto. intros c Hc. apply HN in Hc. tauto.
Qed.

Lemma item_cons : forall upper w k, item upper w k -> exists c r, w = c :: r /\ c <> 13%N.
Proof.
  intros upper w k [w0 k0 H|w0 sfx k0 H _ _ _|w0 k0 H|w0 k0 H].
  - destruct (number_first _ _ H) as (d & r & -> & Hd & _). unfold dec in Hd. exists d, r. split; auto. lia.
  - destruct (word_first _ _ H) as (d & r & -> & Hd). unfold letter in Hd. exists d, r. split; auto. lia.
  - destruct H; eexists; eexists; split; try reflexivity; discriminate.
  - destruct H; eexists; eexists; split; try reflexivity; discriminate.
Qed.

Lemma item_kind : forall upper w k, item upper w k -> k <> END_OF_INPUT.
Proof.
  intros upper w k [w0 k0 H|w0 sfx k0 _ _ _ H|w0 k0 H|w0 k0 H].
  - eapply number_kind; eauto.
  - eapply name_kind; eauto.
  - destruct H; discriminate.
  - destruct H; discriminate.
Qed.

Lemma not_def : forall s w k st, name_state s w k st -> ~ after_def st.
Proof. intros s w k st H. destruct H; try (vm_compute; discriminate). destruct (command_start s); vm_compute; discriminate. Qed.

Lemma end_counts : line_end_counts EXPR_END.
Proof. unfold line_end_counts, operand_to_come, behind_label, in_state. vm_compute. intuition discriminate. Qed.
Lemma name_counts : forall s w k st, ~ after_def (lex_state s) -> name_state s w k st -> line_end_counts st.
Proof.
  intros s w k st HD H. unfold line_end_counts, operand_to_come, behind_label, in_state. destruct H; try (vm_compute; intuition discriminate).
  destruct (command_start s); vm_compute; intuition discriminate.
Qed.

Lemma item_step : forall B n upper s p sp w k,
  LInv B s -> strterm s = None -> ~ after_def (lex_state s) -> upcoming (buffer s) p -> text_at B p (sp ++ w) -> spacing (buffer s) sp ->
  item upper w k -> item_ends B (p + List.length sp + List.length w) -> List.length B + 3 < n ->
  exists s' st, yylex (plain_env n upper) s =
      Ok (mkToken k w (mkLoc (p + List.length sp) (p + List.length sp + List.length w))) s' /\
    After B s s' (p + List.length sp + List.length w) st /\ ~ after_def st /\ line_end_counts st.
Proof.
  intros B n upper s p sp w k HL ST HD HU HT HS HI HE Hn. pose proof (item_ends_no _ _ HE) as HN.
  assert (HNm : name_ends B (p + List.length sp + List.length w)) by (intros c Hc; pose proof (HN c Hc); tauto).
  destruct HI as [w k H|w sfx k H1 H2 H3 H4|w k H|w k H].
  - destruct (number_step B n upper s p sp w k) as (s' & Y & A); auto.
    { intros c Hc. pose proof (HN c Hc). split; [tauto|]. intros E. tauto. }
    exists s', EXPR_END. splits; auto using end_counts. vm_compute. discriminate.
  - destruct (name_step B n upper s p sp w sfx k) as (s' & st & Y & A & G); auto; try lia.
    { unfold word_ends. destruct sfx; [intros C; apply HN in C; tauto|]. split; auto. intros [C|C]; apply HN in C; tauto. }
    { intros _ (C & _). apply HN in C. tauto. }
    exists s', st. splits; auto; [eapply not_def; eauto|eapply name_counts; eauto].
  - destruct (global_step B n upper s p sp w false k) as (s' & Y & A); auto; try lia.
    { split; [discriminate|contradiction]. }
    { apply global_anywhere; auto. }
    exists s', EXPR_END. splits; auto using end_counts. vm_compute. discriminate.
  - destruct (object_step B n upper s p sp w k EXPR_END) as (s' & Y & A); auto; try lia.
    exists s', EXPR_END. splits; auto using end_counts. vm_compute. discriminate.
Qed.

Lemma layout_lexes : forall upper p items text toks, layout upper p items text toks -> forall B n s,
  List.length B + 3 < n -> LInv B s -> strterm s = None -> ~ after_def (lex_state s) -> in_order (buffer s) -> text_at B p text ->
  p + List.length text = List.length B -> (text <> [] -> upcoming (buffer s) p) -> (text = [] -> pcur (buffer s) = List.length B) ->
  exists s1 s' t, lexes (plain_env n upper) s toks s1 /\ yylex (plain_env n upper) s1 = Ok t s' /\ token_type t = END_OF_INPUT /\
    diagnostics s' = diagnostics s /\ comments s' = comments s.
Proof.
  intros upper p items text toks H. induction H as [p sp HS|p sp w k items rest toks HS HI Hr HN IH]; intros B n s Hn HL ST HD HO HT HE HU HX.
  - pose proof HL as [HW _ _ (L1 & L2)].
    assert (G : wp (plain_env n upper) yylex (fun t s' => token_type t = END_OF_INPUT /\ diagnostics s' = diagnostics s /\ comments s' = comments s) s).
    { apply (blank_end B (plain_env n upper) s p sp); auto.
      - destruct sp as [|c sp]; [left|right; splits; [apply HU|exact HE|]; discriminate]. cbn in HE. specialize (HX eq_refl). splits; auto; [right|]; lia.
      - split; auto.
      - cbn. lia. }
    unfold wp in G. destruct (yylex (plain_env n upper) s) as [t s'| |] eqn:E; try contradiction. destruct G as (G1 & G2 & G3).
    exists s, s', t. splits; auto. constructor.
  - destruct (item_cons _ _ _ HI) as (c0 & r0 & Hw & _).
    assert (Hne : sp ++ w ++ rest <> []) by (rewrite Hw; destruct sp; discriminate).
    rewrite app_assoc in HT. apply text_at_app in HT. destruct HT as (HT1 & HT2).
    rewrite !app_length in HE. rewrite app_length in HT2. rewrite Nat.add_assoc in HT2.
    set (q := p + List.length sp + List.length w) in *.
    assert (Hends : item_ends B q).
    { intros c Hc. destruct Hr as [->|(c' & r & -> & Hc')].
      - assert (nth_error B q <> None) by congruence. apply nth_error_Some in H. cbn in HE. lia.
      - apply text_at_cons in HT2. destruct HT2 as (A & _). rewrite A in Hc. injection Hc as <-. tauto. }
    destruct (item_step B n upper s p sp w k) as (s1 & st & Y & A & Hd & _); auto.
    { split; auto. }
    fold q in Y, A. destruct A as [A1 A2 A3 A4 A5 A6 A7].
    destruct (IH B n s1) as (s2 & s' & t & X1 & X2 & X3 & X4 & X5); auto.
    + eapply step_inv; [exact HL|exact Y|exact (item_kind _ _ _ HI)].
    + congruence.
    + lia.
    + intros Hne2. apply A2.
      * destruct rest as [|c r]; [congruence|]. cbn [List.length] in *. lia.
      * intros E. apply Hends in E. unfold blank in E. lia.
    + intros ->. rewrite A1. cbn in HE. lia.
    + exists s2, s', t. splits; auto; try congruence. econstructor; [exact Y|exact (item_kind _ _ _ HI)|exact X1].
Qed.

Lemma layout_len : forall upper p items text toks, layout upper p items text toks -> List.length toks <= List.length text.
Proof.
  intros upper p items text toks H. induction H as [|p sp w k items rest toks HS HI Hr HN IH]; [cbn; lia|].
  destruct (item_cons _ _ _ HI) as (c & r & -> & _). rewrite !app_length. cbn [List.length]. lia.
Qed.

Lemma layout_items : forall upper p items text toks, layout upper p items text toks -> map (fun t => (token_type t, token_value t)) toks = items.
Proof. intros upper p items text toks H. induction H as [|p sp w k items rest toks HS HI Hr HN IH]; [reflexivity|]. cbn. rewrite IH. reflexivity. Qed.

(** C43.  A program laid out in any way, over any number of continued lines, is lexed into exactly its items at their places,
    and nothing is reported. *)
Theorem C43_layout : forall items text toks name n upper,
  layout upper 0 items text toks -> text <> [] -> hd_error text <> Some 239%N -> enough text <= n ->
  exists s, run_lexer text name (plain_env n upper) = Ok toks s /\ diagnostics s = [] /\ comments s = [].
Proof.
  intros items text toks name n upper H Hne H239 Hn. pose proof (layout_len _ _ _ _ _ H) as HLen.
  assert (HF : exists x r, text = x :: r /\ x <> 13%N).
  { inversion H as [p sp HS|p sp w k items' rest toks' HS HI Hr HN]; subst.
    - destruct (white_first _ HS Hne) as (c & r & -> & Hc). exists c, r. split; auto. unfold blank in Hc. lia.
    - destruct (item_cons _ _ _ HI) as (c & r & -> & Hc). destruct sp as [|z sp]; [cbn; eauto|].
      destruct (white_first _ HS ltac:(discriminate)) as (c' & r' & E & Hc'). rewrite E. cbn. exists c'. eexists. split; [reflexivity|]. unfold blank in Hc'. lia. }
  destruct HF as (x & r & HF & H13).
  destruct (start_reading text (plain_env n upper) name x r HF) as (b & E1 & E2 & E3 & E4 & E5). { intros ->. apply H239. rewrite HF. reflexivity. }
  destruct (layout_lexes _ _ _ _ _ H text n (lexer_init b)) as (s1 & s' & t & X1 & X2 & X3 & X4 & X5); auto.
  - unfold enough in Hn. lia.
  - destruct E2. constructor; auto; exact I.
  - vm_compute. discriminate.
  - unfold text_at. cbn [skipn]. apply firstn_all.
  - contradiction.
  - exists s'. splits; auto. eapply run_exact; eauto. unfold enough in Hn. lia.
Qed.
Print Assumptions C43_layout.

(** C43.  Two layouts of the same items give the same kinds and values. *)
Theorem C43_layout_free : forall items text1 toks1 text2 toks2 name n upper,
  layout upper 0 items text1 toks1 -> layout upper 0 items text2 toks2 ->
  text1 <> [] -> text2 <> [] -> hd_error text1 <> Some 239%N -> hd_error text2 <> Some 239%N -> enough text1 <= n -> enough text2 <= n ->
  exists s1 s2, run_lexer text1 name (plain_env n upper) = Ok toks1 s1 /\ run_lexer text2 name (plain_env n upper) = Ok toks2 s2 /\
    map (fun t => (token_type t, token_value t)) toks1 = map (fun t => (token_type t, token_value t)) toks2.
Proof.
  intros items text1 toks1 text2 toks2 name n upper H1 H2 N1 N2 F1 F2 E1 E2.
  destruct (C43_layout items text1 toks1 name n upper) as (s1 & R1 & _); auto.
  destruct (C43_layout items text2 toks2 name n upper) as (s2 & R2 & _); auto.
  exists s1, s2. splits; auto. rewrite (layout_items _ _ _ _ _ H1), (layout_items _ _ _ _ _ H2). reflexivity.
Qed.
Print Assumptions C43_layout_free.

(** ** The hypotheses are met *)
Example C43_hypotheses :
  let src := bs "x + \
 \
  y" in
  exists s, reached src 200 (fun _ => false) s /\ strterm s = None /\ upcoming (buffer s) 3 /\ text_at src 3 (bs " \
 \
" ++ bs "  ") /\ white (bs " \
 \
") /\ white (bs "  ") /\ in_order (buffer s).
Proof.
  set (src := bs "x + \
 \
  y"). cbn zeta. reach_state src [PNext; PNext]. splits; auto; try reflexivity.
  - split; [reflexivity|]. left. splits; auto. cbn. lia.
  - apply (wh_cons [32%N]); [constructor; unfold blank; lia|]. apply (wh_cons [92; 10]%N); [constructor|].
    apply (wh_cons [32%N]); [constructor; unfold blank; lia|]. apply (wh_cons [92; 10]%N); constructor.
  - apply blank_white. repeat constructor; unfold blank; cbn; lia.
Qed.

Example C43_layout_sample : exists toks, layout (fun _ => false) 0 [(tIDENTIFIER, bs "foo"); (tINTEGER, bs "12"); (tIVAR, bs "@a")] (bs "foo  \
	12 @a ") toks.
Proof.
  eexists.
  apply (lo_item _ 0 [] (bs "foo") tIDENTIFIER _ (bs "  \
	12 @a ")); [constructor| | |].
  - eapply (it_word _ _ false); [apply wd_name; apply (nm_ascii 102 (bs "oo")); [unfold letter; lia|ascii]| | |].
    + intros A. vm_compute in A. intuition discriminate.
    + discriminate.
    + apply nk_identifier. intros A. inversion A as [c w H1|u w cp H1 H2 H3 H4]; [cbn in H1; lia|discriminate H3].
  - right. eexists. eexists. split; [reflexivity|]. left. unfold blank. cbn. lia.
  - apply (lo_item _ 3 (bs "  \
	") (bs "12") tINTEGER _ (bs " @a ")).
    + apply (wh_cons [32%N]); [constructor; unfold blank; lia|]. apply (wh_cons [32%N]); [constructor; unfold blank; lia|]. apply (wh_cons [92; 10]%N); [constructor|].
      apply (wh_cons [9%N]); constructor. unfold blank. lia.
    + apply it_number. left. apply (dl_int (bs "12") []); [|constructor]. apply (ip_run 49 (bs "2")); [lia|]. apply more_digit; [unfold dec; cbn; lia|]. apply more_nil.
    + right. eexists. eexists. split; [reflexivity|]. left. unfold blank. cbn. lia.
    + apply (lo_item _ _ (bs " ") (bs "@a") tIVAR _ (bs " ")).
      * apply blank_white. repeat constructor.
      * apply it_object. apply (ov_instance (bs "a")). apply (nm_ascii 97 []); [unfold letter; lia|constructor].
      * right. eexists. eexists. split; [reflexivity|]. left. unfold blank. cbn. lia.
      * apply lo_end. apply blank_white. repeat constructor.
Qed.
