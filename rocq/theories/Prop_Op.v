(** * C49: operators and punctuation *)
Require Import Verif.Base Verif.MaybeByteM Verif.InputM Verif.DiagnosticM Verif.TokensM Verif.BufferM Verif.LexStateM
  Verif.LexerM Verif.LexIdentM Verif.LexMainM Verif.ParserClientM
  Verif.SourceSpec Verif.SourceProofs Verif.Wp Verif.BufInv Verif.LexSpec Verif.NewlineInv Verif.MainInv Verif.RunInv Verif.Prop_Lexer
  Verif.ReadSpec Verif.YylexSpec Verif.Reach Verif.NumberSpec Verif.NumRead Verif.Prop_Number Verif.IdentSpec Verif.IdentRead Verif.IdentStep Verif.Prop_Ident Verif.Prop_Var
  Verif.OpSpec Verif.OpStep Verif.OpRows Verif.OpTable Verif.OpValue Verif.OpName Verif.OpOperator Verif.OpArgument Verif.OpMore.
Require Import ZifyBool ZifyNat ZifyN.

(** From the first character of a token without line breaks to the token *)
Lemma token_step : forall B n upper s p sp x r k z (P : Lexer -> Prop),
  LInv B s -> strterm s = None -> upcoming (buffer s) p -> text_at B p (sp ++ x :: r) -> spacing (buffer s) sp ->
  ~ In 10%N (x :: r) -> ~ In 13%N (x :: r) -> tok_eqb k tNL = false -> List.length B < n -> z = p + List.length sp + List.length (x :: r) ->
  (forall b s1, s1 = set_token_seen true (set_command_start false (set_lval None s)) -> Ready B b ->
     ptok b = p + List.length sp -> pbeg b <= p + List.length sp -> z <= pend b -> InL B b z ->
     wp (plain_env n upper) (lex_char (Some x) (command_start s) (nonempty sp) (token_seen s) (lex_state s))
       (fun t s' => t = Tk k /\ Done b z (buffer s') /\ (lval s' = Some (x :: r) \/ lval s' = None) /\
                    lval_start s' = lval_start s1 /\ lval_end s' = lval_end s1 /\ P (set_lval None (set_lval_end None (set_lval_start None s'))))
       (set_buffer (set_pcur (p + List.length sp + 1) b) s1)) ->
  exists s', yylex (plain_env n upper) s = Ok (mkToken k (x :: r) (mkLoc (p + List.length sp) z)) s' /\
    pcur (buffer s') = z /\ (z < List.length B -> upcoming (buffer s') z) /\ (in_order (buffer s) -> in_order (buffer s')) /\ P s'.
Proof.
  intros B n upper s p sp x r k z P HL ST HU HT HS H10 H13 Hk Hn Hz HM. pose proof HL as [L1 L2 L3 (L4 & L5)].
  set (w := x :: r) in *. set (q := p + List.length sp) in *.
  assert (HT2 : text_at B q w) by (apply text_at_app in HT; apply HT).
  assert (HLen : q + List.length w <= List.length B) by (apply text_at_len; auto; discriminate).
  enough (HG : wp (plain_env n upper) yylex (fun t s' => t = mkToken k w (mkLoc q z) /\ pcur (buffer s') = z /\ (z < List.length B -> upcoming (buffer s') z) /\
    (in_order (buffer s) -> in_order (buffer s')) /\ P s') s).
  { unfold wp in HG. destruct (yylex (plain_env n upper) s) as [t s'|msg|]; try contradiction. destruct HG as (-> & HG). exists s'. auto. }
  apply (yylex_start B (plain_env n upper) s p sp x r); auto.
  - intros ->. apply H13. left. reflexivity.
  - cbn [plain_env fuel]. unfold q in *. lia.
  - fold q. intros b HR HP1 HP2 HP3 HH HO. pose proof HR as (W & N1 & N2). pose proof (w_pcur1 B b W) as WP. pose proof (w_pbeg B b W) as WB.
    assert (HF : q + List.length w <= pend b) by (apply fits with (B := B); auto; lia).
    assert (HI : InL B b (q + List.length w)) by (apply (inl_text B b HR); auto; [lia|discriminate]).
    subst z. eapply wp_conseq; [apply (HM b _ eq_refl); auto; lia|].
    intros t s' (V1 & V2 & V3 & V4 & V5 & V6). cbv beta. subst t.
    assert (HPT : ptok (buffer s') = q) by (rewrite (done_ptok _ _ _ V2); exact HP2).
    apply (tail_ok _ k _ s' q (q + List.length w) w).
    + rewrite V4. exact L4.
    + rewrite V5. exact L5.
    + exact Hk.
    + exact HPT.
    + exact (done_pcur _ _ _ V2).
    + destruct V3 as [V3|V3]; [left; exact V3|]. right. split; [exact V3|]. eapply fin_substr; eauto; [apply done_fin; exact V2|discriminate].
    + splits; auto; cbn [buffer set_lval set_lval_end set_lval_start].
      * exact (done_pcur _ _ _ V2).
      * intros HqB. destruct V2 as [->|(V2 & ->)].
        -- unfold upcoming. cbn. split; auto. left. splits; auto. destruct HI as (_ & [I2|(I2 & I3)] & _); [exact I2|exfalso].
           destruct (line_last B _ I3) as (A & _). rewrite <- (w_pend B b W) in A. lia.
        -- exfalso. destruct HI as (_ & [I2|(I2 & I3)] & _); [lia|]. destruct (line_last B _ I3) as (A & _). rewrite <- (w_pend B b W) in A. lia.
      * intros A. destruct V2 as [->|(_ & ->)]; exact (HO A).
Qed.

(** The tables hold no line breaks and no newline token *)
Definition row_plain (r : Row) : bool :=
  let '(w, k, _) := r in negb (tok_eqb k tNL) && forallb (fun c => negb (N.eqb c 10) && negb (N.eqb c 13)) (bs w) && negb (String.eqb w "").
Lemma rows_plain : forall pl w k st', In (w, k, st') (rows pl) -> tok_eqb k tNL = false /\ ~ In 10%N (bs w) /\ ~ In 13%N (bs w).
Proof.
  intros pl w k st' H. assert (K : forallb row_plain (rows pl) = true) by (destruct pl; vm_compute; reflexivity).
  rewrite forallb_forall in K. specialize (K _ H). unfold row_plain in K. apply andb_prop in K. destruct K as (K & _). apply andb_prop in K. destruct K as (K1 & K2).
  rewrite forallb_forall in K2. splits.
  - destruct (tok_eqb k tNL); [discriminate|reflexivity].
  - intros A. apply K2 in A. discriminate.
  - intros A. apply K2 in A. discriminate.
Qed.

Lemma all_rows : forall pl B e b s1 st sp cs seen q z w k st',
  Ready B b -> ptok b = q -> pbeg b <= q -> lex_state s1 = st -> lval s1 = None -> command_start s1 = false ->
  In (w, k, st') (rows pl) -> longest B q pl w -> z = q + String.length w -> z <= pend b -> InL B b z -> place B st sp z pl ->
  exists x r, bs w = x :: r /\ row_ok B e b s1 st sp cs seen q z w pl x k st'.
Proof.
  intros [] B e b s1 st sp cs seen q z w k st'; [apply rows_name|apply rows_value|apply rows_operator|apply rows_argument].
Qed.

Lemma operator_step : forall B n upper s p sp w k st' pl,
  LInv B s -> strterm s = None -> upcoming (buffer s) p -> text_at B p (sp ++ bs w) -> spacing (buffer s) sp ->
  In (w, k, st') (rows pl) -> longest B (p + List.length sp) pl w ->
  place B (lex_state s) (nonempty sp) (p + List.length sp + String.length w) pl -> List.length B < n ->
  exists s' cmd ds, yylex (plain_env n upper) s = Ok (mkToken k (bs w) (mkLoc (p + List.length sp) (p + List.length sp + String.length w))) s' /\
    statement_behind (lex_state s) w cmd /\
    warned B (lex_state s) (nonempty sp) (p + List.length sp) (p + List.length sp + String.length w) w pl ds /\
    Passed B s s' (p + List.length sp + String.length w) st' cmd ds.
Proof.
  intros B n upper s p sp w k st' pl HL ST HU HT HS HIn HLg HP Hn.
  destruct (rows_plain _ _ _ _ HIn) as (H1 & H2 & H3).
  set (q := p + List.length sp) in *. set (z := q + String.length w) in *.
  assert (E : exists x r, bs w = x :: r).
  { destruct (bs w) as [|x r] eqn:E; eauto. exfalso. assert (K : forallb row_plain (rows pl) = true) by (destruct pl; vm_compute; reflexivity).
    rewrite forallb_forall in K. specialize (K _ HIn). unfold row_plain in K. apply andb_prop in K. destruct K as (_ & K). destruct w; discriminate. }
  destruct E as (x & r & E). rewrite E in *.
  destruct (token_step B n upper s p sp x r k z (fun s' => exists cmd ds, statement_behind (lex_state s) w cmd /\
      warned B (lex_state s) (nonempty sp) q z w pl ds /\ strterm s' = None /\ lex_state s' = st' /\ command_start s' = cmd /\ diagnostics s' = diagnostics s ++ ds /\
      comments s' = comments s /\ (paren_nest s' = paren_nest s /\ brace_nest s' = brace_nest s /\ lpar_beg s' = lpar_beg s) /\ (cond s' = cond s /\ cmdarg s' = cmdarg s) /\
      (context s' = context s /\ static_env s' = static_env s)))
    as (s' & S1 & S2 & S3 & S4 & cmd & ds & S5 & S6 & S7 & S8 & S9 & S10 & S11 & S12 & S13 & S14); auto.
  - unfold z. rewrite <- bs_length, E. reflexivity.
  - fold q. intros b s1 Es1 HR Hq Hb HF HI.
    destruct (all_rows pl B (plain_env n upper) b s1 (lex_state s) (nonempty sp) (command_start s) (token_seen s) q z w k st') as (x' & r' & E' & HW); auto; try (rewrite Es1; reflexivity).
    rewrite E in E'. injection E' as <- <-. unfold row_ok in HW. eapply wp_conseq; [exact HW|].
    intros t s' (cmd & ds & G1 & G2 & [O1 O2 O3 O4 O5 O6 O7 O8 O9 O10 O11 O12 O13]). rewrite E in O8. splits; auto. exists cmd, ds. rewrite Es1 in *. splits; auto; first [exact O3|exact O5|exact O6|exact O7|apply O11|apply O12|apply O13|etransitivity; [exact O4|exact ST]].
  - exists s', cmd, ds. splits; auto. constructor; auto.
Qed.

(** C49.  Whenever a parser asks for a token and an operator comes next, the longest text of the table of its place is
    the token: of the kind of the table, with its text as value and exactly its extent.  The next token is read in the
    state of the table, the warnings are those of the place, and nothing else changes. *)
Theorem C49_operators : forall B n upper s p sp w k st' pl,
  reached B n upper s -> strterm s = None -> upcoming (buffer s) p -> text_at B p (sp ++ bs w) -> spacing (buffer s) sp ->
  In (w, k, st') (rows pl) -> longest B (p + List.length sp) pl w ->
  place B (lex_state s) (nonempty sp) (p + List.length sp + String.length w) pl -> List.length B < n ->
  exists s' cmd ds, yylex (plain_env n upper) s = Ok (mkToken k (bs w) (mkLoc (p + List.length sp) (p + List.length sp + String.length w))) s' /\
    statement_behind (lex_state s) w cmd /\
    warned B (lex_state s) (nonempty sp) (p + List.length sp) (p + List.length sp + String.length w) w pl ds /\
    Passed B s s' (p + List.length sp + String.length w) st' cmd ds.
Proof. intros. eapply operator_step; eauto. eapply reached_inv; eauto. Qed.
Print Assumptions C49_operators.

Lemma sign_same : forall B s s1 sp q w k st' cmd ds, lex_state s1 = lex_state s -> context s1 = context s -> paren_nest s1 = paren_nest s -> lpar_beg s1 = lpar_beg s ->
  sign B s sp q w k st' cmd ds -> sign B s1 sp q w k st' cmd ds.
Proof.
  intros B s s1 sp q w k st' cmd ds E1 E2 E3 E4 H.
  destruct H; [eapply sg_shift|eapply sg_shift_assign|eapply sg_dots_all|eapply sg_dots_open|eapply sg_dots|eapply sg_top|eapply sg_scope|eapply sg_colon|eapply sg_symbol
    |eapply sg_minus_value|eapply sg_minus_argument|eapply sg_bar|eapply sg_eh]; unfold dots_warning, lambda_params in *; rewrite ?E1, ?E2, ?E3, ?E4; eauto.
Qed.

Lemma sign_step : forall B n upper s p sp w k st' cmd ds,
  LInv B s -> strterm s = None -> upcoming (buffer s) p -> text_at B p (sp ++ bs w) -> spacing (buffer s) sp ->
  sign B s (nonempty sp) (p + List.length sp) w k st' cmd ds -> List.length B < n ->
  exists s', yylex (plain_env n upper) s = Ok (mkToken k (bs w) (mkLoc (p + List.length sp) (p + List.length sp + String.length w))) s' /\
    Passed B s s' (p + List.length sp + String.length w) st' cmd ds.
Proof.
  intros B n upper s p sp w k st' cmd ds HL ST HU HT HS HG Hn.
  set (q := p + List.length sp) in *. set (z := q + String.length w) in *.
  assert (E : exists x r, bs w = x :: r /\ tok_eqb k tNL = false /\ ~ In 10%N (bs w) /\ ~ In 13%N (bs w)).
  { destruct HG; (eexists; eexists; split; [vm_compute; reflexivity|splits; [reflexivity|intros A; vm_compute in A; intuition discriminate..]]). }
  destruct E as (x & r & E & H1 & H2 & H3). pose proof HT as HT'. apply text_at_app in HT'. destruct HT' as (_ & HT'). fold q in HT'. rewrite E in HT, H2, H3. rewrite E.
  destruct (token_step B n upper s p sp x r k z (fun s' => strterm s' = None /\ lex_state s' = st' /\ command_start s' = cmd /\ diagnostics s' = diagnostics s ++ ds /\
      comments s' = comments s /\ (paren_nest s' = paren_nest s /\ brace_nest s' = brace_nest s /\ lpar_beg s' = lpar_beg s) /\ (cond s' = cond s /\ cmdarg s' = cmdarg s) /\
      (context s' = context s /\ static_env s' = static_env s)))
    as (s' & S1 & S2 & S3 & S4 & S7 & S8 & S9 & S10 & S11 & S12 & S13 & S14); auto.
  - unfold z. rewrite <- bs_length, E. reflexivity.
  - fold q. intros b s1 Es1 HR Hq Hb HF HI.
    destruct (signs B (plain_env n upper) b s1 (nonempty sp) (command_start s) (token_seen s) q z w k st' cmd ds) as (x' & r' & E' & HW & _); auto; try (rewrite Es1; reflexivity).
    { apply (sign_same B s); auto; rewrite Es1; reflexivity. }
    rewrite E in E'. injection E' as <- <-. unfold sign_ok in HW. replace (lex_state s) with (lex_state s1) by (rewrite Es1; reflexivity). eapply wp_conseq; [exact HW|].
    intros t s' [O1 O2 O3 O4 O5 O6 O7 O8 O9 O10 O11 O12 O13]. rewrite E in O8. rewrite Es1 in *.
    splits; auto; first [exact O3|exact O5|exact O6|exact O7|apply O11|apply O12|apply O13|etransitivity; [exact O4|exact ST]].
  - exists s'. splits; auto. constructor; auto.
Qed.

(** C49.  The same for shifts, three dots, colons, the minus sign of a number, the first bar of an empty parameter list
    and the question mark of a conditional. *)
Theorem C49_signs : forall B n upper s p sp w k st' cmd ds,
  reached B n upper s -> strterm s = None -> upcoming (buffer s) p -> text_at B p (sp ++ bs w) -> spacing (buffer s) sp ->
  sign B s (nonempty sp) (p + List.length sp) w k st' cmd ds -> List.length B < n ->
  exists s', yylex (plain_env n upper) s = Ok (mkToken k (bs w) (mkLoc (p + List.length sp) (p + List.length sp + String.length w))) s' /\
    Passed B s s' (p + List.length sp + String.length w) st' cmd ds.
Proof. intros. eapply sign_step; eauto. eapply reached_inv; eauto. Qed.
Print Assumptions C49_signs.

(** ** The hypotheses are met *)
Lemma longest_check : forall B q pl w,
  bytes_eqb (firstn (List.length (bs w)) (skipn q B)) (bs w) &&
  forallb (fun v => negb (bytes_eqb (firstn (List.length (bs v)) (skipn q B)) (bs v)) || (String.length v <=? String.length w)) (texts pl) = true ->
  longest B q pl w.
Proof.
  intros B q pl w H. apply andb_prop in H. destruct H as (H1 & H2). apply ScopeProofs.bytes_eqb_eq in H1. split; [exact H1|].
  intros v HI HT. rewrite forallb_forall in H2. specialize (H2 v HI). apply orb_prop in H2. destruct H2 as [H2|H2]; [|lia].
  apply ScopeProofs.bytes_eqb_eq in HT. rewrite HT in H2. discriminate.
Qed.
Ltac in_place := unfold name_place, value_place, argument_place, end_place, in_state; vm_compute; intuition discriminate.
Ltac not_spaced := let c := fresh in let A := fresh in let C := fresh in intros (c & A & C); vm_compute in A; (discriminate || (injection A as <-; lia)).

(** In front of an argument: [a **b] *)
Example C49_hypotheses_argument :
  let src := bs "a **b" in
  exists s, reached src 200 (fun _ => false) s /\ strterm s = None /\ upcoming (buffer s) 1 /\ text_at src 1 (bs " " ++ bs "**") /\ Forall blank (bs " ") /\
    In ("**"%string, tDSTAR, EXPR_BEG) (rows AtArgument) /\ longest src 2 AtArgument "**" /\ place src (lex_state s) true 4 AtArgument.
Proof.
  set (src := bs "a **b"). cbn zeta. reach_state src [PNext]. splits; auto; try reflexivity.
  - split; [reflexivity|]. left. splits; auto. cbn. lia.
  - constructor; [|constructor]. unfold blank. cbn. lia.
  - apply in_or_app. right. left. reflexivity.
  - apply longest_check. vm_compute. reflexivity.
  - apply pl_argument; try in_place; try reflexivity; [not_spaced|vm_compute; lia].
Qed.
(** Behind an operand: [1 <=>2] *)
Example C49_hypotheses_operator :
  let src := bs "1 <=>2" in
  exists s, reached src 200 (fun _ => false) s /\ strterm s = None /\ upcoming (buffer s) 1 /\ text_at src 1 (bs " " ++ bs "<=>") /\ Forall blank (bs " ") /\
    In ("<=>"%string, tCMP, EXPR_BEG) (rows AtOperator) /\ longest src 2 AtOperator "<=>" /\ place src (lex_state s) true 5 AtOperator.
Proof.
  set (src := bs "1 <=>2"). cbn zeta. reach_state src [PNext]. splits; auto; try reflexivity.
  - split; [reflexivity|]. left. splits; auto. cbn. lia.
  - constructor; [|constructor]. unfold blank. cbn. lia.
  - vm_compute. tauto.
  - apply longest_check. vm_compute. reflexivity.
  - apply pl_operator; in_place.
Qed.
(** In front of an operand: [x = -y] *)
Example C49_hypotheses_value :
  let src := bs "x = -y" in
  exists s, reached src 200 (fun _ => false) s /\ strterm s = None /\ upcoming (buffer s) 3 /\ text_at src 3 (bs " " ++ bs "-") /\ Forall blank (bs " ") /\
    In ("-"%string, tUMINUS, EXPR_BEG) (rows AtValue) /\ longest src 4 AtValue "-" /\ place src (lex_state s) true 5 AtValue.
Proof.
  set (src := bs "x = -y"). cbn zeta. reach_state src [PNext; PNext]. splits; auto; try reflexivity.
  - split; [reflexivity|]. left. splits; auto. cbn. lia.
  - constructor; [|constructor]. unfold blank. cbn. lia.
  - vm_compute. tauto.
  - apply longest_check. vm_compute. reflexivity.
  - apply pl_value; in_place.
Qed.
(** As a name: [def -@; end] *)
Example C49_hypotheses_name :
  let src := bs "def -@; end" in
  exists s, reached src 200 (fun _ => false) s /\ strterm s = None /\ upcoming (buffer s) 3 /\ text_at src 3 (bs " " ++ bs "-@") /\ Forall blank (bs " ") /\
    In ("-@"%string, tUMINUS, EXPR_ARG) (rows AtName) /\ longest src 4 AtName "-@" /\ place src (lex_state s) true 6 AtName.
Proof.
  set (src := bs "def -@; end"). cbn zeta. reach_state src [PNext]. splits; auto; try reflexivity.
  - split; [reflexivity|]. left. splits; auto. cbn. lia.
  - constructor; [|constructor]. unfold blank. cbn. lia.
  - vm_compute. tauto.
  - apply longest_check. vm_compute. reflexivity.
  - apply pl_name; in_place.
Qed.
(** A shift, a dot range, a scope and a negative number *)
Example C49_hypotheses_shift :
  let src := bs "1 <<x" in
  exists s, reached src 200 (fun _ => false) s /\ strterm s = None /\ upcoming (buffer s) 1 /\ text_at src 1 (bs " " ++ bs "<<") /\
    sign src s true 2 "<<" tLSHFT EXPR_BEG false [mkDiag Warning (AmbiguousOperator (bs "<<") (bs "here document")) (mkLoc 2 4)].
Proof.
  set (src := bs "1 <<x"). cbn zeta. reach_state src [PNext]. splits; auto; try reflexivity.
  - split; [reflexivity|]. left. splits; auto. cbn. lia.
  - apply sg_shift.
    + right. right. left. in_place.
    + vm_compute. discriminate.
    + intros A. exfalso. revert A. in_place.
    + intros _. split; auto. split; [discriminate|]. intros A. exfalso. revert A. in_place.
    + left. split; auto. unfold set_off. splits; auto; try in_place. not_spaced.
Qed.
Example C49_hypotheses_dots :
  let src := bs "x = 1... # end" in
  exists s, reached src 200 (fun _ => false) s /\ strterm s = None /\ upcoming (buffer s) 5 /\ text_at src 5 (bs "" ++ bs "...") /\
    sign src s false 5 "..." tDOT3 EXPR_BEG false [mkDiag Warning TripleDotAtEol (mkLoc 5 8)].
Proof.
  set (src := bs "x = 1... # end"). cbn zeta. reach_state src [PNext; PNext; PNext]. splits; auto; try reflexivity.
  - split; [reflexivity|]. left. splits; auto. cbn. lia.
  - apply sg_dots; try reflexivity.
    + left. splits; auto. apply (lo_space _ _ 32%N); [reflexivity|vm_compute; tauto|]. apply lo_comment. reflexivity.
    + left. in_place.
Qed.
Example C49_hypotheses_minus :
  let src := bs "foo -1" in
  exists s, reached src 200 (fun _ => false) s /\ strterm s = None /\ upcoming (buffer s) 3 /\ text_at src 3 (bs " " ++ bs "-") /\
    sign src s true 4 "-" tUMINUS_NUM EXPR_BEG false [mkDiag Warning (AmbiguousFirstArgument 45) (mkLoc 4 5)].
Proof.
  set (src := bs "foo -1"). cbn zeta. reach_state src [PNext]. splits; auto; try reflexivity.
  - split; [reflexivity|]. left. splits; auto. cbn. lia.
  - apply (sg_minus_argument _ _ _ 4 49); try in_place; try reflexivity.
Qed.

(** A line of operators *)
Example C49_sample : exists ts s, lexed (bs "a &&= b.c <=> d ? e::F : -1 ** -g >> !h") = Some (ts, s) /\ diagnostics s = [] /\
  map (fun t => (token_type t, token_value t)) ts =
  [(tIDENTIFIER, bs "a"); (tOP_ASGN, bs "&&="); (tIDENTIFIER, bs "b"); (tDOT, bs "."); (tIDENTIFIER, bs "c"); (tCMP, bs "<=>"); (tIDENTIFIER, bs "d"); (tEH, bs "?");
   (tIDENTIFIER, bs "e"); (tCOLON2, bs "::"); (tCONSTANT, bs "F"); (tCOLON, bs ":"); (tUMINUS_NUM, bs "-"); (tINTEGER, bs "1"); (tPOW, bs "**"); (tUMINUS, bs "-");
   (tIDENTIFIER, bs "g"); (tRSHFT, bs ">>"); (tBANG, bs "!"); (tIDENTIFIER, bs "h")].
Proof. eexists. eexists. split; [vm_compute; reflexivity|split; vm_compute; reflexivity]. Qed.

(** ** What does not hold *)
(** The ampersand of [foo &:bar] can only be a block argument, and a symbol follows: there is nothing to warn about, and
    main.rs 594-612 sets out to say so.  Its test for the end of input is inverted, and the warning is always given. *)
Theorem C49_symbol_block_refuted : exists ts s, lexed (bs "foo &:bar") = Some (ts, s) /\
  map token_type ts = [tIDENTIFIER; tAMPER; tSYMBEG; tIDENTIFIER] /\
  diagnostics s = [mkDiag Warning AmpersandInterpretedAsArgPrefix (mkLoc 4 5)].
Proof. eexists. eexists. split; [vm_compute; reflexivity|split; vm_compute; reflexivity]. Qed.
(** The warning about an ambiguous operator names it, except that the percent sign is doubled, parse_percent.rs 148 *)
Theorem C49_percent_name_refuted : exists ts s, lexed (bs "1 %x") = Some (ts, s) /\
  diagnostics s = [mkDiag Warning (AmbiguousOperator (bs "%%") (bs "string literal")) (mkLoc 2 3)].
Proof. eexists. eexists. split; vm_compute; reflexivity. Qed.
(** A second bar at the very end of the source is lost *)
Theorem C49_bar_at_end_refuted : exists ts s, lexed (bs "a {||") = Some (ts, s) /\ map token_type ts = [tIDENTIFIER; tLCURLY; tPIPE] /\
  map token_loc ts = [mkLoc 0 1; mkLoc 2 3; mkLoc 3 4].
Proof. eexists. eexists. split; [vm_compute; reflexivity|split; vm_compute; reflexivity]. Qed.
