(** * C50: brackets and their nesting *)
Require Import Verif.Base Verif.MaybeByteM Verif.InputM Verif.DiagnosticM Verif.TokensM Verif.BufferM Verif.LexStateM
  Verif.LexerM Verif.LexIdentM Verif.LexMainM Verif.ParserClientM
  Verif.SourceSpec Verif.SourceProofs Verif.Wp Verif.BufInv Verif.LexSpec Verif.NewlineInv Verif.MainInv Verif.RunInv Verif.Prop_Lexer
  Verif.ReadSpec Verif.YylexSpec Verif.Reach Verif.NumberSpec Verif.NumRead Verif.Prop_Number Verif.IdentSpec Verif.IdentRead Verif.IdentStep Verif.Prop_Ident Verif.Prop_Var
  Verif.OpSpec Verif.OpStep Verif.OpRows Verif.OpTable Verif.OpMore Verif.Prop_Op Verif.BracketSpec Verif.BracketStep.
Require Import ZifyBool ZifyNat ZifyN.

Lemma bracket_same : forall B s s1 sp q w k st' cmd ns ds, lex_state s1 = lex_state s -> brace_nest s1 = brace_nest s -> paren_nest s1 = paren_nest s -> lpar_beg s1 = lpar_beg s ->
  bracket B s sp q w k st' cmd ns ds -> bracket B s1 sp q w k st' cmd ns ds.
Proof.
  intros B s s1 sp q w k st' cmd ns ds E1 E2 E3 E4 H.
  destruct H; [apply bk_lparen_value|apply bk_lparen_call|apply bk_lparen_arg|apply bk_lparen_def|apply bk_aset|apply bk_aref|apply bk_lbrack_name|apply bk_lbrack_value|apply bk_lbrack_index
    |apply bk_lambda|apply bk_hash_label|apply bk_block|apply bk_command_block|apply bk_hash|apply bk_rparen|apply bk_rbrack|apply bk_rcurly|rewrite <- E1; apply bk_dend];
    unfold lambda_next in *; rewrite ?E1, ?E2, ?E3, ?E4; auto.
Qed.

Lemma bracket_step : forall B n upper s p sp w k st' cmd ns ds,
  LInv B s -> strterm s = None -> upcoming (buffer s) p -> text_at B p (sp ++ bs w) -> spacing (buffer s) sp ->
  bracket B s (nonempty sp) (p + List.length sp) w k st' cmd ns ds -> List.length B < n ->
  exists s', yylex (plain_env n upper) s = Ok (mkToken k (bs w) (mkLoc (p + List.length sp) (p + List.length sp + String.length w))) s' /\
    Nested B s s' (p + List.length sp + String.length w) st' cmd ns ds.
Proof.
  intros B n upper s p sp w k st' cmd ns ds HL ST HU HT HS HG Hn.
  set (q := p + List.length sp) in *. set (z := q + String.length w) in *.
  assert (E : exists x r, bs w = x :: r /\ tok_eqb k tNL = false /\ ~ In 10%N (bs w) /\ ~ In 13%N (bs w)).
  { destruct HG; (eexists; eexists; split; [vm_compute; reflexivity|splits; [reflexivity|intros A; vm_compute in A; intuition discriminate..]]). }
  destruct E as (x & r & E & H1 & H2 & H3). pose proof HT as HT'. apply text_at_app in HT'. destruct HT' as (_ & HT'). fold q in HT'. rewrite E in HT, H2, H3. rewrite E.
  destruct (token_step B n upper s p sp x r k z (fun s' => strterm s' = None /\ lex_state s' = st' /\ command_start s' = cmd /\ diagnostics s' = diagnostics s ++ ds /\
      comments s' = comments s /\ paren_nest s' = (paren_nest s + ns_paren ns)%Z /\ brace_nest s' = (brace_nest s + ns_brace ns)%Z /\ lpar_beg s' = lpar_beg s /\
      cond s' = stack_after (ns_stacks ns) (cond s) /\ cmdarg s' = stack_after (ns_stacks ns) (cmdarg s) /\
      (context s' = context s /\ static_env s' = static_env s)))
    as (s' & S1 & S2 & S3 & S4 & S7 & S8 & S9 & S10 & S11 & S12 & S13 & S14 & S15 & S16 & S17); auto.
  - unfold z. rewrite <- bs_length, E. reflexivity.
  - fold q. intros b s1 Es1 HR Hq Hb HF HI.
    destruct (brackets B (plain_env n upper) b s1 (nonempty sp) (command_start s) (token_seen s) q z w k st' cmd ns ds) as (x' & r' & E' & HW); auto; try (rewrite Es1; reflexivity).
    { apply (bracket_same B s); auto; rewrite Es1; reflexivity. }
    rewrite E in E'. injection E' as <- <-. unfold bracket_ok in HW. replace (lex_state s) with (lex_state s1) by (rewrite Es1; reflexivity). eapply wp_conseq; [exact HW|].
    intros t s' [O1 O2 O3 O4 O5 O6 O7 O8 O9 O10 O11 O12 O13 O14 O15 O16]. rewrite E in O8. rewrite Es1 in *.
    splits; auto; first [exact O3|exact O5|exact O6|exact O7|exact O11|exact O12|exact O13|exact O14|exact O15|apply O16|etransitivity; [exact O4|exact ST]].
  - exists s'. splits; auto. constructor; auto.
Qed.

(** C50.  Whenever a parser asks for a token and a bracket comes next, the token has the kind that the place demands, the
    text of the bracket and its extent, and the depth of nesting and the two stacks are kept up. *)
Theorem C50_brackets : forall B n upper s p sp w k st' cmd ns ds,
  reached B n upper s -> strterm s = None -> upcoming (buffer s) p -> text_at B p (sp ++ bs w) -> spacing (buffer s) sp ->
  bracket B s (nonempty sp) (p + List.length sp) w k st' cmd ns ds -> List.length B < n ->
  exists s', yylex (plain_env n upper) s = Ok (mkToken k (bs w) (mkLoc (p + List.length sp) (p + List.length sp + String.length w))) s' /\
    Nested B s s' (p + List.length sp + String.length w) st' cmd ns ds.
Proof. intros. eapply bracket_step; eauto. eapply reached_inv; eauto. Qed.
Print Assumptions C50_brackets.

(** ** Sequences of brackets that match *)
Inductive matching : N -> N -> Prop := mt_round : matching 40 41 | mt_square : matching 91 93 | mt_curly : matching 123 125.
(** [balanced d w]: the brackets of [w] match, and are nested at most [d] deep *)
Inductive balanced : nat -> list N -> Prop :=
| ba_nil : forall d, balanced d []
| ba_pair : forall d o c u v, matching o c -> balanced d u -> balanced (S d) v -> balanced (S d) (o :: u ++ c :: v).

(** *** Steps *)
Definition one (c : N) : string := String (Ascii.ascii_of_N c) EmptyString.

Lemma testbit_dec : forall st k, in_state st k \/ ~ in_state st k.
Proof. intros st k. unfold in_state. destruct (N.testbit st k); [left|right]; auto. Qed.
Lemma opener : forall B s q o c, matching o c -> ~ name_place (lex_state s) ->
  exists k st' cmd, bracket B s false q (one o) k st' cmd (if N.eqb o 123 then opened_brace else opened) [] /\ k <> END_OF_INPUT /\ (st' = label_beg \/ st' = EXPR_BEG).
Proof.
  intros B s q o c H HN.
  assert (DV : value_place (lex_state s) \/ ~ value_place (lex_state s)).
  { pose proof (value_bits (lex_state s)) as V. destruct (ls_is_beg (lex_state s)); [left; apply V; reflexivity|right; intros A; apply V in A; discriminate]. }
  assert (DA : argument_place (lex_state s) \/ ~ argument_place (lex_state s)).
  { pose proof (arg_bits (lex_state s)) as V. destruct (ls_is_arg (lex_state s)); [left; apply V; reflexivity|right; intros A; apply V in A; discriminate]. }
  destruct H; cbn [N.eqb Pos.eqb].
  - destruct DV as [D|D]; [exists tLPAREN|exists tLPAREN2]; exists label_beg, false; splits; auto; try discriminate; [apply bk_lparen_value|apply bk_lparen_call]; auto.
  - assert (DL : (value_place (lex_state s) \/ (argument_place (lex_state s) /\ (false = true \/ in_state (lex_state s) b_labeled))) \/
                 ~ (value_place (lex_state s) \/ (argument_place (lex_state s) /\ (false = true \/ in_state (lex_state s) b_labeled)))).
    { destruct DV, DA, (testbit_dec (lex_state s) b_labeled); tauto || (right; intuition discriminate). }
    destruct DL as [D|D]; [exists tLBRACK|exists tLBRACK2]; exists label_beg, false; splits; auto; try discriminate; [apply bk_lbrack_value|apply bk_lbrack_index]; auto.
  - destruct (Z.eq_dec (lpar_beg s) (paren_nest s)) as [D|D].
    { exists tLAMBEG, EXPR_BEG, true. splits; auto; try discriminate. apply bk_lambda. exact D. }
    destruct (testbit_dec (lex_state s) b_labeled) as [D2|D2].
    { exists tLBRACE, label_beg, false. splits; auto; try discriminate. apply bk_hash_label; auto. }
    destruct (testbit_dec (lex_state s) b_end) as [D3|D3]; [exists tLCURLY, EXPR_BEG, true; splits; auto; try discriminate; apply bk_block; auto|].
    destruct (testbit_dec (lex_state s) b_endfn) as [D4|D4]; [exists tLCURLY, EXPR_BEG, true; splits; auto; try discriminate; apply bk_block; auto|].
    destruct DA as [D5|D5]; [exists tLCURLY, EXPR_BEG, true; splits; auto; try discriminate; apply bk_block; auto|].
    destruct (testbit_dec (lex_state s) b_endarg) as [D6|D6].
    + exists tLBRACE_ARG, EXPR_BEG, true. splits; auto; try discriminate. apply bk_command_block; auto. tauto.
    + exists tLBRACE, label_beg, false. splits; auto; try discriminate. apply bk_hash; auto. unfold end_place. tauto.
Qed.
Lemma closer : forall B s q o c, matching o c -> (o = 123%N -> brace_nest s <> 0%Z) ->
  exists k st', bracket B s false q (one c) k st' false (if N.eqb o 123 then closed_brace else closed) [] /\ k <> END_OF_INPUT /\ (st' = EXPR_ENDFN \/ st' = EXPR_END).
Proof.
  intros B s q o c H HN. destruct H; cbn [N.eqb Pos.eqb].
  - exists tRPAREN, EXPR_ENDFN. splits; auto; try discriminate. apply bk_rparen.
  - exists tRBRACK, EXPR_END. splits; auto; try discriminate. apply bk_rbrack.
  - exists tRCURLY, EXPR_END. splits; auto; try discriminate. apply bk_rcurly. auto.
Qed.
Lemma one_bytes : forall o c, matching o c -> bs (one o) = [o] /\ bs (one c) = [c].
Proof. intros o c []; split; reflexivity. Qed.

Lemma lexes_app : forall e s ts s1 us s2, lexes e s ts s1 -> lexes e s1 us s2 -> lexes e s (ts ++ us) s2.
Proof. intros e s ts s1 us s2 H. induction H; intros K; auto. cbn. econstructor; eauto. Qed.

Lemma push_pop : forall x d, (x < 2 ^ (64 - (d + 1)) -> stack_after Pushed x = 2 * x /\ 2 * x < 2 ^ (64 - d) /\ stack_after Popped (2 * x) = x)%N.
Proof.
  intros x d H. unfold stack_after.
  assert (A : (2 * x < 2 ^ (64 - d))%N).
  { destruct (N.le_gt_cases 64 d) as [A|A].
    - replace (64 - (d + 1))%N with 0%N in H by lia. replace (64 - d)%N with 0%N by lia. change (2 ^ 0)%N with 1%N in *. lia.
    - replace (64 - d)%N with ((64 - (d + 1)) + 1)%N by lia. rewrite N.pow_add_r. change (2 ^ 1)%N with 2%N. lia. }
  assert (A' : (2 ^ (64 - d) <= 2 ^ 64)%N) by (apply N.pow_le_mono_r; [discriminate|lia]).
  splits; auto.
  - apply N.mod_small. lia.
  - rewrite N.mul_comm. apply N.div_mul. discriminate.
Qed.

Lemma places_clear : forall st, st = label_beg \/ st = EXPR_BEG \/ st = EXPR_ENDFN \/ st = EXPR_END -> ~ name_place st.
Proof. intros st [-> |[-> |[-> | ->]]]; unfold name_place, in_state; vm_compute; intuition discriminate. Qed.

Lemma single_step : forall B n upper s p x k st' cmd ns,
  LInv B s -> strterm s = None -> upcoming (buffer s) p -> nth_error B p = Some x -> List.length B < n -> bs (one x) = [x] ->
  bracket B s false p (one x) k st' cmd ns [] -> k <> END_OF_INPUT ->
  exists s', yylex (plain_env n upper) s = Ok (mkToken k [x] (mkLoc p (p + 1))) s' /\ LInv B s' /\ Nested B s s' (p + 1) st' cmd ns [].
Proof.
  intros B n upper s p x k st' cmd ns HL ST HU HX Hn E HB Hk.
  destruct (bracket_step B n upper s p [] (one x) k st' cmd ns []) as (s' & S1 & S2); auto; try (apply blank_spacing; constructor).
  - cbn [app]. rewrite E. apply text_at_cons. split; auto. apply text_at_nil.
  - cbn [List.length]. rewrite Nat.add_0_r. exact HB.
  - cbn [List.length String.length one] in S1, S2. rewrite Nat.add_0_r in S1, S2. change (String (Ascii.ascii_of_N x) EmptyString) with (one x) in S1. rewrite E in S1.
    exists s'. splits; auto. eapply step_inv; eauto.
Qed.

Lemma balanced_run : forall B n upper, List.length B < n -> forall d w, balanced d w -> forall s p,
  LInv B s -> strterm s = None -> text_at B p w -> (p < List.length B -> upcoming (buffer s) p) -> ~ name_place (lex_state s) -> (0 <= brace_nest s)%Z ->
  exists ts s', lexes (plain_env n upper) s ts s' /\ map token_value ts = map (fun c => [c]) w /\ LInv B s' /\ strterm s' = None /\
    (p + List.length w < List.length B -> upcoming (buffer s') (p + List.length w)) /\ ~ name_place (lex_state s') /\
    paren_nest s' = paren_nest s /\ brace_nest s' = brace_nest s /\ diagnostics s' = diagnostics s /\ comments s' = comments s /\
    (cond s < 2 ^ (64 - N.of_nat d) -> cond s' = cond s)%N /\ (cmdarg s < 2 ^ (64 - N.of_nat d) -> cmdarg s' = cmdarg s)%N.
Proof.
  intros B n upper Hn d w H. induction H as [d|d o c u v HM HU IHu HV IHv]; intros s p HL ST HT HUp HN HB.
  - exists [], s. cbn [List.length map]. rewrite Nat.add_0_r. splits; auto. constructor.
  - destruct (one_bytes o c HM) as (EO & EC).
    apply text_at_cons in HT. destruct HT as (HX & HT). apply text_at_app in HT. destruct HT as (HTu & HT). apply text_at_cons in HT. destruct HT as (HXc & HTv).
    assert (HpB : p < List.length B) by (apply nth_error_Some; congruence).
    assert (HcB : p + 1 + List.length u < List.length B) by (apply nth_error_Some; congruence).
    destruct (opener B s p o c HM HN) as (k & st1 & cmd & B1 & K1 & B2).
    destruct (single_step B n upper s p o k st1 cmd _ HL ST (HUp HpB) HX Hn EO B1 K1) as (s1 & Y1 & L1 & N1). destruct N1.
    assert (A1 : brace_nest s1 = (brace_nest s + if N.eqb o 123 then 1 else 0)%Z) by (rewrite nd_brace; destruct HM; reflexivity).
    assert (A2 : paren_nest s1 = (paren_nest s + 1)%Z) by (rewrite nd_paren; destruct HM; reflexivity).
    assert (A3 : cond s1 = stack_after Pushed (cond s)) by (rewrite nd_cond; destruct HM; reflexivity).
    assert (A4 : cmdarg s1 = stack_after Pushed (cmdarg s)) by (rewrite nd_cmdarg; destruct HM; reflexivity).
    destruct (IHu s1 (p + 1)) as (ts1 & s2 & X1 & X2 & L2 & X4 & X5 & X6 & X7 & X8 & X9 & X10 & X11 & X12); auto.
    { rewrite nd_state. apply places_clear. tauto. }
    { rewrite A1. destruct (N.eqb o 123); lia. }
    destruct (closer B s2 (p + 1 + List.length u) o c HM) as (k2 & st3 & C1 & K2 & C2).
    { intros ->. rewrite X8, A1. cbn [N.eqb Pos.eqb]. lia. }
    destruct (single_step B n upper s2 (p + 1 + List.length u) c k2 st3 false _ L2 X4 (X5 HcB) HXc Hn EC C1 K2) as (s3 & Y3 & L3 & N3). destruct N3.
    assert (F1 : brace_nest s3 = brace_nest s). { rewrite nd_brace0, X8, A1. destruct HM; cbn; lia. }
    assert (F2 : paren_nest s3 = paren_nest s). { rewrite nd_paren0, X7, A2. destruct HM; cbn; lia. }
    assert (F3 : cond s3 = stack_after Popped (cond s2)) by (rewrite nd_cond0; destruct HM; reflexivity).
    assert (F4 : cmdarg s3 = stack_after Popped (cmdarg s2)) by (rewrite nd_cmdarg0; destruct HM; reflexivity).
    destruct (IHv s3 (p + 1 + List.length u + 1)) as (ts2 & s4 & Z1 & Z2 & L4 & Z4 & Z5 & Z6 & Z7 & Z8 & Z9 & Z10 & Z11 & Z12); auto.
    { rewrite nd_state0. apply places_clear. tauto. }
    { rewrite F1. exact HB. }
    exists (mkToken k [o] (mkLoc p (p + 1)) :: ts1 ++ mkToken k2 [c] (mkLoc (p + 1 + List.length u) (p + 1 + List.length u + 1)) :: ts2), s4.
    replace (p + List.length (o :: u ++ c :: v)) with (p + 1 + List.length u + 1 + List.length v) by (cbn [List.length]; rewrite app_length; cbn [List.length]; lia).
    splits; auto; try congruence.
    + econstructor; [exact Y1|exact K1|]. eapply lexes_app; [exact X1|]. econstructor; [exact Y3|exact K2|exact Z1].
    + cbn [map token_value]. rewrite !map_app. cbn [map token_value]. rewrite X2, Z2. reflexivity.
    + rewrite Z9, nd_diags0, app_nil_r, X9, nd_diags, app_nil_r. reflexivity.
    + intros A. assert (A' := A). rewrite Nat2N.inj_succ, <- N.add_1_r in A'. destruct (push_pop _ _ A') as (P1 & P2 & P3).
      assert (Q : cond s2 = (2 * cond s)%N) by (rewrite X11, A3; auto; rewrite A3, P1; exact P2). assert (Q' : cond s3 = cond s) by (rewrite F3, Q; exact P3). rewrite Z11; rewrite Q'; auto.
    + intros A. assert (A' := A). rewrite Nat2N.inj_succ, <- N.add_1_r in A'. destruct (push_pop _ _ A') as (P1 & P2 & P3).
      assert (Q : cmdarg s2 = (2 * cmdarg s)%N) by (rewrite X12, A4; auto; rewrite A4, P1; exact P2). assert (Q' : cmdarg s3 = cmdarg s) by (rewrite F4, Q; exact P3). rewrite Z12; rewrite Q'; auto.
Qed.

(** C50.  When a sequence of brackets that match, nested at most [d] deep, comes next, one token comes for each, nothing is
    reported, and behind it the depths of brackets and braces are what they were, and so are the two stacks if they have room for
    [d] further levels. *)
Theorem C50_nesting : forall B n upper s p d w,
  reached B n upper s -> strterm s = None -> upcoming (buffer s) p -> text_at B p w -> balanced d w -> ~ name_place (lex_state s) -> (0 <= brace_nest s)%Z ->
  List.length B < n ->
  exists ts s', lexes (plain_env n upper) s ts s' /\ map token_value ts = map (fun c => [c]) w /\
    paren_nest s' = paren_nest s /\ brace_nest s' = brace_nest s /\ diagnostics s' = diagnostics s /\
    (cond s < 2 ^ (64 - N.of_nat d) -> cond s' = cond s)%N /\ (cmdarg s < 2 ^ (64 - N.of_nat d) -> cmdarg s' = cmdarg s)%N.
Proof.
  intros B n upper s p d w HR ST HU HT HB HN HC Hn.
  destruct (balanced_run B n upper Hn d w HB s p) as (ts & s' & X1 & X2 & L2 & X4 & X5 & X6 & X7 & X8 & X9 & X10 & X11 & X12); auto.
  { eapply reached_inv; eauto. }
  exists ts, s'. splits; auto.
Qed.
Print Assumptions C50_nesting.

(** ** The hypotheses are met *)
Example C50_hypotheses_bracket :
  let src := bs "foo (1)" in
  exists s, reached src 200 (fun _ => false) s /\ strterm s = None /\ upcoming (buffer s) 3 /\ text_at src 3 (bs " " ++ bs "(") /\ Forall blank (bs " ") /\
    bracket src s true 4 "(" tLPAREN_ARG label_beg false opened [].
Proof.
  set (src := bs "foo (1)"). cbn zeta. reach_state src [PNext]. splits; auto; try reflexivity.
  - split; [reflexivity|]. left. splits; auto. cbn. lia.
  - constructor; [|constructor]. unfold blank. cbn. lia.
  - apply bk_lparen_arg; auto; in_place.
Qed.
Example C50_hypotheses_brace :
  let src := bs "-> { 1 }" in
  exists s, reached src 200 (fun _ => false) s /\ strterm s = None /\ upcoming (buffer s) 2 /\ text_at src 2 (bs " " ++ bs "{") /\
    bracket src s true 3 "{" tLCURLY EXPR_BEG true opened_brace [].
Proof.
  set (src := bs "-> { 1 }"). cbn zeta. reach_state src [PNext]. splits; auto; try reflexivity.
  - split; [reflexivity|]. left. splits; auto. cbn. lia.
  - apply bk_block; in_place.
Qed.
Example C50_hypotheses_nesting :
  let src := bs "x=[{}([])]" in
  exists s, reached src 200 (fun _ => false) s /\ strterm s = None /\ upcoming (buffer s) 2 /\ text_at src 2 (bs "[{}([])]") /\ balanced 3 (bs "[{}([])]") /\
    ~ name_place (lex_state s) /\ (0 <= brace_nest s)%Z /\ (cond s < 2 ^ 61)%N.
Proof.
  set (src := bs "x=[{}([])]"). cbn zeta. reach_state src [PNext; PNext]. splits; auto; try reflexivity.
  - split; [reflexivity|]. left. splits; auto. cbn. lia.
  - apply (ba_pair 2 91 93 (bs "{}([])") []); [constructor| |constructor].
    apply (ba_pair 1 123 125 [] (bs "([])")); [constructor..|]. apply (ba_pair 1 40 41 (bs "[]") []); [constructor| |constructor]. apply (ba_pair 0 91 93 [] []); constructor.
  - in_place.
Qed.
Example C50_sample : exists ts s, lexed (bs "a[1] = [b (c), {d: e}] { |f| g(h) }") = Some (ts, s) /\ paren_nest s = 0%Z /\ brace_nest s = 0%Z /\
  map token_type ts =
  [tIDENTIFIER; tLBRACK2; tINTEGER; tRBRACK; tEQL; tLBRACK; tIDENTIFIER; tLPAREN_ARG; tIDENTIFIER; tRPAREN; tCOMMA; tLBRACE; tLABEL; tIDENTIFIER; tRCURLY; tRBRACK;
   tLCURLY; tPIPE; tIDENTIFIER; tPIPE; tIDENTIFIER; tLPAREN2; tIDENTIFIER; tRPAREN; tRCURLY].
Proof. eexists. eexists. split; [vm_compute; reflexivity|splits; vm_compute; reflexivity]. Qed.
