(** * C20: identifiers, constants and reserved words; C46: labels *)
Require Import Verif.Base Verif.MaybeByteM Verif.Utf8M Verif.InputM Verif.DiagnosticM Verif.TokensM Verif.ReservedM Verif.BufferM Verif.LexStateM
  Verif.StackStateM Verif.ScopesM Verif.LexerM Verif.LexIdentM Verif.LexMainM Verif.ParserClientM
  Verif.SourceSpec Verif.SourceProofs Verif.ScopeSpec Verif.ScopeProofs Verif.Wp Verif.BufInv Verif.LexSpec Verif.MainInv Verif.RunInv Verif.Prop_Lexer
  Verif.ReadSpec Verif.YylexSpec Verif.Reach Verif.NumberSpec Verif.NumRead Verif.Prop_Number Verif.IdentSpec Verif.IdentRead Verif.IdentStep.
Require Import ZifyBool ZifyNat ZifyN.

(** ** Bits *)
Lemma some_lor : forall st a b, ls_is_some st (N.lor a b) = ls_is_some st a || ls_is_some st b.
Proof.
  intros st a b. unfold ls_is_some. rewrite N.land_lor_distr_r.
  destruct (N.eqb_spec (N.land st a) 0) as [E1|E1], (N.eqb_spec (N.land st b) 0) as [E2|E2];
    destruct (N.eqb_spec (N.lor (N.land st a) (N.land st b)) 0) as [E|E]; cbn; auto; exfalso.
  - apply E. rewrite E1, E2. reflexivity.
  - apply N.lor_eq_0_iff in E. tauto.
  - apply N.lor_eq_0_iff in E. tauto.
  - apply N.lor_eq_0_iff in E. tauto.
Qed.
Lemma some_pow : forall st k, ls_is_some st (2 ^ k)%N = N.testbit st k.
Proof.
  intros st k. unfold ls_is_some. destruct (N.testbit st k) eqn:E.
  - destruct (N.eqb_spec (N.land st (2 ^ k)%N) 0) as [H|H]; auto. exfalso.
    assert (N.testbit (N.land st (2 ^ k)%N) k = true) by (rewrite N.land_spec, E, N.pow2_bits_true; reflexivity).
    rewrite H in H0. rewrite N.bits_0 in H0. discriminate.
  - destruct (N.eqb_spec (N.land st (2 ^ k)%N) 0) as [H|H]; auto. exfalso. apply H.
    apply N.bits_inj. intros m. rewrite N.land_spec, N.bits_0. destruct (N.eq_dec m k) as [->|Hm].
    + rewrite E. reflexivity.
    + rewrite N.pow2_bits_false by auto. apply andb_false_r.
Qed.
Lemma is_label : forall st cmd, ls_is_label_possible st cmd = true <-> label_allowed st cmd.
Proof.
  intros st cmd. unfold ls_is_label_possible, ls_is_arg, EXPR_ARG_ANY. rewrite !some_lor.
  change EXPR_LABEL with (2 ^ b_label)%N. change EXPR_ENDFN with (2 ^ b_endfn)%N. change EXPR_ARG with (2 ^ b_arg)%N. change EXPR_CMDARG with (2 ^ b_cmdarg)%N.
  rewrite !some_pow. unfold label_allowed, in_state.
  destruct (N.testbit st b_label), (N.testbit st b_endfn), (N.testbit st b_arg), (N.testbit st b_cmdarg), cmd; cbn; split; intros; auto; try discriminate; intuition discriminate.
Qed.
Lemma is_dot : forall st, ls_is_some st EXPR_DOT = true <-> after_dot st.
Proof. intros st. change EXPR_DOT with (2 ^ b_dot)%N. rewrite some_pow. reflexivity. Qed.
Lemma is_def : forall st, ls_is_some st EXPR_FNAME = true <-> after_def st.
Proof. intros st. change EXPR_FNAME with (2 ^ b_fname)%N. rewrite some_pow. reflexivity. Qed.
Lemma is_start : forall st, ls_is_some st (N.lor EXPR_BEG EXPR_LABELED) = true <-> expr_start st.
Proof.
  intros st. rewrite some_lor. change EXPR_BEG with (2 ^ b_beg)%N. change EXPR_LABELED with (2 ^ b_labeled)%N. rewrite !some_pow.
  unfold expr_start, in_state. split; intros H; [apply orb_prop; exact H|apply orb_true_intro; exact H].
Qed.

Lemma tok_eqb_true : forall a b, tok_eqb a b = true -> a = b.
Proof. intros a b H. unfold tok_eqb in H. apply N.eqb_eq in H. destruct a; destruct b; first [reflexivity|discriminate H]. Qed.

(** ** The state behind a token *)
Lemma after_ok : forall B s s' b q st, Ready B b -> Fin b q (buffer s') -> InL B b q -> (in_order (buffer s) -> in_order b) ->
  strterm s' = None -> lex_state s' = st -> diagnostics s' = diagnostics s -> comments s' = comments s -> After B s s' q st.
Proof.
  intros B s s' b q st HR HF HI HO H1 H2 H3 H4. pose proof HR as (W & N1 & N2). constructor; auto.
  - exact (fin_pcur _ _ _ HF).
  - intros HqB Hdot. destruct HF as [->|([HF1|HF1] & ->)].
    + unfold upcoming. cbn. split; auto. left. splits; auto. destruct HI as (_ & [I2|(I2 & I3)] & _); [exact I2|exfalso].
      destruct (line_last B _ I3) as (A & _). rewrite <- (w_pend B b W) in A. lia.
    + exfalso. destruct HI as (_ & [I2|(I2 & I3)] & _); [lia|].
      destruct (line_last B _ I3) as (A & _). rewrite <- (w_pend B b W) in A. lia.
    + exfalso. rewrite (byte_at_B B) in HF1 by exact W. contradiction.
  - intros A. destruct HF as [->|(_ & ->)]; exact (HO A).
Qed.

Lemma fin_substr : forall B b b' p w, Ready B b -> Fin b (p + List.length w) b' -> text_at B p w -> w <> [] -> b_substr_at b' p (p + List.length w) = Some w.
Proof.
  intros B b b' p w HR HF HT Hw. apply (substr_text B b HR); auto.
  - destruct HF as [->|(_ & ->)]; reflexivity.
  - apply text_at_len; auto.
Qed.

(** ** Reserved words *)
Definition kinds_table (l : list (string * Tok)) : list (list N * Tok) := map (fun '(x, k) => (bs x, k)) l.

(** The token of reserved word [w] in state [s] *)
Inductive keyword_token (s : Lexer) : list N -> Tok -> Prop :=
| kt_start : forall w k, In (w, k) (kinds_table keyword_kinds) -> w <> bs "do" -> expr_start (lex_state s) -> keyword_token s w k
| kt_other : forall w k, In (w, k) (kinds_table keyword_kinds) -> w <> bs "do" -> ~ expr_start (lex_state s) ->
    (forall k', ~ In (w, k') (kinds_table modifier_kinds)) -> keyword_token s w k
| kt_modifier : forall w k, In (w, k) (kinds_table modifier_kinds) -> ~ expr_start (lex_state s) -> keyword_token s w k
| kt_do_lambda : lpar_beg s = paren_nest s -> keyword_token s (bs "do") kDO_LAMBDA
| kt_do_cond : lpar_beg s <> paren_nest s -> N.odd (cond s) = true -> keyword_token s (bs "do") kDO_COND
| kt_do_block : lpar_beg s <> paren_nest s -> N.odd (cond s) = false -> N.odd (cmdarg s) = true -> ~ in_state (lex_state s) b_cmdarg ->
    keyword_token s (bs "do") kDO_BLOCK
| kt_do : lpar_beg s <> paren_nest s -> N.odd (cond s) = false -> (N.odd (cmdarg s) = false \/ in_state (lex_state s) b_cmdarg) ->
    keyword_token s (bs "do") kDO.

Definition lookup_kind (l : list (string * Tok)) (w : list N) : option Tok :=
  match find (fun '(v, _) => bytes_eqb v w) (kinds_table l) with Some (_, k) => Some k | None => None end.

Lemma lookup_in : forall l w, match lookup_kind l w with Some k => In (w, k) (kinds_table l) | None => forall k, ~ In (w, k) (kinds_table l) end.
Proof.
  intros l w. unfold lookup_kind. destruct (find _ (kinds_table l)) as [[v k]|] eqn:E.
  - apply find_some in E. destruct E as (E1 & E2). apply bytes_eqb_eq in E2. subst v. exact E1.
  - intros k H. apply (find_none _ _ E) in H. assert (bytes_eqb w w = true) by (apply bytes_eqb_eq; reflexivity). congruence.
Qed.

Definition kw_ok (x : list N * Tok) : bool :=
  let '(w, k) := x in
  match reserved_word w with
  | Some kw => tok_eqb (rw_id kw) k && tok_eqb (rw_modifier_id kw) (match lookup_kind modifier_kinds w with Some k' => k' | None => k end)
      && negb (tok_eqb k tNL) && negb (tok_eqb (rw_modifier_id kw) tNL) && Bool.eqb (tok_eqb (rw_id kw) kDO) (bytes_eqb w (bs "do"))
  | None => false
  end.
Lemma kw_table_ok : forallb kw_ok (kinds_table keyword_kinds) = true.
Proof. vm_compute. reflexivity. Qed.
Lemma kw_all : forall w kw, reserved_word w = Some kw -> exists k, In (w, k) (kinds_table keyword_kinds).
Proof.
  intros w kw H. pose proof (reserved_word_ok w) as K. rewrite H in K. destruct K as (K1 & K2).
  assert (A : forallb (fun kw => match lookup_kind keyword_kinds (rw_name kw) with Some _ => true | None => false end) RESERVED_TABLE = true) by (vm_compute; reflexivity).
  rewrite forallb_forall in A. specialize (A kw K1). rewrite K2 in A. pose proof (lookup_in keyword_kinds w) as L.
  destruct (lookup_kind keyword_kinds w) as [k|]; [eauto|discriminate].
Qed.
Lemma kw_mod_sub : forall w k, In (w, k) (kinds_table modifier_kinds) -> exists k', In (w, k') (kinds_table keyword_kinds).
Proof.
  intros w k H. assert (A : forallb (fun x => match lookup_kind keyword_kinds (fst x) with Some _ => true | None => false end) (kinds_table modifier_kinds) = true) by (vm_compute; reflexivity).
  rewrite forallb_forall in A. specialize (A _ H). cbn [fst] in A. pose proof (lookup_in keyword_kinds w) as L.
  destruct (lookup_kind keyword_kinds w) as [k'|]; [eauto|discriminate].
Qed.

Lemma odd_active : forall x, ss_is_active x = N.odd x.
Proof. intros [|[p|p|]]; reflexivity. Qed.

Lemma keyword_run : forall B e b s0 s1 w k kw a (Q : Token -> Lexer -> Prop) b',
  s1 = set_token_seen true (set_command_start false (set_lval None s0)) ->
  reserved_word w = Some kw -> keyword_token s0 w k -> ~ after_def (lex_state s0) ->
  lval_start s0 = None -> lval_end s0 = None -> Ready B b -> ptok b = a -> Fin b (a + List.length w) b' -> text_at B a w -> w <> [] ->
  (forall s' st, buffer s' = b' -> strterm s' = strterm s0 -> lex_state s' = st -> diagnostics s' = diagnostics s0 -> comments s' = comments s0 ->
     Q (mkToken k w (mkLoc a (a + List.length w))) s') ->
  wp e (ident_keyword kw) (fun t s'' => wp e (yytail t) Q s'') (NumRead.Sb s1 w b').
Proof.
  intros B e b s0 s1 w k kw a Q b' -> Hkw Hk Hdef L4 L5 HR Hpt HF HT Hne HQ.
  assert (Hpt' : ptok b' = a) by (destruct HF as [->|(_ & ->)]; exact Hpt).
  assert (HSub : b_substr_at b' a (a + List.length w) = Some w) by (eapply fin_substr; eauto).
  set (s1 := set_token_seen true (set_command_start false (set_lval None s0))).
  assert (HK : exists k0, In (w, k0) (kinds_table keyword_kinds)) by (eapply kw_all; eauto).
  destruct HK as (k0 & Hk0). pose proof kw_table_ok as KO. rewrite forallb_forall in KO. pose proof (KO _ Hk0) as K1. unfold kw_ok in K1. rewrite Hkw in K1.
  apply andb_prop in K1. destruct K1 as (K1 & K5). apply andb_prop in K1. destruct K1 as (K1 & K4). apply andb_prop in K1. destruct K1 as (K1 & K3).
  apply andb_prop in K1. destruct K1 as (K1 & K2). apply tok_eqb_true in K1, K2. apply negb_true_iff in K3, K4. apply Bool.eqb_prop in K5.
  unfold ident_keyword. ws. ws. change (lex_state (NumRead.Sb s1 w b')) with (lex_state s0).
  replace (ls_is_some (lex_state s0) EXPR_FNAME) with false.
  2: { symmetry. destruct (ls_is_some _ _) eqn:E; auto. apply -> is_def in E. contradiction. }
  ws. ws. ws.
  assert (HQ' : forall t s' , t = k -> tok_eqb t tNL = false -> buffer s' = b' -> strterm s' = strterm s0 -> diagnostics s' = diagnostics s0 -> comments s' = comments s0 ->
     lval s' = None -> lval_start s' = None -> lval_end s' = None -> wp e (yytail t) Q s').
  { intros t s' -> Ht E1 E2 E3 E4 E5 E6 E7. apply (tail_ok e k Q s' a (a + List.length w) w); auto.
    - rewrite E1. exact Hpt'.
    - rewrite E1. exact (fin_pcur _ _ _ HF).
    - right. rewrite E1. auto.
    - apply (HQ _ (lex_state s')); auto. }
  assert (Hafter : forall cs, cs = true \/ cs = false ->
    wp e (if tok_eqb (rw_id kw) kDO then
      s <- get ;;
      if is_lambda_beginning s then
        modify (set_lpar_beg (-1)%Z) ;;; ret kDO_LAMBDA
      else if ss_is_active (cond s) then ret kDO_COND
      else if ss_is_active (cmdarg s) && negb (ls_is_some (lex_state s0) EXPR_CMDARG) then ret kDO_BLOCK
      else ret kDO
    else if ls_is_some (lex_state s0) (N.lor EXPR_BEG EXPR_LABELED) then ret (rw_id kw)
    else
      when (negb (tok_eqb (rw_id kw) (rw_modifier_id kw))) (lex_state_set (N.lor EXPR_BEG EXPR_LABEL)) ;;;
      ret (rw_modifier_id kw)) (fun t s'' => wp e (yytail t) Q s'')
     (set_command_start cs (set_lex_state (rw_state kw) (NumRead.Sb s1 w b')))).
  { intros cs _. rewrite K5. destruct (bytes_eqb w (bs "do")) eqn:Edo.
    - apply bytes_eqb_eq in Edo. ws. ws. unfold is_lambda_beginning. cbn [lpar_beg paren_nest set_command_start set_lex_state NumRead.Sb set_tokenbuf set_buffer].
      change (lpar_beg s1) with (lpar_beg s0). change (paren_nest s1) with (paren_nest s0). rewrite !odd_active.
      change (cond (set_command_start cs (set_lex_state (rw_state kw) (NumRead.Sb s1 w b')))) with (cond s0).
      change (cmdarg (set_command_start cs (set_lex_state (rw_state kw) (NumRead.Sb s1 w b')))) with (cmdarg s0).
      change EXPR_CMDARG with (2 ^ b_cmdarg)%N. rewrite some_pow.
      assert (Hm : forall k', ~ In (w, k') (kinds_table modifier_kinds)).
      { intros k' Hm. rewrite Edo in Hm. vm_compute in Hm. intuition discriminate. }
      inversion Hk; subst; try contradiction.
      + exfalso. eapply Hm; eauto.
      + rewrite H, Z.eqb_refl. ws. ws. ws. apply HQ'; first [reflexivity|assumption].
      + replace (Z.eqb (lpar_beg s0) (paren_nest s0)) with false by (symmetry; apply Z.eqb_neq; assumption). rewrite H0. ws. apply HQ'; first [reflexivity|assumption].
      + replace (Z.eqb (lpar_beg s0) (paren_nest s0)) with false by (symmetry; apply Z.eqb_neq; assumption). rewrite H0, H1.
        unfold in_state in H2. destruct (N.testbit _ _); [congruence|]. cbn [negb andb]. ws. apply HQ'; first [reflexivity|assumption].
      + replace (Z.eqb (lpar_beg s0) (paren_nest s0)) with false by (symmetry; apply Z.eqb_neq; assumption). rewrite H0.
        replace (N.odd (cmdarg s0) && negb (N.testbit (lex_state s0) b_cmdarg)) with false by (destruct H1 as [-> | ->]; [reflexivity|rewrite andb_false_r; reflexivity]).
        ws. apply HQ'; first [reflexivity|assumption].
    - assert (Hnd : w <> bs "do") by (intros A; apply bytes_eqb_eq in A; congruence).
      pose proof (lookup_in modifier_kinds w) as LM.
      assert (Huniq : forall k1, In (w, k1) (kinds_table keyword_kinds) -> k1 = k0).
      { intros k1 H1. apply KO in H1. unfold kw_ok in H1. rewrite Hkw in H1. apply andb_prop in H1. destruct H1 as (H1 & _). apply andb_prop in H1. destruct H1 as (H1 & _).
        apply andb_prop in H1. destruct H1 as (H1 & _). apply andb_prop in H1. destruct H1 as (H1 & _). apply tok_eqb_true in H1. congruence. }
      destruct (ls_is_some (lex_state s0) (N.lor EXPR_BEG EXPR_LABELED)) eqn:ES.
      + apply -> is_start in ES. ws. apply HQ'; try first [reflexivity|assumption]; [|rewrite K1; exact K3].
        inversion Hk; subst; try contradiction. symmetry. auto.
      + assert (~ expr_start (lex_state s0)) by (intros A; apply is_start in A; congruence).
        assert (Hkk : rw_modifier_id kw = k).
        { inversion Hk; subst; try contradiction.
          - destruct (lookup_kind modifier_kinds w) as [k'|]; [exfalso; eapply H3; eauto|]. rewrite K2. symmetry. auto.
          - destruct (lookup_kind modifier_kinds w) as [k'|] eqn:EL; [|exfalso; eapply LM; eauto]. rewrite K2.
            assert (FF : NoDup (map fst (kinds_table modifier_kinds))). { vm_compute. repeat constructor; cbn; intuition discriminate. }
            clear - FF LM H0. set (l := kinds_table modifier_kinds) in *. clearbody l.
            induction l as [|[v kv] l IH]; [destruct LM|]. cbn in FF. inversion FF as [|? ? HNI HND]; subst. destruct LM as [LM|LM], H0 as [H0|H0].
            + congruence.
            + exfalso. injection LM as -> ->. apply HNI. apply in_map_iff. exists (w, k). auto.
            + exfalso. injection H0 as -> ->. apply HNI. apply in_map_iff. exists (w, k'). auto.
            + auto. }
        ws. apply wp_when; intros _.
        * ws. ws. apply HQ'; try first [reflexivity|assumption].
        * ws. apply HQ'; try first [reflexivity|assumption]. }
  apply wp_when; intros _.
  - ws. apply Hafter. auto.
  - apply (Hafter false). auto.
Qed.

(** C20.  Whenever a parser asks for a token, not behind [def] or a dot, and a reserved word comes next, the token is the
    reserved word: the kind that its position asks for, its text as value, exactly its extent. *)
Theorem C20_reserved_words : forall B n upper s p sp w sfx k,
  reached B n upper s -> strterm s = None -> upcoming (buffer s) p -> text_at B p (sp ++ w) -> spacing (buffer s) sp ->
  word w sfx -> word_ends B (p + List.length sp + List.length w) sfx -> keyword_token s w k ->
  ~ after_def (lex_state s) -> ~ after_dot (lex_state s) ->
  (label_allowed (lex_state s) (command_start s) -> ~ single_colon B (p + List.length sp + List.length w)) ->
  List.length B < n ->
  exists s' st, yylex (plain_env n upper) s =
      Ok (mkToken k w (mkLoc (p + List.length sp) (p + List.length sp + List.length w))) s' /\
    After B s s' (p + List.length sp + List.length w) st.
Proof.
  intros B n upper s p sp w sfx k HRe ST HU HT HS HW HE HK Hdef Hdot Hlab Hn.
  pose proof (reached_inv _ _ _ _ HRe) as HL. pose proof HL as [L1 L2 L3 (L4 & L5)].
  assert (Hkw : exists kw, reserved_word w = Some kw).
  { assert (exists k0, In (w, k0) (kinds_table keyword_kinds)).
    { destruct HK as [w k H|w k H|w k H| | | |]; eauto; [apply kw_mod_sub in H; exact H| | | |]; exists kDO; vm_compute; tauto. }
    destruct H as (k0 & H). pose proof kw_table_ok as KO. rewrite forallb_forall in KO. apply KO in H. unfold kw_ok in H. destruct (reserved_word w); [eauto|discriminate]. }
  destruct Hkw as (kw & Hkw).
  enough (HG : wp (plain_env n upper) yylex (fun t s' => t = mkToken k w (mkLoc (p + List.length sp) (p + List.length sp + List.length w)) /\ exists st, After B s s' (p + List.length sp + List.length w) st) s).
  { unfold wp in HG. destruct (yylex (plain_env n upper) s) as [t s'|m|]; try contradiction. destruct HG as (-> & st & HG). exists s', st. auto. }
  eapply (word_start B n upper s p sp w sfx); eauto.
  - intros ->. vm_compute in Hkw. discriminate.
  - intros A. apply -> is_def in A. contradiction.
  - intros b b' s1 Es HR HP HF HI HO. eapply (label_no B (plain_env n upper) b s1 HR); eauto.
    { intros A. apply -> is_label in A. apply Hlab. rewrite Es in A. exact A. }
    rewrite Hkw. replace (ls_is_some (lex_state s1) EXPR_DOT) with false.
    2: { symmetry. destruct (ls_is_some _ _) eqn:E; auto. apply -> is_dot in E. rewrite Es in E. contradiction. }
    cbn [negb]. cbv iota.
    assert (HTw : text_at B (p + List.length sp) w) by (apply text_at_app in HT; apply HT).
    assert (Hne : w <> []) by (destruct (word_first _ _ HW) as (c & r & -> & _); discriminate).
    eapply (keyword_run B (plain_env n upper) b s s1 w k kw (p + List.length sp)); eauto.
    intros s' st E1 E2 E3 E4 E5. split; auto. exists st. apply (after_ok B s s' b); auto; [rewrite E1; exact HF|rewrite E2; exact ST].
Qed.
Print Assumptions C20_reserved_words.

(** ** Names *)
Lemma capital_iff : forall n upper w, name w -> is_var_name (plain_env n upper) w = false <-> capital upper w.
Proof.
  intros n upper w [c r H _|u r H _].
  - unfold is_var_name, first_char. unfold letter in H. cbn [app]. replace (c <? 128)%N with true by lia. unfold char_is_uppercase. replace (c <? 128)%N with true by lia.
    unfold b_is_upper, in_range. split.
    + intros K. apply cap_ascii. lia.
    + intros K. assert (65 <= c <= 90)%N; [|lia]. inversion K as [c' w' H1|u w' cp H1 H2 H3 H4]; subst; [exact H1|]. exfalso. destruct H1; cbn in H4; injection H4; intros; unfold cont in *; lia.
  - assert (HG : forall cp, code_point u cp -> first_char (u ++ r) = Some cp /\ (128 <= cp)%N).
    { intros cp Hcp. destruct H as [a b H1 H2|a b c H1 H2 H3 H4 H5|a b c d H1 H2 H3 H4 H5 H6]; inversion Hcp; subst; cbn [app first_char]; unfold cont in *.
      - replace (a <? 128)%N with false by lia. replace (a <? 224)%N with true by lia. split; auto. lia.
      - replace (a <? 128)%N with false by lia. replace (a <? 224)%N with false by lia. replace (a <? 240)%N with true by lia. split; auto.
        destruct (N.eq_dec a 224); lia.
      - replace (a <? 128)%N with false by lia. replace (a <? 224)%N with false by lia. replace (a <? 240)%N with false by lia. split; auto.
        destruct (N.eq_dec a 240); lia. }
    assert (HC : exists cp, code_point u cp) by (destruct H; eexists; constructor).
    destruct HC as (cp & HC). destruct (HG cp HC) as (G1 & G2). unfold is_var_name. rewrite G1. unfold char_is_uppercase. replace (cp <? 128)%N with false by lia.
    cbn [plain_env upper_oracle]. split.
    + intros K. apply negb_false_iff in K. eapply cap_wide; eauto.
    + intros K. apply negb_false_iff. inversion K as [c' w' H1 H2|u' w' cp' H1 H2 H3 H4].
      * exfalso. destruct H; cbn in H2; injection H2; intros; lia.
      * assert (u' = u /\ w' = r) as (-> & ->).
        { clear - H H1 H4. destruct H, H1; cbn in H4; injection H4; intros; subst; unfold cont in *; try lia; auto. }
        destruct (HG cp' H2) as (G3 & _). congruence.
Qed.

(** The token of a name *)
Inductive name_token (upper : N -> bool) (w : list N) : bool -> Tok -> Prop :=
| nk_mark : name_token upper w true tFID
| nk_constant : capital upper w -> name_token upper w false tCONSTANT
| nk_identifier : ~ capital upper w -> name_token upper w false tIDENTIFIER.

(** The state behind a name; [cmd] tells that the name can begin a command *)
Inductive name_state (s : Lexer) (w : list N) (k : Tok) : LexState -> Prop :=
| ns_local : ~ after_dot (lex_state s) -> ~ after_def (lex_state s) -> k = tIDENTIFIER -> is_declared w (static_env s) = true ->
    name_state s w k (N.lor EXPR_END EXPR_LABEL)
| ns_arg : (k = tIDENTIFIER -> is_declared w (static_env s) = true -> after_dot (lex_state s) \/ after_def (lex_state s)) ->
    (exists i, In i [b_beg; b_mid; b_class; b_arg; b_cmdarg; b_dot] /\ in_state (lex_state s) i) ->
    name_state s w k (if command_start s then EXPR_CMDARG else EXPR_ARG)
| ns_def : (forall i, In i [b_beg; b_mid; b_class; b_arg; b_cmdarg; b_dot] -> ~ in_state (lex_state s) i) ->
    lex_state s = EXPR_FNAME -> name_state s w k EXPR_ENDFN
| ns_end : (k = tIDENTIFIER -> is_declared w (static_env s) = true -> after_dot (lex_state s) \/ after_def (lex_state s)) ->
    (forall i, In i [b_beg; b_mid; b_class; b_arg; b_cmdarg; b_dot] -> ~ in_state (lex_state s) i) ->
    lex_state s <> EXPR_FNAME -> name_state s w k EXPR_END.

Lemma word_valid : forall w sfx, word w sfx -> utf8_valid w = true.
Proof.
  intros w sfx [v Hv|v m Hv Hm]; destruct (name_split _ Hv) as (u & r & -> & Hu & Hr & _).
  - rewrite char_valid by auto. apply chars_valid. exact Hr.
  - rewrite <- app_assoc, char_valid by auto. clear - Hr Hm. induction Hr as [|u' w' H H1 IH].
    + cbn. replace (m <? 128)%N with true by lia. reflexivity.
    + rewrite <- app_assoc, char_valid by auto. exact IH.
Qed.

Lemma begs_iff : forall st, ls_is_some st (N.lor (N.lor EXPR_BEG_ANY EXPR_ARG_ANY) EXPR_DOT) = true <->
  exists i, In i [b_beg; b_mid; b_class; b_arg; b_cmdarg; b_dot] /\ in_state st i.
Proof.
  intros st. unfold EXPR_BEG_ANY, EXPR_ARG_ANY. rewrite !some_lor.
  change EXPR_BEG with (2 ^ b_beg)%N. change EXPR_MID with (2 ^ b_mid)%N. change EXPR_CLASS with (2 ^ b_class)%N.
  change EXPR_ARG with (2 ^ b_arg)%N. change EXPR_CMDARG with (2 ^ b_cmdarg)%N. change EXPR_DOT with (2 ^ b_dot)%N. rewrite !some_pow. unfold in_state. split.
  - intros H. repeat (apply orb_prop in H; destruct H as [H|H]); eexists; (split; [|exact H]); cbn; auto 10.
  - intros (i & Hi & H). cbn in Hi. destruct Hi as [<-|[<-|[<-|[<-|[<-|[<-|[]]]]]]]; rewrite H; rewrite ?orb_true_r; reflexivity.
Qed.

Lemma plain_run : forall B n upper b s0 s1 w sfx k a (Q : Token -> Lexer -> Prop) b',
  s1 = set_token_seen true (set_command_start false (set_lval None s0)) -> word w sfx -> name_token upper w sfx k ->
  lval_start s0 = None -> lval_end s0 = None -> Ready B b -> ptok b = a -> Fin b (a + List.length w) b' ->
  (forall s', buffer s' = b' -> strterm s' = strterm s0 -> name_state s0 w k (lex_state s') -> diagnostics s' = diagnostics s0 -> comments s' = comments s0 ->
     Q (mkToken k w (mkLoc a (a + List.length w))) s') ->
  wp (plain_env n upper) (ident_plain (if sfx then tFID else tCONSTANT) (lex_state s1) (command_start s0))
    (fun t s'' => wp (plain_env n upper) (yytail t) Q s'') (NumRead.Sb s1 w b').
Proof.
  intros B n upper b s0 s1 w sfx k a Q b' -> HW Hk L4 L5 HR Hpt HF HQ.
  assert (Hpt' : ptok b' = a) by (destruct HF as [->|(_ & ->)]; exact Hpt).
  set (e := plain_env n upper).
  set (s1 := set_token_seen true (set_command_start false (set_lval None s0))).
  unfold ident_plain. ws. ws. ws. unfold tokenize_ident. ws. ws. ws. ws. ws.
  set (s2 := set_lval _ _). change (tokenbuf s2) with w. rewrite (word_valid _ _ HW).
  ws. ws. ws. ws. cbn zeta.
  assert (HKr : (if tok_eqb (if sfx then tFID else tCONSTANT) tCONSTANT && is_var_name e w then tIDENTIFIER else if sfx then tFID else tCONSTANT) = k).
  { destruct Hk as [|H|H]; [reflexivity| |]; (assert (Hn : name w) by (inversion HW; auto)); pose proof (capital_iff n upper w Hn) as C; fold e in C.
    - apply C in H. rewrite H. reflexivity.
    - destruct (is_var_name e w); [reflexivity|]. exfalso. apply H, C. reflexivity. }
  change (lex_state s1) with (lex_state s0).
  rewrite HKr. 
  assert (HQ' : forall st, name_state s0 w k st -> wp e (yytail k) Q (set_lex_state st s2)).
  { intros st Hst. apply (tail_ok e k Q _ a (a + List.length w) w); auto.
    - destruct Hk; reflexivity.
    - exact (fin_pcur _ _ _ HF). }
  rewrite some_lor. set (st1 := if ls_is_some _ _ then _ else _) in s2.
  assert (Hst1 : (k = tIDENTIFIER -> is_declared w (static_env s0) = true -> after_dot (lex_state s0) \/ after_def (lex_state s0)) -> name_state s0 w k st1).
  { intros Hl. unfold st1. cbv beta. change (lex_state (NumRead.Sb s1 w b')) with (lex_state s0). 
    destruct (ls_is_some (lex_state s0) (N.lor (N.lor EXPR_BEG_ANY EXPR_ARG_ANY) EXPR_DOT)) eqn:E1.
    - apply ns_arg; auto. apply begs_iff. exact E1.
    - assert (HX : forall i, In i [b_beg; b_mid; b_class; b_arg; b_cmdarg; b_dot] -> ~ in_state (lex_state s0) i).
      { intros i Hi A. assert (ls_is_some (lex_state s0) (N.lor (N.lor EXPR_BEG_ANY EXPR_ARG_ANY) EXPR_DOT) = true) by (apply begs_iff; eauto). congruence. }
      unfold ls_is. destruct (N.eqb_spec (lex_state s0) EXPR_FNAME) as [E2|E2].
      + apply ns_def; auto.
      + apply ns_end; auto. }
  assert (Es2 : set_lex_state st1 s2 = s2) by reflexivity.
  destruct (negb (ls_is_some (lex_state s0) EXPR_DOT || ls_is_some (lex_state s0) EXPR_FNAME) && tok_eqb k tIDENTIFIER && is_lvar_defined s2 w) eqn:EL.
  - apply andb_prop in EL. destruct EL as (EL & EL3). apply andb_prop in EL. destruct EL as (EL1 & EL2). apply tok_eqb_true in EL2. apply negb_true_iff, orb_false_iff in EL1. destruct EL1 as (EL0 & EL1).
    cbn [when]. ws. ws. ws. apply HQ'. apply ns_local; auto.
    + intros A. apply is_dot in A. congruence.
    + intros A. apply is_def in A. congruence.
  - cbn [when]. ws. ws. ws. rewrite <- Es2. apply HQ'. apply Hst1. intros -> Hd. change (is_lvar_defined s2 w) with (is_declared w (static_env s0)) in EL. rewrite Hd in EL.
    change (tok_eqb tIDENTIFIER tIDENTIFIER) with true in EL. rewrite !andb_true_r in EL. apply negb_false_iff, orb_prop in EL.
    destruct EL as [EL|EL]; [left; apply is_dot; auto|right; apply is_def; auto].
Qed.

Theorem name_step : forall B n upper s p sp w sfx k,
  LInv B s -> strterm s = None -> upcoming (buffer s) p -> text_at B p (sp ++ w) -> spacing (buffer s) sp ->
  word w sfx -> word_ends B (p + List.length sp + List.length w) sfx ->
  w <> bs "__END__" -> ~ keyword w \/ after_dot (lex_state s) ->
  (after_def (lex_state s) -> nth_error B (p + List.length sp + List.length w) <> Some 61%N) ->
  (label_allowed (lex_state s) (command_start s) -> ~ single_colon B (p + List.length sp + List.length w)) ->
  name_token upper w sfx k -> List.length B < n ->
  exists s' st, yylex (plain_env n upper) s =
      Ok (mkToken k w (mkLoc (p + List.length sp) (p + List.length sp + List.length w))) s' /\
    After B s s' (p + List.length sp + List.length w) st /\ name_state s w k st.
Proof.
  intros B n upper s p sp w sfx k HL ST HU HT HS HW HE Hend Hkey Hdef Hlab HK Hn.
  pose proof HL as [L1 L2 L3 (L4 & L5)].
  enough (HG : wp (plain_env n upper) yylex (fun t s' => t = mkToken k w (mkLoc (p + List.length sp) (p + List.length sp + List.length w)) /\
    exists st, After B s s' (p + List.length sp + List.length w) st /\ name_state s w k st) s).
  { unfold wp in HG. destruct (yylex (plain_env n upper) s) as [t s'|m|]; try contradiction. destruct HG as (-> & st & HG). exists s', st. auto. }
  eapply (word_start B n upper s p sp w sfx); eauto.
  - intros A. apply -> is_def in A. auto.
  - intros b b' s1 Es HR HP HF HI HO. eapply (label_no B (plain_env n upper) b s1 HR); eauto.
    { intros A. apply -> is_label in A. apply Hlab. rewrite Es in A. exact A. }
    assert (HN : (if negb (ls_is_some (lex_state s1) EXPR_DOT) then reserved_word w else None) = None).
    { destruct (ls_is_some (lex_state s1) EXPR_DOT) eqn:ED; [reflexivity|]. cbn [negb]. destruct (reserved_word w) as [kw|] eqn:Ek; auto. exfalso.
      destruct Hkey as [Hkey|Hkey].
      - apply Hkey. apply reserved_word_is_keyword. eauto.
      - apply is_dot in Hkey. rewrite Es in ED. change (ls_is_some (lex_state s) EXPR_DOT = false) in ED. congruence. }
    rewrite HN.
    eapply (plain_run B n upper b s s1 w sfx k (p + List.length sp)); eauto.
    intros s' E1 E2 E3 E4 E5. split; auto. exists (lex_state s'). split; auto. apply (after_ok B s s' b); auto; [rewrite E1; exact HF|rewrite E2; exact ST].
Qed.

(** C20.  Whenever a parser asks for a token and a word comes next that is not reserved, or stands behind a dot, the token
    is the word: tFID with a mark, a constant if it starts with an upper case letter, else an identifier; its text as
    value, exactly its extent.  The state behind it is the one that Ruby prescribes. *)
Theorem C20_names : forall B n upper s p sp w sfx k,
  reached B n upper s -> strterm s = None -> upcoming (buffer s) p -> text_at B p (sp ++ w) -> spacing (buffer s) sp ->
  word w sfx -> word_ends B (p + List.length sp + List.length w) sfx ->
  w <> bs "__END__" -> ~ keyword w \/ after_dot (lex_state s) ->
  (after_def (lex_state s) -> nth_error B (p + List.length sp + List.length w) <> Some 61%N) ->
  (label_allowed (lex_state s) (command_start s) -> ~ single_colon B (p + List.length sp + List.length w)) ->
  name_token upper w sfx k -> List.length B < n ->
  exists s' st, yylex (plain_env n upper) s =
      Ok (mkToken k w (mkLoc (p + List.length sp) (p + List.length sp + List.length w))) s' /\
    After B s s' (p + List.length sp + List.length w) st /\ name_state s w k st.
Proof. intros. eapply name_step; eauto. eapply reached_inv; eauto. Qed.
Print Assumptions C20_names.

(** Behind [def] every reserved word is a name: a token with its kind, its text and the state behind a method name. *)
Theorem C20_method_names : forall B n upper s p sp w sfx k,
  reached B n upper s -> strterm s = None -> upcoming (buffer s) p -> text_at B p (sp ++ w) -> spacing (buffer s) sp ->
  word w sfx -> word_ends B (p + List.length sp + List.length w) sfx -> In (w, k) (kinds_table keyword_kinds) ->
  after_def (lex_state s) -> ~ after_dot (lex_state s) -> nth_error B (p + List.length sp + List.length w) <> Some 61%N ->
  (label_allowed (lex_state s) (command_start s) -> ~ single_colon B (p + List.length sp + List.length w)) ->
  List.length B < n ->
  exists s', yylex (plain_env n upper) s =
      Ok (mkToken k w (mkLoc (p + List.length sp) (p + List.length sp + List.length w))) s' /\
    After B s s' (p + List.length sp + List.length w) EXPR_ENDFN.
Proof.
  intros B n upper s p sp w sfx k HRe ST HU HT HS HW HE HK Hdef Hdot Heq Hlab Hn.
  pose proof (reached_inv _ _ _ _ HRe) as HL. pose proof HL as [L1 L2 L3 (L4 & L5)].
  pose proof kw_table_ok as KO. rewrite forallb_forall in KO. pose proof (KO _ HK) as K1. unfold kw_ok in K1.
  destruct (reserved_word w) as [kw|] eqn:Hkw; [|discriminate].
  apply andb_prop in K1. destruct K1 as (K1 & _). apply andb_prop in K1. destruct K1 as (K1 & _). apply andb_prop in K1. destruct K1 as (K1 & K3).
  apply andb_prop in K1. destruct K1 as (K1 & _). apply tok_eqb_true in K1. apply negb_true_iff in K3.
  enough (HG : wp (plain_env n upper) yylex (fun t s' => t = mkToken k w (mkLoc (p + List.length sp) (p + List.length sp + List.length w)) /\
    After B s s' (p + List.length sp + List.length w) EXPR_ENDFN) s).
  { unfold wp in HG. destruct (yylex (plain_env n upper) s) as [t s'|m|]; try contradiction. destruct HG as (-> & HG). exists s'. auto. }
  eapply (word_start B n upper s p sp w sfx); eauto.
  - intros ->. vm_compute in Hkw. discriminate.
  - intros b b' s1 Es HR HP HF HI HO. eapply (label_no B (plain_env n upper) b s1 HR); eauto.
    { intros A. apply -> is_label in A. apply Hlab. rewrite Es in A. exact A. }
    rewrite Hkw. replace (ls_is_some (lex_state s1) EXPR_DOT) with false.
    2: { symmetry. destruct (ls_is_some _ _) eqn:E; auto. apply -> is_dot in E. rewrite Es in E. contradiction. }
    cbn [negb]. cbv iota. unfold ident_keyword. ws. ws.
    replace (ls_is_some (lex_state (NumRead.Sb s1 w b')) EXPR_FNAME) with true by (symmetry; apply is_def; rewrite Es; exact Hdef).
    ws. ws. ws. ws. ws. rewrite K1.
    apply (tail_ok _ k _ _ (p + List.length sp) (p + List.length sp + List.length w) w).
    + rewrite Es. exact L4.
    + rewrite Es. exact L5.
    + exact K3.
    + change (ptok b' = p + List.length sp). destruct HF as [->|(_ & ->)]; exact HP.
    + exact (fin_pcur _ _ _ HF).
    + left. reflexivity.
    + split; auto. apply (after_ok B s _ b); auto; rewrite Es; auto.
Qed.
Print Assumptions C20_method_names.

(** C46.  Where a label can stand, a word followed by a single colon is a label: the word is the value, the colon belongs
    to the extent.  This holds for reserved words as well. *)
Theorem C46_labels : forall B n upper s p sp w sfx,
  reached B n upper s -> strterm s = None -> upcoming (buffer s) p -> text_at B p (sp ++ w) -> spacing (buffer s) sp ->
  word w sfx -> w <> bs "__END__" -> label_allowed (lex_state s) (command_start s) ->
  single_colon B (p + List.length sp + List.length w) -> List.length B < n ->
  exists s', yylex (plain_env n upper) s =
      Ok (mkToken tLABEL w (mkLoc (p + List.length sp) (p + List.length sp + List.length w + 1))) s' /\
    After B s s' (p + List.length sp + List.length w + 1) (N.lor EXPR_ARG EXPR_LABELED).
Proof.
  intros B n upper s p sp w sfx HRe ST HU HT HS HW Hend Hlab Hcol Hn.
  pose proof (reached_inv _ _ _ _ HRe) as HL. pose proof HL as [L1 L2 L3 (L4 & L5)]. pose proof Hcol as (Hc1 & Hc2).
  assert (HE : word_ends B (p + List.length sp + List.length w) sfx).
  { unfold word_ends. destruct sfx; [congruence|]. split; [|intros [A|A]; congruence]. intros c Hc. rewrite Hc1 in Hc. injection Hc as <-. unfold letter, digit. lia. }
  enough (HG : wp (plain_env n upper) yylex (fun t s' => t = mkToken tLABEL w (mkLoc (p + List.length sp) (p + List.length sp + List.length w + 1)) /\
    After B s s' (p + List.length sp + List.length w + 1) (N.lor EXPR_ARG EXPR_LABELED)) s).
  { unfold wp in HG. destruct (yylex (plain_env n upper) s) as [t s'|m|]; try contradiction. destruct HG as (-> & HG). exists s'. auto. }
  eapply (word_start B n upper s p sp w sfx); eauto.
  - congruence.
  - intros b b' s1 Es HR HP HF HI HO. eapply (label_yes B (plain_env n upper) b s1 HR); eauto.
    { apply is_label. rewrite Es. exact Hlab. }
    apply (tail_ok _ tLABEL _ _ (p + List.length sp) (p + List.length sp + List.length w + 1) w); try (rewrite Es; assumption); try reflexivity.
    + left. reflexivity.
    + split; auto. apply (after_ok B s _ b); try (rewrite Es; assumption); try reflexivity; auto.
      * left. reflexivity.
      * set (q := p + List.length sp + List.length w) in *. pose proof HI as (I1 & I2). pose proof (on_line B b HR q 58%N HI Hc1).
        assert (HX : InL B b (q + List.length [58%N])); [|exact HX].
        apply (inl_text B b HR); auto; try (cbn; intuition discriminate); [|cbn; lia].
        apply text_at_cons. split; auto. apply text_at_nil.
      * rewrite Es. reflexivity.
      * rewrite Es. reflexivity.
Qed.
Print Assumptions C46_labels.

(** ** Whole programs: a first line of names and numbers *)
Inductive word_line (upper : N -> bool) : nat -> list N -> list Token -> Prop :=
| wl_nil : forall p sp, Forall blank sp -> word_line upper p sp []
| wl_number : forall p sp w k rest toks, Forall blank sp -> number_literal w k ->
    (rest = [] \/ exists c r, rest = c :: r /\ blank c) ->
    word_line upper (p + List.length sp + List.length w) rest toks ->
    word_line upper p (sp ++ w ++ rest) (mkToken k w (mkLoc (p + List.length sp) (p + List.length sp + List.length w)) :: toks)
| wl_word : forall p sp w sfx k rest toks, Forall blank sp -> word w sfx -> ~ keyword w -> w <> bs "__END__" -> name_token upper w sfx k ->
    (rest = [] \/ exists c r, rest = c :: r /\ blank c) ->
    word_line upper (p + List.length sp + List.length w) rest toks ->
    word_line upper p (sp ++ w ++ rest) (mkToken k w (mkLoc (p + List.length sp) (p + List.length sp + List.length w)) :: toks).

Lemma name_kind : forall upper w sfx k, name_token upper w sfx k -> k <> END_OF_INPUT.
Proof. intros upper w sfx k H. destruct H; discriminate. Qed.

Lemma word_line_lexes : forall upper p text toks, word_line upper p text toks -> forall B n s,
  List.length B + 3 < n -> LInv B s -> strterm s = None -> text_at B p text ->
  (forall c, nth_error B (p + List.length text) = Some c -> c = 10%N) ->
  (text <> [] -> upcoming (buffer s) p) ->
  exists s', lexes (plain_env n upper) s toks s'.
Proof.
  intros upper p text toks H. induction H as [p sp HS|p sp w k rest toks HS HK Hr HN IH|p sp w sfx k rest toks HS HW Hkey Hend HK Hr HN IH]; intros B n s Hn HL ST HT HE HU.
  - exists s. constructor.
  - rewrite app_assoc in HT. apply text_at_app in HT. destruct HT as (HT1 & HT2).
    rewrite !app_length in HE. rewrite app_length in HT2. rewrite Nat.add_assoc in HT2.
    replace (p + (List.length sp + (List.length w + List.length rest))) with (p + List.length sp + List.length w + List.length rest) in HE by lia.
    set (q := p + List.length sp + List.length w) in *.
    assert (Hfirst : forall c, nth_error B q = Some c -> (c = 10 \/ blank c)%N).
    { intros c Hc. destruct Hr as [->|(c' & r & -> & Hc')].
      - left. apply HE. cbn [List.length]. rewrite Nat.add_0_r. exact Hc.
      - apply text_at_cons in HT2. destruct HT2 as (A & _). right. congruence. }
    destruct (number_step B n upper s p sp w k) as (s1 & Y & [A1 A2 A3 A4 A5 A6 A7]); auto.
    { apply HU. destruct (number_first _ _ HK) as (d & r & -> & _). destruct sp; discriminate. }
    { intros c Hc. apply Hfirst in Hc. unfold blank in Hc. split; [unfold name_byte; lia|lia]. }
    fold q in Y, A1, A2.
    destruct (IH B n s1) as (s' & HX); auto.
    + eapply step_inv; [exact HL|exact Y|exact (number_kind _ _ HK)].
    + intros Hne. apply A2.
      * destruct rest as [|c r]; [congruence|]. pose proof (text_at_len _ _ _ HT2 ltac:(discriminate)). cbn [List.length] in *. lia.
      * intros E. apply Hfirst in E. unfold blank in E. lia.
    + exists s'. econstructor; [exact Y|exact (number_kind _ _ HK)|exact HX].
  - rewrite app_assoc in HT. apply text_at_app in HT. destruct HT as (HT1 & HT2).
    rewrite !app_length in HE. rewrite app_length in HT2. rewrite Nat.add_assoc in HT2.
    replace (p + (List.length sp + (List.length w + List.length rest))) with (p + List.length sp + List.length w + List.length rest) in HE by lia.
    set (q := p + List.length sp + List.length w) in *.
    assert (Hfirst : forall c, nth_error B q = Some c -> (c = 10 \/ blank c)%N).
    { intros c Hc. destruct Hr as [->|(c' & r & -> & Hc')].
      - left. apply HE. cbn [List.length]. rewrite Nat.add_0_r. exact Hc.
      - apply text_at_cons in HT2. destruct HT2 as (A & _). right. congruence. }
    assert (Hno : forall c, (c = 10 \/ blank c)%N -> c <> 61%N /\ c <> 58%N /\ c <> 33%N /\ c <> 63%N /\ c <> 46%N /\ ~ letter c /\ ~ digit c /\ (c < 128)%N).
    { intros c Hc. unfold blank in Hc. unfold letter, digit. splits; lia. }
    destruct (name_step B n upper s p sp w sfx k) as (s1 & st & Y & [A1 A2 A3 A4 A5 A6 A7] & _); auto.
    { apply HU. destruct (word_first _ _ HW) as (d & r & -> & _). destruct sp; discriminate. }
    { fold q. unfold word_ends. destruct sfx.
      - intros A. apply Hfirst, Hno in A. tauto.
      - split; [intros c Hc; apply Hfirst, Hno in Hc; tauto|]. intros [A|A]; apply Hfirst, Hno in A; tauto. }
    { intros _ A. apply Hfirst, Hno in A. tauto. }
    { intros _ (A & _). apply Hfirst, Hno in A. tauto. }
    { lia. }
    fold q in Y, A1, A2.
    destruct (IH B n s1) as (s' & HX); auto.
    + eapply step_inv; [exact HL|exact Y|exact (name_kind _ _ _ _ HK)].
    + intros Hne. apply A2.
      * destruct rest as [|c r]; [congruence|]. pose proof (text_at_len _ _ _ HT2 ltac:(discriminate)). cbn [List.length] in *. lia.
      * intros E. apply Hfirst, Hno in E. tauto.
    + exists s'. econstructor; [exact Y|exact (name_kind _ _ _ _ HK)|exact HX].
Qed.

Lemma word_line_len : forall upper p text toks, word_line upper p text toks -> List.length toks <= List.length text.
Proof.
  intros upper p text toks H. induction H as [|p sp w k rest toks HS HK Hr HN IH|p sp w sfx k rest toks HS HW Hkey Hend HK Hr HN IH]; [cbn; lia| |].
  - rewrite !app_length. cbn [List.length]. destruct (number_first _ _ HK) as (d & r & -> & _). cbn [List.length]. lia.
  - rewrite !app_length. cbn [List.length]. destruct (word_first _ _ HW) as (d & r & -> & _). cbn [List.length]. lia.
Qed.

(** C18, C19, C20.  A program whose first line consists of number literals and words that are not reserved is lexed into
    exactly these, in order, whatever the other lines are.  (A first byte 239 could begin a byte order mark.) *)
Theorem C20_word_lines : forall text toks tail name n upper,
  word_line upper 0 text toks -> (tail = [] \/ exists r, tail = 10%N :: r) -> hd_error text <> Some 239%N -> enough (text ++ tail) <= n ->
  exists more s, run_lexer (text ++ tail) name (plain_env n upper) = Ok (toks ++ more) s.
Proof.
  intros text toks tail name n upper H Ht H239 Hn. pose proof (word_line_len _ _ _ _ H) as HLen.
  destruct toks as [|t toks].
  { destruct (run_fixed (text ++ tail) name upper) as (ts & s & R & _). exists ts, s. apply R. exact Hn. }
  assert (HF : exists x r, text ++ tail = x :: r /\ x <> 13%N /\ x <> 239%N).
  { assert (HF : exists x r, text = x :: r /\ x <> 13%N).
    { inversion H as [|p sp w k rest toks' HS HK Hr HN|p sp w sfx k rest toks' HS HW Hkey Hend HK Hr HN]; subst.
      - destruct sp as [|c sp].
        + destruct (number_first _ _ HK) as (d & r & -> & Hd & _). unfold dec in Hd. cbn. exists d. eexists. split; [reflexivity|lia].
        + inversion HS as [|c' sp' Hc HS']; subst. unfold blank in Hc. cbn. exists c. eexists. split; [reflexivity|lia].
      - destruct sp as [|c sp].
        + destruct (word_first _ _ HW) as (d & r & -> & Hd). unfold letter in Hd. cbn. exists d. eexists. split; [reflexivity|lia].
        + inversion HS as [|c' sp' Hc HS']; subst. unfold blank in Hc. cbn. exists c. eexists. split; [reflexivity|lia]. }
    destruct HF as (x & r & -> & HF). cbn in H239. exists x, (r ++ tail). splits; auto. congruence. }
  destruct HF as (x & r & HF & H13 & H239').
  destruct (start_reading (text ++ tail) (plain_env n upper) name x r HF H239') as (b & E1 & E2 & E3 & _ & E5).
  destruct (word_line_lexes _ _ _ _ H (text ++ tail) n (lexer_init b)) as (s' & HX).
  - unfold enough in Hn. lia.
  - destruct E2. constructor; auto; exact I.
  - reflexivity.
  - unfold text_at. cbn [skipn]. rewrite firstn_app, Nat.sub_diag. cbn. rewrite app_nil_r. apply firstn_all.
  - intros c Hc. cbn [Nat.add] in Hc. rewrite nth_error_app2, Nat.sub_diag in Hc by lia.
    destruct Ht as [->|(u & ->)]; cbn in Hc; congruence.
  - intros _. exact E3.
  - eapply run_prefix; eauto. unfold enough in Hn. rewrite app_length in Hn. lia.
Qed.
Print Assumptions C20_word_lines.

(** ** Examples *)
Lemma ascii_name : forall w, Forall (fun c => letter c \/ digit c) w -> name_tail w.
Proof. intros w H. induction H; constructor; auto. Qed.

Ltac ascii := apply ascii_name; repeat (apply Forall_cons; [unfold letter, digit; cbn; lia|]); apply Forall_nil.

(** Greek capital letter and a mark: a word with a wide character *)
Example C20_word : word (bs "x_" ++ [206; 148]%N ++ bs "1" ++ [63%N]) true.
Proof.
  apply (wd_mark (bs "x_" ++ [206; 148]%N ++ bs "1") 63%N); auto.
  apply (nm_ascii 120 (bs "_" ++ [206; 148]%N ++ bs "1")); [unfold letter; lia|].
  apply (nt_ascii 95 ([206; 148]%N ++ bs "1")); [left; unfold letter; lia|].
  apply (nt_wide [206; 148]%N (bs "1")); [constructor; unfold cont; lia|].
  ascii.
Qed.

Example C20_example :
  let src := bs "foo Bar 12 _x? baz!=1 if y.class then do_it end" ++ [10%N] ++ bs "def if; f(a: 1) rescue x" in
  option_map (fun r => map (fun t => (token_type t, token_value t, loc_begin (token_loc t), loc_end (token_loc t))) (fst r)) (lexed src) =
  Some [(tIDENTIFIER, bs "foo", 0, 3); (tCONSTANT, bs "Bar", 4, 7); (tINTEGER, bs "12", 8, 10); (tFID, bs "_x?", 11, 14);
        (tIDENTIFIER, bs "baz", 15, 18); (tNEQ, bs "!=", 18, 20); (tINTEGER, bs "1", 20, 21); (kIF_MOD, bs "if", 22, 24); (tIDENTIFIER, bs "y", 25, 26);
        (tDOT, bs ".", 26, 27); (tIDENTIFIER, bs "class", 27, 32); (kTHEN, bs "then", 33, 37); (tIDENTIFIER, bs "do_it", 38, 43);
        (kEND, bs "end", 44, 47); (tNL, [10%N], 47, 48); (kDEF, bs "def", 48, 51); (kIF, bs "if", 52, 54); (tSEMI, bs ";", 54, 55);
        (tIDENTIFIER, bs "f", 56, 57); (tLPAREN2, bs "(", 57, 58); (tLABEL, bs "a", 58, 60); (tINTEGER, bs "1", 61, 62); (tRPAREN, bs ")", 62, 63);
        (kRESCUE_MOD, bs "rescue", 64, 70); (tIDENTIFIER, bs "x", 71, 72)].
Proof. vm_compute. reflexivity. Qed.

Ltac reach_state src acts :=
  let ts := fresh "ts" in let c := fresh "c" in let m := fresh "m" in let E := fresh "E" in
  destruct (run_client src [] false acts (plain_env 200 (fun _ => false))) as [ts c|m|] eqn:E;
    [|vm_compute in E; discriminate|vm_compute in E; discriminate];
  exists (c_lexer c);
  assert (reached src 200 (fun _ => false) (c_lexer c)) by (exists [], false, acts, ts, c; splits; auto; vm_compute in E; injection E as <- <-; reflexivity);
  vm_compute in E; injection E as <- <-.

(** The hypotheses of the four theorems are met *)
Example C20_hypotheses_reserved :
  let src := bs "x = if y" in
  exists s, reached src 200 (fun _ => false) s /\ strterm s = None /\ upcoming (buffer s) 3 /\ text_at src 3 (bs " " ++ bs "if") /\
    word (bs "if") false /\ word_ends src 6 false /\ keyword_token s (bs "if") kIF /\ ~ after_def (lex_state s) /\ ~ after_dot (lex_state s) /\
    (label_allowed (lex_state s) (command_start s) -> ~ single_colon src 6).
Proof.
  set (src := bs "x = if y"). cbn zeta. reach_state src [PNext; PNext]. splits; auto; try reflexivity.
  - split; [reflexivity|]. left. splits; auto. cbn. lia.
  - apply wd_name. apply (nm_ascii 105 (bs "f")); [unfold letter; lia|]. ascii.
  - split; [intros c H1; vm_compute in H1; injection H1 as <-; unfold letter, digit; splits; lia|intros [A|A]; vm_compute in A; discriminate].
  - apply kt_start; [vm_compute; tauto|discriminate|left; reflexivity].
  - vm_compute. discriminate.
  - vm_compute. discriminate.
  - intros _ (A & _). vm_compute in A. discriminate.
Qed.

Example C20_hypotheses_names :
  let src := bs "x.class y" in
  exists s, reached src 200 (fun _ => false) s /\ strterm s = None /\ upcoming (buffer s) 2 /\ text_at src 2 ([] ++ bs "class") /\
    word (bs "class") false /\ word_ends src 7 false /\ after_dot (lex_state s) /\ ~ after_def (lex_state s) /\
    name_token (fun _ => false) (bs "class") false tIDENTIFIER.
Proof.
  set (src := bs "x.class y"). cbn zeta. reach_state src [PNext; PNext]. splits; auto; try reflexivity.
  - split; [reflexivity|]. left. splits; auto. cbn. lia.
  - apply wd_name. apply (nm_ascii 99 (bs "lass")); [unfold letter; lia|]. ascii.
  - split; [intros c H1; vm_compute in H1; injection H1 as <-; unfold letter, digit; splits; lia|intros [A|A]; vm_compute in A; discriminate].
  - vm_compute. discriminate.
  - apply nk_identifier. intros A. inversion A as [c w H1|u w cp H1 H2 H3 H4]; [cbn in H1; lia|discriminate H3].
Qed.

Example C46_hypotheses :
  let src := bs "f(if: 1)" in
  exists s, reached src 200 (fun _ => false) s /\ strterm s = None /\ upcoming (buffer s) 2 /\ text_at src 2 ([] ++ bs "if") /\
    label_allowed (lex_state s) (command_start s) /\ single_colon src 4.
Proof.
  set (src := bs "f(if: 1)"). cbn zeta. reach_state src [PNext; PNext]. splits; auto; try reflexivity.
  - split; [reflexivity|]. left. splits; auto. cbn. lia.
  - left. split; [left; reflexivity|reflexivity].
  - split; [reflexivity|vm_compute; discriminate].
Qed.
