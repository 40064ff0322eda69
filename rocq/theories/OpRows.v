(** * Facts about the place of an operator *)
Require Import Verif.Base Verif.MaybeByteM Verif.InputM Verif.DiagnosticM Verif.BufferM Verif.TokensM Verif.LexStateM Verif.LexerM Verif.LexIdentM Verif.LexMainM
  Verif.SourceSpec Verif.SourceProofs Verif.Wp Verif.BufInv Verif.LexSpec Verif.NewlineInv Verif.ReadSpec Verif.YylexSpec Verif.Reach Verif.IdentSpec Verif.IdentRead Verif.IdentStep
  Verif.Prop_Ident Verif.OpSpec Verif.OpStep.
Require Import ZifyBool ZifyNat ZifyN.

Lemma bs_length : forall w, List.length (bs w) = String.length w.
Proof. induction w as [|a w IH]; cbn; auto. Qed.

(** Nothing longer stands there *)
Lemma longest_next : forall B q pl w y, longest B q pl w -> In (bs w ++ [y]) (map bs (texts pl)) -> nth_error B (q + String.length w) <> Some y.
Proof.
  intros B q pl w y (H1 & H2) HI A. apply in_map_iff in HI. destruct HI as (v & E & HI).
  assert (HL : List.length (bs v) = String.length w + 1) by (rewrite E, app_length, bs_length; reflexivity). rewrite bs_length in HL.
  assert (String.length v <= String.length w); [|lia]. apply H2; auto. rewrite E. apply text_at_app. split; auto.
  rewrite bs_length. apply text_at_cons. split; auto. apply text_at_nil.
Qed.

Lemma digits_next : forall B q pl w z c, longest B q pl w -> z = q + String.length w -> next_is B z c ->
  (forall d, In d [48; 49; 50; 51; 52; 53; 54; 55; 56; 57]%N -> In (bs w ++ [d]) (map bs (texts pl))) -> is_digit c = false.
Proof.
  intros B q pl w z c HL -> HN H. eapply next_digit; eauto. intros d Hd. apply (longest_next B q pl w); auto. apply H. cbn. lia.
Qed.

Section Rows.
  Variables (B : list N) (e : Env) (b : Buffer) (s1 : Lexer) (st : N) (sp cs seen : bool) (q z : nat) (w : string) (pl : Place).
  Hypothesis HR : Ready B b.
  Hypothesis Hq : ptok b = q.
  Hypothesis Hb : pbeg b <= q.
  Hypothesis Hst : lex_state s1 = st.
  Hypothesis HN : lval s1 = None.
  Hypothesis HC : command_start s1 = false.
  Hypothesis HL : longest B q pl w.
  Hypothesis Hz : z = q + String.length w.
  Hypothesis HF : z <= pend b.
  Hypothesis HI : InL B b z.
  Hypothesis HP : place B st sp z pl.

  Definition Good (k : Tok) (st' : N) (r : Step) (s' : Lexer) : Prop :=
    exists cmd ds, statement_behind st w cmd /\ warned B st sp q z w pl ds /\ OpPost b s1 (bs w) z k st' cmd ds r s'.
  Definition row_ok (x : N) (k : Tok) (st' : N) : Prop :=
    wp e (lex_char (Some x) cs sp seen st) (Good k st') (set_buffer (set_pcur (q + 1) b) s1).

  Lemma name_fact : ls_is_after_operator st = match pl with AtName => true | _ => false end.
  Proof using HP.
    clear - HP. destruct HP; try (apply name_bits; assumption); (destruct (ls_is_after_operator st) eqn:E; auto; exfalso; apply -> name_bits in E; auto).
  Qed.
  Lemma value_fact : ls_is_beg st = match pl with AtValue => true | _ => false end.
  Proof using HP.
    clear - HP. destruct HP; try (apply value_bits; assumption); (destruct (ls_is_beg st) eqn:E; auto; exfalso; apply -> value_bits in E; auto).
  Qed.
  Lemma beg_fact : pl <> AtValue -> ls_is_some st EXPR_BEG = false.
  Proof using HP.
    intros Hpl. pose proof value_fact as H. destruct (ls_is_some st EXPR_BEG) eqn:E; auto. exfalso. change EXPR_BEG with (2 ^ b_beg)%N in E. apply -> bit_some in E.
    assert (A : ls_is_beg st = true) by (apply value_bits; left; exact E). rewrite A in H. clear - H Hpl. destruct pl; congruence.
  Qed.
  Lemma space_fact : forall c, next_is B z c -> ls_is_spacearg st c sp = match pl with AtArgument => true | _ => false end.
  Proof using HP.
    intros c Hc. unfold ls_is_spacearg. pose proof (next_space B z c Hc) as HS. pose proof (arg_bits st) as HA. clear - HP HS HA.
    destruct HP as [H1 H2 H3|H1 H2 H3|H1 H2 H3 H4|H1 H2 H3 H4 H5 H6].
    - destruct (ls_is_arg st); auto. exfalso. apply H3, HA. reflexivity.
    - destruct (ls_is_arg st); auto. destruct H3 as [-> |H3]; [apply HA; reflexivity|reflexivity|]. apply HS in H3. rewrite H3. apply andb_false_r.
    - destruct (ls_is_arg st); auto. destruct H4 as [-> |H4]; [apply HA; reflexivity|reflexivity|]. apply HS in H4. rewrite H4. apply andb_false_r.
    - apply HA in H3. rewrite H3, H4. destruct (is_space c) eqn:E; auto. exfalso. apply H5, HS. reflexivity.
  Qed.
  Lemma class_fact : pl <> AtValue -> ls_is_some st EXPR_CLASS = false.
  Proof using HP.
    intros Hpl. pose proof value_fact as H. destruct (ls_is_some st EXPR_CLASS) eqn:E; auto. exfalso. change EXPR_CLASS with (2 ^ b_class)%N in E. apply -> bit_some in E.
    assert (A : ls_is_beg st = true) by (apply value_bits; right; right; left; exact E). rewrite A in H. clear - H Hpl. destruct pl; congruence.
  Qed.
  (** In front of an argument a byte follows that is not white space *)
  Lemma argument_next : forall c, pl = AtArgument -> next_is B z c -> exists x, c = Some x /\ x <> 10%N /\ x <> 13%N /\ nth_error B z = Some x.
  Proof using HP.
    clear - HP. intros c E Hc. inversion HP as [| | |A1 A2 A3 A4 A5 A6 A7]; try congruence. unfold next_is in Hc. destruct (nth_error B z) as [x|] eqn:Ex.
    2: { exfalso. apply nth_error_None in Ex. lia. }
    assert (Hx : ~ (x = 32 \/ 9 <= x <= 13)%N) by (intros K; apply A5; exists x; auto).
    exists x. destruct (N.eqb x 13) eqn:F; [exfalso; lia|]. splits; auto; lia.
  Qed.
  Lemma fitem_fact : pl = AtOperator -> ls_is_some st EXPR_FITEM = false.
  Proof using HP.
    intros E. destruct (ls_is_some st EXPR_FITEM) eqn:F; auto. exfalso. change EXPR_FITEM with (2 ^ b_fitem)%N in F. apply -> bit_some in F. clear - HP E F. destruct HP; try discriminate; auto.
  Qed.
  (** Whether the operator could be read in another way *)
  Lemma balanced_fact : forall c, next_is B z c ->
    negb (ls_is_some st (N.lor (N.lor (N.lor EXPR_CLASS EXPR_DOT) EXPR_FNAME) EXPR_ENDFN)) && (sp && negb (is_space c)) = true <->
    (~ in_state st b_class /\ ~ name_place st /\ ~ in_state st b_endfn) /\ sp = true /\ ~ spaced B z.
  Proof using.
    clear. intros c Hc. rewrite <- (next_space B z c Hc), !some_lor. change EXPR_CLASS with (2 ^ b_class)%N. change EXPR_DOT with (2 ^ b_dot)%N.
    change EXPR_FNAME with (2 ^ b_fname)%N. change EXPR_ENDFN with (2 ^ b_endfn)%N. unfold name_place. rewrite <- !bit_some.
    destruct (ls_is_some st (2 ^ b_class)%N), (ls_is_some st (2 ^ b_dot)%N), (ls_is_some st (2 ^ b_fname)%N), (ls_is_some st (2 ^ b_endfn)%N), sp, (is_space c); cbn; intuition congruence.
  Qed.
  Lemma wp_balanced : forall k op syn c s (Q : Tok -> Lexer -> Prop), next_is B z c ->
    ptok (buffer s) = q -> pcur (buffer s) = z -> op = name_in_warning w -> (pl = AtOperator -> other_reading w = Some syn) -> pl <> AtArgument -> pl <> AtValue ->
    (forall ds, warned B st sp q z w pl ds -> Q k (set_diagnostics (diagnostics s ++ ds) s)) ->
    wp e (warn_balanced k op syn c sp st) Q s.
  Proof using HP.
    clear HL. intros k op syn c s Q Hc H1 H2 H3 H4 H5 H5' HQ. unfold warn_balanced. ws.
    destruct (negb (ls_is_some st _) && (sp && negb (is_space c))) eqn:E.
    - apply -> (balanced_fact c Hc) in E. destruct E as ((E1 & E2 & E3) & E4 & E5).
      assert (pl = AtOperator). { destruct HP; auto; exfalso; auto. } specialize (H4 H).
      unfold when, warn0. ws. ws. unfold warn, emit. ws. ws. unfold current_loc. rewrite H1, H2, H3. apply HQ. rewrite H. apply wd_both; auto.
    - unfold when. ws. ws. specialize (HQ []). rewrite app_nil_r in HQ. replace (set_diagnostics (diagnostics s) s) with s in HQ by (destruct s; reflexivity).
      apply HQ. destruct pl; try congruence; try constructor.
      destruct (Bool.bool_dec sp true) as [Es|Es]; [|destruct sp; [congruence|auto]].
      destruct (is_space c) eqn:Ec; [right; right; left; apply (next_space B z c Hc); exact Ec|].
      right; right; right. change EXPR_ENDFN with (2 ^ b_endfn)%N. apply bit_some.
      destruct (ls_is_some st (2 ^ b_endfn)%N) eqn:F; auto. exfalso.
      assert (A : ~ in_state st b_class /\ ~ name_place st /\ ~ in_state st b_endfn).
      { inversion HP as [| |A1 A2 A3 A4|]. splits; auto.
        - intros A. apply A1. right; right; left; exact A.
        - intros A. apply bit_some in A. congruence. }
      assert (K : negb (ls_is_some st (N.lor (N.lor (N.lor EXPR_CLASS EXPR_DOT) EXPR_FNAME) EXPR_ENDFN)) && (sp && negb (is_space c)) = true).
      { apply (balanced_fact c Hc). splits; try apply A; auto. intros K. apply (next_space B z c Hc) in K. congruence. }
      congruence.
  Qed.
  (** *** Running *)
  Lemma done_state : forall k st' cmd ds s', statement_behind st w cmd -> warned B st sp q z w pl ds ->
    Done b z (buffer s') -> lex_state s' = st' -> strterm s' = strterm s1 -> command_start s' = cmd -> diagnostics s' = diagnostics s1 ++ ds ->
    comments s' = comments s1 -> (lval s' = Some (bs w) \/ lval s' = None) -> lval_start s' = lval_start s1 -> lval_end s' = lval_end s1 ->
    (paren_nest s' = paren_nest s1 /\ brace_nest s' = brace_nest s1 /\ lpar_beg s' = lpar_beg s1) ->
    (cond s' = cond s1 /\ cmdarg s' = cmdarg s1) -> (context s' = context s1 /\ static_env s' = static_env s1) ->
    Good k st' (Tk k) s'.
  Proof using. clear. intros. exists cmd, ds. splits; auto. constructor; auto. Qed.

  Lemma begin_fact : forall b', b' = set_pcur (q + 1) b -> In "=begin"%string (texts pl) -> String.length w < 6 -> nth_error B q = Some 61%N ->
    is_word_match b' (bs "begin") = false.
  Proof using HR HL.
    clear - HR HL. intros b' -> HT Hw Hx. destruct (is_word_match _ _) eqn:E; auto. exfalso. destruct HR as (W & _).
    assert (W' : text_at B (q + 1) (bs "begin")).
    { unfold is_word_match in E. cbn [pcur set_pcur] in E. destruct (opt_bytes_eqb _ _) eqn:E1; [|discriminate]. unfold opt_bytes_eqb in E1.
      destruct (b_substr_at _ _ _) as [x|] eqn:Ex; [|discriminate]. apply ScopeProofs.bytes_eqb_eq in E1. subst x.
      unfold b_substr_at, substr_at in Ex. destruct (_ && _); [|discriminate]. injection Ex as Ex.
      pose proof (w_bytes B b W) as Eb. unfold bytes in Eb. change (input (set_pcur (q + 1) b)) with (input b) in Ex. rewrite Eb in Ex.
      replace (q + 1 + 5 - (q + 1)) with 5 in Ex by lia. exact Ex. }
    destruct HL as (_ & H2). specialize (H2 "=begin"%string HT). cbn [String.length] in H2.
    assert (6 <= String.length w); [|lia]. apply H2. change (bs "=begin") with (61%N :: bs "begin"). apply text_at_cons. auto.
  Qed.

  (** The condition on the warning about an ampersand always holds *)
  Lemma ampersand_fact : forall c b', pl = AtArgument -> next_is B z c -> b' = set_pcur z b ->
    negb (mbeq c ":") || negb (is_eof (peekc_n b' 1)) || negb (mbeq (peekc_n b' 1) "'" || mbeq (peekc_n b' 1) """" || b_is_identchar b' (pcur b' + 1)) = true.
  Proof using HR HP HF HI.
    clear - HR HP HF HI. intros c b' Epl Hc ->. destruct (argument_next c Epl Hc) as (x & -> & X1 & X2 & X3).
    destruct (mbeq (Some x) ":") eqn:E; [|reflexivity]. apply -> mbeq_iff in E. injection E as ->. cbn [negb orb].
    destruct (is_eof (peekc_n (set_pcur z b) 1)) eqn:E; [|reflexivity]. cbn [negb orb].
    destruct (peekc_n (set_pcur z b) 1) as [y|] eqn:Ey; [discriminate|]. cbn [mbeq orb].
    unfold b_is_identchar. cbn [pcur set_pcur input]. rewrite (rd_at B b HR).
    replace (nth_error B (z + 1)) with (@None N); [reflexivity|]. symmetry. apply nth_error_None.
    pose proof HR as (W & N1 & N2). unfold peekc_n, is_eol_n in Ey. cbn [pcur set_pcur pend] in Ey.
    destruct (pend b <=? z + 1) eqn:Ep.
    - assert (Hzp : z < List.length B) by (apply nth_error_Some; congruence).
      destruct HI as (_ & [I2|(I2 & I3)] & _).
      + destruct (Nat.eq_dec (lastline b + 1) (NL B)) as [E2|E2].
        * destruct (line_last B _ E2) as (A & _). rewrite <- (w_pend B b W) in A. lia.
        * exfalso. pose proof (w_last B b W). pose proof (w_count B b W). destruct (line_newline B (lastline b)) as (_ & A & _); [lia|]. rewrite <- (w_pend B b W) in A.
          replace (pend b - 1) with z in A by lia. rewrite X3 in A. discriminate.
      + destruct (line_last B _ I3) as (A & _). rewrite <- (w_pend B b W) in A. lia.
    - exfalso. destruct (bwf_byte B b (z + 1) W) as (y & Hy); [lia|]. unfold byte_at in Ey. cbn [input set_pcur] in Ey. rewrite (rd_at B b HR) in Ey. congruence.
  Qed.
End Rows.

