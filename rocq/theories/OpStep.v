(** * Running the lexer over one operator *)
Require Import Verif.Base Verif.MaybeByteM Verif.InputM Verif.DiagnosticM Verif.BufferM Verif.TokensM Verif.LexStateM Verif.LexerM Verif.LexIdentM Verif.LexMainM
  Verif.SourceSpec Verif.SourceProofs Verif.Wp Verif.BufInv Verif.LexSpec Verif.NewlineInv Verif.ReadSpec Verif.YylexSpec Verif.Reach Verif.IdentSpec Verif.IdentRead Verif.IdentStep
  Verif.Prop_Ident Verif.OpSpec.
Require Import ZifyBool ZifyNat ZifyN.

(** The byte behind a text, as it is read: CR LF is read as LF *)
Definition next_is (B : list N) (z : nat) (c : MaybeByte) : Prop :=
  match nth_error B z with
  | None => c = None
  | Some x => if N.eqb x 13 then c = Some 13%N \/ c = Some 10%N else c = Some x
  end.

Lemma next_not : forall B z c y, next_is B z c -> (y <> 10 /\ y <> 13)%N -> nth_error B z <> Some y -> mbeq c y = false.
Proof.
  intros B z c y H (Y1 & Y2) Hy. unfold next_is in H. destruct (nth_error B z) as [x|]; [|subst c; reflexivity].
  destruct (N.eqb x 13) eqn:E.
  - destruct H as [-> | ->]; unfold mbeq; apply N.eqb_neq; auto.
  - subst c. unfold mbeq. destruct (N.eqb x y) eqn:F; auto. apply N.eqb_eq in F. congruence.
Qed.
Lemma next_space : forall B z c, next_is B z c -> (is_space c = true <-> spaced B z).
Proof.
  intros B z c H. unfold next_is, spaced in *. destruct (nth_error B z) as [x|].
  - destruct (N.eqb x 13) eqn:E.
    + apply N.eqb_eq in E. subst x. split; [intros _; exists 13%N; split; auto; lia|intros _]. destruct H as [-> | ->]; reflexivity.
    + subst c. unfold is_space, mb_test, b_is_space, in_range. split.
      * intros A. exists x. split; auto. lia.
      * intros (y & A1 & A2). injection A1 as <-. lia.
  - subst c. split; [discriminate|]. intros (y & A & _). discriminate.
Qed.
Lemma next_digit : forall B z c, next_is B z c -> (forall d, (48 <= d <= 57)%N -> nth_error B z <> Some d) -> is_digit c = false.
Proof.
  intros B z c H Hd. unfold next_is in H. destruct (nth_error B z) as [x|]; [|subst c; reflexivity].
  destruct (N.eqb x 13) eqn:E.
  - destruct H as [-> | ->]; reflexivity.
  - subst c. unfold is_digit, mb_test, b_is_digit, in_range. destruct ((48 <=? x)%N && (x <=? 57)%N) eqn:F; auto. exfalso. apply (Hd x); auto. lia.
Qed.

Definition Done (b : Buffer) (z : nat) (b' : Buffer) : Prop := b' = set_pcur z b \/ (z = pend b /\ b' = set_eofp true (set_pcur z b)).
Lemma done_pcur : forall b z b', Done b z b' -> pcur b' = z.
Proof. intros b z b' [-> |(_ & ->)]; reflexivity. Qed.
Lemma done_ptok : forall b z b', Done b z b' -> ptok b' = ptok b.
Proof. intros b z b' [-> |(_ & ->)]; reflexivity. Qed.
Lemma done_fin : forall b z b', Done b z b' -> Fin b z b'.
Proof. intros b z b' [H|(H1 & H2)]; [left|right]; auto. Qed.

Section Op.
  Variables (B : list N) (e : Env) (b : Buffer).
  Hypothesis HR : Ready B b.

  Lemma op_last : forall s z (Q : MaybeByte -> Lexer -> Prop), InL B b z -> buffer s = set_pcur z b ->
    (forall c b', next_is B z c -> (c <> None -> 1 <= pcur b') -> Done b z (back c b') ->
       (forall x, c = Some x -> x <> 10%N -> b' = set_pcur (z + 1) b) -> Q c (set_buffer b' s)) ->
    wp e nextc Q s.
  Proof using HR.
    intros s z Q HI Hb HQ. pose proof HR as (W & N1 & N2).
    destruct (Nat.lt_ge_cases z (pend b)) as [Hz|Hz].
    - destruct (bwf_byte B b z W Hz) as (x & Hx). destruct (N.eq_dec x 13) as [-> |H13].
      + unfold nextc, inb. apply wp_zoom. unfold wp. rewrite Hb.
        destruct (rd_follow B e b HR z (set_pcur z b) HI (or_introl eq_refl)) as (c & b' & H1 & H2 & H3 & H4 & H5 & H6).
        rewrite H1. apply HQ; auto.
        * unfold next_is. rewrite Hx. change (N.eqb 13 13) with true. cbv iota.
          assert (HC : c <> None).
          { intros ->. revert H1. unfold b_nextc, bind, get, modify, ret. cbn [pcur pend set_pcur eofp nextline]. rewrite N1, N2.
            replace (z =? pend b) with false by lia. cbn [orb negb Nat.eqb input set_pcur pcur]. rewrite (rd_at B b HR), Hx.
            cbn [N.eqb Pos.eqb]. destruct (parser_cr 13 e _); discriminate. }
          destruct H2 as [H2|[H2|(H2 & _)]]; [congruence|left; congruence|right; exact H2].
        * destruct H3 as [H3|([H3|H3] & H3')]; [left; auto|right; auto|exfalso]. rewrite (byte_at_B B) in H3 by exact W. congruence.
        * intros x -> Hx10. apply H5; congruence.
      + eapply (wp_nx B e b HR); eauto. apply HQ.
        * unfold next_is. rewrite Hx. replace (N.eqb x 13) with false by lia. reflexivity.
        * intros _. cbn. lia.
        * left. destruct (N.eq_dec x 10) as [-> |Hx10]; [|apply (back_byte B b HR); auto].
          unfold back. cbn [pcur set_pcur pbeg]. unfold byte_at. cbn [input set_pcur]. rewrite !(rd_at B b HR).
          replace (z + 1 - 1) with z by lia. rewrite Hx. destruct HI as (I1 & _ & I3).
          destruct ((pbeg b <? z) && mbeq (Some 10%N) 10%N && mbeq (nth_error B (z - 1)) 13%N) eqn:E; [exfalso|reflexivity].
          apply andb_prop in E. destruct E as (E & E3). apply andb_prop in E. destruct E as (E1 & _).
          rewrite mbeq_iff in E3. apply I3; [lia|exact E3|exact Hx].
        * auto.
    - destruct HI as (I1 & [I2|(I2 & I3)] & _); [lia|].
      destruct (line_last B _ I3) as (A & _). rewrite <- (w_pend B b W) in A.
      unfold nextc, inb. apply wp_zoom. unfold wp. rewrite Hb. rewrite (rd_eof B e b HR z); auto.
      2: { pose proof (w_last B b W). pose proof (w_count B b W). lia. }
      apply HQ.
      + unfold next_is. replace (nth_error B z) with (@None N); auto. symmetry. apply nth_error_None. lia.
      + congruence.
      + right. auto.
      + congruence.
  Qed.

  (** What is left behind when the bytes up to [z] make an operator *)
  Record OpPost (s1 : Lexer) (w : list N) (z : nat) (k : Tok) (st : N) (cmd : bool) (ds : list Diagnostic) (r : Step) (s' : Lexer) : Prop := mkOpPost {
    op_tok : r = Tk k; op_done : Done b z (buffer s'); op_state : lex_state s' = st; op_term : strterm s' = strterm s1;
    op_cmd : command_start s' = cmd;
    op_diags : diagnostics s' = diagnostics s1 ++ ds; op_comments : comments s' = comments s1;
    op_lval : lval s' = Some w \/ lval s' = None; op_start : lval_start s' = lval_start s1; op_end : lval_end s' = lval_end s1;
    op_nest : paren_nest s' = paren_nest s1 /\ brace_nest s' = brace_nest s1 /\ lpar_beg s' = lpar_beg s1;
    op_stacks : cond s' = cond s1 /\ cmdarg s' = cmdarg s1;
    op_scope : context s' = context s1 /\ static_env s' = static_env s1 }.
End Op.

(** ** Bits *)
Lemma bit_some : forall st k, ls_is_some st (2 ^ k)%N = true <-> in_state st k.
Proof. intros st k. rewrite some_pow. reflexivity. Qed.
Lemma name_bits : forall st, ls_is_after_operator st = true <-> name_place st.
Proof.
  intros st. unfold ls_is_after_operator. rewrite some_lor. change EXPR_FNAME with (2 ^ b_fname)%N. change EXPR_DOT with (2 ^ b_dot)%N.
  rewrite orb_true_iff, !bit_some. reflexivity.
Qed.
Lemma arg_bits : forall st, ls_is_arg st = true <-> argument_place st.
Proof.
  intros st. unfold ls_is_arg, EXPR_ARG_ANY. rewrite some_lor. change EXPR_ARG with (2 ^ b_arg)%N. change EXPR_CMDARG with (2 ^ b_cmdarg)%N.
  rewrite orb_true_iff, !bit_some. reflexivity.
Qed.
Lemma all_two : forall st j k, j <> k -> ls_is_all st (N.lor (2 ^ j) (2 ^ k)) = true <-> in_state st j /\ in_state st k.
Proof.
  intros st j k Hjk. unfold ls_is_all, in_state. rewrite N.eqb_eq. split.
  - intros H. assert (A : forall m, N.testbit (N.land st (N.lor (2 ^ j) (2 ^ k))) m = N.testbit (N.lor (2 ^ j) (2 ^ k)) m) by (intros; rewrite H; auto).
    split; [specialize (A j)|specialize (A k)]; rewrite N.land_spec, N.lor_spec, N.pow2_bits_true in A.
    + cbn [orb] in A. rewrite andb_true_r in A. exact A.
    + rewrite orb_true_r, andb_true_r in A. exact A.
  - intros (H1 & H2). apply N.bits_inj. intros m. rewrite N.land_spec, N.lor_spec.
    destruct (N.eq_dec m j) as [-> |E1]; [rewrite H1; reflexivity|]. destruct (N.eq_dec m k) as [-> |E2]; [rewrite H2; reflexivity|].
    rewrite !N.pow2_bits_false by auto. apply andb_false_r.
Qed.
Lemma value_bits : forall st, ls_is_beg st = true <-> value_place st.
Proof.
  intros st. unfold ls_is_beg, EXPR_BEG_ANY. rewrite !some_lor. change EXPR_BEG with (2 ^ b_beg)%N. change EXPR_MID with (2 ^ b_mid)%N.
  change EXPR_CLASS with (2 ^ b_class)%N. change EXPR_ARG with (2 ^ b_arg)%N. change EXPR_LABELED with (2 ^ b_labeled)%N.
  rewrite !orb_true_iff, !bit_some, all_two by discriminate. unfold value_place. tauto.
Qed.
