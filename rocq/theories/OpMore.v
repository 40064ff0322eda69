(** * Shifts, dots, colons and other signs that need a rule of their own *)
Require Import Verif.Base Verif.MaybeByteM Verif.InputM Verif.DiagnosticM Verif.BufferM Verif.TokensM Verif.LexStateM Verif.ScopesM Verif.LexerM Verif.LexIdentM Verif.LexMainM
  Verif.SourceSpec Verif.SourceProofs Verif.Wp Verif.BufInv Verif.LexSpec Verif.NewlineInv Verif.ReadSpec Verif.YylexSpec Verif.Reach Verif.IdentSpec Verif.IdentRead Verif.IdentStep
  Verif.Prop_Ident Verif.OpSpec Verif.OpStep Verif.OpRows Verif.OpTable.
Require Import ZifyBool ZifyNat ZifyN.

(** ** Specification *)
(** An expression has ended *)
Definition end_place (st : N) : Prop := in_state st b_end \/ in_state st b_endarg \/ in_state st b_endfn.
(** No heredoc can begin here *)
Definition no_heredoc (st : N) (sp : bool) : Prop :=
  in_state st b_dot \/ in_state st b_class \/ end_place st \/ (argument_place st /\ ~ in_state st b_labeled /\ sp = false).
(** The warning about an operator set off in front but not behind *)
Definition set_off (B : list N) (st : N) (sp : bool) (z : nat) : Prop :=
  sp = true /\ ~ spaced B z /\ ~ in_state st b_class /\ ~ name_place st /\ ~ in_state st b_endfn.
Definition balance (B : list N) (st : N) (sp : bool) (q z : nat) (op syn : string) (ds : list Diagnostic) : Prop :=
  (set_off B st sp z /\ ds = [mkDiag Warning (AmbiguousOperator (bs op) (bs syn)) (mkLoc q z)]) \/ (~ set_off B st sp z /\ ds = []).
(** Flag of the context: in the parameters of a definition *)
Definition b_argdef : N := 2.
(** Only white space and a comment are left on the line *)
Inductive line_over (B : list N) : nat -> Prop :=
| lo_file : forall z, List.length B <= z -> line_over B z
| lo_line : forall z, nth_error B z = Some 10%N -> line_over B z
| lo_comment : forall z, nth_error B z = Some 35%N -> line_over B z
| lo_space : forall z c, nth_error B z = Some c -> In c [9; 12; 13; 32]%N -> line_over B (z + 1) -> line_over B z.
Definition dots_warning (B : list N) (s : Lexer) (q : nat) (ds : list Diagnostic) : Prop :=
  (paren_nest s = 0%Z /\ line_over B (q + 3) /\ ds = [mkDiag Warning TripleDotAtEol (mkLoc q (q + 3))]) \/
  (~ (paren_nest s = 0%Z /\ line_over B (q + 3)) /\ ds = []).
(** In the parameters of a lambda *)
Definition lambda_params (s : Lexer) : Prop := (0 <= lpar_beg s)%Z /\ (lpar_beg s + 1)%Z = paren_nest s /\ in_state (lex_state s) b_label.

(** [s] the lexer, [sp] whether white space precedes, [q] the place: text, kind, state behind, whether a statement can
    begin behind, warnings *)
Inductive sign (B : list N) (s : Lexer) (sp : bool) (q : nat) : string -> Tok -> N -> bool -> list Diagnostic -> Prop :=
| sg_shift : forall st' cmd ds, no_heredoc (lex_state s) sp -> nth_error B (q + 2) <> Some 61%N ->
    (name_place (lex_state s) -> st' = EXPR_ARG /\ cmd = false) ->
    (~ name_place (lex_state s) -> st' = EXPR_BEG /\ (cmd = true <-> in_state (lex_state s) b_class)) ->
    balance B (lex_state s) sp q (q + 2) "<<" "here document" ds ->
    sign B s sp q "<<" tLSHFT st' cmd ds
| sg_shift_assign : forall cmd, no_heredoc (lex_state s) sp ->
    (cmd = true <-> in_state (lex_state s) b_class /\ ~ name_place (lex_state s)) ->
    sign B s sp q "<<=" tOP_ASGN EXPR_BEG cmd []
| sg_dots_all : N.testbit (context s) b_argdef = true -> sign B s sp q "..." tBDOT3 EXPR_ENDARG false []
| sg_dots_open : forall ds, N.testbit (context s) b_argdef = false -> dots_warning B s q ds ->
    value_place (lex_state s) -> ~ lambda_params s -> sign B s sp q "..." tBDOT3 EXPR_BEG false ds
| sg_dots : forall ds, N.testbit (context s) b_argdef = false -> dots_warning B s q ds ->
    ~ value_place (lex_state s) \/ lambda_params s -> sign B s sp q "..." tDOT3 EXPR_BEG false ds
| sg_top : value_place (lex_state s) \/ (argument_place (lex_state s) /\ sp = true) ->
    sign B s sp q "::" tCOLON3 EXPR_BEG false []
| sg_scope : ~ value_place (lex_state s) -> ~ (argument_place (lex_state s) /\ sp = true) ->
    sign B s sp q "::" tCOLON2 EXPR_DOT false []
| sg_colon : forall ds, end_place (lex_state s) \/ spaced B (q + 1) \/ nth_error B (q + 1) = Some 35%N -> nth_error B (q + 1) <> Some 58%N ->
    balance B (lex_state s) sp q (q + 1) ":" "symbol literal" ds ->
    sign B s sp q ":" tCOLON EXPR_BEG false ds
| sg_symbol : ~ end_place (lex_state s) -> ~ spaced B (q + 1) -> ~ In (nth_error B (q + 1)) [Some 35; Some 58; Some 39; Some 34]%N ->
    sign B s sp q ":" tSYMBEG EXPR_FNAME false []
| sg_minus_value : forall d, value_place (lex_state s) -> ~ name_place (lex_state s) -> nth_error B (q + 1) = Some d -> (48 <= d <= 57)%N ->
    sign B s sp q "-" tUMINUS_NUM EXPR_BEG false []
| sg_minus_argument : forall d, argument_place (lex_state s) -> ~ value_place (lex_state s) -> ~ name_place (lex_state s) -> sp = true ->
    nth_error B (q + 1) = Some d -> (48 <= d <= 57)%N ->
    sign B s sp q "-" tUMINUS_NUM EXPR_BEG false [mkDiag Warning (AmbiguousFirstArgument 45) (mkLoc q (q + 1))]
| sg_bar : forall c, in_state (lex_state s) b_beg -> nth_error B (q + 1) = Some 124%N -> nth_error B (q + 2) = Some c -> c <> 61%N -> c <> 10%N -> c <> 13%N ->
    sign B s sp q "|" tPIPE EXPR_BEG false []
| sg_eh : end_place (lex_state s) -> sign B s sp q "?" tEH EXPR_BEG false [].

(** ** The lexer *)
Lemma end_bits : forall st, ls_is_end st = true <-> end_place st.
Proof.
  intros st. unfold ls_is_end, EXPR_END_ANY. rewrite !some_lor. change EXPR_END with (2 ^ b_end)%N. change EXPR_ENDARG with (2 ^ b_endarg)%N. change EXPR_ENDFN with (2 ^ b_endfn)%N.
  rewrite !orb_true_iff, !bit_some. unfold end_place. tauto.
Qed.
Lemma heredoc_bits : forall st sp, no_heredoc st sp ->
  negb (ls_is_some st (N.lor EXPR_DOT EXPR_CLASS)) && negb (ls_is_end st) && (negb (ls_is_arg st) || ls_is_some st EXPR_LABELED || sp) = false.
Proof.
  intros st sp H. rewrite some_lor. change EXPR_DOT with (2 ^ b_dot)%N. change EXPR_CLASS with (2 ^ b_class)%N. change EXPR_LABELED with (2 ^ b_labeled)%N.
  destruct H as [H|[H|[H|(H1 & H2 & ->)]]].
  - apply bit_some in H. rewrite H. reflexivity.
  - apply bit_some in H. rewrite H, orb_true_r. reflexivity.
  - apply end_bits in H. rewrite H, andb_false_r. reflexivity.
  - apply arg_bits in H1. rewrite H1. destruct (ls_is_some st (2 ^ b_labeled)%N) eqn:E; [exfalso; apply H2, bit_some; exact E|]. rewrite !andb_false_r. reflexivity.
Qed.
Lemma bool_false : forall (c : bool) (P : Prop), (c = true <-> P) -> ~ P -> c = false.
Proof. intros [] P H N; auto. exfalso. apply N, H. reflexivity. Qed.

Section Signs.
  Variables (B : list N) (e : Env) (b : Buffer) (s1 : Lexer) (sp cs seen : bool) (q z : nat).
  Hypothesis HR : Ready B b.
  Hypothesis Hq : ptok b = q.
  Hypothesis Hb : pbeg b <= q.
  Hypothesis HN : lval s1 = None.
  Hypothesis HC : command_start s1 = false.
  Hypothesis HF : z <= pend b.
  Hypothesis HI : InL B b z.
  Local Notation st := (lex_state s1).

  Lemma wp_balance : forall k op syn c s (Q : Tok -> Lexer -> Prop) ds, next_is B z c ->
    ptok (buffer s) = q -> pcur (buffer s) = z -> balance B st sp q z op syn ds -> Q k (set_diagnostics (diagnostics s ++ ds) s) ->
    wp e (warn_balanced k op syn c sp st) Q s.
  Proof using.
    clear. intros k op syn c s Q ds Hc H1 H2 HB HQ. unfold warn_balanced. ws.
    pose proof (balanced_fact B st sp z c Hc) as K.
    assert (K' : ((~ in_state st b_class /\ ~ name_place st /\ ~ in_state st b_endfn) /\ sp = true /\ ~ spaced B z) <-> set_off B st sp z) by (unfold set_off; tauto).
    destruct (negb (ls_is_some st _) && (sp && negb (is_space c))) eqn:E.
    - destruct HB as [(_ & ->)|(A & _)]; [|exfalso; apply A, K', K; reflexivity].
      unfold when, warn0. ws. ws. unfold warn, emit. ws. ws. unfold current_loc. rewrite H1, H2. exact HQ.
    - destruct HB as [(A & _)|(_ & ->)]; [exfalso; apply K', K in A; discriminate|].
      unfold when. ws. ws. rewrite app_nil_r in HQ. replace (set_diagnostics (diagnostics s) s) with s in HQ by (destruct s; reflexivity). exact HQ.
  Qed.

  Definition sign_ok (w : string) (x : N) (k : Tok) (st' : N) (cmd : bool) (ds : list Diagnostic) : Prop :=
    wp e (lex_char (Some x) cs sp seen st) (OpPost b s1 (bs w) z k st' cmd ds) (set_buffer (set_pcur (q + 1) b) s1).
End Signs.

Ltac fields := cbn [buffer set_buffer set_lex_state set_lval set_command_start set_diagnostics lex_state strterm lval lval_start lval_end paren_nest lpar_beg brace_nest cond cmdarg context command_start static_env diagnostics comments ptok pcur set_pcur].
Ltac post := constructor; fields; first [assumption | reflexivity | split; reflexivity | split; [reflexivity|split; reflexivity] | left; reflexivity | right; assumption | left; f_equal; pos_lia
  | rewrite app_nil_r; reflexivity | idtac].
Ltac go := first [ws | progress cbv beta zeta | lazymatch goal with
    | |- wp _ nextc _ _ => op_read
    | |- wp _ (pushback _) _ _ => op_push
    | |- wp _ (op_asgn _) _ _ => unfold op_asgn
    | |- wp _ (tk _) _ _ => unfold tk
    | |- wp _ (as_tk _) _ _ => unfold as_tk
    | |- wp _ (set_yylval_id _) _ _ => apply wp_modify
    | |- wp _ (modify _) _ _ => apply wp_modify
    end].
Ltac open T Hz :=
  match type of T with text_at ?B ?q ?w => let w' := eval vm_compute in w in change (text_at B q w') in T end;
  repeat match type of T with text_at _ _ (_ :: _) => apply text_at_cons in T; let A := fresh "TX" in destruct T as (A & T) end;
  cbn [String.length] in Hz; unfold sign_ok;
  cbv beta iota zeta delta [lex_char mbeq N.eqb Pos.eqb orb b_is_digit in_range N.leb N.compare Pos.compare Pos.compare_cont andb].

Lemma shift_ok : forall B e b s1 sp cs seen q z w k st' cmd ds,
  Ready B b -> ptok b = q -> pbeg b <= q -> lval s1 = None -> command_start s1 = false -> z <= pend b -> InL B b z ->
  z = q + String.length w -> text_at B q (bs w) -> (w = "<<" \/ w = "<<=")%string -> sign B s1 sp q w k st' cmd ds ->
  sign_ok e b s1 sp cs seen q z w 60 k st' cmd ds.
Proof.
  intros B e b s1 sp cs seen q z w k st' cmd ds HR Hq Hb HN HC HF HI Hz T Hw HS.
  destruct HS as [st' cmd ds H1 H2 H3 H4 H5|cmd H1 H2| | | | | | | | | | |]; try (destruct Hw; discriminate); clear Hw; open T Hz; pose proof (heredoc_bits _ _ H1) as HB;
    unfold lex_lt; repeat go; fields; (replace (mbeq (Some 60%N) "<" && _ && _ && _) with false by (symmetry; cbn [mbeq andb]; exact HB)); repeat go; fields;
    pose proof (name_bits (lex_state s1)) as NB; destruct (ls_is_after_operator (lex_state s1)).
  - destruct H3 as (-> & ->); [apply NB; reflexivity|]. repeat go.
    change (mbeq (Some 60%N) "=") with false. change (mbeq (Some 60%N) "<") with true. cbv iota. repeat go.
    rewrite (next_not B z c 61 NX) by (try (split; discriminate); rewrite Hz; exact H2). repeat go.
    eapply (wp_balance B e s1 sp q z); eauto; fields; [rewrite (done_ptok _ _ _ DN); exact Hq|rewrite (done_pcur _ _ _ DN); reflexivity|rewrite Hz; exact H5|]. repeat go. post.
  - destruct H4 as (-> & Hcmd); [intros A; apply NB in A; discriminate|].
    pose proof (bit_some (lex_state s1) b_class) as CB. change (2 ^ b_class)%N with EXPR_CLASS in CB. destruct (ls_is_some (lex_state s1) EXPR_CLASS); unfold when; repeat go.
    all: change (mbeq (Some 60%N) "=") with false; change (mbeq (Some 60%N) "<") with true; cbv iota; repeat go.
    all: rewrite (next_not B z c 61 NX) by (try (split; discriminate); rewrite Hz; exact H2); repeat go.
    all: eapply (wp_balance B e s1 sp q z); eauto; fields; [rewrite (done_ptok _ _ _ DN); exact Hq|rewrite (done_pcur _ _ _ DN); reflexivity|rewrite Hz; exact H5|]; repeat go; post.
    + symmetry. apply Hcmd, CB. reflexivity.
    + rewrite HC. symmetry. apply (bool_false _ _ Hcmd). intros A. apply CB in A. discriminate.
  - repeat go. change (mbeq (Some 60%N) "=") with false. change (mbeq (Some 60%N) "<") with true. cbv iota. repeat go. change (mbeq (Some 61%N) "=") with true. cbv iota. repeat go.
    post. rewrite HC. symmetry. apply (bool_false _ _ H2). intros (_ & A). apply A, NB. reflexivity.
  - pose proof (bit_some (lex_state s1) b_class) as CB. change (2 ^ b_class)%N with EXPR_CLASS in CB. destruct (ls_is_some (lex_state s1) EXPR_CLASS); unfold when; repeat go.
    all: change (mbeq (Some 60%N) "=") with false; change (mbeq (Some 60%N) "<") with true; cbv iota; repeat go; change (mbeq (Some 61%N) "=") with true; cbv iota; repeat go; post.
    + symmetry. apply H2. split; [apply CB; reflexivity|]. intros A. apply NB in A. discriminate.
    + rewrite HC. symmetry. apply (bool_false _ _ H2). intros (A & _). apply CB in A. discriminate.
Qed.

Lemma argdef_bit : forall c, ctx_get IN_ARGDEF c = N.testbit c b_argdef.
Proof. intros c. exact (some_pow c b_argdef). Qed.

Lemma eol_iff : forall B b n z, Ready B b -> (z < pend b \/ (z = pend b /\ lastline b + 1 = NL B)) -> n = pend b - z ->
  looking_at_eol_from b n z = true <-> line_over B z.
Proof.
  intros B b n. induction n as [|n IH]; intros z HR HI Hn; pose proof HR as (W & _ & _).
  - cbn. split; auto. intros _. destruct HI as [I2|(I2 & I3)]; [lia|].
    destruct (line_last B _ I3) as (A & _). rewrite <- (w_pend B b W) in A. apply lo_file. lia.
  - destruct (bwf_byte B b z W ltac:(lia)) as (c & Hc).
    cbn [looking_at_eol_from]. rewrite (rd_at B b HR), Hc. cbv zeta.
    destruct (N.eqb c 10 || N.eqb c 35) eqn:E; cbn [orb].
    + split; auto. intros _. assert (c = 10 \/ c = 35)%N as [-> | ->] by lia; [apply lo_line|apply lo_comment]; auto.
    + destruct (b_is_ascii_whitespace c) eqn:F; cbn [negb].
      * assert (FI : In c [9; 12; 13; 32]%N) by (unfold b_is_ascii_whitespace in F; cbn; lia).
        rewrite (IH (z + 1)); auto; [|clear IH|lia].
        -- split; intros A; [eapply lo_space; eauto|]. inversion A as [? A1|? A1|? A1|? c' A1 A2 A3]; subst; auto.
           ++ apply nth_error_None in A1. congruence.
           ++ rewrite Hc in A1. injection A1 as ->. discriminate.
           ++ rewrite Hc in A1. injection A1 as ->. discriminate.
        -- destruct (Nat.lt_ge_cases (z + 1) (pend b)) as [A|A]; [left; auto|right]. assert (z + 1 = pend b) by lia. split; auto.
           destruct (Nat.eq_dec (lastline b + 1) (NL B)) as [E2|E2]; auto. exfalso. pose proof (w_last B b W). pose proof (w_count B b W).
           destruct (line_newline B (lastline b)) as (_ & A' & _); [lia|]. rewrite <- (w_pend B b W) in A'. replace (pend b - 1) with z in A' by lia. rewrite Hc in A'. injection A' as ->. discriminate.
      * split; [discriminate|]. intros A. exfalso. inversion A as [? A1|? A1|? A1|? c' A1 A2 A3]; subst.
        -- apply nth_error_None in A1. congruence.
        -- rewrite Hc in A1. injection A1 as ->. discriminate.
        -- rewrite Hc in A1. injection A1 as ->. discriminate.
        -- rewrite Hc in A1. injection A1 as ->. unfold b_is_ascii_whitespace in F. cbn in A2. lia.
Qed.
Lemma looking_iff : forall B b z, Ready B b -> InL B b z -> is_looking_at_eol (set_pcur z b) = true <-> line_over B z.
Proof.
  intros B b z HR HI. rewrite <- (eol_iff B b (pend b - z) z HR); [|apply HI|reflexivity]. unfold is_looking_at_eol. cbn [pcur pend set_pcur].
  enough (H : forall n p, looking_at_eol_from (set_pcur z b) n p = looking_at_eol_from b n p) by (rewrite H; reflexivity).
  induction n as [|n IH]; intros p; cbn [looking_at_eol_from]; auto. rewrite !IH. reflexivity.
Qed.

Lemma dots_ok : forall B e b s1 sp cs seen q z k st' cmd ds,
  Ready B b -> ptok b = q -> pbeg b <= q -> lval s1 = None -> command_start s1 = false -> z <= pend b -> InL B b z ->
  z = q + 3 -> text_at B q (bs "...") -> sign B s1 sp q "..." k st' cmd ds -> sign_ok e b s1 sp cs seen q z "..." 46 k st' cmd ds.
Proof.
  intros B e b s1 sp cs seen q z k st' cmd ds HR Hq Hb HN HC HF HI Hz T HS.
  assert (HD : dots_warning B s1 q ds /\ N.testbit (context s1) b_argdef = false /\ st' = EXPR_BEG /\ cmd = false /\
               (value_place (lex_state s1) /\ ~ lambda_params s1 /\ k = tBDOT3 \/ (~ value_place (lex_state s1) \/ lambda_params s1) /\ k = tDOT3) \/
               N.testbit (context s1) b_argdef = true /\ k = tBDOT3 /\ st' = EXPR_ENDARG /\ cmd = false /\ ds = []).
  { inversion HS; auto 10. }
  clear HS. open T Hz. unfold lex_dot. repeat go. fields. change (mbeq (Some 46%N) ".") with true. cbv iota. repeat go. change (mbeq (Some 46%N) ".") with true. cbv iota. repeat go. fields.
  rewrite argdef_bit. destruct HD as [(H1 & H2 & -> & -> & H3)|(H1 & -> & -> & -> & ->)]; [rewrite H2|rewrite H1; repeat go; post].
  assert (HB : forall t, t = ls_is_beg (lex_state s1) -> k = (if t then tBDOT3 else tDOT3) \/ (lambda_params s1 /\ k = tDOT3)).
  { intros t ->. pose proof (value_bits (lex_state s1)) as VB. destruct H3 as [(A1 & A2 & ->)|([A1|A1] & ->)]; auto.
    - left. apply VB in A1. rewrite A1. reflexivity.
    - left. destruct (ls_is_beg (lex_state s1)); auto. exfalso. apply A1, VB. reflexivity. }
  replace (q + 1 + 1 + 1) with z by lia. pose proof (looking_iff B b z HR HI) as HE. unfold dots_warning in H1. replace (q + 3) with z in H1 by lia.
  destruct (Z.eqb (paren_nest s1) 0 && is_looking_at_eol (set_pcur z b)) eqn:E.
  - apply andb_prop in E. destruct E as (E1 & E2). destruct H1 as [(_ & _ & H1)|(H1 & _)]; [|exfalso; apply H1; split; [lia|apply HE; exact E2]].
    unfold warn0. repeat go. unfold warn, emit. repeat go. subst ds. post.
    + f_equal. destruct (HB _ eq_refl) as [A|((A1 & A2 & A3) & A4)]; [symmetry; exact A|exfalso; lia].
    + unfold current_loc. fields. rewrite Hq. reflexivity.
  - destruct H1 as [(H1 & H4 & _)|(_ & ->)]; [exfalso; apply HE in H4; rewrite H4 in E; lia|].
    pose proof (bit_some (lex_state s1) b_label) as LB. change (2 ^ b_label)%N with EXPR_LABEL in LB.
    destruct (Z.leb 0 (lpar_beg s1) && Z.eqb (lpar_beg s1 + 1) (paren_nest s1) && ls_is_some (lex_state s1) EXPR_LABEL) eqn:F.
    + repeat go. post. f_equal. apply andb_prop in F. destruct F as (F1 & F2). assert (lambda_params s1) by (unfold lambda_params; rewrite <- LB; splits; auto; lia).
      destruct H3 as [(_ & A & _)|(_ & A)]; auto. contradiction.
    + repeat go. post. f_equal. destruct (HB _ eq_refl) as [A|((A1 & A2 & A3) & A4)]; [symmetry; exact A|exfalso].
      apply LB in A3. rewrite A3 in F. lia.
Qed.

Lemma colon_ok : forall B e b s1 sp cs seen q z w k st' cmd ds,
  Ready B b -> ptok b = q -> pbeg b <= q -> lval s1 = None -> command_start s1 = false -> z <= pend b -> InL B b z ->
  z = q + String.length w -> text_at B q (bs w) -> (w = "::" \/ w = ":")%string -> sign B s1 sp q w k st' cmd ds ->
  sign_ok e b s1 sp cs seen q z w 58 k st' cmd ds.
Proof.
  intros B e b s1 sp cs seen q z w k st' cmd ds HR Hq Hb HN HC HF HI Hz T Hw HS.
  pose proof (value_bits (lex_state s1)) as VB. pose proof (arg_bits (lex_state s1)) as AB. pose proof (end_bits (lex_state s1)) as EB.
  assert (CV : ls_is_some (lex_state s1) EXPR_CLASS = true -> ls_is_beg (lex_state s1) = true).
  { intros A. apply value_bits. right; right; left. apply (bit_some _ b_class). exact A. }
  inversion HS as [| | | | |H1|H1 H2|? H1 H2 H3|H1 H2 H3| | | |]; subst w k st' cmd ds; try (destruct Hw; discriminate); clear Hw HS; open T Hz; unfold lex_colon; repeat go; fields.
  - change (mbeq (Some 58%N) ":") with true. cbv iota. replace (ls_is_beg _ || _ || _) with true; [repeat go; post|].
    symmetry. destruct H1 as [H1|(H1 & ->)].
    + apply VB in H1. rewrite H1. reflexivity.
    + apply AB in H1. unfold ls_is_spacearg. rewrite H1. cbn. apply orb_true_r.
  - change (mbeq (Some 58%N) ":") with true. cbv iota. replace (ls_is_beg _ || _ || _) with false; [repeat go; post|].
    symmetry. apply orb_false_iff. split; [apply orb_false_iff; split|].
    + apply (bool_false _ _ VB H1).
    + destruct (ls_is_some (lex_state s1) EXPR_CLASS); auto. exfalso. apply H1, VB, CV. reflexivity.
    + unfold ls_is_spacearg. destruct (ls_is_arg (lex_state s1)); auto. destruct sp; auto. exfalso. apply H2. split; auto. apply AB. reflexivity.
  - rewrite (next_not B z c 58 NX) by (try (split; discriminate); rewrite Hz; exact H2). 
    replace (ls_is_end _ || _ || _) with true.
    2: { symmetry. destruct H1 as [H1|[H1|H1]].
         - apply EB in H1. rewrite H1. reflexivity.
         - rewrite <- Hz in H1. apply (next_space B z c NX) in H1. rewrite H1, orb_true_r. reflexivity.
         - rewrite <- Hz in H1. unfold next_is in NX. rewrite H1 in NX. cbn in NX. subst c. cbn. apply orb_true_r. }
    repeat go. eapply (wp_balance B e s1 sp q z); eauto; fields; [rewrite (done_ptok _ _ _ DN); exact Hq|rewrite (done_pcur _ _ _ DN); reflexivity|rewrite Hz; exact H3|]. repeat go. post.
  - assert (NQ : forall y, In y [35; 58; 39; 34]%N -> mbeq c y = false).
    { intros y Hy. apply (next_not B z c y NX); [cbn in Hy; lia|]. intros A. apply H3. rewrite <- Hz, A. cbn in Hy |- *. intuition congruence. }
    rewrite (NQ 58%N) by (cbn; auto). rewrite (bool_false _ _ EB H1). rewrite (bool_false _ _ (next_space B z c NX)) by (rewrite Hz; exact H2).
    rewrite (NQ 35%N), (NQ 39%N), (NQ 34%N) by (cbn; auto). cbn [orb]. repeat go. post.
Qed.

Lemma minus_num_ok : forall B e b s1 sp cs seen q z k st' cmd ds,
  Ready B b -> ptok b = q -> pbeg b <= q -> lval s1 = None -> command_start s1 = false -> z <= pend b -> InL B b z ->
  z = q + 1 -> text_at B q (bs "-") -> sign B s1 sp q "-" k st' cmd ds -> sign_ok e b s1 sp cs seen q z "-" 45 k st' cmd ds.
Proof.
  intros B e b s1 sp cs seen q z k st' cmd ds HR Hq Hb HN HC HF HI Hz T HS.
  pose proof (value_bits (lex_state s1)) as VB. pose proof (arg_bits (lex_state s1)) as AB. pose proof (name_bits (lex_state s1)) as NB.
  assert (HD : forall d, nth_error B (q + 1) = Some d -> (48 <= d <= 57)%N -> next_is B z (Some d) /\ is_digit (Some d) = true /\ is_space (Some d) = false /\ mbeq (Some d) 61%N = false /\ mbeq (Some d) 62%N = false).
  { intros d H1 H2. rewrite <- Hz in H1. unfold next_is. rewrite H1. replace (d =? 13)%N with false by lia. unfold is_digit, is_space, mb_test, b_is_digit, b_is_space, in_range, mbeq. splits; auto; lia. }
  inversion HS as [| | | | | | | | |d H1 H2 H3 H4|d H1 H2 H3 H4 H5 H6| |]; subst k st' cmd ds; clear HS; open T Hz; unfold lex_minus; repeat go; fields.
  - destruct (HD d H3 H4) as (D1 & D2 & D3 & D4 & D5). assert (c = Some d) by (unfold next_is in NX, D1; rewrite Hz, H3 in *; destruct (d =? 13)%N eqn:E; [lia|congruence]). subst c.
    rewrite (bool_false _ _ NB H2). rewrite D4, D5. repeat go. unfold unary_sign. repeat go. fields. apply VB in H1. rewrite H1. repeat go. rewrite D2. cbn [is_eof negb andb]. repeat go. post.
  - destruct (HD d H5 H6) as (D1 & D2 & D3 & D4 & D5). assert (c = Some d) by (unfold next_is in NX, D1; rewrite Hz, H5 in *; destruct (d =? 13)%N eqn:E; [lia|congruence]). subst c.
    rewrite (bool_false _ _ NB H3). rewrite D4, D5. repeat go. unfold unary_sign. repeat go. fields. rewrite (bool_false _ _ VB H2). subst sp.
    unfold ls_is_spacearg. apply AB in H1. rewrite H1, D3. cbn [andb negb]. repeat go. unfold arg_ambiguous.
    match goal with |- wp _ (adjust_end_m1 (current_loc ?s)) _ _ => replace (current_loc s) with (mkLoc q (z + 1)) by (unfold current_loc; fields; rewrite (AD d eq_refl) by lia; fields; rewrite Hq; reflexivity) end.
    unfold adjust_end_m1. cbn [loc_begin loc_end]. apply wp_bind, wp_sub_ck; [lia|]. replace (z + 1 - 1) with z by lia. repeat go. change (45 =? 47)%N with false. cbv iota. unfold warn, emit. repeat go. rewrite D2. cbn [is_eof negb andb]. repeat go. post.
    rewrite Hz. reflexivity.
Qed.

Lemma bar_ok : forall B e b s1 sp cs seen q z k st' cmd ds,
  Ready B b -> ptok b = q -> pbeg b <= q -> lval s1 = None -> command_start s1 = false -> z <= pend b -> InL B b z ->
  z = q + 1 -> text_at B q (bs "|") -> sign B s1 sp q "|" k st' cmd ds -> sign_ok e b s1 sp cs seen q z "|" 124 k st' cmd ds.
Proof.
  intros B e b s1 sp cs seen q z k st' cmd ds HR Hq Hb HN HC HF HI Hz T HS.
  inversion HS as [| | | | | | | | | | |c H1 H2 H3 H4 H5 H6|]; subst k st' cmd ds; clear HS. open T Hz. unfold lex_pipe. ws.
  assert (Hl : q + 1 < pend b). { destruct HI as (_ & [A|(A & A')] & _); [lia|]. destruct (line_last B _ A') as (K & _). pose proof HR as (W & _). rewrite <- (w_pend B b W) in K.
    assert (q + 2 < List.length B) by (apply nth_error_Some; congruence). lia. }
  assert (Hl2 : q + 2 < pend b).
  { pose proof HR as (W & _). destruct (Nat.lt_ge_cases (q + 2) (pend b)) as [A|A]; auto. exfalso. assert (Ep : pend b = q + 2) by lia.
    destruct (Nat.eq_dec (lastline b + 1) (NL B)) as [E2|E2].
    - destruct (line_last B _ E2) as (K & _). rewrite <- (w_pend B b W) in K. assert (q + 2 < List.length B) by (apply nth_error_Some; congruence). lia.
    - pose proof (w_last B b W). pose proof (w_count B b W). destruct (line_newline B (lastline b)) as (_ & A' & _); [lia|]. rewrite <- (w_pend B b W), Ep in A'.
      replace (q + 2 - 1) with (q + 1) in A' by lia. rewrite H2 in A'. discriminate. }
  eapply (wp_nx B e b HR _ (q + 1) 124%N); try reflexivity; auto; try lia; try discriminate. change (mbeq (Some 124%N) "|") with true. cbv iota. ws. ws. ws.
  eapply (wp_nx B e b HR _ (q + 1 + 1) c); [reflexivity|lia|replace (q + 1 + 1) with (q + 2) by lia; auto|auto|].
  replace (mbeq (Some c) "=") with false by (symmetry; unfold mbeq; change ("="%bn) with 61%N; lia). ws.
  eapply (wp_push_byte B e b HR _ (q + 1 + 1) c); fields; [reflexivity|replace (q + 1 + 1) with (q + 2) by lia; auto|auto|].
  replace (ls_is_some (lex_state s1) EXPR_BEG) with true by (symmetry; apply (bit_some _ b_beg); exact H1). ws.
  eapply (wp_push_byte B e b HR _ (q + 1) 124%N); fields; [reflexivity|auto|discriminate|]. repeat go. post.
Qed.

Lemma eh_ok : forall B e b s1 sp cs seen q z k st' cmd ds,
  lval s1 = None -> command_start s1 = false ->
  z = q + 1 -> sign B s1 sp q "?" k st' cmd ds -> sign_ok e b s1 sp cs seen q z "?" 63 k st' cmd ds.
Proof.
  intros B e b s1 sp cs seen q z k st' cmd ds HN HC Hz HS.
  inversion HS as [| | | | | | | | | | | |H1]; subst k st' cmd ds; clear HS. unfold sign_ok.
  cbv beta iota zeta delta [lex_char mbeq N.eqb Pos.eqb orb b_is_digit in_range N.leb N.compare Pos.compare Pos.compare_cont andb].
  repeat go. unfold parse_qmark. repeat go. fields. apply end_bits in H1. rewrite H1. repeat go. post.
Qed.

Lemma signs : forall B e b s1 sp cs seen q z w k st' cmd ds,
  Ready B b -> ptok b = q -> pbeg b <= q -> lval s1 = None -> command_start s1 = false -> z <= pend b -> InL B b z ->
  z = q + String.length w -> text_at B q (bs w) -> sign B s1 sp q w k st' cmd ds ->
  exists x r, bs w = x :: r /\ sign_ok e b s1 sp cs seen q z w x k st' cmd ds /\ tok_eqb k tNL = false /\ ~ In 10%N (bs w) /\ ~ In 13%N (bs w).
Proof.
  intros B e b s1 sp cs seen q z w k st' cmd ds HR Hq Hb HN HC HF HI Hz T HS. pose proof HS as HS'.
  destruct HS'; cbn [String.length] in Hz; (eexists; eexists; split; [vm_compute; reflexivity|]);
    (split; [|splits; [reflexivity|intros A; vm_compute in A; intuition discriminate..]]).
  all: first [eapply shift_ok; eauto; fail | eapply dots_ok; eauto; fail | eapply colon_ok; eauto; fail | eapply minus_num_ok; eauto; fail | eapply bar_ok; eauto; fail | eapply eh_ok; eauto].
Qed.
