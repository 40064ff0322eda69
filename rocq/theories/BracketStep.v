(** * Running the lexer over one bracket *)
Require Import Verif.Base Verif.MaybeByteM Verif.InputM Verif.DiagnosticM Verif.BufferM Verif.TokensM Verif.LexStateM Verif.StackStateM Verif.ScopesM Verif.LexerM Verif.LexIdentM Verif.LexMainM
  Verif.SourceSpec Verif.SourceProofs Verif.Wp Verif.BufInv Verif.LexSpec Verif.NewlineInv Verif.ReadSpec Verif.YylexSpec Verif.Reach Verif.IdentSpec Verif.IdentRead Verif.IdentStep
  Verif.Prop_Ident Verif.OpSpec Verif.OpStep Verif.OpRows Verif.OpTable Verif.OpMore Verif.BracketSpec.
Require Import ZifyBool ZifyNat ZifyN.

Lemma push_false : forall x, ss_push false x = stack_after Pushed x.
Proof.
  intros x. unfold ss_push, stack_after. rewrite N.lor_0_r. change usize_bits with 64%N. rewrite N.land_ones. rewrite N.shiftl_mul_pow2. f_equal. change (2 ^ 1)%N with 2%N. apply N.mul_comm.
Qed.
Lemma pop_half : forall x, ss_pop x = stack_after Popped x.
Proof. intros x. unfold ss_pop, stack_after. rewrite N.shiftr_div_pow2. reflexivity. Qed.

Lemma lambda_bit : forall s, is_lambda_beginning s = true <-> lambda_next s.
Proof. intros s. unfold is_lambda_beginning, lambda_next. apply Z.eqb_eq. Qed.
Lemma end_label : forall st, ls_is_all st (N.lor EXPR_END EXPR_LABEL) = true <-> in_state st b_end /\ in_state st b_label.
Proof. intros st. change EXPR_END with (2 ^ b_end)%N. change EXPR_LABEL with (2 ^ b_label)%N. apply all_two. discriminate. Qed.

(** What is left behind *)
Record BkPost (b : Buffer) (s1 : Lexer) (w : list N) (z : nat) (k : Tok) (st : N) (cmd : bool) (ns : Nesting) (ds : list Diagnostic) (r : Step) (s' : Lexer) : Prop := mkBkPost {
  bp_tok : r = Tk k; bp_done : Done b z (buffer s'); bp_state : lex_state s' = st; bp_term : strterm s' = strterm s1;
  bp_cmd : command_start s' = cmd;
  bp_diags : diagnostics s' = diagnostics s1 ++ ds; bp_comments : comments s' = comments s1;
  bp_lval : lval s' = Some w \/ lval s' = None; bp_start : lval_start s' = lval_start s1; bp_end : lval_end s' = lval_end s1;
  bp_paren : paren_nest s' = (paren_nest s1 + ns_paren ns)%Z; bp_brace : brace_nest s' = (brace_nest s1 + ns_brace ns)%Z; bp_lpar : lpar_beg s' = lpar_beg s1;
  bp_cond : cond s' = stack_after (ns_stacks ns) (cond s1); bp_cmdarg : cmdarg s' = stack_after (ns_stacks ns) (cmdarg s1);
  bp_scope : context s' = context s1 /\ static_env s' = static_env s1 }.

Definition bracket_ok (e : Env) (b : Buffer) (s1 : Lexer) (sp cs seen : bool) (q z : nat) (w : string) (x : N) (k : Tok) (st' : N) (cmd : bool) (ns : Nesting) (ds : list Diagnostic) : Prop :=
  wp e (lex_char (Some x) cs sp seen (lex_state s1)) (BkPost b s1 (bs w) z k st' cmd ns ds) (set_buffer (set_pcur (q + 1) b) s1).

Ltac bfields := cbn [buffer set_buffer set_lex_state set_lval set_command_start set_diagnostics set_paren_nest set_brace_nest set_cond set_cmdarg lex_state strterm lval lval_start lval_end paren_nest lpar_beg brace_nest cond cmdarg context
  command_start static_env diagnostics comments ptok pcur set_pcur ns_paren ns_brace ns_stacks opened opened_brace closed closed_brace].
Ltac bpost := constructor; bfields; first [assumption | reflexivity | split; reflexivity | left; reflexivity | right; assumption | left; f_equal; pos_lia
  | rewrite app_nil_r; reflexivity | apply push_false | apply pop_half | rewrite Z.add_0_r; reflexivity | lia | idtac].
Ltac bopen T Hz :=
  match type of T with text_at ?B ?q ?w => let w' := eval vm_compute in w in change (text_at B q w') in T end;
  repeat match type of T with text_at _ _ (_ :: _) => apply text_at_cons in T; let A := fresh "TX" in destruct T as (A & T) end;
  cbn [String.length] in Hz; unfold bracket_ok;
  cbv beta iota zeta delta [lex_char mbeq N.eqb Pos.eqb orb b_is_digit in_range N.leb N.compare Pos.compare Pos.compare_cont andb].
Ltac bgo := first [go | lazymatch goal with
  | |- wp _ (add_paren_nest _) _ _ => unfold add_paren_nest
  | |- wp _ (add_brace_nest _) _ _ => unfold add_brace_nest
  | |- wp _ push_both _ _ => unfold push_both
  | |- wp _ pop_both _ _ => unfold pop_both
  | |- wp _ nextc _ _ => eapply (op_last _ _ _ ltac:(eassumption)); [eassumption | bfields; f_equal; pos_lia | ];
          let c := fresh "c" in let b' := fresh "b'" in let H1 := fresh "NX" in let H2 := fresh "PC" in let H3 := fresh "DN" in let H4 := fresh "AD" in intros c b' H1 H2 H3 H4
  end].

Lemma brackets : forall B e b s1 sp cs seen q z w k st' cmd ns ds,
  Ready B b -> ptok b = q -> pbeg b <= q -> lval s1 = None -> command_start s1 = false -> z <= pend b -> InL B b z ->
  z = q + String.length w -> text_at B q (bs w) -> bracket B s1 sp q w k st' cmd ns ds ->
  exists x r, bs w = x :: r /\ bracket_ok e b s1 sp cs seen q z w x k st' cmd ns ds.
Proof.
  intros B e b s1 sp cs seen q z w k st' cmd ns ds HR Hq Hb HN HC HF HI Hz T HS.
  pose proof (value_bits (lex_state s1)) as VB. pose proof (arg_bits (lex_state s1)) as AB. pose proof (name_bits (lex_state s1)) as NB. pose proof (end_bits (lex_state s1)) as EB.
  pose proof (bit_some (lex_state s1) b_endfn) as FB. change (2 ^ b_endfn)%N with EXPR_ENDFN in FB.
  pose proof (bit_some (lex_state s1) b_labeled) as LB. change (2 ^ b_labeled)%N with EXPR_LABELED in LB.
  pose proof (bit_some (lex_state s1) b_endarg) as GB. change (2 ^ b_endarg)%N with EXPR_ENDARG in GB.
  pose proof (bit_some (lex_state s1) b_end) as XB. change (2 ^ b_end)%N with EXPR_END in XB.
  pose proof (end_label (lex_state s1)) as ELB. pose proof (lambda_bit s1) as MB. unfold is_lambda_beginning in MB.
  destruct HS as [H1|H1 H2|H1 H2 H3|ds H1 H2 H3 H4 H5|H1|H1 H2|H1 H2|H1 H2|H1 H2 H3|H1|H1 H2|H1 H2 H3|H1 H2 H3 H4|H1 H2 H3| | |H1|H1];
    (eexists; eexists; split; [vm_compute; reflexivity|]); bopen T Hz.
  - unfold lex_lparen. repeat bgo. bfields. apply VB in H1. rewrite H1. repeat bgo. bpost.
  - unfold lex_lparen. repeat bgo. bfields. rewrite (bool_false _ _ VB H1), H2. cbn [negb]. repeat bgo. bpost.
  - unfold lex_lparen. repeat bgo. bfields. rewrite (bool_false _ _ VB H1), H2. cbn [negb].
    replace (ls_is_arg _ || _) with true by (symmetry; destruct H3 as [H3|H3]; [apply AB in H3; rewrite H3; reflexivity|apply ELB in H3; rewrite H3; apply orb_true_r]).
    repeat bgo. bpost.
  - unfold lex_lparen. repeat bgo. bfields. rewrite (bool_false _ _ VB H1), H2, (bool_false _ _ AB H3), (bool_false _ _ ELB H4). cbn [negb orb].
    unfold is_lambda_beginning. bfields.
    destruct H5 as [(H5 & H6 & ->)|(H5 & ->)].
    + apply FB in H5. rewrite H5, (bool_false _ _ MB H6). cbn [negb andb]. repeat bgo. unfold warn0. repeat bgo. unfold warn, emit. repeat bgo. bpost.
      unfold current_loc. bfields. rewrite Hq. reflexivity.
    + replace (ls_is_some _ _ && _) with false.
      * repeat bgo. bpost.
      * symmetry. destruct (ls_is_some (lex_state s1) EXPR_ENDFN) eqn:E; auto. destruct (Z.eqb _ _) eqn:E2; auto. exfalso. apply H5. split; [apply FB; reflexivity|]. intros A. apply MB in A. discriminate.
  - unfold lex_lbrack. repeat bgo. bfields. apply NB in H1. rewrite H1. repeat bgo. change (mbeq (Some 93%N) "]") with true. cbv iota. repeat bgo. change (mbeq (Some 61%N) "=") with true. cbv iota. repeat bgo. bpost.
  - unfold lex_lbrack. repeat bgo. bfields. apply NB in H1. rewrite H1. repeat bgo. change (mbeq (Some 93%N) "]") with true. cbv iota. repeat bgo.
    rewrite (next_not B z c 61 NX) by (try (split; discriminate); rewrite Hz; exact H2). repeat bgo. bpost.
  - unfold lex_lbrack. repeat bgo. bfields. apply NB in H1. rewrite H1. repeat bgo. rewrite (next_not B z c 93 NX) by (try (split; discriminate); rewrite Hz; exact H2). repeat bgo. bpost.
  - unfold lex_lbrack. repeat bgo. bfields. rewrite (bool_false _ _ NB H1). cbv zeta. repeat bgo. bpost. f_equal.
    replace (ls_is_beg _ || _) with true; auto. symmetry. destruct H2 as [H2|(H2 & [H2'|H2'])].
    + apply VB in H2. rewrite H2. reflexivity.
    + apply AB in H2. rewrite H2, H2'. apply orb_true_r.
    + apply AB in H2. apply LB in H2'. rewrite H2, H2', orb_true_r. apply orb_true_r.
  - unfold lex_lbrack. repeat bgo. bfields. rewrite (bool_false _ _ NB H1). cbv zeta. repeat bgo. bpost. f_equal. rewrite (bool_false _ _ VB H2). cbn [orb].
    destruct (ls_is_arg (lex_state s1)); auto. destruct (sp || ls_is_some (lex_state s1) EXPR_LABELED) eqn:E; auto. exfalso. apply H3. split; [apply AB; reflexivity|].
    apply orb_prop in E. destruct E as [E|E]; [left; exact E|right; apply LB; exact E].
  - unfold lex_lcurly. repeat bgo. unfold is_lambda_beginning. bfields. apply MB in H1. rewrite H1. cbv zeta iota. change (tok_eqb tLAMBEG tLBRACE) with false. cbn [negb]. repeat bgo. bpost.
  - unfold lex_lcurly. repeat bgo. unfold is_lambda_beginning. bfields. rewrite (bool_false _ _ MB H1). apply LB in H2. rewrite H2. cbv zeta iota. change (tok_eqb tLBRACE tLBRACE) with true. cbn [negb]. repeat bgo. bpost.
  - unfold lex_lcurly. repeat bgo. unfold is_lambda_beginning. bfields. rewrite (bool_false _ _ MB H1), (bool_false _ _ LB H2), !some_lor. fold (ls_is_arg (lex_state s1)).
    replace (ls_is_arg _ || _ || _) with true.
    2: { symmetry. destruct H3 as [H3|[H3|H3]]; [apply AB in H3|apply XB in H3|apply FB in H3]; rewrite H3, ?orb_true_r; reflexivity. }
    cbv zeta iota. change (tok_eqb tLCURLY tLBRACE) with false. cbn [negb]. repeat bgo. bpost.
  - unfold lex_lcurly. repeat bgo. unfold is_lambda_beginning. bfields. rewrite (bool_false _ _ MB H1), (bool_false _ _ LB H2), !some_lor. fold (ls_is_arg (lex_state s1)).
    rewrite (bool_false _ _ AB) by tauto. rewrite (bool_false _ _ XB), (bool_false _ _ FB) by tauto. apply GB in H4. rewrite H4.
    cbv zeta iota. change (tok_eqb tLBRACE_ARG tLBRACE) with false. cbn [negb orb]. repeat bgo. bpost.
  - unfold lex_lcurly. repeat bgo. unfold is_lambda_beginning. bfields. rewrite (bool_false _ _ MB H1), (bool_false _ _ LB H2), !some_lor. fold (ls_is_arg (lex_state s1)).
    unfold end_place in H3. rewrite (bool_false _ _ AB) by tauto. rewrite (bool_false _ _ XB), (bool_false _ _ FB), (bool_false _ _ GB) by tauto.
    cbv zeta iota. change (tok_eqb tLBRACE tLBRACE) with true. cbn [negb orb]. repeat bgo. bpost.
  - unfold lex_close. repeat bgo. bpost.
  - unfold lex_close. repeat bgo. bpost.
  - unfold lex_rcurly. repeat bgo. bfields. replace (Z.eqb (brace_nest s1) 0) with false by lia. repeat bgo. bpost.
  - unfold lex_rcurly. repeat bgo. bfields. replace (Z.eqb (brace_nest s1) 0) with true by lia. repeat bgo. bpost.
Qed.
