(** * Every call of the builder makes a nested tree from nested trees (part of C48) *)
Require Import Verif.Base Verif.InputM Verif.TokensM Verif.NodeM Verif.ScopesM Verif.DiagnosticM.
Require Import Verif.LexerM Verif.BuilderM Verif.BuilderNodesM Verif.NestSpec Verif.NestFacts Verif.Prop_BuilderTree Verif.NestText
  Verif.NestCalls Verif.NestCtl Verif.NestBody.
From Coq Require Import Lia ZifyBool ZifyNat.

Ltac by_lemma H := solve [eapply H; eassumption].
Ltac lemmas := first
  [by_lemma string_compose_good | by_lemma heredoc_compose_good | by_lemma symbol_compose_good
    | by_lemma character_good | by_lemma xheredoc_good | by_lemma xstring_good
    | by_lemma heredoc_dedent_good | by_lemma regexp_good | by_lemma symbols_compose_good
    | by_lemma word_good | by_lemma compstmt_good | by_lemma pair_keyword_good | by_lemma accessible_good
    | by_lemma pair_label_good | by_lemma pair_quoted_good | by_lemma const_global_good
    | by_lemma assignable_good | by_lemma const_op_assignable_good | by_lemma assign_good
    | by_lemma op_assign_good | by_lemma undef_method_good | by_lemma def_endless_good
    | by_lemma def_endless_singleton_good | by_lemma kwarg_good | by_lemma kwoptarg_good
    | by_lemma blockarg_good | by_lemma procarg0_good | by_lemma call_method_good | by_lemma index_good
    | by_lemma not_op_good | by_lemma logical_op_good | by_lemma if_good | by_lemma elsif_good
    | by_lemma unless_good | by_lemma condition_mod_good | by_lemma when_good | by_lemma when_empty_good
    | by_lemma loop_good | by_lemma loop_mod_good | by_lemma keyword_cmd_good
    | by_lemma begin_body_rescue_good | by_lemma begin_body_else_good | by_lemma begin_good
    | by_lemma begin_keyword_good | by_lemma case_match_good | by_lemma in_pattern_good
    | by_lemma in_pattern_empty_good | by_lemma match_hash_var_good
    | by_lemma match_hash_var_from_str_good | by_lemma match_rest_good | by_lemma array_pattern_good
    | by_lemma const_pattern_empty_good | by_lemma match_pair_plain_good | by_lemma match_pair_quoted_good
   | solve [apply range_good; auto]].

Theorem call_nested : forall ns ps h n, Call ns ps h n -> in_sequence ps ->
  (forall m, In m ns -> Nested m) -> Nested n /\ spans (expression n) h.
Proof.
  intros ns ps h n C. change (good ns ps h n). destruct C.
  all: try (lemmas; fail).
  all: intros S HN.
  all: unfold nil_, true_, false_, integer, float, rational, complex, line_, string_internal, file_, symbol, symbol_internal,
    array, splat, words_compose, pair, kwsplat, associate, range_inclusive, range_exclusive, self_, lvar, ivar, gvar, cvar, back_ref,
    nth_ref, const_, const_fetch, encoding_, multi_lhs, multi_assign, def_class, def_sclass, def_module, def_method,
    def_singleton, alias, args_, forward_arg, arg, optarg, kwnilarg, shadowarg,
    forwarded_args, call_lambda, block_pass, attr_asgn, index_asgn, binary_op, unary_op, ternary, case, for_, preexe,
    postexe, match_pattern, match_pattern_p, if_guard, unless_guard, match_var, hash_pattern, find_pattern, const_pattern,
    pin, match_alt, match_as, match_nil_pattern in *.
  all: try (inv; options; try done; fail).
  all: try (unfold unary_num, rescue_body, restarg, kwrestarg, reserved_name, match_op in *; inv; options; try (exfalso; intuition discriminate); try done; fail).
  (* blocks *)
  - eapply (block_good (token_loc b :: ndo args ++ ndo body ++ [token_loc z])); [| | | eassumption | exact S | exact HN].
    + intros c. left. reflexivity.
    + apply last_cons, last_app, last_app. reflexivity.
    + exists m. right. eauto.
  - eapply (block_good (ndo args ++ token_loc b :: ndo body ++ [token_loc z])); [| | | eassumption | exact S | exact HN].
    + intros c. right. left. reflexivity.
    + apply last_app, last_cons, last_app. reflexivity.
    + exists m. right. eauto.
  - eapply (block_good [token_loc b; expression body; token_loc z]); [| | | eassumption | exact S | exact HN].
    + intros c. left. reflexivity.
    + reflexivity.
    + exists body. now left.
Qed.

