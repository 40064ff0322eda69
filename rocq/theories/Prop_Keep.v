(** * C52: the builder records everything it is given, once *)
Require Import Verif.Base Verif.InputM Verif.TokensM Verif.NodeM Verif.ScopesM Verif.DiagnosticM Verif.Utf8M.
Require Import Verif.LexerM Verif.BuilderM Verif.BuilderNodesM Verif.BuilderFacts Verif.KeepSpec Verif.KeepFacts
  Verif.KeepCalls.
From Coq Require Import Lia ZifyBool ZifyNat Permutation.

(** ** One call *)

(** What a node records is what the builder was given for it: nothing is lost, nothing is recorded twice, and
    every name keeps the place of its token *)
Theorem C52_call its ns n : Given its ns n -> Permutation (items n) (its ++ all_items ns).
Proof.
  intros H. change (keeps its ns n). destruct H.
  all: try (eauto using k_unary_num, k_string_compose, k_character, k_symbol_compose, k_xstring, k_regexp_options,
    k_regexp_compose, k_word, k_symbols_compose, k_pair_keyword, k_pair_quoted, k_pair_label, k_accessible, k_assignable,
    k_const_op, k_assign, k_op_assign, k_args, k_restarg, k_kwrestarg, k_blockarg, k_procarg0, k_call_method, k_block,
    k_numblock, k_attr_asgn, k_match_op, k_unary_op, k_not_op, k_logical_op, k_loop, k_loop_mod, k_keyword_cmd,
    k_begin_body, k_compstmt, k_begin, k_begin_keyword, k_case_match, k_match_var, k_from_str, k_match_rest,
    k_match_pair_plain, k_match_pair_quoted; fail).
  all: unfold keeps.
  all: try (unfold nil_, true_, false_, line_, string_internal, character, file_, splat, words_compose, pair, kwsplat,
    range_inclusive, range_exclusive, self_, encoding_, multi_assign, def_class, def_sclass, def_module, undef_method, alias,
    forward_arg, kwnilarg, forwarded_args, call_lambda, block_pass, index, index_asgn, condition, ternary, when_, case,
    for_, preexe, postexe, rescue_body, match_pattern, match_pattern_p, in_pattern, if_guard, unless_guard, const_pattern,
    pin, match_alt, match_as, match_nil_pattern; opts; tally; fail).
  all: match goal with H : ?f = Ok _ _ |- _ => unfold integer, float, rational, complex, symbol, symbol_internal,
    array, associate, lvar, ivar, gvar, cvar, back_ref, nth_ref, const_, const_global, const_fetch, multi_lhs,
    def_method, def_endless_method, def_singleton, def_endless_singleton, arg, optarg, kwarg, kwoptarg,
    shadowarg, binary_op, condition_mod, match_hash_var, hash_pattern,
    array_pattern, find_pattern in H end; steps; opts; tally.
Qed.

(** ** A whole tree *)

(** The pieces a tree records are those handed over in all the calls that made it *)
Theorem C52_tree its n : Collected its n -> Permutation (items n) its.
Proof.
  revert its n. apply (Collected_rec (fun its n => Permutation (items n) its) (fun ns its => Permutation (all_items ns) its)).
  - intros its ns n rest G _ IH. rewrite (C52_call its ns n G). now rewrite IH.
  - reflexivity.
  - intros n ns its rest _ IH1 _ IH2. rewrite all_cons. now rewrite IH1, IH2.
Qed.
(** In particular: a name stands in the tree at a place just when a token with that text was there *)
Corollary C52_names its n name l : Collected its n -> In (Name name l) (items n) <-> In (Name name l) its.
Proof. intros H. apply C52_tree in H. split; apply Permutation_in; [exact H | now symmetry]. Qed.

(** ** Removing indentation *)

Definition no_text (i : Item) : bool := match i with Text _ => false | _ => true end.
Lemma filter_app' l k : filter no_text (l ++ k) = filter no_text l ++ filter no_text k.
Proof. induction l as [|a l IH]; [reflexivity|]. cbn. destruct (no_text a); cbn; congruence. Qed.
Lemma text_filtered v : filter no_text (text v) = [].
Proof. now destruct v. Qed.
Lemma dedent_parts l : forall d e s r s', dedent_heredoc_parts l d e s = Ok r s' ->
  (forall m, In m l -> plain_part [m]) -> filter no_text (all_items r) = filter no_text (all_items l).
Proof.
  induction l as [|a l IH]; intros d e s r s' H P; cbn [dedent_heredoc_parts] in H; [now steps|].
  apply bind_ok' in H as (o & s1 & H1 & H). apply bind_ok' in H as (k & s2 & H2 & H). injection H as <- <-.
  apply IH in H2; [|intros m Hm; apply P; now right].
  assert (E : filter no_text (opt_items items o) = filter no_text (items a)).
  { pose proof (P a (or_introl eq_refl)) as Pa. destruct a; steps; try reflexivity. destruct Pa as [-> ->].
    cbn [items marks app]. rewrite !app_nil_r, text_filtered. destruct (dedent_string value d); reflexivity. }
  rewrite all_cons, filter_app', <- E, <- H2. destruct o; [cbn [opt_items]; now rewrite all_cons, filter_app' | reflexivity].
Qed.
(** A heredoc whose indentation is removed keeps everything but the texts it consists of *)
Theorem C52_dedent h d e s n s' : heredoc_dedent h d e s = Ok n s' -> (forall m, In m (children h) -> plain_part [m]) ->
  filter no_text (items n) = filter no_text (items h).
Proof.
  unfold heredoc_dedent. intros H P. destruct (Z.eqb d 0); [now steps|]. destruct (d <? 0)%Z; [discriminate|].
  destruct h; try discriminate; apply bind_ok' in H as (l & s1 & H1 & H); injection H as <- <-;
    apply dedent_parts in H1; try exact P; cbn [items] in *; rewrite !filter_app'; unfold all_items in H1; now rewrite H1.
Qed.

(** ** What is lost (found false without the side conditions) *)

(** [begin (1) end]: the parentheses are lost (builder.rs 3139-3147 takes the statements out of every group, not
    only out of one that has no delimiters) *)
Definition one_ : Node := NInt (bs "1") None (mkLoc 7 8).
Definition parens : Node := begin (mkToken tLPAREN (bs "(") (mkLoc 6 7)) (Some one_) (mkToken tRPAREN (bs ")") (mkLoc 8 9)).
Theorem C52_begin_keyword_refuted : exists b m z,
  ~ Permutation (items (begin_keyword b (Some m) z)) (at_ b ++ at_ z ++ items m).
Proof.
  exists (mkToken kBEGIN (bs "begin") (mkLoc 0 5)), parens, (mkToken kEND (bs "end") (mkLoc 10 13)).
  intros P. apply Permutation_length in P. vm_compute in P. discriminate P.
Qed.
(** [((a, b)) = 1]: the inner parentheses are lost (3084-3096 overwrites those of a nested left-hand side) *)
Theorem C52_begin_refuted : exists b m z, ~ Permutation (items (begin b (Some m) z)) (at_ b ++ at_ z ++ items m).
Proof.
  exists (mkToken tLPAREN (bs "(") (mkLoc 0 1)),
    (NMlhs [NLvasgn (bs "a") None (mkLoc 2 3) None (mkLoc 2 3); NLvasgn (bs "b") None (mkLoc 5 6) None (mkLoc 5 6)]
       (Some (mkLoc 1 2)) (Some (mkLoc 6 7)) (mkLoc 1 7)), (mkToken tRPAREN (bs ")") (mkLoc 7 8)).
  intros P. apply Permutation_length in P. vm_compute in P. discriminate P.
Qed.
(** A block given to [return f, g]: of the arguments only the first one is kept (2117) *)
Theorem C52_block_refuted : exists m b z e s n s',
  block m b (ArgsT None) None z e s = Ok (Some n) s' /\ ~ Permutation (items n) (at_ b ++ at_ z ++ items m).
Proof.
  pose (f := NSend None (bs "f") [] None (Some (mkLoc 7 8)) None None None (mkLoc 7 8)).
  pose (g := NSend None (bs "g") [] None (Some (mkLoc 10 11)) None None None (mkLoc 10 11)).
  exists (NReturn [f; g] (mkLoc 0 6) (mkLoc 0 11)), (mkToken kDO_BLOCK (bs "do") (mkLoc 12 14)),
    (mkToken kEND (bs "end") (mkLoc 15 18)), no_env, empty_builder.
  eexists _, _. split; [vm_compute; reflexivity|]. intros P. apply Permutation_length in P. vm_compute in P.
  discriminate P.
Qed.

(** ** Examples *)

(** [x = f(-1) if y]: all names and marks, each with its place, in some order *)
Definition x_ := mkToken tIDENTIFIER (bs "x") (mkLoc 0 1).
Definition f_ := mkToken tIDENTIFIER (bs "f") (mkLoc 4 5).
Definition y_ := mkToken tIDENTIFIER (bs "y") (mkLoc 14 15).
Definition eql := mkToken tEQL (bs "=") (mkLoc 2 3).
Definition minus := mkToken tUMINUS_NUM (bs "-") (mkLoc 6 7).
Definition lparen := mkToken tLPAREN2 (bs "(") (mkLoc 5 6).
Definition rparen := mkToken tRPAREN (bs ")") (mkLoc 8 9).
Definition if_mod := mkToken kIF_MOD (bs "if") (mkLoc 11 13).
Definition n_x := NLvar (bs "x") (mkLoc 0 1).
Definition n_xa := NLvasgn (bs "x") None (mkLoc 0 1) None (mkLoc 0 1).
Definition n_1 := NInt (bs "-1") (Some (mkLoc 6 7)) (mkLoc 6 8).
Definition n_f := NSend None (bs "f") [n_1] None (Some (mkLoc 4 5)) (Some (mkLoc 5 6)) (Some (mkLoc 8 9)) None (mkLoc 4 9).
Definition n_a := NLvasgn (bs "x") (Some n_f) (mkLoc 0 1) (Some (mkLoc 2 3)) (mkLoc 0 9).
Definition n_y := NLvar (bs "y") (mkLoc 14 15).
Definition n_ys := NSend None (bs "y") [] None (Some (mkLoc 14 15)) None None None (mkLoc 14 15).
Definition n_if := NIfMod n_ys (Some n_a) None (mkLoc 11 13) (mkLoc 0 15).
Ltac run_it := vm_compute; reflexivity.
Example C52_example :
  Collected [Mark (mkLoc 11 13); Mark (mkLoc 2 3); Name (bs "x") (mkLoc 0 1); Name (bs "f") (mkLoc 4 5); Mark (mkLoc 5 6);
    Mark (mkLoc 8 9); Name (bs "-1") (mkLoc 6 8); Mark (mkLoc 6 7); Name (bs "y") (mkLoc 14 15)] n_if /\
  In (Name (bs "-1") (mkLoc 6 8)) (items n_if).
Proof.
  split; [|vm_compute; tauto].
  assert (X : Collected (called x_ ++ []) n_x).
  { apply (collected _ []); [|apply each_nil]. eapply (g_lvar x_ no_env empty_builder). run_it. }
  assert (XA : Collected ([] ++ (called x_ ++ []) ++ []) n_xa).
  { apply (collected _ [n_x]); [eapply (g_assignable n_x no_env empty_builder); run_it|].
    apply each_cons; [exact X | apply each_nil]. }
  assert (I : Collected ((Name (bs "-" ++ bs "1") (loc_join (mkLoc 6 7) (mkLoc 7 8)) :: at_ minus) ++ []) n_1).
  { apply (collected _ []); [|apply each_nil].
    eapply (g_unary_num minus (NInt (bs "1") None (mkLoc 7 8)) (bs "1") (mkLoc 7 8) no_env empty_builder);
      [now left | run_it]. }
  eassert (F : Collected (_ ++ _ ++ []) n_f).
  { apply (collected _ [n_1]); [|apply each_cons; [exact I | apply each_nil]].
    eapply (g_call_method None None (Some f_) (Some lparen) [n_1] (Some rparen) no_env empty_builder). run_it. }
  eassert (A : Collected (_ ++ _ ++ _ ++ []) n_a).
  { eapply (collected _ [n_xa; n_f]); [|apply each_cons; [exact XA | apply each_cons; [exact F | apply each_nil]]].
    eapply (g_assign n_xa eql n_f no_env empty_builder); [split; reflexivity | run_it]. }
  assert (Y : Collected (called y_ ++ []) n_y).
  { apply (collected _ []); [|apply each_nil]. eapply (g_lvar y_ no_env empty_builder). run_it. }
  assert (YS : Collected ([] ++ (called y_ ++ []) ++ []) n_ys).
  { apply (collected _ [n_y]); [eapply (g_accessible n_y no_env empty_builder); run_it|].
    apply each_cons; [exact Y | apply each_nil]. }
  eassert (N : Collected (_ ++ _ ++ _ ++ []) n_if).
  { eapply (collected _ [n_a; n_ys]); [|apply each_cons; [exact A | apply each_cons; [exact YS | apply each_nil]]].
    eapply (g_condition_mod (Some n_a) None if_mod n_ys no_env empty_builder). run_it. }
  exact N.
Qed.
(** A heredoc with indented text and an interpolation *)
Example C52_dedent_example : exists n s,
  heredoc_dedent (NHeredoc [NStr (bs "  a") None None (mkLoc 5 8); NIvar (bs "@b") (mkLoc 9 11)] (mkLoc 5 11) (mkLoc 12 13) (mkLoc 0 4))
    2 no_env empty_builder = Ok n s /\ In (Name (bs "@b") (mkLoc 9 11)) (items n) /\ In (Text (bs "a")) (items n).
Proof. eexists _, _. split; [vm_compute; reflexivity|]. vm_compute. tauto. Qed.

Print Assumptions C52_call.
Print Assumptions C52_tree.
Print Assumptions C52_names.
Print Assumptions C52_dedent.
Print Assumptions C52_begin_keyword_refuted.
Print Assumptions C52_begin_refuted.
Print Assumptions C52_block_refuted.
