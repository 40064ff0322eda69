(** * C55: a syntax tree reads back as the text it was built for *)
Require Import Verif.Base Verif.InputM Verif.TokensM Verif.NodeM Verif.ScopesM Verif.DiagnosticM Verif.Utf8M.
Require Import Verif.LexerM Verif.BuilderM Verif.BuilderNodesM Verif.BuilderFacts Verif.KeepSpec Verif.KeepFacts
  Verif.SyntaxSpec Verif.SyntaxFacts.

(** ** One call *)

(** A node made for a text reads as that text: it is of the right kind, its operands stand in their roles, and
    every name and delimiter is where its token was *)
Theorem C55_call ps n : Spells ps n -> reading n = text_of ps.
Proof.
  intros H. change (reads ps n). destruct H.
  all: try (eauto using y_unary_num, y_string_compose, y_character, y_symbol_compose, y_xstring, y_regexp_options,
    y_regexp_compose, y_word, y_symbols_compose, y_pair_keyword, y_pair_quoted, y_pair_label, y_accessible_name,
    y_accessible, y_assignable, y_const_op, y_assign, y_op_assign, y_args, y_restarg, y_kwrestarg, y_blockarg, y_procarg0,
    y_procarg0_list, y_call_method, y_block, y_numblock, y_attr_asgn, y_match_op, y_unary_op, y_not_op, y_not_nothing,
    y_logical_op, y_loop, y_loop_mod, y_keyword_cmd, y_begin_body, y_begin_else, y_begin_plain, y_ensure, y_compstmt,
    y_begin, y_begin_keyword, y_case_match, y_match_var, y_from_str, y_match_rest, y_match_rest_only,
    y_match_pair_plain, y_match_pair_quoted; fail).
  all: unfold reads.
  all: try (unfold nil_, true_, false_, line_, string_internal, character, file_, splat, words_compose, pair, kwsplat,
    range_inclusive, range_exclusive, self_, encoding_, multi_assign, def_class, def_sclass, def_module, undef_method, alias,
    forward_arg, kwnilarg, forwarded_args, call_lambda, block_pass, index, index_asgn, condition, ternary, when_, case,
    for_, preexe, postexe, rescue_body, match_pattern, match_pattern_p, in_pattern, if_guard, unless_guard, const_pattern,
    pin, match_alt, match_as, match_nil_pattern; opts; agree; fail).
  all: try (match goal with H : ?f = Ok _ _ |- _ => unfold integer, float, rational, complex, symbol, symbol_internal,
    array, associate, lvar, ivar, gvar, cvar, back_ref, nth_ref, const_, const_global, const_fetch, multi_lhs,
    def_method, def_endless_method, def_singleton, def_endless_singleton, arg, optarg, kwarg, kwoptarg,
    shadowarg, binary_op, condition_mod, match_hash_var, hash_pattern,
    array_pattern, find_pattern in H end; steps; opts; agree; fail).
Qed.

(** ** A whole tree *)

(** A tree reads as the text of all the calls that made it, one inside the other *)
Theorem C55_tree ts n : Written ts n -> reading n = ts.
Proof.
  revert ts n. apply (Written_rec (fun ts n => reading n = ts) (fun ps ts => text_of ps = ts)).
  - intros ps n ts H _ IH. now rewrite (C55_call ps n H).
  - reflexivity.
  - intros p ps ts _ IH. now rewrite text_P, IH.
  - intros n ps ts ts' _ IH1 _ IH2. now rewrite text_C, IH1, IH2.
Qed.
(** So no two texts give the same tree: nothing that the text says is lost *)
Corollary C55_apart ts ts' n : Written ts n -> Written ts' n -> ts = ts'.
Proof. intros H H'. apply C55_tree in H, H'. congruence. Qed.

(** ** Examples *)

Definition t_ k w a b := mkToken k (bs w) (mkLoc a b).
Arguments t_ k w%string a b.
Definition n_x := NLvar (bs "x") (mkLoc 0 1).
Definition n_xa := NLvasgn (bs "x") None (mkLoc 0 1) None (mkLoc 0 1).
Definition n_y := NSend None (bs "y") [] None (Some (mkLoc 6 7)) None None None (mkLoc 6 7).
Definition n_or := NOrAsgn n_xa n_y (mkLoc 2 5) (mkLoc 0 7).
Definition n_z := NSend None (bs "z") [] None (Some (mkLoc 14 15)) None None None (mkLoc 14 15).
Definition n_while := NWhile n_z (Some n_or) (mkLoc 8 13) None None (mkLoc 0 15).
Ltac run_it := vm_compute; reflexivity.
Ltac call_ rule := eapply written; [eapply rule; try run_it |].
Ltac piece := apply texts_piece.
(** [x ||= y while z] *)
Definition source : list Piece :=
  [Tag "lvar"; Id (bs "x") (mkLoc 0 1); Word "||=" (mkLoc 2 5); Tag "call"; Id (bs "y") (mkLoc 6 7);
   Word "while" (mkLoc 8 13); Tag "call"; Id (bs "z") (mkLoc 14 15)].
Example C55_example : Written source n_while.
Proof.
  assert (X : Written [Tag "lvar"; Id (bs "x") (mkLoc 0 1)] n_x).
  { call_ (r_lvar (t_ tIDENTIFIER "x" 0 1) no_env empty_builder). do 2 piece. apply texts_nil. }
  assert (XA : Written [Tag "lvar"; Id (bs "x") (mkLoc 0 1)] n_xa).
  { call_ (r_assignable n_x no_env empty_builder). apply (texts_node _ _ _ [] X), texts_nil. }
  assert (Y : Written [Tag "call"; Id (bs "y") (mkLoc 6 7)] n_y).
  { call_ (r_accessible_name (bs "y") (mkLoc 6 7) no_env empty_builder). do 2 piece. apply texts_nil. }
  assert (Z : Written [Tag "call"; Id (bs "z") (mkLoc 14 15)] n_z).
  { call_ (r_accessible_name (bs "z") (mkLoc 14 15) no_env empty_builder). do 2 piece. apply texts_nil. }
  assert (O : Written [Tag "lvar"; Id (bs "x") (mkLoc 0 1); Word "||=" (mkLoc 2 5); Tag "call"; Id (bs "y") (mkLoc 6 7)] n_or).
  { call_ (r_op_assign n_xa (t_ tOP_ASGN "||=" 2 5) (bs "||") n_y no_env empty_builder).
    apply (texts_node _ _ _ [_; _; _] XA). piece. apply (texts_node _ _ _ [] Y), texts_nil. }
  eapply written; [exact (r_loop_mod LWhile n_or (t_ kWHILE_MOD "while" 8 13) n_z)|].
  apply (texts_node _ _ _ [_; _; _] O). piece. apply (texts_node _ _ _ [] Z), texts_nil.
Qed.
(** The same with [until], or with [&&=], is another tree *)
Example C55_other : ~ Written source (loop_mod LUntil n_or (t_ kWHILE_MOD "while" 8 13) n_z).
Proof. intros H. apply C55_tree in H. vm_compute in H. discriminate H. Qed.
(** [->(a) { b }]: the parameters of a lambda stand before its brace *)
Example C55_lambda : exists ps n, Spells ps n /\
  text_of ps = [Word "->" (mkLoc 0 2); Tag "args"; Sign (mkLoc 2 3); Tag "arg"; Id (bs "a") (mkLoc 3 4); Sign (mkLoc 4 5);
    Sign (mkLoc 6 7); Tag "body"; Tag "call"; Id (bs "b") (mkLoc 8 9); Sign (mkLoc 10 11)].
Proof.
  eexists _, _. split.
  - eapply (r_block (call_lambda (t_ tLAMBDA "->" 0 2)) (t_ tLAMBEG "{" 6 7)
      (Some (NArgs [NArg (bs "a") (mkLoc 3 4)] (Some (mkLoc 2 3)) (Some (mkLoc 4 5)) (mkLoc 2 5)))
      (Some (NSend None (bs "b") [] None (Some (mkLoc 8 9)) None None None (mkLoc 8 9))) (t_ tRCURLY "}" 10 11)
      no_env empty_builder); [exact I | run_it].
  - run_it.
Qed.

Print Assumptions C55_call.
Print Assumptions C55_tree.
Print Assumptions C55_apart.
