(** * Functions of the builder that need more than unfolding: proofs for C52 *)
Require Import Verif.Base Verif.InputM Verif.TokensM Verif.NodeM Verif.ScopesM Verif.DiagnosticM Verif.Utf8M.
Require Import Verif.LexerM Verif.BuilderM Verif.BuilderNodesM Verif.BuilderFacts Verif.KeepSpec Verif.KeepFacts.
From Coq Require Import Lia ZifyBool ZifyNat Permutation.

(** ** Functions that need more than unfolding *)

Ltac fin := steps; opts; tally.
Ltac by_fields := unfold keeps; steps; tally.

Lemma k_unary_num t m v x e s n s' : numeric m v x -> unary_num t m e s = Ok n s' ->
  keeps (Name (token_value t ++ v) (loc_join (token_loc t) x) :: at_ t) [] n.
Proof. intros [-> |[-> |[-> | ->]]] H; unfold unary_num in H; by_fields. Qed.
Lemma str_keeps b v l z e s n s' : str_node b v l z e s = Ok n s' ->
  all_items l = text v -> keeps (at_opt b ++ at_opt z) l n.
Proof.
  intros H E. unfold str_node in H. destruct (is_heredoc b) eqn:Hb; unfold keeps; steps.
  - destruct b, z; try discriminate; cbn [maybe_loc option_map] in *; steps; tally.
  - rewrite E. destruct b, z; tally.
Qed.
Lemma k_string_compose b l z e s n s' : (b = None /\ z = None) \/ plain_part l -> string_compose b l z e s = Ok n s' ->
  keeps (at_opt b ++ at_opt z) l n.
Proof.
  intros P H. unfold string_compose in H.
  assert (C : forall n s', (if is_heredoc b then
      ' (heredoc_body_l, heredoc_end_l, expression_l) <- heredoc_map b l z ;;
      ret (NHeredoc l heredoc_body_l heredoc_end_l expression_l)
    else
      ' (begin_l, end_l, expression_l) <- collection_map b l z ;;
      ret (NDstr l begin_l end_l expression_l)) e s = Ok n s' -> keeps (at_opt b ++ at_opt z) l n).
  { clear H. intros n0 s0 H0. destruct (is_heredoc b); unfold keeps; steps; [|destruct b, z; tally].
    destruct b, z; try discriminate; cbn [maybe_loc option_map] in *; steps; tally. }
  destruct l as [|a [|a' l]]; [|destruct a; try (eapply C; exact H; fail) | destruct a; eapply C; exact H].
  - eapply str_keeps; [exact H | reflexivity].
  - destruct (negb (is_some b) && negb (is_some z)) eqn:E; [|discriminate].
    destruct b, z; try discriminate. unfold keeps. steps. tally.
  - destruct (negb (is_some b) && negb (is_some z)) eqn:E; [|discriminate].
    destruct b, z; try discriminate. unfold keeps. steps. tally.
  - destruct (negb (is_some b) && negb (is_some z)) eqn:E.
    + destruct b, z; try discriminate. unfold keeps. steps. tally.
    + destruct P as [[-> ->]|[-> ->]]; [discriminate|]. eapply str_keeps; [exact H|].
      cbn. now rewrite !app_nil_r.
Qed.
Lemma k_character t : keeps (text (token_value t) ++
    [Mark (mkLoc (loc_begin (token_loc t)) (loc_begin (token_loc t) + 1))]) [] (character t).
Proof. unfold keeps, character, with_end. tally. Qed.
Lemma k_symbol_compose b l z e s n s' : plain_part l -> symbol_compose b l z e s = Ok n s' -> keeps (at_ b ++ at_ z) l n.
Proof.
  intros P H. unfold symbol_compose in H.
  assert (C : forall n s', (' (begin_l, end_l, expression_l) <- collection_map (Some b) l (Some z) ;;
      ret (NDsym l begin_l end_l expression_l)) e s = Ok n s' -> keeps (at_ b ++ at_ z) l n).
  { clear H. intros n0 s0 H0. unfold keeps. steps. tally. }
  destruct l as [|a [|a' l]]; [eapply C; exact H | destruct a; try (eapply C; exact H; fail) | destruct a; eapply C; exact H].
  destruct P as [-> ->]. unfold keeps. steps. tally.
Qed.
Lemma k_xstring b l z : keeps (at_ b ++ at_ z) l (xstring_compose b l z).
Proof. unfold keeps, xstring_compose. destruct (heredoc_mark _); tally. Qed.
Lemma k_regexp_options t e s n s' : regexp_options t e s = Ok (Some n) s' ->
  keeps [Mark (mkLoc (loc_begin (token_loc t) + 1) (loc_end (token_loc t)))] [] n.
Proof. intros H. unfold regexp_options in H. by_fields. Qed.
Lemma k_regexp_compose b l z o e s n s' : regexp_compose b l z o e s = Ok n s' ->
  keeps (at_ b ++ [Mark (mkLoc (loc_begin (token_loc z)) (loc_begin (token_loc z) + 1))]) (l ++ olist o) n.
Proof.
  intros H. unfold regexp_compose in H. apply bind_ok' in H as (u & s1 & _ & H). unfold keeps, resize, with_end in *.
  steps. tally.
Qed.
Lemma k_word l e s n s' : word l e s = Ok n s' -> keeps [] l n.
Proof.
  intros H. unfold word in H.
  assert (C : forall n s', (' (begin_l, end_l, expression_l) <- collection_map None l None ;;
    ret (NDstr l begin_l end_l expression_l)) e s = Ok n s' -> keeps [] l n).
  { clear H. intros n0 s0 H0. unfold keeps. steps. tally. }
  destruct l as [|a [|a' l]]; [eapply C; exact H | destruct a; try (eapply C; exact H; fail) | destruct a; eapply C; exact H];
    unfold keeps; steps; tally.
Qed.
Lemma symbols_part_items m e s n s' : symbols_part m e s = Ok n s' -> items n = items m.
Proof. intros H. destruct m; cbn [symbols_part] in H; steps; reflexivity. Qed.
Lemma symbols_items l : forall e s r s', map_m symbols_part l e s = Ok r s' -> all_items r = all_items l.
Proof.
  induction l as [|m l IH]; intros e s r s' H; cbn [map_m] in H; [now steps|].
  apply bind_ok' in H as (a & s1 & H1 & H). apply bind_ok' in H as (k & s2 & H2 & H). injection H as <- <-.
  cbn. apply symbols_part_items in H1. apply IH in H2. unfold all_items in H2. congruence.
Qed.
Lemma k_symbols_compose b l z e s n s' : symbols_compose b l z e s = Ok n s' -> keeps (at_ b ++ at_ z) l n.
Proof.
  intros H. unfold symbols_compose in H. apply bind_ok' in H as (k & s1 & H1 & H). apply symbols_items in H1.
  unfold keeps. rewrite <- H1. steps. tally.
Qed.
Lemma colon_ok l : with_begin l (loc_end l - 1) = colon_of l.
Proof. reflexivity. Qed.
Lemma k_pair_keyword t v e s n s' : pair_keyword t v e s = Ok n s' ->
  keeps (text (token_value t) ++ [Mark (colon_of (token_loc t))]) [v] n.
Proof. intros H. unfold pair_keyword in H. unfold keeps. steps. rewrite colon_ok. tally. Qed.
Lemma k_pair_quoted b l z v e s n s' : plain_part l -> pair_quoted b l z v e s = Ok n s' ->
  keeps (at_ b ++ [Mark (mkLoc (loc_end (token_loc z) - 2) (loc_end (token_loc z) - 1))] ++
         [Mark (colon_of (token_loc z))]) (l ++ [v]) n.
Proof.
  intros P H. unfold pair_quoted in H. apply bind_ok' in H as (b2 & s1 & H1 & H). apply sub_pos in H1 as ->.
  apply bind_ok' in H as (b1 & s2 & H1 & H). apply sub_pos in H1 as ->.
  apply bind_ok' in H as (k & s3 & H1 & H). apply k_symbol_compose in H1; [|exact P]. injection H as <- <-.
  unfold keeps in *. cbn [items token_loc at_] in *. rewrite H1. rewrite colon_ok. unfold at_. cbn [token_loc]. tally.
Qed.
Lemma accessible_items m e s n s' : accessible m e s = Ok n s' -> items n = items m.
Proof.
  intros H. destruct m; cbn [accessible] in H; try (injection H as <- <-; reflexivity; fail).
  apply bind_ok' in H as (u & s1 & _ & H). apply bind_ok' in H as (d & s2 & _ & H). destruct d; [now steps|].
  apply bind_ok' in H as (d & s3 & _ & H). destruct (negb _); [now steps|]. apply bind_ok' in H as (d' & s4 & _ & H). now steps.
Qed.
Lemma k_pair_label t e s n s' : pair_label t e s = Ok n s' ->
  keeps (text (token_value t) ++ [Mark (colon_of (token_loc t))] ++ [Name (token_value t) (key_of (token_loc t))]) [] n.
Proof.
  intros H. unfold pair_label in H. apply bind_ok' in H as (vl & s1 & H1 & H). apply adjust_end_pos in H1 as ->.
  apply bind_ok' in H as (lab & s2 & H1 & H). apply value_ok in H1 as [-> ->].
  apply bind_ok' in H as (cc & s3 & _ & H). apply bind_ok' in H as (c & s4 & _ & H).
  apply bind_ok' in H as (v & s5 & H1 & H). apply accessible_items in H1. apply k_pair_keyword in H.
  unfold keeps in *. rewrite H. rewrite all_cons, H1. destruct (is_lowercase cc c); tally.
Qed.
Lemma k_accessible m e s n s' : accessible m e s = Ok n s' -> keeps [] [m] n.
Proof. intros H. apply accessible_items in H. unfold keeps. rewrite H. tally. Qed.
Lemma k_assignable m e s n s' : assignable m e s = Ok (Some n) s' -> keeps [] [m] n.
Proof. intros H. unfold keeps. destruct m; cbn [assignable] in H; steps; tally. Qed.
Lemma k_const_op m e s n s' : const_op_assignable m e s = Ok n s' -> keeps [] [m] n.
Proof. intros H. unfold keeps. destruct m; cbn [const_op_assignable] in H; steps; tally. Qed.
Lemma k_assign l t r e s n s' : no_value l -> assign l t r e s = Ok n s' -> keeps (at_ t) [l; r] n.
Proof.
  intros P H. unfold keeps. destruct l; cbn [assign no_value] in H, P; try discriminate; unfold assign in H; steps;
    try destruct P as [-> ->]; subst; tally.
Qed.
Lemma first_ascii c l : (c < 128)%N -> first_char (c :: l) = Some c.
Proof. intros H. unfold first_char. destruct (N.ltb_spec c 128); [reflexivity | lia]. Qed.
Lemma chars_ascii l : forall n, List.length l <= n -> forallb (fun c => (c <? 128)%N) l = true -> chars_n n l = l.
Proof.
  induction l as [|c l IH]; intros n Hn H; [destruct n; reflexivity|].
  destruct n as [|n]; [cbn in Hn; lia|]. cbn in H. apply andb_true_iff in H as [H1 H2].
  cbn [chars_n]. rewrite first_ascii by lia. unfold char_len. rewrite H1. cbn [skipn]. rewrite IH; [reflexivity | cbn in Hn; lia | exact H2].
Qed.
Lemma encode_ascii l : forallb (fun c => (c <? 128)%N) l = true -> flat_map utf8_encode l = l.
Proof.
  induction l as [|c l IH]; intros H; [reflexivity|]. cbn in H. apply andb_true_iff in H as [H1 H2].
  cbn [flat_map]. rewrite IH by exact H2. unfold utf8_encode. now rewrite H1.
Qed.
Lemma k_op_assign l t o r e s n s' : token_value t = o ++ [61%N] -> forallb (fun c => (c <? 128)%N) o = true ->
  op_assign l t r e s = Ok (Some n) s' ->
  keeps (if bytes_eqb o (bs "&&") || bytes_eqb o (bs "||") then at_ t else [Name o (token_loc t)]) [l; r] n.
Proof.
  intros Ev Ha H. unfold op_assign in H. apply bind_ok' in H as (v & s1 & H1 & H). apply value_ok in H1 as [-> ->].
  assert (Eo : flat_map utf8_encode (removelast (chars (token_value t))) = o).
  { rewrite Ev. unfold chars. rewrite chars_ascii; [|lia|rewrite forallb_app, Ha; reflexivity].
    rewrite removelast_last. now apply encode_ascii. }
  rewrite Eo in H. apply bind_ok' in H as (q & s2 & H1 & H). destruct q as [l'|]; [|discriminate]. injection H as <- <-.
  assert (E : Permutation (items l') (items l)) by (destruct l; steps; try reflexivity; tally).
  unfold keeps. rewrite !all_cons. rewrite <- E.
  destruct (bytes_eqb o (bs "&&")); [|destruct (bytes_eqb o (bs "||"))]; cbn [orb]; tally.
Qed.
Lemma k_args b l z e s n s' : args_ b l z e s = Ok (Some n) s' -> keeps (at_opt b ++ at_opt z) l n.
Proof.
  intros H. unfold args_ in H. apply bind_ok' in H as (u & s1 & _ & H). apply bind_ok' in H as (u' & s2 & _ & H).
  unfold keeps. destruct b, l, z; steps; tally.
Qed.
Lemma k_restarg t v e s n s' : restarg t v e s = Ok (Some n) s' -> keeps (at_ t ++ called_opt v) [] n.
Proof. intros H. unfold restarg in H. unfold keeps. steps. match goal with E : name_opt _ _ = _ |- _ => rewrite <- E end.
  cbn [items]. apply same_count. intros x. rewrite !cnt_app, ?cnt_nil. cbn. lia. Qed.
Lemma k_kwrestarg t v e s n s' : kwrestarg t v e s = Ok (Some n) s' -> keeps (at_ t ++ called_opt v) [] n.
Proof. intros H. unfold kwrestarg in H. unfold keeps. steps. match goal with E : name_opt _ _ = _ |- _ => rewrite <- E end.
  cbn [items]. apply same_count. intros x. rewrite !cnt_app, ?cnt_nil. cbn. lia. Qed.
Lemma k_blockarg t v e s n s' : blockarg t v e s = Ok (Some n) s' -> keeps (at_ t ++ called_opt v) [] n.
Proof.
  intros H. unfold blockarg in H. unfold keeps. destruct v; steps; cbn [maybe_loc option_map] in *; steps; tally.
Qed.
Lemma k_procarg0 m e s n s' : procarg0 m e s = Ok n s' -> keeps [] [m] n.
Proof. intros H. unfold keeps. destruct m; cbn [procarg0] in H; steps; tally. Qed.
Lemma k_call_method recv dot sel b args z e s n s' : call_method recv dot sel b args z e s = Ok n s' ->
  keeps (at_opt dot ++ match sel with Some sel => called sel | None => [Text (bs "call")] end ++ at_opt b ++ at_opt z)
        (olist recv ++ args) n.
Proof.
  intros H. unfold call_method in H. apply bind_ok' in H as (x & s1 & _ & H). apply bind_ok' in H as (y & s2 & _ & H).
  unfold keeps. steps; cbn [maybe_loc option_map unwrap_or] in *; steps; destruct sel; cbn [option_map unwrap_or maybe_loc] in *; opts;
    cbn [maybe_loc option_map] in *; steps; tally.
Qed.

(** ** Blocks *)

Lemma k_block m b args body z e s n s' : takes_block m -> block m b (ArgsT args) body z e s = Ok (Some n) s' ->
  keeps (at_ b ++ at_ z) (m :: olist args ++ olist body) n.
Proof.
  intros P H. unfold block in H. apply bind_ok' in H as (u & s1 & _ & H). destruct u; [|discriminate].
  unfold keeps. destruct m; try discriminate; unfold ok, ret in H;
    try (injection H as <- <-; unfold block_node; destruct args, body; tally).
  all: apply bind_ok' in H as ([k r] & s2 & H1 & H); injection H as <- <-.
  all: destruct args0 as [|a [|a' l]]; cbn in P; try discriminate P.
  all: unfold rewrite_args_and_loc, bind, expect, ret in H1; cbn [first_opt] in H1; injection H1 as <- <- <-.
  all: unfold block_node; destruct args, body; tally.
Qed.
Lemma k_numblock m b k body z e s n s' : takes_block m -> block m b (Numargs k) (Some body) z e s = Ok (Some n) s' ->
  keeps (Text [k] :: at_ b ++ at_ z) [m; body] n.
Proof.
  intros P H. unfold block in H. apply bind_ok' in H as (u & s1 & _ & H). destruct u; [|discriminate].
  unfold keeps. destruct m; try discriminate; unfold ok, ret in H;
    try (injection H as <- <-; unfold block_node; cbn [unwrap_or]; tally).
  all: apply bind_ok' in H as ([q r] & s2 & H1 & H); injection H as <- <-.
  all: destruct args as [|a [|a' l]]; cbn in P; try discriminate P.
  all: unfold rewrite_args_and_loc, bind, expect, ret in H1; cbn [first_opt] in H1; injection H1 as <- <- <-.
  all: unfold block_node; cbn [unwrap_or]; tally.
Qed.

(** ** Operators *)

Lemma k_attr_asgn m dot t e s n s' : attr_asgn m dot t e s = Ok n s' ->
  keeps (at_ dot ++ [Name (token_value t ++ [61%N]) (token_loc t)]) [m] n.
Proof.
  intros H. unfold attr_asgn in H. change (bs "=") with [61%N] in H. unfold keeps. steps; tally.
Qed.
Lemma k_match_op l t r e s n s' : match_op l t r e s = Ok (Some n) s' ->
  keeps [match n with NMatchWithLvasgn _ _ _ _ => Mark (token_loc t) | _ => Name (bs "=~") (token_loc t) end] [l; r] n.
Proof.
  intros H. unfold match_op in H. apply bind_ok' in H as (u & s1 & _ & H). destruct u; [|discriminate].
  apply bind_ok' in H as (u' & s2 & _ & H). destruct u'; [|discriminate].
  apply bind_ok' in H as (c & s3 & _ & H). destruct c; unfold keeps.
  - apply bind_ok' in H as (u'' & s4 & _ & H). steps. tally.
  - steps. tally.
Qed.
Lemma k_unary_op t m e s n s' : unary_op t m e s = Ok (Some n) s' ->
  keeps [Name (token_value t ++ match token_value t with [43%N] | [45%N] => [64%N] | _ => [] end) (token_loc t)] [m] n.
Proof.
  intros H. unfold unary_op in H. apply bind_ok' in H as (u & s1 & _ & H). destruct u; [|discriminate].
  apply bind_ok' in H as (v & s2 & H1 & H). apply value_ok in H1 as [-> ->]. injection H as <- <-.
  change (bs "@") with [64%N].
  destruct (bytes_eqb (token_value t) (bs "+") || bytes_eqb (token_value t) (bs "-")) eqn:E.
  - apply orb_true_iff in E as [E|E]; apply bytes_eqb_eq in E; rewrite E; [change (bs "+") with [43%N] | change (bs "-") with [45%N]];
      unfold keeps; tally.
  - apply orb_false_iff in E as [E1 E2]. apply bytes_eqb_neq in E1, E2.
    replace (match token_value t with [43%N] | [45%N] => [64%N] | _ => [] end) with (@nil N).
    + rewrite app_nil_r. unfold keeps. tally.
    + destruct (token_value t) as [|c [|d l]]; [reflexivity | | destruct c as [|p]; [reflexivity|]; repeat (first [reflexivity | destruct p as [p|p|]])].
      destruct (N.eq_dec c 43) as [-> |N1]; [now destruct E1|]. destruct (N.eq_dec c 45) as [-> |N2]; [now destruct E2|].
      clear -N1 N2. destruct c as [|p]; [reflexivity|]. repeat (first [reflexivity | congruence | destruct p as [p|p|]]).
Qed.
Lemma k_not_op t b m z e s n s' : not_op t b m z e s = Ok (Some n) s' ->
  keeps (Name (bs "!") (token_loc t) :: at_opt b ++ at_opt z) (olist m) n.
Proof.
  intros H. unfold keeps. destruct m as [m|]; cbn [not_op] in H.
  - apply bind_ok' in H as (u & s1 & _ & H). destruct u; [|discriminate]. steps. destruct b, z; tally.
  - steps. destruct b, z; tally.
Qed.
Lemma k_logical_op k l t r e s n s' : logical_op k l t r e s = Ok (Some n) s' -> keeps (at_ t) [l; r] n.
Proof.
  intros H. unfold logical_op in H. apply bind_ok' in H as (u & s1 & _ & H). destruct u; [|discriminate].
  unfold keeps. steps. destruct k; tally.
Qed.
Lemma k_loop k kw c d body z : keeps (at_ kw ++ at_ d ++ at_ z) (c :: olist body) (loop_ k kw c d body z).
Proof. unfold keeps, loop_. destruct k, body; tally. Qed.
Lemma k_loop_mod k body kw c : keeps (at_ kw) [body; c] (loop_mod k body kw c).
Proof.
  unfold keeps, loop_mod. assert (D : forall n, (exists l b e x, body = NKwBegin l b e x) \/
    match body with NKwBegin _ _ _ _ => n | _ => 1 end = 1) by (intros; destruct body; eauto 6).
  destruct k, body; tally.
Qed.
Lemma k_keyword_cmd k kw b l z e s n s' : keyword_shape k b l z -> keyword_cmd k kw b l z e s = Ok (Some n) s' ->
  keeps (at_ kw ++ at_opt b ++ at_opt z) l n.
Proof.
  intros P H. unfold keyword_cmd in H.
  match type of H with (if ?c then _ else _) _ _ = _ => destruct c end; [steps|].
  assert (J : forall x, loc_join x x = x) by (intros [p q]; unfold loc_join; cbn; f_equal; lia).
  unfold keeps. destruct k; cbn [keyword_shape] in P; repeat match goal with P : _ /\ _ |- _ => destruct P end; subst;
    unfold ok, ret in H; try (injection H as <- <-; cbn [maybe_loc option_map or_else last_opt maybe_node_expr unwrap_or];
      rewrite ?J; opts; tally).
  destruct l as [|a [|a' l]]; try discriminate P. steps. cbn [first_opt] in *. steps. opts; tally.
Qed.

(** ** Clauses and groups *)

Lemma rescue_items c l el e s r s' : (l = [] -> el <> None -> undelimited_opt c) ->
  begin_body_rescue c l el e s = Ok r s' ->
  Permutation (opt_items items r) (clause_given el ++ all_items (olist c ++ l ++ clause_body el)).
Proof.
  intros P H. unfold begin_body_rescue in H. destruct l as [|a l].
  - destruct el as [[t body]|].
    + specialize (P eq_refl ltac:(discriminate)). cbn [clause_body clause_given].
      apply bind_ok' in H as ([[b1 e1] x1] & s1 & H1 & H). apply collection_ok' in H1 as [-> ->].
      apply bind_ok' in H as ([[b2 e2] x2] & s2 & H2 & H). apply collection_ok' in H2 as [-> ->]. injection H as <- <-.
      assert (E : Permutation (all_items (match c with Some (NBegin l _ _ _) => l | Some m => [m] | None => [] end))
        (all_items (olist c))).
      { destruct c as [c|]; [|reflexivity]. destruct c; try reflexivity. destruct P as [-> ->]. tally. }
      cbn [app]. rewrite !all_app, <- E. cbn [opt_items items marks maybe_loc option_map app flat_map].
      rewrite flat_map_app. fold (all_items (olist body)).
      match goal with |- context [flat_map items ?m] => change (flat_map items m) with (all_items m) end.
      tally.
    + injection H as <- <-. destruct c; cbn [opt_items]; tally.
  - apply bind_ok' in H as (b & s1 & _ & H). destruct el as [[t body]|].
    + steps. cbn [opt_items]. destruct c, body; tally.
    + steps. cbn [opt_items]. destruct c; tally.
Qed.
Lemma k_begin_body c l el ens e s n s' : (l = [] -> el <> None -> undelimited_opt c) ->
  begin_body c l el ens e s = Ok (Some n) s' ->
  keeps (clause_given el ++ clause_given ens) (olist c ++ l ++ clause_body el ++ clause_body ens) n.
Proof.
  intros P H. unfold begin_body in H. apply bind_ok' in H as (r & s1 & H1 & H). apply rescue_items in H1; [|exact P].
  unfold keeps. destruct ens as [[t body]|].
  - injection H as <- <-. cbn [items]. change (match r with Some n => items n | None => [] end) with (opt_items items r).
    rewrite H1. cbn [clause_given clause_body]. rewrite !all_app. destruct body; unfold at_; tally.
  - injection H as -> <-. cbn [opt_items] in H1. rewrite H1. cbn [clause_given clause_body]. rewrite !app_nil_r. reflexivity.
Qed.
Lemma k_compstmt l e s n s' : compstmt l e s = Ok (Some n) s' -> keeps [] l n.
Proof. intros H. unfold keeps. destruct l as [|a [|b l]]; cbn [compstmt] in H; steps; tally. Qed.
Lemma k_begin b body z : (forall l x y r, body = Some (NMlhs l x y r) -> x = None /\ y = None) ->
  keeps (at_ b ++ at_ z) (olist body) (begin b body z).
Proof.
  intros P. unfold keeps, begin. destruct body as [m|]; [|tally]. destruct m; try tally.
  - destruct begin_l, end_l; tally.
  - destruct (P _ _ _ _ eq_refl) as [-> ->]. tally.
Qed.
Lemma k_begin_keyword b body z : undelimited_opt body -> keeps (at_ b ++ at_ z) (olist body) (begin_keyword b body z).
Proof.
  intros P. unfold keeps, begin_keyword. destruct body as [m|]; [|tally]. destruct m; try tally.
  destruct P as [-> ->]. tally.
Qed.

(** ** Patterns *)

Lemma k_case_match kw x l el body z :
  keeps (at_ kw ++ at_opt el ++ match body with None => at_opt el | Some _ => [] end ++ at_ z) (x :: l ++ olist body)
        (case_match kw x l el body z).
Proof. unfold keeps, case_match. destruct el, body; tally. Qed.
Lemma k_match_var t e s n s' : match_var t e s = Ok (Some n) s' -> keeps (called t) [] n.
Proof.
  intros H. unfold match_var in H. apply bind_ok' in H as (v & s1 & H1 & H). apply value_ok in H1 as [-> ->].
  apply bind_ok' in H as (u & s2 & _ & H). destruct u; [|discriminate].
  apply bind_ok' in H as (u' & s3 & _ & H). destruct u'; [|discriminate].
  apply bind_ok' in H as (u'' & s4 & _ & H). injection H as <- <-. unfold keeps. tally.
Qed.
Lemma k_from_str b t z e s n s' : utf8_lossy (token_value t) = token_value t ->
  match_hash_var_from_str b [string_internal t] z e s = Ok (Some n) s' -> keeps (called t) [] n.
Proof.
  intros L H. unfold match_hash_var_from_str, string_internal in H. cbn [match_hash_var_node] in H. rewrite L in H.
  apply bind_ok' in H as (u & s2 & _ & H). destruct u; [|discriminate].
  apply bind_ok' in H as (u' & s3 & _ & H). destruct u'; [|discriminate].
  apply bind_ok' in H as (u'' & s4 & _ & H). apply bind_ok' in H as (l1 & s5 & H1 & H). injection H1 as <- <-.
  apply bind_ok' in H as (l2 & s6 & H1 & H). injection H1 as <- <-. injection H as <- <-. unfold keeps. tally.
Qed.
Lemma k_match_rest t v e s n s' : match_rest t v e s = Ok (Some n) s' -> keeps (at_ t ++ called_opt v) [] n.
Proof.
  intros H. unfold match_rest in H. apply bind_ok' in H as (m & s1 & H1 & H). destruct m as [m|]; [|discriminate].
  injection H as <- <-. unfold keeps. destruct v as [v|].
  - apply bind_ok' in H1 as (q & s2 & H2 & H1). destruct q as [q|]; [|discriminate]. injection H1 as <- <-.
    apply k_match_var in H2. unfold keeps in H2. cbn [items opt_items]. rewrite H2. tally.
  - injection H1 as <- <-. tally.
Qed.
Lemma k_match_pair_plain t v e s n s' : match_pair (PlainLabel t) v e s = Ok (Some n) s' ->
  keeps (text (token_value t) ++ [Mark (colon_of (token_loc t))]) [v] n.
Proof.
  intros H. unfold match_pair in H. apply bind_ok' in H as (u & s1 & _ & H). destruct u; [|discriminate].
  apply bind_ok' in H as (m & s2 & H1 & H). injection H as <- <-. eapply k_pair_keyword; eauto.
Qed.
Lemma k_match_pair_quoted b l z v e s n s' : plain_part l -> match_pair (QuotedLabel b l z) v e s = Ok (Some n) s' ->
  keeps (at_ b ++ [Mark (mkLoc (loc_end (token_loc z) - 2) (loc_end (token_loc z) - 1))] ++
         [Mark (colon_of (token_loc z))]) (l ++ [v]) n.
Proof.
  intros P H. unfold match_pair in H. destruct (static_string l); [|steps].
  apply bind_ok' in H as (u & s1 & _ & H). destruct u; [|discriminate].
  apply bind_ok' in H as (m & s2 & H1 & H). injection H as <- <-. eapply k_pair_quoted; eauto.
Qed.
