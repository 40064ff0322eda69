(** * The builder: arguments, values, conditions and ranges (C35, C36, C37, C38) *)
Require Import Verif.Base Verif.MaybeByteM Verif.Utf8M Verif.InputM Verif.ScopesM Verif.TokensM
  Verif.DiagnosticM Verif.LexerM Verif.NodeM Verif.BuilderM Verif.BuilderNodesM Verif.BuilderSpec
  Verif.BuilderFacts.

(** ** C35 *)

(** A braceless hash at the end of the arguments, or right before a final block-pass *)
Inductive kwargs_rewrite : list Node -> list Node -> Prop :=
| kr_last : forall init pairs x,
    kwargs_rewrite (init ++ [NHash pairs None None x]) (init ++ [NKwargs pairs x])
| kr_before_block : forall init pairs x v o y,
    kwargs_rewrite (init ++ [NHash pairs None None x; NBlockPass v o y])
                   (init ++ [NKwargs pairs x; NBlockPass v o y]).

Lemma rev_cons_eq {A} (l : list A) x r : rev l = x :: r -> l = rev r ++ [x].
Proof. intros H. rewrite <- (rev_involutive l), H. reflexivity. Qed.

(** Either one of the two rewritings applies and is performed, or none applies and the arguments stay. *)
Theorem C35_trailing_hash : forall args,
  kwargs_rewrite args (rewrite_hash_args_to_kwargs args) \/
  (rewrite_hash_args_to_kwargs args = args /\ forall args', ~ kwargs_rewrite args args').
Proof.
  intros args. unfold rewrite_hash_args_to_kwargs.
  assert (NO : forall a r, rev args = a :: r ->
    (forall pairs x, a <> NHash pairs None None x) ->
    (forall v o y pairs x r', a = NBlockPass v o y -> r <> NHash pairs None None x :: r') ->
    forall args', ~ kwargs_rewrite args args').
  { intros a r E H1 H2 args' K. inversion K as [init pairs x E1|init pairs x v o y E1]; subst args;
      rewrite rev_app_distr in E; cbn in E; injection E as Ea Er.
    - now apply (H1 pairs x).
    - apply (H2 v o y pairs x (rev init)); auto. }
  destruct (rev args) as [|a r] eqn:E.
  - right. split; [reflexivity|]. intros args' K. 
    assert (args = []) by (rewrite <- (rev_involutive args), E; reflexivity). subst.
    inversion K as [init ? ? E1|init ? ? ? ? ? E1]; now destruct init.
  - destruct a; try (right; split; [reflexivity|]; eapply NO; [reflexivity | discriminate | intros; discriminate]; fail).
    + (* a block-pass *)
      destruct r as [|h r].
      { right; split; [reflexivity|]; eapply NO; [reflexivity | discriminate | intros; discriminate]. }
      destruct h; try (right; split; [reflexivity|]; eapply NO; [reflexivity | discriminate | intros; discriminate]; fail).
      destruct begin_l as [bl|]; [right; split; [reflexivity|]; eapply NO; [reflexivity | discriminate | intros; discriminate]|].
      destruct end_l as [el|]; [right; split; [reflexivity|]; eapply NO; [reflexivity | discriminate | intros; discriminate]|].
      left. apply rev_cons_eq in E. subst args. cbn [rev]. rewrite <- !app_assoc. cbn. constructor.
    + destruct begin_l as [bl|]; [right; split; [reflexivity|]; eapply NO; [reflexivity | discriminate | intros; discriminate]|].
      destruct end_l as [el|]; [right; split; [reflexivity|]; eapply NO; [reflexivity | discriminate | intros; discriminate]|].
      left. apply rev_cons_eq in E. subst args. cbn [rev]. constructor.
Qed.
(** The number of arguments and their locations stay *)
Theorem C35_locations : forall args,
  List.map expression (rewrite_hash_args_to_kwargs args) = List.map expression args.
Proof.
  intros args. destruct (C35_trailing_hash args) as [K|[-> _]]; [|reflexivity].
  inversion K; rewrite !map_app; reflexivity.
Qed.
Example C35_example :
  rewrite_hash_args_to_kwargs
    [NHash [] None None (mkLoc 0 1); NHash [] None None (mkLoc 2 3); NBlockPass None (mkLoc 4 5) (mkLoc 4 5)] =
    [NHash [] None None (mkLoc 0 1); NKwargs [] (mkLoc 2 3); NBlockPass None (mkLoc 4 5) (mkLoc 4 5)] /\
  rewrite_hash_args_to_kwargs [NHash [] (Some (mkLoc 0 1)) (Some (mkLoc 2 3)) (mkLoc 0 3)] =
    [NHash [] (Some (mkLoc 0 1)) (Some (mkLoc 2 3)) (mkLoc 0 3)].
Proof. split; reflexivity. Qed.
Print Assumptions C35_trailing_hash.

(** ** C36 *)

Lemma snoc_cases {A} (l : list A) : l = [] \/ exists i x, l = i ++ [x].
Proof. induction l as [|x l _] using rev_ind; [now left | right; eauto]. Qed.
Lemma last_with_snoc {X A} (f : X -> option A) l x : last_with f (l ++ [x]) = f x.
Proof.
  induction l as [|y l IH]; [reflexivity|]. cbn [app last_with]. destruct (l ++ [x]) eqn:E; [now destruct l|exact IH].
Qed.

(** [v] is reached from [n] by going to sub-nodes *)
Inductive sub_node : Node -> Node -> Prop :=
| sn_self : forall n, sub_node n n
| sn_child : forall n c v, In c (children n) -> sub_node c v -> sub_node n v.

Lemma no_value_leaf n : MayProduce n -> is_jump n -> False.
Proof. intros M J. destruct n; cbn in J; try destruct J; inversion M as [? NJ NC| | | | | | | | | | | | | | | | | |]; now apply NJ. Qed.

Lemma void_value_ok n :
  match void_value n with
  | None => MayProduce n
  | Some v => ~ MayProduce n /\ ~ MayProduce v /\ sub_node n v
  end.
Proof.
  induction n as [n IH] using node_ind'.
  assert (J : is_jump n -> ~ MayProduce n /\ ~ MayProduce n /\ sub_node n n).
  { intros J. split; [|split]; [intros M; now apply (no_value_leaf n) ..|constructor]. }
  assert (O : ~ is_jump n -> ~ is_compound n -> MayProduce n) by apply mp_other.
  destruct n; try (apply J; exact I); try (apply O; intros []; fail); clear J O; cbn [children] in IH;
    match goal with
    | |- match void_value (NBegin ?l _ _ _) with _ => _ end =>
        change (void_value (NBegin l begin_l end_l expression_l)) with (last_with void_value l)
    | |- match void_value (NKwBegin ?l _ _ _) with _ => _ end =>
        change (void_value (NKwBegin l begin_l end_l expression_l)) with (last_with void_value l)
    | |- _ => cbn [void_value]
    end.
  (* one operand decides *)
  all: try (match goal with |- match void_value ?m with _ => _ end =>
      pose proof (IH m ltac:(cbn; auto)) as H; destruct (void_value m) as [v|]; [|now constructor];
      destruct H as (H1 & H2 & H3); split; [|split; [exact H2|]];
      [intros M; inversion M; subst; cbn in *; tauto | apply (sn_child _ m); [cbn; auto | exact H3]] end).
  (* sequences *)
  all: try (match goal with |- match last_with void_value ?l with _ => _ end =>
      destruct (snoc_cases l) as [->|(i & x & ->)]; [constructor|];
      rewrite last_with_snoc; pose proof (IH x ltac:(apply in_or_app; right; now left)) as H;
      destruct (void_value x) as [v|]; [|now constructor];
      destruct H as (H1 & H2 & H3); split; [|split; [exact H2|]];
      [intros M; inversion M; subst; cbn in *; try tauto;
       match goal with
       | E : _ ++ [_] = _ ++ [_] |- _ => apply app_inj_tail in E as [_ ->]; auto
       | E : [] = ?i ++ [_] |- _ => now destruct i
       end
      | apply (sn_child _ x); [apply in_or_app; right; now left | exact H3]] end).
  (* conditionals *)
  all: try (destruct if_true as [if_true|]; [|solve [constructor]]; destruct if_false as [if_false|]; [|solve [constructor]]).
  all: match goal with |- match (if is_some (void_value ?t) && is_some (void_value ?f) then _ else _) with _ => _ end =>
      pose proof (IH t ltac:(cbn; auto)) as Ht; pose proof (IH f ltac:(cbn; auto)) as Hf;
      destruct (void_value t) as [v1|]; [|cbn [is_some andb]; now constructor];
      destruct (void_value f) as [v2|]; [|cbn [is_some andb]; now constructor];
      cbn [is_some andb]; destruct Ht as (Ht & _), Hf as (Hf & _); split; [|split; [exact Ht|]];
      [intros M; inversion M; subst; cbn in *; tauto | apply (sn_child _ t); [cbn; auto | constructor]] end.
Qed.

(** For every expression: the error is reported iff the expression cannot produce a value, at the location of a
    sub-expression that cannot produce one; otherwise nothing happens. *)
Theorem C36_void_value : forall n e b,
  (MayProduce n /\ value_expr n e b = Ok (Some tt) b) \/
  (~ MayProduce n /\ exists v, sub_node n v /\ ~ MayProduce v /\
     value_expr n e b = Ok None (add_diags [mkDiag Error VoidValueExpression (expression v)] b)).
Proof.
  intros n e b. unfold value_expr, bind. pose proof (void_value_ok n) as H.
  destruct (void_value n) as [v|].
  - right. destruct H as (H1 & H2 & H3). split; [exact H1|]. exists v. auto.
  - left. auto.
Qed.
Definition C36_example_node (else_ : option Node) : Node :=
  NBegin [NNil (mkLoc 0 3);
          NIf (NLvar (bs "x") (mkLoc 7 8)) (Some (NReturn [] (mkLoc 9 15) (mkLoc 9 15))) else_
            (mkLoc 4 6) (mkLoc 8 9) None (Some (mkLoc 30 33)) (mkLoc 4 33)]
    None None (mkLoc 0 33).
Example C36_example :
  MayProduce (C36_example_node None) /\ ~ MayProduce (C36_example_node (Some (NRetry (mkLoc 20 25)))) /\
  value_expr (C36_example_node (Some (NRetry (mkLoc 20 25)))) no_env empty_builder =
    Ok None (add_diags [mkDiag Error VoidValueExpression (mkLoc 9 15)] empty_builder).
Proof.
  split; [|split].
  - apply (mp_begin [_]). apply mp_if_no_false.
  - exact (proj1 (void_value_ok (C36_example_node (Some (NRetry (mkLoc 20 25)))))).
  - reflexivity.
Qed.
Print Assumptions C36_void_value.

(** ** C37 *)

Lemma map_opt_rel (R : Node -> Node -> Prop) f o : (forall a, In a (olist o) -> R a (f a)) -> OptRel R o (map_opt f o).
Proof. destruct o as [a|]; intros H; constructor. apply H. now left. Qed.

Lemma check_condition_rewritten n : Rewritten n (check_condition n).
Proof.
  induction n as [n IH] using node_ind'. destruct n; try (apply rw_keep; intros []; fail); cbn [children] in IH.
  - apply rw_and; apply IH; cbn; auto.
  - destruct statements as [|s [|s' r]]; try (apply rw_keep; intros []; fail).
    apply rw_begin. apply IH. now left.
  - apply rw_erange; apply map_opt_rel; intros; apply IH; apply in_or_app; auto.
  - apply rw_irange; apply map_opt_rel; intros; apply IH; apply in_or_app; auto.
  - apply rw_or; apply IH; cbn; auto.
  - apply rw_regexp.
Qed.
Lemma rewritten_det n : forall m, Rewritten n m -> m = check_condition n.
Proof.
  induction n as [n IH] using node_ind'. intros m H.
  inversion H as [? K|s s' ? ? ? H1|? ? ? ? ? ? H1 H2|? ? ? ? ? ? H1 H2|? ? ? ? ? ? H1 H2|? ? ? ? ? ? H1 H2|]; subst;
    cbn [children check_condition] in *.
  - destruct m; try reflexivity; try (exfalso; now apply K).
    destruct statements as [|s [|s' r]]; [reflexivity | exfalso; now apply K | reflexivity].
  - rewrite (IH s (or_introl eq_refl) s' H1). reflexivity.
  - f_equal; apply IH; cbn; auto.
  - f_equal; apply IH; cbn; auto.
  - f_equal; [inversion H1|inversion H2]; subst; cbn; try reflexivity; f_equal; apply IH; auto;
      cbn; try (now left); apply in_or_app; right; now left.
  - f_equal; [inversion H1|inversion H2]; subst; cbn; try reflexivity; f_equal; apply IH; auto;
      cbn; try (now left); apply in_or_app; right; now left.
  - reflexivity.
Qed.

(** [check_condition] is exactly the rewriting [Rewritten] (which sub-conditions are rewritten and into what), *)
Theorem C37_condition : forall n m, Rewritten n m <-> m = check_condition n.
Proof. intros n m. split; [apply rewritten_det | intros ->; apply check_condition_rewritten]. Qed.
(** it keeps the range of the condition, *)
Theorem C37_expression : forall n, expression (check_condition n) = expression n.
Proof. intros n. destruct n; try reflexivity. destruct statements as [|s [|s' r]]; reflexivity. Qed.
(** and it is idempotent. *)
Theorem C37_idempotent : forall n, check_condition (check_condition n) = check_condition n.
Proof.
  induction n as [n IH] using node_ind'. destruct n; try reflexivity; cbn [children] in IH.
  - cbn. f_equal; apply IH; cbn; auto.
  - destruct statements as [|s [|s' r]]; try reflexivity. cbn. rewrite (IH s (or_introl eq_refl)). reflexivity.
  - cbn. f_equal; apply IH; cbn; auto.
Qed.
(** No range and no regexp literal is left in condition position (in a condition that comes from the grammar,
    which contains no flip-flop before it is rewritten). *)
Definition flip_flop (n : Node) : Prop :=
  match n with NIFlipFlop _ _ _ _ | NEFlipFlop _ _ _ _ => True | _ => False end.
Definition raw_condition (n : Node) : Prop :=
  match n with NIrange _ _ _ _ | NErange _ _ _ _ | NRegexp _ _ _ _ _ => True | _ => False end.
Theorem C37_nothing_left : forall n, (forall m, InCond n m -> ~ flip_flop m) ->
  forall m, InCond (check_condition n) m -> ~ raw_condition m.
Proof.
  induction n as [n IH] using node_ind'. intros NF.
  assert (SELF : ~ looked_into n -> forall m, InCond n m -> ~ raw_condition m).
  { intros L m H. inversion H; subst; cbn in L; try tauto; intros R; try (destruct m; cbn in R, L; tauto);
      exact (NF _ (ic_self _) I). }
  destruct n; try (apply SELF; intros []; fail); cbn [children] in IH.
  - cbn [check_condition]. intros m H R. inversion H; subst; [exact R| |].
    + refine (IH n1 _ _ m _ R); [cbn; auto | | assumption]. intros m' H'. apply NF. now constructor.
    + refine (IH n2 _ _ m _ R); [cbn; auto | | assumption]. intros m' H'. apply NF. now constructor.
  - destruct statements as [|s [|s' r]]; try (apply SELF; intros []; fail).
    cbn [check_condition]. intros m H R. inversion H; subst; [exact R|].
    refine (IH s _ _ m _ R); [cbn; auto | | assumption]. intros m' H'. apply NF. now constructor.
  - cbn [check_condition]. intros m H R. inversion H as [| | | | | | | | | | | |? ? ? ? ? H1 E|? ? ? ? ? H1 E]; subst; [exact R| |].
    + destruct left_ as [c|]; [|discriminate]. cbn in *.
      repeat match goal with E : Some _ = Some _ |- _ => injection E as -> end.
      refine (IH c _ _ m _ R); [cbn; auto | | assumption]. intros m' H'. apply NF. now constructor.
    + destruct right_ as [c|]; [|discriminate]. cbn in *.
      repeat match goal with E : Some _ = Some _ |- _ => injection E as -> end.
      refine (IH c _ _ m _ R); [apply in_or_app; right; now left | | assumption]. intros m' H'. apply NF. now constructor.
  - cbn [check_condition]. intros m H R. inversion H as [| | | | | | | | | |? ? ? ? ? H1 E|? ? ? ? ? H1 E| |]; subst; [exact R| |].
    + destruct left_ as [c|]; [|discriminate]. cbn in *.
      repeat match goal with E : Some _ = Some _ |- _ => injection E as -> end.
      refine (IH c _ _ m _ R); [cbn; auto | | assumption]. intros m' H'. apply NF. now constructor.
    + destruct right_ as [c|]; [|discriminate]. cbn in *.
      repeat match goal with E : Some _ = Some _ |- _ => injection E as -> end.
      refine (IH c _ _ m _ R); [apply in_or_app; right; now left | | assumption]. intros m' H'. apply NF. now constructor.
  - cbn [check_condition]. intros m H R. inversion H; subst; [exact R| |].
    + refine (IH n1 _ _ m _ R); [cbn; auto | | assumption]. intros m' H'. apply NF. now constructor.
    + refine (IH n2 _ _ m _ R); [cbn; auto | | assumption]. intros m' H'. apply NF. now constructor.
  - cbn [check_condition]. intros m H R. inversion H; subst. exact R.
Qed.

Definition C37_regexp : Node := NRegexp [] None (mkLoc 1 2) (mkLoc 2 3) (mkLoc 1 3).
Definition C37_example_node : Node :=
  NAnd (NBegin [NIrange (Some C37_regexp) (Some (NNil (mkLoc 5 8))) (mkLoc 3 5) (mkLoc 1 8)] (Some (mkLoc 0 1)) (Some (mkLoc 8 9)) (mkLoc 0 9))
    (NArray [C37_regexp] None None (mkLoc 13 16)) (mkLoc 10 12) (mkLoc 0 16).
Example C37_example : (forall m, InCond C37_example_node m -> ~ flip_flop m) /\
  check_condition C37_example_node =
  NAnd (NBegin [NIFlipFlop (Some (NMatchCurrentLine C37_regexp (mkLoc 1 3))) (Some (NNil (mkLoc 5 8))) (mkLoc 3 5) (mkLoc 1 8)]
          (Some (mkLoc 0 1)) (Some (mkLoc 8 9)) (mkLoc 0 9))
    (NArray [C37_regexp] None None (mkLoc 13 16)) (mkLoc 10 12) (mkLoc 0 16).
Proof.
  split; [|reflexivity]. intros m H F.
  repeat (match goal with H : InCond _ m |- _ => inversion H; subst; clear H end; try exact F).
Qed.
Print Assumptions C37_condition.
Print Assumptions C37_nothing_left.

(** ** C38 *)

(** Joining yields the least range that encloses both *)
Theorem C38_join_least : forall a b,
  encloses (loc_join a b) a /\ encloses (loc_join a b) b /\
  forall r, encloses r a -> encloses r b -> encloses r (loc_join a b).
Proof.
  intros a b. unfold encloses, loc_join. cbn. repeat split; try lia.
  all: intros; lia.
Qed.

(** The ranges of the parts of a collection in the order in which they stand in the source *)
Definition parts_of (begin_l : option Loc) (parts : list Node) (end_l : option Loc) : list Loc :=
  olist begin_l ++ List.map expression parts ++ olist end_l.

(** A range that runs from the first to the last of ordered ranges is the least one enclosing them all *)
Definition hull (r : Loc) (ls : list Loc) : Prop :=
  Forall (encloses r) ls /\ forall r', Forall (encloses r') ls -> encloses r' r.

Lemma in_order_cons a l : in_order (a :: l) <-> proper a /\ Forall (before a) l /\ in_order l.
Proof. reflexivity. Qed.
Lemma in_order_ends l : in_order l -> forall a z, first_opt l = Some a -> last_opt l = Some z ->
  forall x, In x l -> loc_begin a <= loc_begin x /\ loc_end x <= loc_end z /\ proper x.
Proof.
  induction l as [|y l IH]; intros O a z Ha Hz x Hx; [destruct Hx|].
  cbn in Ha. injection Ha as <-. destruct O as (P & B & O).
  destruct l as [|y' l'].
  - cbn in Hz. injection Hz as <-. destruct Hx as [<-|[]]. auto.
  - specialize (IH O y' z eq_refl Hz). destruct Hx as [<-|Hx].
    + pose proof (IH y' (or_introl eq_refl)) as (_ & H2 & H3).
      inversion B as [|? ? B1 _]; subst. unfold before, proper in *. repeat split; lia.
    + destruct (IH x Hx) as (H1 & H2 & H3). rewrite Forall_forall in B. specialize (B x Hx).
      unfold before, proper in *. repeat split; lia.
Qed.
Lemma last_opt_in {A} (l : list A) z : last_opt l = Some z -> In z l.
Proof. induction l as [|a [|b l] IH]; cbn in *; [discriminate | intros [= ->]; auto | intros H; right; now apply IH]. Qed.
Lemma last_opt_some {A} (l : list A) : l <> [] -> exists z, last_opt l = Some z.
Proof. induction l as [|a [|b l] IH]; intros H; [now destruct H | cbn; eauto | apply IH; discriminate]. Qed.
Lemma first_last_hull l a z : in_order l -> first_opt l = Some a -> last_opt l = Some z -> hull (loc_join a z) l.
Proof.
  intros O Ha Hz. pose proof (in_order_ends l O a z Ha Hz) as H. split.
  - apply Forall_forall. intros x Hx. destruct (H x Hx) as (H1 & H2 & H3). unfold encloses, loc_join. cbn. lia.
  - intros r F. rewrite Forall_forall in F. apply C38_join_least; apply F.
    + destruct l; [discriminate|]. cbn in Ha. injection Ha as ->. now left.
    + now apply last_opt_in.
Qed.
Lemma in_order_app l1 l2 : in_order (l1 ++ l2) -> in_order l1 /\ in_order l2 /\
  forall x y, In x l1 -> In y l2 -> before x y.
Proof.
  induction l1 as [|a l1 IH]; cbn [app]; intros H; [repeat split; auto; intros x y []|].
  destruct H as (P & B & O). destruct (IH O) as (O1 & O2 & X). apply Forall_app in B as [B1 B2].
  split; [|split]; [split; auto | exact O2|]. intros x y [<-|Hx] Hy; [|now apply X].
  rewrite Forall_forall in B2. now apply B2.
Qed.
Lemma first_opt_map {A C} (f : A -> C) l : first_opt (List.map f l) = option_map f (first_opt l).
Proof. now destruct l. Qed.
Lemma last_opt_map {A C} (f : A -> C) l : last_opt (List.map f l) = option_map f (last_opt l).
Proof. induction l as [|a [|b l] IH]; try reflexivity. exact IH. Qed.

(** A hull is unique and can be built from the hulls of two parts *)
Lemma hull_join r1 l1 r2 l2 : hull r1 l1 -> hull r2 l2 -> hull (loc_join r1 r2) (l1 ++ l2).
Proof.
  intros [F1 M1] [F2 M2]. split.
  - apply Forall_app. split; (eapply Forall_impl; [|eassumption]); unfold encloses, loc_join; cbn; intros; lia.
  - intros r F. apply Forall_app in F as [G1 G2]. apply C38_join_least; auto.
Qed.
Lemma hull_perm r l l' : (forall x, In x l <-> In x l') -> hull r l -> hull r l'.
Proof.
  intros P [F M]. rewrite Forall_forall in F. split.
  - apply Forall_forall. intros x Hx. apply F. now apply P.
  - intros r' F'. rewrite Forall_forall in F'. apply M. apply Forall_forall. intros x Hx. apply F'. now apply P.
Qed.
Lemma hull_one a : hull a [a].
Proof. split; [repeat constructor | intros r F; now inversion F]. Qed.

(** The range of a collection whose elements stand in source order is the least one that encloses the elements
    and the delimiters, wherever the delimiters stand.  A collection without anything in it panics. *)
Theorem C38_collection : forall begin_t parts end_t e b,
  in_order (List.map expression parts) ->
  match parts_of (maybe_loc begin_t) parts (maybe_loc end_t) with
  | [] => exists w, collection_map begin_t parts end_t e b = Panic w
  | ls => exists r, collection_map begin_t parts end_t e b = Ok (maybe_loc begin_t, maybe_loc end_t, r) b /\ hull r ls
  end.
Proof.
  intros begin_t parts end_t e b O. unfold collection_map, bind.
  assert (C : match collection_expr parts with Some r => parts <> [] /\ hull r (List.map expression parts) | None => parts = [] end).
  { unfold collection_expr, join_maybe_exprs, maybe_node_expr. rewrite <- !last_opt_map, <- first_opt_map.
    destruct parts as [|p parts]; [reflexivity|]. set (l := List.map expression (p :: parts)) in *.
    destruct (last_opt_some l) as (z & Hz); [discriminate|]. rewrite Hz. cbn [first_opt l List.map].
    cbn [join_maybe_locs]. split; [discriminate|]. apply first_last_hull; auto. }
  unfold parts_of. destruct (maybe_loc begin_t) as [bl|], (maybe_loc end_t) as [el|], (collection_expr parts) as [r|];
    cbn [join_maybe_locs olist app expect ret]; try subst parts; cbn [List.map app]; try destruct C as [NE C].
  all: try (eexists; split; [reflexivity|]).
  - eapply hull_perm; [|apply (hull_join _ _ _ _ (hull_join _ _ _ _ C (hull_one bl)) (hull_one el))].
    intros x. rewrite !in_app_iff. cbn. rewrite in_app_iff. cbn. tauto.
  - apply (hull_join _ _ _ _ (hull_one bl) (hull_one el)).
  - eapply hull_perm; [|apply (hull_join _ _ _ _ C (hull_one bl))].
    intros x. rewrite !in_app_iff. cbn. rewrite in_app_iff. cbn. tauto.
  - apply hull_one.
  - pose proof (hull_join _ _ _ _ C (hull_one el)) as H.
    destruct (List.map expression parts ++ [el]) as [|x l] eqn:E; [destruct parts; discriminate|].
    eexists; split; [reflexivity | exact H].
  - apply hull_one.
  - rewrite app_nil_r. destruct (List.map expression parts) as [|x l] eqn:E.
    + exfalso. destruct parts; [now apply NE | discriminate].
    + eexists; split; [reflexivity | exact C].
  - eexists. reflexivity.
Qed.

(** The hull encloses, hence so does the computed range *)
Theorem C38_collection_encloses : forall begin_t parts end_t e b r bl el,
  in_order (List.map expression parts) ->
  collection_map begin_t parts end_t e b = Ok (bl, el, r) b ->
  (forall n, In n parts -> encloses r (expression n)) /\
  (forall t, begin_t = Some t \/ end_t = Some t -> encloses r (token_loc t)).
Proof.
  intros begin_t parts end_t e b r bl el O E. pose proof (C38_collection begin_t parts end_t e b O) as H.
  remember (parts_of (maybe_loc begin_t) parts (maybe_loc end_t)) as ls eqn:Els.
  assert (F : Forall (encloses r) ls).
  { destruct ls as [|x l]; [constructor|]. destruct H as (r' & E' & [F _]). rewrite E in E'. injection E' as _ _ ->. exact F. }
  rewrite Forall_forall in F. subst ls. unfold parts_of in F. split.
  - intros n Hn. apply F. apply in_or_app. right. apply in_or_app. left. now apply in_map.
  - intros t [->| ->]; apply F; cbn; [now left|]. apply in_or_app. right. apply in_or_app. right. now left.
Qed.
Example C38_example :
  in_order (List.map expression [NNil (mkLoc 1 4); NTrue (mkLoc 6 10)]) /\
  collection_map (Some (mkToken tLBRACK (bs "[") (mkLoc 0 1))) [NNil (mkLoc 1 4); NTrue (mkLoc 6 10)]
    (Some (mkToken tRBRACK (bs "]") (mkLoc 10 11))) no_env empty_builder
  = Ok (Some (mkLoc 0 1), Some (mkLoc 10 11), mkLoc 0 11) empty_builder.
Proof. split; [cbn; unfold proper, before; cbn; repeat split; repeat constructor | reflexivity]. Qed.
Print Assumptions C38_collection.
Print Assumptions C38_collection_encloses.
