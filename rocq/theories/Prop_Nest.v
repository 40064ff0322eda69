(** * Every tree the builder makes is nested (C48) *)
Require Import Verif.Base Verif.InputM Verif.TokensM Verif.NodeM Verif.ScopesM Verif.DiagnosticM.
Require Import Verif.LexerM Verif.BuilderM Verif.BuilderNodesM Verif.BuilderFacts Verif.NestSpec Verif.NestFacts Verif.NestAll.
From Coq Require Import Lia ZifyBool ZifyNat.

(** ** C48 *)

(** In every tree made by the builder, the pieces of every node follow each other within the range of the node, in
    the order of the source. *)
Theorem C48_nested : forall n, Built n -> Nested n.
Proof.
  fix IH 2. intros n [ns ps h n0 C S HN]. refine (proj1 (call_nested _ _ _ _ C S _)). intros m Hm. apply IH, HN, Hm.
Qed.
(** The range of a node runs from the beginning of the first to the end of the last thing it was made from. *)
Theorem C48_range : forall ns ps h n, Call ns ps h n -> in_sequence ps -> (forall m, In m ns -> Built m) ->
  spans (expression n) h.
Proof. intros ns ps h n C S HN. refine (proj2 (call_nested _ _ _ _ C S _)). intros m Hm. apply C48_nested, HN, Hm. Qed.

(** In particular: the range of a node contains those of its sub-nodes, and the marks recorded in it.  Exempt are
    heredocs, and the mark that ends the head of a [when] or [in] clause without a body. *)
Definition within (x r : Loc) : Prop := loc_begin r <= loc_begin x /\ loc_begin x <= loc_end x /\ loc_end x <= loc_end r.
Definition heredoc_node (n : Node) : bool := match n with NHeredoc _ _ _ _ | NXHeredoc _ _ _ _ => true | _ => false end.
Definition marks (n : Node) : list Loc :=
  match n with
  | NWhen _ None kw _ _ | NInPattern _ _ None kw _ _ => [kw]
  | _ => own_locs n
  end.
Lemma same_loc_eq a b : same_loc a b = true -> a = b.
Proof. unfold same_loc. intros H. apply andb_prop in H as [H1 H2]. apply Nat.eqb_eq in H1, H2. destruct a, b; cbn in *. now subst. Qed.
Lemma map_olist o : List.map expression (olist o) = ndo o.
Proof. now destruct o. Qed.
Ltac among W Hx := apply W; clear - Hx; cbn [children marks own_locs] in Hx; unfold nds; cbn [olist] in *;
  rewrite ?map_app, ?map_olist in Hx; repeat (rewrite ?in_app_iff in *; cbn [List.map In app] in * ); tauto.
Lemma layout_within n ls : In ls (layouts n) -> inside (loc_begin (expression n)) ls (loc_end (expression n)) ->
  heredoc_node n = false -> (forall c, In c (children n) -> Nested c) ->
  forall x, In x (List.map expression (children n) ++ marks n) -> within x (expression n).
Proof.
  intros Hls J Hh HN x Hx.
  assert (W : forall y, In y ls -> within y (expression n)).
  { intros y Hy. destruct (inside_proper _ _ _ _ J Hy) as (A & B & C). repeat split; assumption. }
  destruct n; try discriminate Hh; clear Hh.
  all: try (cbn [layouts around] in Hls; destruct Hls as [<-|[]]; among W Hx; fail).
  all: try (cbn [layouts around] in Hls; destruct Hls as [<-|[<-|[]]]; among W Hx; fail).
  all: try (cbn [layouts around] in Hls; destruct operator_l; cbn [olist] in Hx; destruct Hls as [<-|[<-|[]]]; among W Hx; fail).
  all: try (cbn [layouts around] in Hls; destruct operator_l; cbn [olist] in Hx; destruct Hls as [<-|[]]; among W Hx; fail).
  all: try (cbn [layouts around] in Hls; destruct body; cbn [olist] in Hx; destruct Hls as [<-|[]]; among W Hx; fail).
  - (* a pattern match whose [else] has no body *)
    cbn [layouts] in Hls. destruct Hls as [<-|Hls]; [among W Hx|].
    destruct else_body as [m|]; [|destruct Hls]. destruct m; try (destruct Hls; fail). destruct else_l as [k|]; [|destruct Hls].
    destruct (same_loc k expression_l0) eqn:E; [|destruct Hls]. apply same_loc_eq in E. subst k. destruct Hls as [<-|[]].
    among W Hx.
  - (* constants with [::] in front *)
    cbn [layouts] in Hls. destruct Hls as [<-|Hls]; [among W Hx|].
    destruct scope as [m|]; [|destruct Hls]. destruct m; try (destruct Hls; fail). destruct double_colon_l as [k|]; [|destruct Hls].
    destruct (same_loc k expression_l0) eqn:E; [|destruct Hls]. apply same_loc_eq in E. subst k. destruct Hls as [<-|[]].
    among W Hx.
  - cbn [layouts] in Hls. destruct Hls as [<-|Hls]; [among W Hx|].
    destruct scope as [m|]; [|destruct Hls]. destruct m; try (destruct Hls; fail). destruct double_colon_l as [k|]; [|destruct Hls].
    destruct (same_loc k expression_l0) eqn:E; [|destruct Hls]. apply same_loc_eq in E. subst k. destruct Hls as [<-|[]].
    among W Hx.
  - (* a constant with empty parentheses *)
    cbn [layouts] in Hls. destruct Hls as [<-|Hls]; [among W Hx|].
    destruct (same_loc (expression n2) (mkLoc (loc_begin begin_l) (loc_end end_l))) eqn:E; [|destruct Hls]. apply same_loc_eq in E.
    destruct Hls as [<-|[]]. cbn [children marks own_locs List.map app In] in Hx. rewrite E in Hx. cbn in J.
    destruct Hx as [<-|[<-|[<-|[<-|[]]]]]; unfold within; cbn; lia.
  - (* [elsif] *)
    cbn [layouts] in Hls. destruct Hls as [<-|[<-|Hls]]; [among W Hx | among W Hx |].
    destruct if_false as [m|]; [|destruct Hls]. destruct m; try (destruct Hls; fail). destruct else_l as [k|]; [|destruct Hls].
    destruct (same_loc k keyword_l0) eqn:E; [|destruct Hls]. apply same_loc_eq in E. subst k. destruct Hls as [<-|[]].
    assert (K : within keyword_l0 expression_l0).
    { destruct (nested_inv (NIf m if_true0 if_false keyword_l0 begin_l0 else_l0 end_l0 expression_l0)) as [[(ls & Hls & I) _] _].
      { apply HN. cbn [children app]. right. apply in_or_app. right. now left. }
      apply (inside_proper _ _ _ keyword_l0) in I; [repeat split; apply I|]. cbn [layouts] in Hls.
      destruct Hls as [<-|[<-|Hls]]; [now left | now left |].
      destruct if_false as [y|]; [|destruct Hls]. destruct y; try (destruct Hls; fail). destruct else_l0; [|destruct Hls].
      destruct same_loc; [|destruct Hls]. destruct Hls as [<-|[]]. now left. }
    match type of W with forall y, In y ?l -> _ => assert (D : x = keyword_l0 \/ In x l) end.
    { clear - Hx. cbn [children marks own_locs olist] in Hx. rewrite ?map_app, ?map_olist in Hx.
      repeat (rewrite ?in_app_iff in *; cbn [List.map In app olist] in * ). intuition auto. }
    destruct D as [-> | D]; [|apply W, D].
    assert (V : within expression_l0 (expression (NIf n if_true
      (Some (NIf m if_true0 if_false keyword_l0 begin_l0 else_l0 end_l0 expression_l0)) keyword_l begin_l (Some keyword_l0) end_l expression_l))).
    { apply W. do 3 right. apply (in_or_app (ndo if_true)). right. now left. }
    unfold within in *. lia.
  - (* a pair whose value is its key *)
    cbn [layouts] in Hls. destruct Hls as [<-|Hls]; [among W Hx|].
    destruct (same_loc (expression n1) (expression n2)) eqn:E; [|destruct Hls]. apply same_loc_eq in E.
    destruct Hls as [<-|[]]. cbn [children marks own_locs List.map app In] in Hx. rewrite E in *. among W Hx.
Qed.

Theorem C48_within : forall n, Built n -> heredoc_node n = false ->
  (forall c, In c (children n) -> within (expression c) (expression n)) /\
  (forall l, In l (marks n) -> within l (expression n)).
Proof.
  intros n H Hh. destruct (nested_inv _ (C48_nested n H)) as [[(ls & Hls & J) _] C].
  pose proof (layout_within n ls Hls J Hh C) as W.
  split; [intros c Hc; apply W, in_or_app; left; now apply in_map | intros l Hl; apply W, in_or_app; now right].
Qed.
(** The sub-nodes of a heredoc are in the range recorded for its body, one after the other *)
Theorem C48_heredoc_parts : forall l body end_l r, Built (NHeredoc l body end_l r) \/ Built (NXHeredoc l body end_l r) ->
  inside (loc_begin body) (nds l) (loc_end body).
Proof. intros l body end_l r [H|H]; apply C48_nested, nested_inv in H as [[_ H] _]; exact H. Qed.

(** So the range of a node contains those of everything below it, up to heredocs *)
Inductive below : Node -> Node -> Prop :=
| below_child : forall c n, In c (children n) -> heredoc_node n = false -> below c n
| below_trans : forall d c n, below d c -> In c (children n) -> heredoc_node n = false -> below d n.
Theorem C48_below : forall d n, Built n -> below d n -> within (expression d) (expression n).
Proof.
  intros d n HB. apply C48_nested in HB. intros H.
  assert (W : forall c n, Nested n -> In c (children n) -> heredoc_node n = false -> within (expression c) (expression n) /\ Nested c).
  { clear. intros c n H Hc Hh. destruct (nested_inv _ H) as [[(ls & Hls & J) _] C]. split; [|auto].
    apply (layout_within n ls Hls J Hh C). apply in_or_app. left. now apply in_map. }
  induction H as [c n Hc Hh|d c n Hd IH Hc Hh].
  - now apply W.
  - destruct (W c n HB Hc Hh) as [W1 N1]. specialize (IH N1). unfold within in *. lia.
Qed.

(** [foo(nil) { self }] *)
Definition C48_call : Node :=
  NSend None (bs "foo") [NNil (mkLoc 4 7)] None (Some (mkLoc 0 3)) (Some (mkLoc 3 4)) (Some (mkLoc 7 8)) None (mkLoc 0 8).
Definition C48_tree : Node := NBlock C48_call None (Some (NSelf_ (mkLoc 11 15))) (mkLoc 9 10) (mkLoc 16 17) (mkLoc 0 17).
Lemma C48_call_built : Built C48_call.
Proof.
  refine (built _ _ _ _ (c_call_method None None (Some (mkToken tIDENTIFIER (bs "foo") (mkLoc 0 3)))
    (Some (mkToken tLPAREN2 (bs "(") (mkLoc 3 4))) [NNil (mkLoc 4 7)] (Some (mkToken tRPAREN (bs ")") (mkLoc 7 8)))
    no_env empty_builder C48_call empty_builder _ _ _ _) _ _).
  - split; discriminate.
  - reflexivity.
  - discriminate.
  - reflexivity.
  - exists 0, 8. cbn. lia.
  - intros m [<-|[]]. refine (built _ _ _ _ (c_nil (mkToken kNIL (bs "nil") (mkLoc 4 7))) _ _); [exists 4, 7; cbn; lia | intros m []].
Qed.
Example C48_example : Built C48_tree /\
  block C48_call (mkToken tLCURLY (bs "{") (mkLoc 9 10)) (ArgsT None) (Some (NSelf_ (mkLoc 11 15)))
    (mkToken tRCURLY (bs "}") (mkLoc 16 17)) no_env empty_builder = Ok (Some C48_tree) empty_builder /\
  below (NNil (mkLoc 4 7)) C48_tree.
Proof.
  split; [|split; [reflexivity|]].
  - refine (built _ _ _ _ (c_block C48_call (mkToken tLCURLY (bs "{") (mkLoc 9 10)) None (Some (NSelf_ (mkLoc 11 15)))
      (mkToken tRCURLY (bs "}") (mkLoc 16 17)) no_env empty_builder C48_tree empty_builder _) _ _).
    + reflexivity.
    + exists 0, 17. cbn. lia.
    + intros m [<-|[<-|[]]]; [apply C48_call_built|].
      refine (built _ _ _ _ (c_self (mkToken kSELF (bs "self") (mkLoc 11 15))) _ _); [exists 11, 15; cbn; lia | intros m []].
  - eapply below_trans; [|left; reflexivity | reflexivity]. apply below_child; [left; reflexivity | reflexivity].
Qed.

(** ** Exceptions *)

(** [when nil then] without a body: the mark for [then] lies outside the range of the clause (builder.rs,
    2614-2636).  The same for [in] (3239-3263). *)
Theorem C48_then_mark_refuted : exists n l, Built n /\ heredoc_node n = false /\ In l (own_locs n) /\ ~ within l (expression n).
Proof.
  exists (when_ (mkToken kWHEN (bs "when") (mkLoc 0 4)) [NNil (mkLoc 5 8)] (mkToken kTHEN (bs "then") (mkLoc 9 13)) None), (mkLoc 9 13).
  split; [|split; [reflexivity | split; [right; now left | unfold within; cbn; lia]]].
  refine (built _ _ _ _ (c_when_empty _ _ _) _ _); [exists 0, 13; cbn; lia|].
  intros m [<-|[]]. refine (built _ _ _ _ (c_nil (mkToken kNIL (bs "nil") (mkLoc 5 8))) _ _); [exists 5, 8; cbn; lia | intros m []].
Qed.
(** A block with numbered parameters but without a body gets a [nil] at the beginning of the file (2133, 2180).
    The parser never makes one: the parameters are mentioned in the body. *)
Theorem C48_numblock_without_body_refuted : exists m b z e s n s' c,
  block m b (Numargs 1) None z e s = Ok (Some n) s' /\ Built m /\ in_sequence (nd m ++ tk b ++ tk z) /\
  In c (children n) /\ ~ within (expression c) (expression n).
Proof.
  exists (NLambda (mkLoc 5 7)), (mkToken tLAMBEG (bs "{") (mkLoc 8 9)), (mkToken tRCURLY (bs "}") (mkLoc 9 10)), no_env, empty_builder.
  exists (NNumblock (NLambda (mkLoc 5 7)) 1 (NNil (mkLoc 0 0)) (mkLoc 8 9) (mkLoc 9 10) (mkLoc 5 10)), empty_builder, (NNil (mkLoc 0 0)). split; [reflexivity|]. split; [|split; [exists 0, 10; cbn; lia | split; [right; now left | unfold within; cbn; lia]]].
  refine (built _ _ _ _ (c_call_lambda (mkToken tLAMBDA (bs "->") (mkLoc 5 7))) _ _); [exists 5, 7; cbn; lia | intros m []].
Qed.
Print Assumptions C48_nested.
Print Assumptions C48_range.
Print Assumptions C48_within.
Print Assumptions C48_heredoc_parts.
Print Assumptions C48_below.
Print Assumptions C48_then_mark_refuted.
Print Assumptions C48_numblock_without_body_refuted.
