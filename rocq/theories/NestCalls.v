(** * Trees made by assignments, definitions and calls are nested (part of C48) *)
Require Import Verif.Base Verif.InputM Verif.TokensM Verif.NodeM Verif.ScopesM Verif.DiagnosticM.
Require Import Verif.LexerM Verif.BuilderM Verif.BuilderNodesM Verif.NestSpec Verif.NestFacts Verif.Prop_BuilderTree Verif.NestText.
From Coq Require Import Lia ZifyBool ZifyNat.

(** The pieces of a node, given its place *)
Ltac open N := let L := fresh "L" in let C := fresh "C" in let ls := fresh "ls" in let Hls := fresh "Hls" in let J := fresh "J" in
  apply nested_inv in N as [L C]; destruct L as [(ls & Hls & J) _]; cbn [layouts around In expression] in Hls, J.
Lemma assignable_good m e s n s' : assignable m e s = Ok (Some n) s' -> good [m] (nd m) (nd m) n.
Proof.
  intros H S HN. pose proof (HN m (or_introl eq_refl)) as N. pose proof N as N'. apply nested_inv in N' as [[(ls & Hls & J) _] C].
  destruct m; cbn [assignable] in H; inv; (split; [|apply spans_one]); try exact N.
  all: try (eapply (nested_intro _ [expression_l]); [exact S | apply spans_one | left; reflexivity | exact I | intros c []]).
  cbn [layouts expression] in Hls, J. destruct Hls as [<-|Hls].
  - eapply nested_at; [exact J | left; cbn [olist ndo app]; reflexivity | apply sub_refl | exact I |].
    cbn [children olist]. rewrite app_nil_r. exact C.
  - destruct scope as [sc|]; [|destruct Hls]. destruct sc; try destruct Hls. destruct double_colon_l as [k|]; [|destruct Hls].
    destruct (same_loc k expression_l0) eqn:E; [|destruct Hls]. destruct Hls as [<-|[]].
    eapply nested_at; [exact J | right; cbn; rewrite E; left; reflexivity | apply sub_refl | exact I | exact C].
Qed.
Lemma const_op_assignable_good m e s n s' : const_op_assignable m e s = Ok n s' -> good [m] (nd m) (nd m) n.
Proof.
  intros H S HN. pose proof (HN m (or_introl eq_refl)) as N. apply nested_inv in N as [[(ls & Hls & J) _] C].
  destruct m; cbn [const_op_assignable] in H; inv; (split; [|apply spans_one]).
  cbn [layouts expression] in Hls, J. destruct Hls as [<-|Hls].
  - eapply nested_at; [exact J | left; cbn [olist ndo app]; reflexivity | apply sub_refl | exact I |].
    cbn [children olist]. rewrite app_nil_r. exact C.
  - destruct scope as [sc|]; [|destruct Hls]. destruct sc; try destruct Hls. destruct double_colon_l as [k|]; [|destruct Hls].
    destruct (same_loc k expression_l0) eqn:E; [|destruct Hls]. destruct Hls as [<-|[]].
    eapply nested_at; [exact J | right; cbn; rewrite E; left; reflexivity | apply sub_refl | exact I | exact C].
Qed.
Lemma assign_good l t r e s n s' : assign l t r e s = Ok n s' ->
  good [l; r] (nd l ++ tk t ++ nd r) (nd l ++ tk t ++ nd r) n.
Proof.
  intros H S HN. unfold assign in H. pose proof (HN l (or_introl eq_refl)) as N. apply nested_inv in N as [[(ls & Hls & J) _] C].
  assert (P : spans (join_exprs l r) (nd l ++ tk t ++ nd r)) by (clean; span).
  assert (E : expression n = join_exprs l r) by (destruct l; inv; reflexivity).
  split; [|now rewrite E].
  pose proof (spans_inside _ _ S P) as I0. rewrite <- E in I0. apply (inside_refine _ ls J []) in I0.
  assert (Nr : Nested r) by (apply HN; right; now left).
  assert (K : forall x, (forall c, In c x -> Nested c) -> forall c, In c (x ++ [r]) -> Nested c).
  { intros x Hx c Hc. apply in_app_or in Hc as [Hc|[<-|[]]]; auto. }
  destruct l; try discriminate H; inv; cbn [layouts] in Hls; cbn [app] in I0.
  - (* a safe-navigation call *)
    destruct operator_l; (destruct Hls as [<-|[]]);
      (eapply nested_at; [exact I0 | left; reflexivity | | exact I | apply (K [l]); cbn in C; intros c [<-|[]]; apply C; now left]);
      rewrite <- ?app_assoc; cbn [nds List.map app]; rewrite <- ?app_assoc; cbn [app];
      repeat first [apply sub_refl | apply sub_keep | apply sub_app | apply sub_drop].
  - (* a constant *)
    destruct Hls as [<-|Hls].
    + eapply nested_at; [exact I0 | left; reflexivity | | exact I | ].
      * rewrite <- !app_assoc. cbn [app olist ndo]. rewrite <- ?app_assoc.
        repeat first [apply sub_refl | apply sub_app | apply sub_keep | apply sub_skip].
      * cbn [children olist]. apply K. intros c Hc. apply C. cbn. apply in_or_app. now left.
    + destruct scope as [sc|]; [|destruct Hls]. destruct sc; try destruct Hls. destruct double_colon_l as [k|]; [|destruct Hls].
      destruct (same_loc k expression_l0) eqn:F; [|destruct Hls]. destruct Hls as [<-|[]].
      eapply nested_at; [exact I0 | right; cbn; rewrite F; left; reflexivity | | exact I | ].
      * cbn [app]. rewrite <- ?app_assoc. cbn. repeat first [apply sub_refl | apply sub_keep | apply sub_skip].
      * cbn [children olist]. apply (K [NCbase expression_l0]). intros c [<-|[]]. apply C. cbn. now left.
  - destruct Hls as [<-|[]]. cbn [app] in I0. rewrite <- app_assoc in I0.
    eapply nested_at; [exact I0 | left; reflexivity | | exact I | apply (K []); intros c []]. sub.
  - destruct Hls as [<-|[]]. cbn [app] in I0. rewrite <- app_assoc in I0.
    eapply nested_at; [exact I0 | left; reflexivity | | exact I | apply (K []); intros c []]. sub.
  - destruct Hls as [<-|[]]. cbn [app] in I0. rewrite <- !app_assoc in I0. cbn [app] in I0. rewrite <- !app_assoc in I0.
    eapply nested_at; [exact I0 | left; reflexivity | | exact I |].
    + repeat first [apply sub_refl | apply sub_app | apply sub_keep | apply sub_skip].
    + cbn [children olist app]. change (l :: indexes ++ [r]) with ((l :: indexes) ++ [r]). apply K.
      intros c Hc. apply C. cbn [children app]. destruct Hc as [<-|Hc]; [now left|]. right. apply in_or_app. now left.
  - destruct Hls as [<-|[]]. cbn [app] in I0. rewrite <- app_assoc in I0.
    eapply nested_at; [exact I0 | left; reflexivity | | exact I | apply (K []); intros c []]. sub.
  - destruct Hls as [<-|[]]. cbn [app] in I0. rewrite <- app_assoc in I0.
    eapply nested_at; [exact I0 | left; reflexivity | | exact I | apply (K []); intros c []]. sub.
  - (* a call *)
    assert (D : forall c, In c (olist recv ++ [r]) -> Nested c).
    { apply K. intros c Hc. apply C. cbn. rewrite app_nil_r. exact Hc. }
    destruct operator_l; (destruct Hls as [<-|[<-|[]]]);
      cbn [nds List.map app] in I0; rewrite <- ?app_assoc in I0; cbn [app] in I0; rewrite <- ?app_assoc in I0; cbn [app] in I0.
    all: first [eapply nested_at; [exact I0 | left; reflexivity | cbn [nds List.map];
                  repeat first [apply sub_refl | apply sub_keep | apply sub_app | apply sub_drop]; fail | exact I | exact D]
               |eapply nested_at; [exact I0 | right; left; reflexivity | cbn [nds List.map];
                  repeat first [apply sub_refl | apply sub_keep | apply sub_app | apply sub_drop]; fail | exact I | exact D]].
Qed.
Lemma op_assign_good l t r e s n s' : op_assign l t r e s = Ok (Some n) s' ->
  good [l; r] (nd l ++ tk t ++ nd r) (nd l ++ tk t ++ nd r) n.
Proof.
  intros H S HN. unfold op_assign in H. apply bind_ok in H as (o & s1 & _ & H). apply bind_ok in H as (q & s2 & H1 & H).
  destruct q as [l'|]; [|discriminate]. injection H as <- <-.
  assert (E : expression l' = expression l /\ Nested l').
  { pose proof (HN l (or_introl eq_refl)) as N. destruct l; inv; split; try reflexivity; try exact N.
    apply nested_inv in N as [[(ls & Hls & J) _] C]. destruct Hls as [<-|[]].
    eapply nested_at; [exact J | left; reflexivity | apply sub_refl | exact I|].
    cbn [children olist]. rewrite app_nil_r. exact C. }
  destruct E as [E N]. assert (P : spans (join_exprs l r) (nd l ++ tk t ++ nd r)) by (clean; span).
  match goal with |- context [if ?a then NAndAsgn _ _ _ _ else if ?b then _ else _] => destruct a; [|destruct b] end;
    (split; [|exact P]; eapply nested_intro; [exact S | exact P | left; cbn; rewrite E; reflexivity | exact I |];
     cbn; intros c [<-|[<-|[]]]; [exact N | apply HN; right; now left]).
Qed.
Lemma undef_method_good kw l : good l (tk kw ++ nds l) (tk kw ++ nds l) (undef_method kw l).
Proof.
  intros S HN. unfold undef_method.
  assert (P : spans (maybe_join (token_loc kw) (collection_expr l)) (tk kw ++ nds l)).
  { destruct (collection_expr l) as [c|] eqn:E; cbn [maybe_join].
    - apply spans_app; [exact S | apply spans_one | apply collection_expr_spans; [|exact E]].
      now apply in_sequence_app in S.
    - apply collection_expr_none in E. subst l. apply spans_one. }
  split; [|exact P]. eapply nested_intro; [exact S | exact P | left; reflexivity | exact I | exact HN].
Qed.
Lemma def_endless_good kw t args a body e s n s' : def_endless_method kw t args a body e s = Ok (Some n) s' ->
  good (olist args ++ olist body) (tk kw ++ tk t ++ ndo args ++ tk a ++ ndo body) (tk kw ++ tk t ++ ndo args ++ tk a ++ ndo body) n.
Proof.
  intros H S HN. unfold def_endless_method in H. destruct body as [body|], args as [args|]; inv; cbn [maybe_node_expr option_map] in *; inv; done.
Qed.
Lemma def_endless_singleton_good kw d dot t args a body e s n s' :
  def_endless_singleton kw d dot t args a body e s = Ok (Some n) s' ->
  good (d :: olist args ++ olist body) (tk kw ++ nd d ++ tk dot ++ tk t ++ ndo args ++ tk a ++ ndo body)
    (tk kw ++ nd d ++ tk dot ++ tk t ++ ndo args ++ tk a ++ ndo body) n.
Proof.
  intros H S HN. unfold def_endless_singleton in H. destruct body as [body|], args as [args|]; inv; cbn [maybe_node_expr option_map] in *; inv; done.
Qed.
Lemma kwarg_good t e s n s' : loc_begin (token_loc t) < loc_end (token_loc t) ->
  kwarg t e s = Ok (Some n) s' -> good [] (tk t) (tk t) n.
Proof.
  intros L H S HN. unfold kwarg in H. inv. match goal with H : adjust_end _ _ _ _ = _ |- _ => apply adjust_end_ok in H as [A1 A2] end.
  split; [|apply spans_one]. eapply nested_at; [|left; reflexivity | apply sub_refl | exact I | intros c []]. cbn. lia.
Qed.
Lemma kwoptarg_good t d e s n s' : loc_begin (token_loc t) < loc_end (token_loc t) ->
  kwoptarg t d e s = Ok (Some n) s' -> good [d] (tk t ++ nd d) (tk t ++ nd d) n.
Proof.
  intros L H S HN. unfold kwoptarg in H. inv. match goal with H : adjust_end _ _ _ _ = Ok ?x _ |- _ => rename x into k; apply adjust_end_ok in H as [A1 A2] end.
  assert (P : spans (loc_join (expression d) (token_loc t)) (tk t ++ nd d)) by (clean; span).
  split; [|exact P]. eapply (nested_at _ [k; expression d]); [|left; reflexivity | apply sub_refl | exact I | kids].
  apply spans_inside in P; [|exact S]. cbn in *. lia.
Qed.
Lemma blockarg_good t v e s n s' : blockarg t v e s = Ok (Some n) s' -> good [] (tk t ++ tko v) (tk t ++ tko v) n.
Proof.
  intros H S HN. unfold blockarg in H. assert (E : exists x, n = NBlockarg x (token_loc t) (maybe_loc v) (maybe_join (token_loc t) (maybe_loc v)))
    by (inv; eauto). destruct E as (x & ->). clear H. destruct v; done.
Qed.
Lemma procarg0_good m e s n s' : procarg0 m e s = Ok n s' -> good [m] (nd m) (nd m) n.
Proof.
  intros H S HN. pose proof (HN m (or_introl eq_refl)) as N. destruct m; cbn [procarg0] in H; inv; (split; [|apply spans_one]).
  - eapply nested_intro; [exact S | apply spans_one | left; reflexivity | exact I|]. cbn. intros c [<-|[]]. exact N.
  - apply nested_inv in N as [L C]. constructor; [exact L | exact C].
Qed.

