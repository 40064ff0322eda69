(** * Proof tools for C48: pieces in sequence, and what the functions of the builder return *)
Require Import Verif.Base Verif.InputM Verif.TokensM Verif.NodeM Verif.ScopesM Verif.DiagnosticM.
Require Import Verif.LexerM Verif.BuilderM Verif.BuilderNodesM Verif.NestSpec.
From Coq Require Import Lia ZifyBool ZifyNat.

(** ** Pieces in sequence *)

Lemma inside_le ls : forall b e, inside b ls e -> b <= e.
Proof. induction ls as [|l ls IH]; cbn; intros b e H; [exact H|]. destruct H as (H1 & H2 & H3). apply IH in H3. lia. Qed.
Lemma inside_weak ls : forall b e b' e', inside b ls e -> b' <= b -> e <= e' -> inside b' ls e'.
Proof.
  induction ls as [|l ls IH]; cbn; intros b e b' e' H Hb He; [lia|]. destruct H as (H1 & H2 & H3).
  repeat split; [lia | exact H2 |]. eapply IH; eauto.
Qed.
Lemma inside_app ls : forall b ks e, inside b (ls ++ ks) e <-> exists m, inside b ls m /\ inside m ks e.
Proof.
  induction ls as [|l ls IH]; cbn; intros b ks e.
  - split; [intros H; exists b; split; [lia | exact H] | intros (m & H1 & H2); eapply inside_weak; eauto].
  - rewrite IH. split.
    + intros (H1 & H2 & m & H3 & H4). exists m. auto.
    + intros (m & (H1 & H2 & H3) & H4). repeat split; auto. exists m. auto.
Qed.
Lemma last_cons {A} (a : A) l z : last_opt l = Some z -> last_opt (a :: l) = Some z.
Proof. destruct l; [discriminate | auto]. Qed.
Lemma last_app {A} (k l : list A) z : last_opt l = Some z -> last_opt (k ++ l) = Some z.
Proof. induction k as [|a k IH]; intros H; [exact H|]. cbn [app]. apply last_cons. auto. Qed.
Lemma last_nds l z : last_opt l = Some z -> last_opt (nds l) = Some (expression z).
Proof.
  induction l as [|a [|b l] IH]; intros H; [discriminate | now injection H as -> |].
  apply last_cons. apply IH. exact H.
Qed.
Lemma first_nds l a : first_opt l = Some a -> first_opt (nds l) = Some (expression a).
Proof. destruct l; [discriminate | intros [= ->]; reflexivity]. Qed.
Lemma list_ends {A} (l : list A) : l = [] \/ exists a z, first_opt l = Some a /\ last_opt l = Some z.
Proof.
  destruct l as [|a l]; [now left|]. right. exists a. revert a. induction l as [|b l IH]; intros a.
  - exists a. auto.
  - destruct (IH b) as (z & _ & H). exists z. split; [reflexivity | apply last_cons; exact H].
Qed.
Lemma first_app {A} (k l : list A) a : first_opt k = Some a -> first_opt (k ++ l) = Some a.
Proof. destruct k; [discriminate | auto]. Qed.

Lemma inside_ends ls b e a z : inside b ls e -> first_opt ls = Some a -> last_opt ls = Some z ->
  b <= loc_begin a /\ loc_end z <= e /\ loc_begin a <= loc_begin z /\ loc_end a <= loc_end z /\
  loc_begin a <= loc_end a /\ loc_begin z <= loc_end z /\ inside (loc_begin a) ls (loc_end z).
Proof.
  destruct ls as [|x ls]; [discriminate|]. intros (H1 & H2 & H3) [= <-] Hz.
  assert (G : forall ks x m, inside m ks e -> loc_begin x <= loc_end x -> loc_end x <= m -> last_opt (x :: ks) = Some z ->
    loc_end z <= e /\ loc_begin x <= loc_begin z /\ loc_end x <= loc_end z /\ loc_begin z <= loc_end z /\ inside m ks (Nat.max m (loc_end z))).
  { clear. induction ks as [|k ks IH]; intros x m H P L Hz.
    - injection Hz as <-. cbn in *. lia.
    - destruct H as (H1 & H2 & H3). destruct (IH k (loc_end k) H3 H2 ltac:(lia) Hz) as (G1 & G2 & G3 & G4 & G5).
      repeat split; try lia. eapply inside_weak; [exact G5 | lia | lia]. }
  destruct (G ls x (loc_end x) H3 H2 (le_n _) Hz) as (G1 & G2 & G3 & G4 & G5).
  repeat split; try lia. cbn. repeat split; try lia. eapply inside_weak; [exact G5 | lia | lia].
Qed.
Lemma spans_inside ps r : in_sequence ps -> spans r ps -> inside (loc_begin r) ps (loc_end r).
Proof. intros (b & e & H) (a & z & Ha & Hz & ->). cbn. eapply inside_ends in H; eauto. tauto. Qed.
Lemma spans_join ps a z : in_sequence ps -> first_opt ps = Some a -> last_opt ps = Some z ->
  spans (loc_join a z) ps.
Proof.
  intros (b & e & H) Ha Hz. exists a, z. repeat split; auto. eapply inside_ends in H; eauto.
  unfold loc_join. f_equal; lia.
Qed.
Lemma loc_join_comm a b : loc_join a b = loc_join b a.
Proof. unfold loc_join. f_equal; lia. Qed.
Lemma spans_join' ps a z : in_sequence ps -> first_opt ps = Some a -> last_opt ps = Some z ->
  spans (loc_join z a) ps.
Proof. rewrite loc_join_comm. apply spans_join. Qed.
Lemma loc_eta l : mkLoc (loc_begin l) (loc_end l) = l.
Proof. now destruct l. Qed.
Lemma spans_one r : spans r [r].
Proof. exists r, r. repeat split. now rewrite loc_eta. Qed.
Lemma in_sequence_app l k : in_sequence (l ++ k) -> in_sequence l /\ in_sequence k.
Proof. intros (b & e & H). apply inside_app in H as (m & H1 & H2). split; [exists b, m | exists m, e]; auto. Qed.
Lemma in_sequence_tail a l : in_sequence (a :: l) -> in_sequence l.
Proof. intros (b & e & _ & _ & H). now exists (loc_end a), e. Qed.
(** Two adjacent stretches, each with its range *)
Lemma spans_app l k r q : in_sequence (l ++ k) -> spans r l -> spans q k -> spans (loc_join r q) (l ++ k).
Proof.
  intros S (a & z & Ha & Hz & ->) (c & y & Hc & Hy & ->). exists a, y.
  repeat split; [now apply first_app | now apply last_app|].
  destruct S as (b & e & H). apply inside_app in H as (m & H1 & H2).
  eapply inside_ends in H1; eauto. eapply inside_ends in H2; eauto. unfold loc_join. cbn. f_equal; lia.
Qed.

(** A part of the pieces, in the same order *)
Inductive Sub : list Loc -> list Loc -> Prop :=
| sub_nil : forall ps, Sub [] ps
| sub_keep : forall a ls ps, Sub ls ps -> Sub (a :: ls) (a :: ps)
| sub_drop : forall a ls ps, Sub ls ps -> Sub ls (a :: ps).
Lemma sub_refl ps : Sub ps ps.
Proof. induction ps; constructor; auto. Qed.
Lemma sub_app ks ls ps : Sub ls ps -> Sub (ks ++ ls) (ks ++ ps).
Proof. induction ks; cbn; auto using sub_keep. Qed.
Lemma inside_sub ls ps : Sub ls ps -> forall b e, inside b ps e -> inside b ls e.
Proof.
  induction 1 as [ps|a ls ps H IH|a ls ps H IH]; intros b e.
  - apply inside_le.
  - cbn. intros (H1 & H2 & H3). auto.
  - cbn. intros (H1 & H2 & H3). apply IH. eapply inside_weak; [exact H3 | lia | lia].
Qed.
Lemma nested_part n ps ls : in_sequence ps -> spans (expression n) ps -> In ls (layouts n) -> Sub ls ps ->
  heredoc_parts n -> (forall c, In c (children n) -> Nested c) -> Nested n.
Proof.
  intros S P L U H C. constructor; auto. split; auto. exists ls. split; auto.
  eapply inside_sub; [exact U|]. now apply spans_inside.
Qed.
Lemma nested_intro n ps : in_sequence ps -> spans (expression n) ps -> In ps (layouts n) -> heredoc_parts n ->
  (forall c, In c (children n) -> Nested c) -> Nested n.
Proof. intros S P L H C. eapply nested_part; eauto using sub_refl. Qed.

(** ** Inverting calls *)

Lemma bind_ok {S A B} (m : M S A) (k : A -> M S B) e s r s' : bind m k e s = Ok r s' ->
  exists a s1, m e s = Ok a s1 /\ k a e s1 = Ok r s'.
Proof. unfold bind. destruct (m e s) as [a s1| |]; [eauto | discriminate | discriminate]. Qed.

Lemma collection_expr_spans l r : in_sequence (nds l) -> collection_expr l = Some r -> spans r (nds l).
Proof.
  intros S E. destruct (list_ends l) as [->|(a & z & Ha & Hz)]; [discriminate|].
  unfold collection_expr, join_maybe_exprs, maybe_node_expr in E. rewrite Ha, Hz in E. cbn in E. injection E as <-.
  apply spans_join; [exact S | now apply first_nds | now apply last_nds].
Qed.
Lemma collection_expr_none l : collection_expr l = None -> l = [].
Proof.
  intros E. destruct (list_ends l) as [->|(a & z & Ha & Hz)]; [reflexivity|].
  unfold collection_expr, join_maybe_exprs, maybe_node_expr in E. rewrite Ha, Hz in E. discriminate.
Qed.
Lemma collection_ok b l z e s bl el r s' : collection_map b l z e s = Ok (bl, el, r) s' ->
  bl = maybe_loc b /\ el = maybe_loc z /\
  (in_sequence (tko b ++ nds l ++ tko z) -> spans r (tko b ++ nds l ++ tko z)).
Proof.
  unfold collection_map. intros H. apply bind_ok in H as (x & s1 & H1 & H).
  injection H as <- <- <- <-. repeat split. intros S.
  destruct (in_sequence_app _ _ S) as [_ S2]. destruct (in_sequence_app _ _ S2) as [S3 _].
  destruct (collection_expr l) as [c|] eqn:C.
  - pose proof (collection_expr_spans l c S3 C) as P.
    destruct b as [b|], z as [z|]; cbn [tko maybe_loc option_map join_maybe_locs app expect ret] in *; injection H1 as <- <-.
    + rewrite (loc_join_comm c). apply (spans_app (token_loc b :: nds l)); [exact S| |apply spans_one].
      apply (spans_app [token_loc b]); [|apply spans_one | exact P].
      change (in_sequence ((token_loc b :: nds l) ++ [token_loc z])) in S. now apply in_sequence_app in S.
    + rewrite app_nil_r in *. rewrite loc_join_comm. apply (spans_app [token_loc b]); auto using spans_one.
    + apply spans_app; auto using spans_one.
    + now rewrite app_nil_r.
  - apply collection_expr_none in C. subst l.
    destruct b as [b|], z as [z|]; cbn [tko maybe_loc option_map join_maybe_locs app expect ret nds List.map] in *;
      try discriminate; injection H1 as <- <-; auto using spans_one.
    apply (spans_app [token_loc b] [token_loc z]); auto using spans_one.
Qed.
Lemma adjust_end_ok l d e s r s' : adjust_end l d e s = Ok r s' ->
  loc_begin r = loc_begin l /\ Z.of_nat (loc_end r) = (Z.of_nat (loc_end l) + d)%Z.
Proof.
  unfold adjust_end, shift_pos. intros H. apply bind_ok in H as (p & s1 & H1 & H). injection H as <- <-. cbn.
  repeat match type of H1 with (if ?c then _ else _) _ _ = _ => destruct c eqn:? ; try discriminate end.
  injection H1 as <- <-. lia.
Qed.
Lemma adjust_begin_ok l d e s r s' : adjust_begin l d e s = Ok r s' ->
  loc_end r = loc_end l /\ Z.of_nat (loc_begin r) = (Z.of_nat (loc_begin l) + d)%Z.
Proof.
  unfold adjust_begin, shift_pos. intros H. apply bind_ok in H as (p & s1 & H1 & H). injection H as <- <-. cbn.
  repeat match type of H1 with (if ?c then _ else _) _ _ = _ => destruct c eqn:? ; try discriminate end.
  injection H1 as <- <-. lia.
Qed.
Lemma sub_ok {S} a b e (s : S) r s' : sub_ck a b e s = Ok r s' -> r = a - b /\ b <= a.
Proof. unfold sub_ck. destruct (b <=? a) eqn:E; [|discriminate]. intros [= <- <-]. lia. Qed.
(** Pieces of a piece *)
Lemma inside_refine x ls : inside (loc_begin x) ls (loc_end x) ->
  forall ks b rest e, inside b (ks ++ x :: rest) e -> inside b (ks ++ ls ++ rest) e.
Proof.
  intros L ks b rest e H. apply inside_app in H as (m & H1 & H2). cbn in H2. destruct H2 as (H2 & H3 & H4).
  apply inside_app. exists m. split; [exact H1|]. apply inside_app. exists (loc_end x).
  split; [eapply inside_weak; [exact L | lia | lia] | exact H4].
Qed.
Lemma nested_at n ps ls : inside (loc_begin (expression n)) ps (loc_end (expression n)) -> In ls (layouts n) ->
  Sub ls ps -> heredoc_parts n -> (forall c, In c (children n) -> Nested c) -> Nested n.
Proof. intros I L U H C. constructor; auto. split; auto. exists ls. split; auto. eapply inside_sub; eauto. Qed.
Lemma nested_inv n : Nested n -> laid_out n /\ forall c, In c (children n) -> Nested c.
Proof. now inversion 1. Qed.
Lemma inside_proper b ls e x : inside b ls e -> In x ls -> loc_begin x <= loc_end x /\ b <= loc_begin x /\ loc_end x <= e.
Proof.
  revert b. induction ls as [|l ls IH]; intros b H Hx; [destruct Hx|]. destruct H as (H1 & H2 & H3), Hx as [<-|Hx].
  - apply inside_le in H3. lia.
  - apply (IH _ H3) in Hx. lia.
Qed.

(** ** Conditions *)
Lemma cc_expression n : expression (check_condition n) = expression n.
Proof. destruct n; try reflexivity. cbn. destruct statements as [|a [|b l]]; reflexivity. Qed.
Lemma map_opt_ndo o : ndo (map_opt check_condition o) = ndo o.
Proof. destruct o; [|reflexivity]. cbn. now rewrite cc_expression. Qed.
Lemma cc_nested : forall n, Nested n -> Nested (check_condition n).
Proof.
  apply (node_ind' (fun n => Nested n -> Nested (check_condition n))). intros n IH H.
  destruct (nested_inv n H) as [L C].
  assert (K : forall c, In c (children n) -> Nested (check_condition c)) by (intros c Hc; apply IH; auto).
  destruct n; try exact H; cbn [check_condition children] in *.
  - constructor; [|cbn [children app]; intros c [<-|[<-|[]]]; apply K; cbn; auto].
    revert L. unfold laid_out. cbn. now rewrite !cc_expression.
  - destruct statements as [|a [|b l]]; try exact H.
    constructor; [|cbn [children]; intros c [<-|[]]; apply K; cbn; auto].
    revert L. unfold laid_out. cbn. now rewrite !cc_expression.
  - constructor; [|cbn [children]].
    + revert L. unfold laid_out. cbn. now rewrite !map_opt_ndo.
    + intros c. destruct left_, right_; cbn; intros Hc; repeat destruct Hc as [<-|Hc]; try destruct Hc; apply K; cbn; auto.
  - constructor; [|cbn [children]].
    + revert L. unfold laid_out. cbn. now rewrite !map_opt_ndo.
    + intros c. destruct left_, right_; cbn; intros Hc; repeat destruct Hc as [<-|Hc]; try destruct Hc; apply K; cbn; auto.
  - constructor; [|cbn [children app]; intros c [<-|[<-|[]]]; apply K; cbn; auto].
    revert L. unfold laid_out. cbn. now rewrite !cc_expression.
  - constructor; [|cbn; intros c [<-|[]]; exact H].
    split; [|exact I]. eexists. split; [left; reflexivity|]. cbn.
    destruct L as [(ls & _ & I) _]. cbn in I. apply inside_le in I. lia.
Qed.
Lemma sub_skip ks ls ps : Sub ls ps -> Sub ls (ks ++ ps).
Proof. induction ks; cbn; auto using sub_drop. Qed.
Lemma sub_end ks ps : Sub ks (ks ++ ps).
Proof. induction ks; cbn; constructor; auto. Qed.
Lemma in_sequence_sub ls ps : Sub ls ps -> in_sequence ps -> in_sequence ls.
Proof. intros U (b & e & H). exists b, e. eapply inside_sub; eauto. Qed.
Lemma spans_mid r a l z : spans r [a; z] -> spans r (a :: l ++ [z]).
Proof. intros (x & y & Hx & Hy & ->). exists a, z. cbn in Hx, Hy. injection Hx as <-. injection Hy as <-.
  repeat split. apply last_cons, last_app. reflexivity. Qed.
