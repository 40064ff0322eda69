(** * Trees made by calls, blocks, control flow and patterns are nested (part of C48) *)
Require Import Verif.Base Verif.InputM Verif.TokensM Verif.NodeM Verif.ScopesM Verif.DiagnosticM.
Require Import Verif.LexerM Verif.BuilderM Verif.BuilderNodesM Verif.NestSpec Verif.NestFacts Verif.Prop_BuilderTree Verif.NestText.
From Coq Require Import Lia ZifyBool ZifyNat.

(** ** Calls *)

Lemma join_self x : loc_join x x = x.
Proof. unfold loc_join. now rewrite Nat.min_id, Nat.max_id, loc_eta. Qed.
Lemma rewrite_nds l : nds (rewrite_hash_args_to_kwargs l) = nds l.
Proof. apply C35_locations. Qed.
Lemma hash_kwargs_nested l x : Nested (NHash l None None x) -> Nested (NKwargs l x).
Proof. intros N. apply nested_inv in N as [L C]. constructor; [exact L | exact C]. Qed.
Lemma rewrite_nested l : (forall m, In m l -> Nested m) -> forall m, In m (rewrite_hash_args_to_kwargs l) -> Nested m.
Proof.
  intros H m Hm. destruct (C35_trailing_hash l) as [K|[E _]]; [|rewrite E in Hm; auto].
  remember (rewrite_hash_args_to_kwargs l) as r eqn:Er. clear Er. destruct K as [i q x|i q x v o y];
    (apply in_app_iff in Hm as [Hm|Hm]; [apply H; apply in_or_app; now left|]).
  - destruct Hm as [<-|[]]. apply hash_kwargs_nested, H. apply in_or_app. right. now left.
  - destruct Hm as [<-|[<-|[]]].
    + apply hash_kwargs_nested, H. apply in_or_app. right. now left.
    + apply H. apply in_or_app. right. right. now left.
Qed.
Lemma call_method_good recv dot sel b args z e s n s' :
  (b = None <-> z = None) -> (recv = None -> dot = None) -> (recv = None \/ dot = None -> sel <> None) ->
  call_method recv dot sel b args z e s = Ok n s' ->
  good (olist recv ++ args) (ndo recv ++ tko dot ++ tko sel ++ tko b ++ nds args ++ tko z)
       (ndo recv ++ tko dot ++ tko sel ++ tko b ++ nds args ++ tko z) n.
Proof.
  intros B D L H S HN. unfold call_method in H.
  apply bind_ok in H as (bl & s1 & H1 & H). apply bind_ok in H as (el & s2 & H2 & H).
  assert (P : spans (loc_join bl el) (ndo recv ++ tko dot ++ tko sel ++ tko b ++ nds args ++ tko z)).
  { destruct b as [b|], z as [z|]; try (exfalso; intuition discriminate);
    (destruct recv as [recv|]; [|specialize (D eq_refl); subst dot]);
    (destruct sel as [sel|]; [|try (exfalso; intuition congruence)]);
    try destruct dot as [dot|]; try (exfalso; intuition congruence);
    (destruct (list_ends args) as [-> | (a & y & Ha & Hy)]; [|try rewrite Hy in H2]);
    cbn [nds List.map last_opt] in *; clean; cbn [expect] in H1, H2; try discriminate;
    unfold ret in H1, H2; injection H1 as <- _; injection H2 as <- _; first [span | rewrite ?app_nil_r in *; span]. }
  apply bind_ok in H as (q & s3 & _ & H).
  assert (C : forall m, In m (olist recv ++ rewrite_hash_args_to_kwargs args) -> Nested m).
  { intros m Hm. apply in_app_iff in Hm as [Hm|Hm]; [apply HN, in_or_app; now left|].
    revert m Hm. apply rewrite_nested. intros m Hm. apply HN, in_or_app. now right. }
  destruct (is_csend dot).
  - destruct recv as [recv|]; [|discriminate]. destruct dot as [dot|]; [|discriminate].
    cbn in H. unfold ret, bind in H. injection H as <- <-. split; [|exact P].
    eapply nested_intro; [exact S | exact P | | exact I | exact C]. left. cbn. rewrite rewrite_nds.
    destruct sel, b, z; reflexivity.
  - unfold ret in H. injection H as <- <-. split; [|exact P].
    eapply nested_intro; [exact S | exact P | | exact I | exact C]. left. cbn [layouts]. rewrite rewrite_nds.
    destruct sel, b, z, dot; reflexivity.
Qed.
Lemma index_good m b l z :
  good (m :: l) (nd m ++ tk b ++ nds l ++ tk z) (nd m ++ tk b ++ nds l ++ tk z) (index m b l z).
Proof.
  intros S HN. unfold index. split; [|clean; span].
  eapply nested_intro; [exact S | clean; span | left; cbn [layouts]; rewrite rewrite_nds; reflexivity | exact I|].
  cbn [children]. intros c [<-|Hc]; [apply HN; now left|]. revert c Hc. apply rewrite_nested. intros c Hc. apply HN. now right.
Qed.
Lemma not_op_good t b m z e s n s' : (b = None <-> z = None) -> not_op t b m z e s = Ok (Some n) s' ->
  good (olist m) (tk t ++ tko b ++ ndo m ++ tko z) (tk t ++ tko b ++ ndo m ++ tko z) n.
Proof.
  intros B H S HN. unfold not_op in H. destruct m as [m|].
  - apply bind_ok in H as (u & s1 & _ & H). destruct u; [|discriminate]. injection H as <- <-.
    assert (P : spans (loc_join (token_loc t) (unwrap_or (maybe_loc z) (expression m))) (tk t ++ tko b ++ ndo (Some m) ++ tko z)).
    { destruct b as [b|], z as [z|]; try (exfalso; intuition discriminate); clean; span. }
    split; [|exact P]. eapply nested_intro; [exact S | exact P | | exact I |].
    + right. left. cbn. rewrite cc_expression. destruct b, z; reflexivity.
    + cbn. intros c [<-|[]]. apply cc_nested, HN. now left.
  - apply bind_ok in H as ([[bl el] r] & s1 & H1 & H). apply collection_ok in H1 as (-> & -> & H1). injection H as <- <-.
    change (tko b ++ ndo None ++ tko z) with (tko b ++ tko z) in *. change (tko b ++ nds [] ++ tko z) with (tko b ++ tko z) in H1.
    assert (S2 : in_sequence (tko b ++ tko z)) by (apply in_sequence_app in S; apply S). specialize (H1 S2).
    assert (P : spans (loc_join r (token_loc t)) (tk t ++ tko b ++ tko z)).
    { rewrite loc_join_comm. apply spans_app; [exact S | apply spans_one | exact H1]. }
    split; [|exact P]. eapply (nested_at _ [token_loc t; r]).
    + cbn [expression].
      pose proof (spans_inside _ _ S P) as J. change (tk t) with [token_loc t] in J. apply inside_app in J as (k & J1 & J2).
      destruct H1 as (a & y & Ha & Hy & ->). pose proof (inside_ends _ _ _ _ _ J2 Ha Hy) as W.
      cbn [inside loc_begin loc_end loc_join] in *. lia.
    + right. left. reflexivity.
    + apply sub_refl.
    + exact I.
    + cbn. intros c [<-|[]]. eapply nested_intro; [exact S2 | exact H1 | | exact I | intros c []].
      left. destruct b, z; reflexivity.
Qed.

(** ** Blocks *)

Lemma block_node_good lay m b args body z :
  In lay (layouts (block_node m (token_loc b) (token_loc z) args body)) ->
  first_opt lay = Some (expression m) -> last_opt lay = Some (token_loc z) ->
  (exists body', body = Some body' \/ exists args', args = ArgsT args') ->
  good (m :: match args with ArgsT a => olist a | Numargs _ => [] end ++ olist body) lay lay
    (block_node m (token_loc b) (token_loc z) args body).
Proof.
  intros Hl Hf Hz HB S HN. assert (P : spans (loc_join (expression m) (token_loc z)) lay) by (apply spans_join; auto).
  destruct args as [args|k]; cbn [block_node] in *.
  - split; [|exact P]. eapply nested_intro; [exact S | exact P | exact Hl | exact I | exact HN].
  - split; [|exact P]. eapply nested_intro; [exact S | exact P | exact Hl | exact I |].
    destruct HB as (body' & [-> | (a & Ha)]); [exact HN | discriminate].
Qed.
(** A block given to the value of [return], [break] or [next] goes to that value *)
Lemma block_good lay m b args body z e s n s' :
  (forall c, In (expression c :: lay) (layouts (block_node c (token_loc b) (token_loc z) args body))) ->
  last_opt lay = Some (token_loc z) ->
  (exists body', body = Some body' \/ exists args', args = ArgsT args') ->
  block m b args body z e s = Ok (Some n) s' ->
  good (m :: match args with ArgsT a => olist a | Numargs _ => [] end ++ olist body) (expression m :: lay) (expression m :: lay) n.
Proof.
  intros Hl Hz HB H. unfold block in H. apply bind_ok in H as (u & s1 & _ & H). destruct u; [|discriminate].
  assert (K : n = block_node m (token_loc b) (token_loc z) args body ->
    good (m :: match args with ArgsT a => olist a | Numargs _ => [] end ++ olist body) (expression m :: lay) (expression m :: lay) n).
  { intros ->. apply block_node_good; [apply Hl | reflexivity | now apply last_cons | exact HB]. }
  assert (R : forall l kw x, m = NReturn l kw x \/ m = NNext l kw x \/ m = NBreak l kw x -> forall c, first_opt l = Some c ->
    forall y, y = loc_join x (expression (block_node c (token_loc b) (token_loc z) args body)) ->
    n = NReturn [block_node c (token_loc b) (token_loc z) args body] kw y \/
    n = NNext [block_node c (token_loc b) (token_loc z) args body] kw y \/
    n = NBreak [block_node c (token_loc b) (token_loc z) args body] kw y ->
    good (m :: match args with ArgsT a => olist a | Numargs _ => [] end ++ olist body) (expression m :: lay) (expression m :: lay) n).
  { clear K H. intros l kw x Hm c Hc y Hy Hn S HN.
    assert (E : expression m = x /\ children m = l /\ laid_out m = laid_out (NReturn l kw x))
      by (destruct Hm as [-> | [-> | ->]]; auto).
    destruct E as (E & Ch & L). pose proof (nested_inv _ (HN m (or_introl eq_refl))) as [L0 C0]. rewrite L in L0. rewrite Ch in C0.
    destruct L0 as [(ls & Hls & J) _]. destruct Hls as [<-|[]]. cbn [expression] in J. clear L Hm.
    destruct l as [|c' l]; [discriminate|]. injection Hc as ->. cbn [nds List.map inside] in J.
    destruct J as (J1 & J2 & J3 & J4 & J5). apply inside_le in J5.
    destruct S as (lo & hi & S). pose proof S as S0. cbn in S. destruct S as (S1 & S2 & S3). rewrite E in *.
    assert (Sc : inside (loc_begin (expression c)) (expression c :: lay) hi).
    { cbn. repeat split; try lia. eapply inside_weak; [exact S3 | lia | lia]. }
    destruct (block_node_good (expression c :: lay) c b args body z (Hl c) eq_refl (last_cons _ _ _ Hz) HB) as [Nb Pb].
    { eexists _, _. exact Sc. }
    { intros q [<-|Hq]; [apply C0; now left | apply HN; now right]. }
    destruct Pb as (a & w & Ha & Hw & Pb). injection Ha as <-. rewrite (last_cons _ _ _ Hz) in Hw. injection Hw as <-.
    assert (Q : loc_end x <= loc_end (token_loc z)).
    { pose proof (inside_ends _ _ _ _ _ S0 eq_refl (last_cons _ _ _ Hz)). lia. }
    assert (G : inside (loc_begin y) [kw; expression (block_node c (token_loc b) (token_loc z) args body)] (loc_end y)).
    { subst y. rewrite Pb. cbn. lia. }
    assert (W : spans y (x :: lay)).
    { exists x, (token_loc z). repeat split; [now apply last_cons|]. subst y. rewrite Pb. unfold loc_join. cbn. f_equal; lia. }
    destruct Hn as [-> | [-> | ->]]; (split; [|exact W]); (eapply nested_at; [exact G | left; reflexivity | apply sub_refl | exact I |];
      cbn; intros q [<-|[]]; exact Nb). }
  destruct m; inv; try (apply K; reflexivity);
    unfold rewrite_args_and_loc in *; inv;
    (eapply R; [first [left; reflexivity | right; left; reflexivity | right; right; reflexivity] | eassumption | reflexivity |
      first [left; reflexivity | right; left; reflexivity | right; right; reflexivity]]).
Qed.

(** ** Control flow *)

Lemma logical_op_good k l t r e s n s' : logical_op k l t r e s = Ok (Some n) s' ->
  good [l; r] (nd l ++ tk t ++ nd r) (nd l ++ tk t ++ nd r) n.
Proof. intros H S HN. unfold logical_op in H. destruct k; inv; done. Qed.
Lemma if_span kw c th t el f z : (el = None -> f = None) ->
  in_sequence (tk kw ++ nd c ++ tk th ++ ndo t ++ tko el ++ ndo f ++ tko z) ->
  spans (expression (condition kw c th t el f z)) (tk kw ++ nd c ++ tk th ++ ndo t ++ tko el ++ ndo f ++ tko z).
Proof.
  intros A S. unfold condition. cbn [expression]. destruct el as [el|]; [|rewrite (A eq_refl) in *]; destruct t as [t|], z as [z|];
    try destruct f as [f|]; clean; span.
Qed.
Lemma cc_kids c l : (forall m, In m (c :: l) -> Nested m) -> forall m, In m (check_condition c :: l) -> Nested m.
Proof. intros H m [<-|Hm]; [apply cc_nested, H; now left | apply H; now right]. Qed.
Lemma if_good kw c th t el f z : (el = None -> f = None) ->
  good (c :: olist t ++ olist f) (tk kw ++ nd c ++ tk th ++ ndo t ++ tko el ++ ndo f ++ tko z)
    (tk kw ++ nd c ++ tk th ++ ndo t ++ tko el ++ ndo f ++ tko z) (condition kw c th t el f z).
Proof.
  intros A S HN. pose proof (if_span kw c th t el f z A S) as P. split; [|exact P].
  eapply nested_intro; [exact S | exact P | | exact I | apply cc_kids, HN].
  left. cbn. rewrite cc_expression. destruct el, z; reflexivity.
Qed.
Lemma elsif_good kw c th t el c' t' f' b' else' e' x z :
  good (c :: olist t ++ [NIf c' t' f' (token_loc el) b' else' e' x])
    (tk kw ++ nd c ++ tk th ++ ndo t ++ [x] ++ tko z) (tk kw ++ nd c ++ tk th ++ ndo t ++ [x] ++ tko z)
    (condition kw c th t (Some el) (Some (NIf c' t' f' (token_loc el) b' else' e' x)) z).
Proof.
  intros S HN.
  assert (P : spans (expression (condition kw c th t (Some el) (Some (NIf c' t' f' (token_loc el) b' else' e' x)) z))
    (tk kw ++ nd c ++ tk th ++ ndo t ++ [x] ++ tko z)).
  { unfold condition. destruct t, z; clean; span. }
  split; [|exact P]. eapply nested_intro; [exact S | exact P | | exact I | apply cc_kids, HN].
  right. right. cbn. unfold same_loc. rewrite !Nat.eqb_refl. left. cbn. rewrite cc_expression. destruct z; reflexivity.
Qed.
Lemma unless_good kw c th t el f z : (el = None -> t = None) ->
  good (c :: olist t ++ olist f) (tk kw ++ nd c ++ tk th ++ ndo f ++ tko el ++ ndo t ++ tk z)
    (tk kw ++ nd c ++ tk th ++ ndo f ++ tko el ++ ndo t ++ tk z) (condition kw c th t el f (Some z)).
Proof.
  intros A S HN.
  assert (P : spans (expression (condition kw c th t el f (Some z))) (tk kw ++ nd c ++ tk th ++ ndo f ++ tko el ++ ndo t ++ tk z)).
  { unfold condition. destruct t, el, f; clean; span. }
  split; [|exact P]. eapply nested_intro; [exact S | exact P | | exact I | apply cc_kids, HN].
  right. left. cbn. rewrite cc_expression. destruct el; reflexivity.
Qed.
Lemma condition_mod_good t f kw c e s n s' : condition_mod t f kw c e s = Ok n s' ->
  good (olist t ++ olist f ++ [c]) (ndo t ++ ndo f ++ tk kw ++ nd c) (ndo t ++ ndo f ++ tk kw ++ nd c) n.
Proof.
  intros H S HN. unfold condition_mod in H. apply bind_ok in H as (p & s1 & H1 & H). injection H as <- <-.
  assert (P : spans (loc_join (expression p) (expression c)) (ndo t ++ ndo f ++ tk kw ++ nd c)).
  { destruct t, f; try discriminate; injection H1 as <- <-; clean; span. }
  split; [|exact P]. eapply nested_intro; [exact S | exact P | | exact I |].
  - left. cbn. now rewrite cc_expression.
  - intros m [<-|Hm]; [apply cc_nested, HN; rewrite !in_app_iff; right; right; now left|].
    change (In m (olist t ++ olist f)) in Hm. apply HN. apply in_app_iff in Hm. rewrite !in_app_iff. tauto.
Qed.
Lemma when_good kw l th body :
  good (l ++ [body]) (tk kw ++ nds l ++ tk th ++ nd body) (tk kw ++ nds l ++ tk th ++ nd body) (when_ kw l th (Some body)).
Proof. intros S HN. unfold when_. done. Qed.
Lemma when_empty_good kw l th : good l (tk kw ++ nds l ++ tk th) (tk kw ++ nds l) (when_ kw l th None).
Proof.
  intros S HN. unfold when_.
  assert (S1 : in_sequence (tk kw ++ nds l)) by (rewrite app_assoc in S; apply in_sequence_app in S; apply S).
  assert (P : spans (expression (when_ kw l th None)) (tk kw ++ nds l)).
  { destruct (list_ends l) as [-> | (a & y & Ha & Hy)]; unfold when_; [cbn; rewrite join_self; apply spans_one|]. rewrite Hy. clean. span. }
  split; [|exact P]. eapply nested_intro; [exact S1 | exact P | | exact I | kids].
  left. cbn. now rewrite app_nil_r.
Qed.
Lemma loop_good k kw c d body z :
  good (c :: olist body) (tk kw ++ nd c ++ tk d ++ ndo body ++ tk z) (tk kw ++ nd c ++ tk d ++ ndo body ++ tk z)
    (loop_ k kw c d body z).
Proof.
  intros S HN. unfold loop_.
  destruct k; (split; [|clean; span]; eapply nested_intro; [exact S | clean; span | | exact I | apply cc_kids, HN]);
    left; cbn; rewrite cc_expression; reflexivity.
Qed.
Lemma loop_mod_good k body kw c :
  good [body; c] (nd body ++ tk kw ++ nd c) (nd body ++ tk kw ++ nd c) (loop_mod k body kw c).
Proof.
  intros S HN. unfold loop_mod.
  assert (P : spans (loc_join (expression body) (expression c)) (nd body ++ tk kw ++ nd c)) by (clean; span).
  assert (C : forall m, In m [check_condition c; body] -> Nested m).
  { intros m [<-|[<-|[]]]; [apply cc_nested|]; apply HN; cbn; auto. }
  assert (A : forall n, expression n = loc_join (expression body) (expression c) -> children n = [check_condition c; body] ->
    In (nd body ++ tk kw ++ nd c) (layouts n) -> heredoc_parts n -> Nested n /\ spans (expression n) (nd body ++ tk kw ++ nd c)).
  { intros n E Ch L I. rewrite E. split; [|exact P]. eapply nested_intro; [exact S | rewrite E; exact P | exact L | exact I |].
    rewrite Ch. exact C. }
  destruct k, body; (apply A; [reflexivity | reflexivity | | exact I]); cbn; rewrite cc_expression; cbn; auto.
Qed.
Lemma keyword_cmd_good k kw b l z e s n s' : (b = None <-> z = None) -> (k = KDefined -> List.length l = 1) ->
  keyword_cmd k kw b l z e s = Ok (Some n) s' ->
  good l (tk kw ++ tko b ++ nds l ++ tko z) (tk kw ++ tko b ++ nds l ++ tko z) n.
Proof.
  intros B D H S HN. unfold keyword_cmd in H.
  destruct (match k with KYield => match last_opt l with Some (NBlockPass _ _ _) => true | _ => false end | _ => false end);
    [apply bind_ok in H as (? & ? & _ & H); discriminate|].
  set (l' := match k with KSuper | KYield => rewrite_hash_args_to_kwargs l | _ => l end) in *.
  assert (E : nds l' = nds l) by (unfold l'; destruct k; try reflexivity; apply rewrite_nds).
  assert (C : forall m, In m l' -> Nested m) by (unfold l'; destruct k; try exact HN; now apply rewrite_nested).
  assert (P : spans (loc_join (token_loc kw) (unwrap_or (or_else (maybe_loc z) (maybe_node_expr (last_opt l'))) (token_loc kw)))
    (tk kw ++ tko b ++ nds l ++ tko z)).
  { rewrite <- E in S |- *. destruct b, z; try (exfalso; intuition discriminate);
      (destruct (list_ends l') as [-> | (a & y & Ha & Hy)]; [|rewrite Hy]); cbn [nds List.map last_opt] in *; clean;
      first [span | rewrite ?app_nil_r in *; span | rewrite join_self; apply spans_one]. }
  set (x := loc_join (token_loc kw) (unwrap_or (or_else (maybe_loc z) (maybe_node_expr (last_opt l'))) (token_loc kw))) in *.
  destruct k; inv; (split; [|exact P]);
    try (eapply nested_part; [exact S | exact P | left; reflexivity | | exact I | first [exact C | intros ? []]]; cbn [layouts]; rewrite ?E;
         destruct b, z; cbn [tk tko app maybe_loc option_map olist]; rewrite ?app_nil_r; sub).
  destruct l as [|v [|w l]]; try (now specialize (D eq_refl)). cbn in Heqo. injection Heqo as ->.
  eapply nested_part; [exact S | exact P | left; reflexivity | | exact I | exact HN].
  destruct b, z; cbn; sub.
Qed.
