(** * Trees made by rescue clauses, groups and patterns are nested (part of C48) *)
Require Import Verif.Base Verif.InputM Verif.TokensM Verif.NodeM Verif.ScopesM Verif.DiagnosticM.
Require Import Verif.LexerM Verif.BuilderM Verif.BuilderNodesM Verif.NestSpec Verif.NestFacts Verif.Prop_BuilderTree Verif.NestText
  Verif.NestCtl.
From Coq Require Import Lia ZifyBool ZifyNat.

(** ** Exceptions *)

Lemma rescue_good c r l el e s n s' : begin_body_rescue c (r :: l) el e s = Ok (Some n) s' ->
  good (olist c ++ (r :: l) ++ clause_nodes el) (ndo c ++ nds (r :: l) ++ clause el) (ndo c ++ nds (r :: l) ++ clause el) n.
Proof.
  intros H S HN. unfold begin_body_rescue in H. apply bind_ok in H as (b & s1 & H1 & H).
  destruct (list_ends (r :: l)) as [E | (a & y & Ha & Hy)]; [discriminate|]. injection Ha as <-.
  destruct el as [[t body]|].
  - injection H as <- <-.
    assert (P : spans (loc_join b (unwrap_or (maybe_node_expr body) (token_loc t))) (ndo c ++ nds (r :: l) ++ clause (Some (t, body)))).
    { destruct c, body; cbn in H1; unfold ret in H1; injection H1 as <- <-; cbn [clause] in *; clean; span. }
    split; [|exact P]. eapply nested_intro; [exact S | exact P | left; cbn; reflexivity | exact I | kids].
  - rewrite Hy in H. cbn in H. unfold bind, ret in H. injection H as <- <-.
    assert (P : spans (loc_join b (expression y)) (ndo c ++ nds (r :: l) ++ clause None)).
    { cbn [clause] in *. rewrite app_nil_r in *.
      destruct c; cbn in H1; unfold ret in H1; injection H1 as <- <-; clean; span. }
    split; [|exact P]. eapply nested_intro; [exact S | exact P | left; cbn; reflexivity | exact I | kids].
Qed.
Lemma spans_unfold x y ls ks : spans x (ls ++ [y]) -> spans y ks -> spans x (ls ++ ks).
Proof.
  intros (a & z & Ha & Hz & ->) (b & w & Hb & Hw & ->).
  rewrite (last_app ls [mkLoc (loc_begin b) (loc_end w)] _ eq_refl) in Hz. injection Hz as <-.
  destruct ls as [|c ls]; cbn [app first_opt] in Ha; injection Ha as <-.
  - exists b, w. auto.
  - exists c, w. repeat split. apply last_app, Hw.
Qed.
(** The statements of a group, without what surrounds them *)
Definition stmts (c : option Node) : list Node :=
  match c with Some (NBegin l _ _ _) => l | Some m => [m] | None => [] end.
Lemma around_inside l b0 e0 x lo ks rest hi :
  inside (loc_begin x) (olist b0 ++ nds l ++ olist e0) (loc_end x) -> inside lo (ks ++ x :: rest) hi ->
  inside lo (ks ++ nds l ++ rest) hi.
Proof.
  intros A H. eapply inside_refine in H; [|exact A]. eapply inside_sub; [|exact H].
  apply sub_app. rewrite <- !app_assoc. apply sub_skip, sub_app, sub_skip, sub_refl.
Qed.
Lemma stmts_inside c lo rest hi : (forall m, In m (olist c) -> Nested m) ->
  inside lo (ndo c ++ rest) hi -> inside lo (nds (stmts c) ++ rest) hi /\ forall m, In m (stmts c) -> Nested m.
Proof.
  intros HN H. destruct c as [c|]; [|split; [exact H | intros m []]].
  pose proof (HN c (or_introl eq_refl)) as N.
  assert (D : stmts (Some c) = [c] \/ exists l b e x, c = NBegin l b e x) by (destruct c; eauto 8).
  destruct D as [E | (l & b & e & x & ->)].
  - rewrite E. split; [exact H | exact HN].
  - cbn [stmts]. apply nested_inv in N as [[(ls & [<-|[]] & J) _] C]. split; [|exact C].
    eapply (around_inside _ _ _ _ _ []); [exact J | exact H].
Qed.
Lemma else_good c t body e s n s' : begin_body_rescue c [] (Some (t, body)) e s = Ok (Some n) s' ->
  good (olist c ++ olist body) (ndo c ++ tk t ++ ndo body) (nds (stmts c) ++ tk t ++ ndo body) n.
Proof.
  intros H (lo & hi & S) HN. unfold begin_body_rescue in H.
  apply bind_ok in H as ([[b1 e1] x1] & s1 & H1 & H). apply collection_ok in H1 as (-> & -> & P1).
  apply bind_ok in H as ([[b2 e2] x2] & s2 & H2 & H). apply collection_ok in H2 as (-> & -> & P2).
  injection H as <- <-.
  destruct (stmts_inside c lo (tk t ++ ndo body) hi) as [J C]; [intros m Hm; apply HN, in_or_app; now left | exact S|].
  change (match c with Some (NBegin l _ _ _) => l | Some m => [m] | None => [] end) with (stmts c) in *.
  assert (E : tko (Some t) ++ nds (olist body) ++ tko None = tk t ++ ndo body) by (destruct body; reflexivity).
  rewrite E in P1. pose proof J as J'. apply inside_app in J as (mid & J1 & J2). specialize (P1 ltac:(eexists _, _; exact J2)).
  assert (N1 : Nested (NBegin (olist body) (maybe_loc (Some t)) (maybe_loc None) x1)).
  { eapply nested_intro; [eexists _, _; exact J2 | exact P1 | left; cbn; destruct body; reflexivity | exact I |].
    intros m Hm. apply HN, in_or_app. now right. }
  assert (E2 : tko None ++ nds (stmts c ++ [NBegin (olist body) (maybe_loc (Some t)) (maybe_loc None) x1]) ++ tko None =
    nds (stmts c) ++ [x1]).
  { cbn [tko app]. rewrite app_nil_r. unfold nds. now rewrite map_app. }
  rewrite E2 in P2.
  assert (S2 : in_sequence (nds (stmts c) ++ [x1])).
  { exists lo, hi. apply inside_app. exists mid. split; [exact J1|]. destruct P1 as (a & z & Ha & Hz & ->).
    pose proof (inside_ends _ _ _ _ _ J2 Ha Hz). cbn. lia. }
  specialize (P2 S2). split; [|eapply spans_unfold; eassumption].
  eapply nested_intro; [exact S2 | exact P2 | left; cbn [around olist maybe_loc option_map app] | exact I |].
  - rewrite app_nil_r. unfold nds. now rewrite map_app.
  - cbn [children]. intros m Hm. apply in_app_iff in Hm as [Hm|[<-|[]]]; [apply C, Hm | exact N1].
Qed.
(** Adding an [ensure] clause *)
Lemma ensure_good (q : option Node) h t body lo mid hi :
  inside lo h mid -> inside mid (tk t ++ ndo body) hi -> (forall m, In m (olist q ++ olist body) -> Nested m) ->
  match q with Some m => spans (expression m) h | None => h = [] end ->
  let n := NEnsure q body (token_loc t) (loc_join (unwrap_or (maybe_node_expr q) (token_loc t)) (unwrap_or (maybe_node_expr body) (token_loc t))) in
  Nested n /\ spans (expression n) (h ++ tk t ++ ndo body).
Proof.
  intros H1 H2 HN Hq n. subst n. destruct q as [q|].
  - assert (P : spans (loc_join (expression q) (unwrap_or (maybe_node_expr body) (token_loc t))) (h ++ tk t ++ ndo body)).
    { destruct Hq as (a & z & Ha & Hz & E). pose proof (inside_ends _ _ _ _ _ H1 Ha Hz) as W. rewrite E.
      destruct body as [body|]; [exists a, (expression body) | exists a, (token_loc t)]; cbn in H2;
        (repeat split; [now apply first_app | now apply last_app|]; unfold loc_join; cbn; f_equal; lia). }
    split; [|exact P].
    destruct Hq as (a & z & Ha & Hz & E). pose proof (inside_ends _ _ _ _ _ H1 Ha Hz) as W.
    eapply (nested_at _ (nd q ++ tk t ++ ndo body)); [|left; reflexivity | apply sub_refl | exact I | exact HN].
    cbn [expression]. destruct body; cbn in H2 |- *; rewrite E; cbn; lia.
  - subst h. cbn [app]. 
    assert (P : spans (loc_join (token_loc t) (unwrap_or (maybe_node_expr body) (token_loc t))) (tk t ++ ndo body)).
    { destruct body; clean; [|rewrite join_self; apply spans_one]. eapply spans_join; [eexists _, _; exact H2 | reflexivity | reflexivity]. }
    split; [|exact P]. eapply nested_intro; [eexists _, _; exact H2 | exact P | left; reflexivity | exact I | exact HN].
Qed.
Lemma begin_body_good c l el ens e s n s' ps h :
  (forall e s m s', begin_body_rescue c l el e s = Ok (Some m) s' -> good (olist c ++ l ++ clause_nodes el) ps h m) ->
  (forall e s s', begin_body_rescue c l el e s = Ok None s' -> h = []) ->
  (forall lo hi, inside lo ps hi -> (forall m, In m (olist c) -> Nested m) -> inside lo h hi) ->
  begin_body c l el ens e s = Ok (Some n) s' ->
  good (olist c ++ l ++ clause_nodes el ++ clause_nodes ens) (ps ++ clause ens) (h ++ clause ens) n.
Proof.
  intros G Z R H (lo & hi & S) HN. unfold begin_body in H. apply bind_ok in H as (q & s1 & H1 & H).
  assert (HN1 : forall m, In m (olist c ++ l ++ clause_nodes el) -> Nested m).
  { intros m Hm. apply HN. rewrite !in_app_iff in *. tauto. }
  apply inside_app in S as (mid & S1 & S2).
  assert (Q : match q with Some m => Nested m /\ spans (expression m) h | None => h = [] end).
  { destruct q as [q|]; [|eapply Z; exact H1]. eapply G; [exact H1 | eexists _, _; exact S1 | exact HN1]. }
  destruct ens as [[t body]|].
  - injection H as <- <-. change (clause (Some (t, body))) with (tk t ++ ndo body) in *.
    eapply ensure_good; [apply R; [exact S1|] | exact S2 | |].
    + intros m Hm. apply HN, in_or_app. now left.
    + intros m Hm. apply in_app_iff in Hm as [Hm|Hm].
      * destruct q as [q|]; [|destruct Hm]. destruct Hm as [<-|[]]. apply Q.
      * apply HN. rewrite !in_app_iff. right. right. right. exact Hm.
    + destruct q; [apply Q | exact Q].
  - injection H as -> ->. cbn [clause]. rewrite app_nil_r. exact Q.
Qed.
Lemma begin_body_rescue_good c r l el ens e s n s' : begin_body c (r :: l) el ens e s = Ok (Some n) s' ->
  good (olist c ++ r :: l ++ clause_nodes el ++ clause_nodes ens)
    (ndo c ++ nds (r :: l) ++ clause el ++ clause ens) (ndo c ++ nds (r :: l) ++ clause el ++ clause ens) n.
Proof.
  intros H. apply (begin_body_good _ _ _ _ _ _ _ _ (ndo c ++ nds (r :: l) ++ clause el) (ndo c ++ nds (r :: l) ++ clause el)) in H.
  - rewrite <- !app_assoc in H. exact H.
  - intros. eapply rescue_good; eassumption.
  - intros ? ? ? K. unfold begin_body_rescue in K. apply bind_ok in K as (? & ? & _ & K).
    destruct el as [[? ?]|]; [discriminate|]. apply bind_ok in K as (? & ? & _ & K). discriminate.
  - auto.
Qed.
Lemma begin_body_else_good c el ens e s n s' : begin_body c [] el ens e s = Ok (Some n) s' ->
  good (olist c ++ clause_nodes el ++ clause_nodes ens) (ndo c ++ clause el ++ clause ens)
    (match el, c with
     | Some _, Some (NBegin l _ _ _) => nds l
     | _, _ => ndo c
     end ++ clause el ++ clause ens) n.
Proof.
  intros H. destruct el as [[t body]|].
  - apply (begin_body_good _ _ _ _ _ _ _ _ (ndo c ++ tk t ++ ndo body) (nds (stmts c) ++ tk t ++ ndo body)) in H.
    + rewrite <- !app_assoc in H. destruct c as [c|]; [destruct c|]; exact H.
    + intros. eapply else_good; eassumption.
    + intros ? ? ? K. unfold begin_body_rescue in K. apply bind_ok in K as ([[? ?] ?] & ? & _ & K).
      apply bind_ok in K as ([[? ?] ?] & ? & _ & K). discriminate.
    + intros lo hi K HN. eapply stmts_inside; eassumption.
  - apply (begin_body_good _ _ _ _ _ _ _ _ (ndo c) (ndo c)) in H.
    + exact H.
    + intros e0 s0 m s1 K. injection K as -> _. cbn. apply good_self.
    + intros ? ? ? K. injection K as -> _. reflexivity.
    + auto.
Qed.

(** ** Groups *)

Lemma begin_good b body z : good (olist body) (tk b ++ ndo body ++ tk z) (tk b ++ ndo body ++ tk z) (begin b body z).
Proof.
  intros S HN.
  assert (P : spans (loc_join (token_loc b) (token_loc z)) (tk b ++ ndo body ++ tk z)) by (destruct body; clean; span).
  assert (A : begin b body z = NBegin (olist body) (Some (token_loc b)) (Some (token_loc z)) (loc_join (token_loc b) (token_loc z)) ->
    Nested (begin b body z) /\ spans (expression (begin b body z)) (tk b ++ ndo body ++ tk z)).
  { intros ->. split; [|exact P]. eapply nested_intro; [exact S | exact P | | exact I | exact HN]. left. destruct body; reflexivity. }
  assert (R : forall l b0 e0 x, inside (loc_begin x) (olist b0 ++ nds l ++ olist e0) (loc_end x) -> ndo body = [x] ->
    inside (loc_begin (loc_join (token_loc b) (token_loc z))) (token_loc b :: nds l ++ [token_loc z]) (loc_end (loc_join (token_loc b) (token_loc z)))).
  { intros l b0 e0 x J E. apply spans_inside in P; [|exact S]. rewrite E in P.
    apply (around_inside _ _ _ _ _ [token_loc b] [token_loc z] _ J P). }
  destruct body as [body|]; [|apply A; reflexivity]. destruct body; try (apply A; reflexivity).
  - destruct begin_l; [apply A; reflexivity|]. destruct end_l; [apply A; reflexivity|].
    pose proof (nested_inv _ (HN _ (or_introl eq_refl))) as [[(ls & [<-|[]] & J) _] C]. split; [|exact P].
    eapply nested_at; [eapply R; [exact J | reflexivity] | left; reflexivity | apply sub_refl | exact I | exact C].
  - pose proof (nested_inv _ (HN _ (or_introl eq_refl))) as [[(ls & [<-|[]] & J) _] C]. split; [|exact P].
    eapply nested_at; [eapply R; [exact J | reflexivity] | left; reflexivity | apply sub_refl | exact I | exact C].
Qed.
Lemma begin_keyword_good b body z :
  good (olist body) (tk b ++ ndo body ++ tk z) (tk b ++ ndo body ++ tk z) (begin_keyword b body z).
Proof.
  intros S HN.
  assert (P : spans (loc_join (token_loc b) (token_loc z)) (tk b ++ ndo body ++ tk z)) by (destruct body; clean; span).
  assert (E : begin_keyword b body z = NKwBegin (stmts body) (Some (token_loc b)) (Some (token_loc z)) (loc_join (token_loc b) (token_loc z)))
    by (destruct body as [body|]; [destruct body|]; reflexivity).
  rewrite E. split; [|exact P].
  pose proof (spans_inside _ _ S P) as J. apply (inside_app (tk b)) in J as (m & J1 & J2).
  destruct (stmts_inside body _ _ _ HN J2) as [J3 C].
  eapply (nested_at _ (tk b ++ nds (stmts body) ++ tk z)); [|left; reflexivity | apply sub_refl | exact I | exact C].
  apply inside_app. eauto.
Qed.

(** ** Patterns *)

Lemma case_match_good kw x l el body z : (el = None -> body = None) ->
  good (x :: l ++ olist body) (tk kw ++ nd x ++ nds l ++ tko el ++ ndo body ++ tk z)
    (tk kw ++ nd x ++ nds l ++ tko el ++ ndo body ++ tk z) (case_match kw x l el body z).
Proof.
  intros A S HN. unfold case_match.
  assert (P : spans (loc_join (token_loc kw) (token_loc z)) (tk kw ++ nd x ++ nds l ++ tko el ++ ndo body ++ tk z))
    by (destruct body, el; clean; span).
  split; [|exact P]. eapply nested_intro; [exact S | exact P | | exact I |].
  - destruct el as [el|]; [destruct body as [body|]|rewrite (A eq_refl)]; cbn [layouts maybe_loc option_map]; try (left; reflexivity).
    right. unfold same_loc. rewrite !Nat.eqb_refl. left. reflexivity.
  - cbn [children]. intros c Hc. destruct el as [el|]; [destruct body as [body|]|]; try (apply HN, Hc).
    change (In c (x :: l ++ [NEmptyElse (token_loc el)])) in Hc.
    destruct Hc as [<-|Hc]; [apply HN; now left|]. apply in_app_iff in Hc. destruct Hc as [Hc|[<-|[]]]; [apply HN; right; apply in_or_app; now left|].
    leaf. cbn [expression]. destruct S as (lo & hi & S). apply (inside_proper _ _ _ (token_loc el)) in S; [lia|].
    rewrite !in_app_iff. cbn. tauto.
Qed.
Lemma in_pattern_good kw p g th body :
  good (p :: olist g ++ [body]) (tk kw ++ nd p ++ ndo g ++ tk th ++ nd body) (tk kw ++ nd p ++ ndo g ++ tk th ++ nd body)
    (in_pattern kw p g th (Some body)).
Proof. intros S HN. unfold in_pattern. destruct g; done. Qed.
Lemma in_pattern_empty_good kw p g th :
  good (p :: olist g) (tk kw ++ nd p ++ ndo g ++ tk th) (tk kw ++ nd p ++ ndo g) (in_pattern kw p g th None).
Proof.
  intros S HN.
  assert (S1 : in_sequence (tk kw ++ nd p ++ ndo g)).
  { replace (tk kw ++ nd p ++ ndo g ++ tk th) with ((tk kw ++ nd p ++ ndo g) ++ tk th) in S by (rewrite <- !app_assoc; reflexivity).
    apply in_sequence_app in S. apply S. }
  clear S. unfold in_pattern. destruct g; done.
Qed.
Lemma match_hash_var_good t e s n s' : loc_begin (token_loc t) < loc_end (token_loc t) ->
  match_hash_var t e s = Ok (Some n) s' -> good [] (tk t) (tk t) n.
Proof.
  intros L H S HN. unfold match_hash_var in H. apply bind_ok in H as (k & s1 & H1 & H). apply adjust_end_ok in H1 as [A1 A2].
  inv. split; [|apply spans_one]. eapply nested_at; [|left; reflexivity | apply sub_refl | exact I | intros c []]. cbn. lia.
Qed.
Lemma match_hash_var_from_str_good b t z e s n s' :
  match_hash_var_from_str b [string_internal t] z e s = Ok (Some n) s' ->
  good [] (tk b ++ tk t ++ tk z) (tk b ++ tk t ++ tk z) n.
Proof.
  intros H S HN. unfold match_hash_var_from_str, string_internal in H. cbn [match_hash_var_node] in H. inv.
  assert (P : spans (loc_join (loc_join (token_loc b) (token_loc t)) (token_loc z)) (tk b ++ tk t ++ tk z)).
  { destruct S as (lo & hi & S). exists (token_loc b), (token_loc z). repeat split. cbn in S. unfold loc_join. cbn. f_equal; lia. }
  split; [|exact P]. eapply nested_part; [exact S | exact P | left; reflexivity | cbn; sub | exact I | intros c []].
Qed.
Lemma match_rest_good t v e s n s' : match_rest t v e s = Ok (Some n) s' -> good [] (tk t ++ tko v) (tk t ++ tko v) n.
Proof.
  intros H S HN. unfold match_rest, match_var in H. destruct v as [v|]; [|inv; done].
  inv. clean. split; [|span]. eapply nested_intro; [exact S | clean; span | left; reflexivity | exact I |].
  cbn. intros c [<-|[]]. destruct S as (lo & hi & S). cbn in S.
  eapply nested_at; [|left; reflexivity | apply sub_refl | exact I | intros c []]. cbn. lia.
Qed.
Lemma spans_insert r c ls ks : in_sequence (ls ++ c :: ks) -> spans r (ls ++ ks) -> spans (loc_join r c) (ls ++ c :: ks).
Proof.
  intros (lo & hi & S) (a & z & Ha & Hz & ->). apply inside_app in S as (m & S1 & S2).
  destruct (list_ends ls) as [-> | (a1 & z1 & Ha1 & Hz1)], (list_ends ks) as [-> | (a2 & z2 & Ha2 & Hz2)]; cbn [app] in *.
  - discriminate.
  - rewrite Ha2 in Ha. rewrite Hz2 in Hz. injection Ha as <-. injection Hz as <-. cbn [inside] in S2. destruct S2 as (B1 & B2 & B3).
    pose proof (inside_ends _ _ _ _ _ B3 Ha2 Hz2). exists c, z2. repeat split; [now apply last_cons|].
    unfold loc_join. cbn. f_equal; lia.
  - rewrite app_nil_r in *. rewrite Ha1 in Ha. rewrite Hz1 in Hz. injection Ha as <-. injection Hz as <-. cbn [inside] in S2.
    pose proof (inside_ends _ _ _ _ _ S1 Ha1 Hz1). exists a1, c. repeat split; [now apply first_app | now apply last_app|].
    unfold loc_join. cbn. f_equal; lia.
  - rewrite (first_app _ _ _ Ha1) in Ha. rewrite (last_app _ _ _ Hz2) in Hz. injection Ha as <-. injection Hz as <-.
    cbn [inside] in S2. destruct S2 as (B1 & B2 & B3).
    pose proof (inside_ends _ _ _ _ _ B3 Ha2 Hz2). pose proof (inside_ends _ _ _ _ _ S1 Ha1 Hz1).
    exists a1, z2. repeat split; [now apply first_app | apply last_app; now apply last_cons|].
    unfold loc_join. cbn. f_equal; lia.
Qed.
Lemma array_pattern_good b l comma z e s n s' : array_pattern b l comma z e s = Ok n s' ->
  good l (tko b ++ nds l ++ tko comma ++ tko z) (tko b ++ nds l ++ tko comma ++ tko z) n.
Proof.
  intros H S HN. unfold array_pattern in H. apply bind_ok in H as ([[bl el] r] & s1 & H1 & H). apply collection_ok in H1 as (-> & -> & Q).
  assert (U : Sub (tko b ++ nds l ++ tko z) (tko b ++ nds l ++ tko comma ++ tko z)) by (apply sub_app, sub_app, sub_skip, sub_refl).
  specialize (Q (in_sequence_sub _ _ U S)).
  assert (P : spans (maybe_join r (maybe_loc comma)) (tko b ++ nds l ++ tko comma ++ tko z)).
  { destruct comma as [c|]; [|exact Q]. cbn [maybe_join maybe_loc option_map tko app] in *. rewrite app_assoc in *. apply spans_insert; [exact S | exact Q]. }
  assert (E : n = NArrayPattern l (maybe_loc b) (maybe_loc z) (maybe_join r (maybe_loc comma)) \/
              n = NArrayPatternWithTail l (maybe_loc b) (maybe_loc z) (maybe_join r (maybe_loc comma))).
  { destruct l, comma; injection H as <- <-; auto. }
  destruct E as [-> | ->]; (split; [|exact P]; eapply nested_part; [exact S | exact P | left; reflexivity | | exact I | exact HN];
    destruct b, z; exact U).
Qed.
Lemma const_pattern_empty_good c b p z : expression p = mkLoc (loc_begin (token_loc b)) (loc_end (token_loc z)) ->
  good [c; p] (nd c ++ tk b ++ tk z) (nd c ++ tk b ++ tk z) (const_pattern c b p z).
Proof.
  intros E S HN. unfold const_pattern. split; [|clean; span]. eapply nested_intro; [exact S | clean; span | | exact I | exact HN].
  right. unfold same_loc. rewrite E. cbn [loc_begin loc_end]. rewrite !Nat.eqb_refl. now left.
Qed.
Lemma match_pair_plain_good t v e s n s' : loc_begin (token_loc t) < loc_end (token_loc t) ->
  match_pair (PlainLabel t) v e s = Ok (Some n) s' -> good [v] (tk t ++ nd v) (tk t ++ nd v) n.
Proof.
  intros L H. unfold match_pair in H. apply bind_ok in H as (u & s1 & _ & H). destruct u; [|discriminate].
  apply bind_ok in H as (m & s2 & H & E). injection E as <- <-. now apply pair_keyword_good in H.
Qed.
Lemma match_pair_quoted_good b l z v e s n s' : loc_begin (token_loc z) + 2 = loc_end (token_loc z) ->
  match_pair (QuotedLabel b l z) v e s = Ok (Some n) s' ->
  good (l ++ [v]) (tk b ++ nds l ++ tk z ++ nd v) (tk b ++ nds l ++ tk z ++ nd v) n.
Proof.
  intros L H. unfold match_pair in H. destruct (static_string l); [|apply bind_ok in H as (? & ? & _ & H); discriminate].
  apply bind_ok in H as (u & s1 & _ & H). destruct u; [|discriminate].
  apply bind_ok in H as (m & s2 & H & E). injection E as <- <-. now apply pair_quoted_good in H.
Qed.
