(** * Trees made from literals, strings, hashes and names are nested (part of C48) *)
Require Import Verif.Base Verif.InputM Verif.TokensM Verif.NodeM Verif.ScopesM Verif.DiagnosticM.
Require Import Verif.LexerM Verif.BuilderM Verif.BuilderNodesM Verif.NestSpec Verif.NestFacts Verif.Prop_BuilderTree.
From Coq Require Import Lia ZifyBool ZifyNat.

Ltac inv1 :=
  match goal with
  | H : bind _ _ _ _ = Ok _ _ |- _ => apply bind_ok in H; destruct H as (? & ? & ? & H)
  | H : ret _ _ _ = Ok _ _ |- _ => unfold ret in H
  | H : ok _ _ _ = Ok _ _ |- _ => unfold ok in H
  | H : err _ _ = Ok _ _ |- _ => unfold err in H
  | H : panic _ _ _ = Ok _ _ |- _ => discriminate H
  | H : Ok _ _ = Ok _ _ |- _ => injection H; clear H; intros; subst
  | H : Some _ = Some _ |- _ => injection H; clear H; intros; subst
  | H : None = Some _ |- _ => discriminate H
  | H : Some _ = None |- _ => discriminate H
  | H : (_, _) = (_, _) |- _ => injection H; clear H; intros; subst
  | H : expect ?o _ _ _ = Ok _ _ |- _ => destruct o eqn:?; unfold expect in H
  | H : collection_map _ _ _ _ _ = Ok (_, _, _) _ |- _ =>
      apply collection_ok in H; destruct H as (? & ? & H); subst
  | H : (let '(_, _) := ?x in _) _ _ = Ok _ _ |- _ => destruct x
  | H : (match ?x with _ => _ end) _ _ = Ok _ _ |- _ => destruct x eqn:?
  | H : (_ * _)%type |- _ => destruct H
  end.
Ltac inv := repeat (inv1; try discriminate).
Ltac options := repeat match goal with
  | o : option Token |- _ => destruct o
  | o : option Node |- _ => destruct o
  end.
Ltac clean := cbn [tk tko nd ndo app maybe_loc maybe_node_expr option_map unwrap_or or_else join_maybe_locs maybe_join
  olist join_exprs expression layouts around heredoc_parts] in *.
Ltac ends := first
  [ reflexivity
  | apply last_cons; ends | apply last_app; ends
  | apply last_nds; eassumption | apply first_nds; eassumption | apply first_app; ends ].
Ltac span := first
  [ apply spans_one
  | eassumption
  | eapply spans_join; [eassumption | ends | ends]
  | eapply spans_join'; [eassumption | ends | ends]
  | match goal with H : in_sequence _ -> spans _ _ |- _ => apply H; eassumption end ].
Ltac pick := first [left; reflexivity | right; left; reflexivity | right; right; left; reflexivity].
Ltac kids := let c := fresh "c" in let Hc := fresh "Hc" in intros c Hc; cbn [children app olist] in Hc;
  match goal with HN : forall m, In m _ -> Nested m |- _ => apply HN end;
  cbn [olist app In] in *; repeat (rewrite in_app_iff in *; cbn [olist app In] in *); tauto.
Ltac sub := first [apply sub_refl | apply sub_nil | apply sub_keep; sub | apply sub_app; sub | apply sub_drop; sub | apply sub_skip; sub | apply sub_end].
Ltac done := clean; match goal with S : in_sequence ?ps |- _ =>
  split; [|clean; span];
  first [eapply (nested_part _ ps); [exact S | clean; span | clean; left; reflexivity | sub | exact I | kids]
        |eapply (nested_part _ ps); [exact S | clean; span | clean; right; left; reflexivity | sub | exact I | kids]
        |eapply (nested_part _ ps); [exact S | clean; span | clean; right; right; left; reflexivity | sub | exact I | kids]]
  end.
(** Split the lists into empty ones and those with a first and a last element *)
Ltac lists := repeat match goal with
  | l : list Node |- _ =>
      lazymatch goal with _ : last_opt l = Some _ |- _ => fail | _ => idtac end;
      let a := fresh "a" in let z := fresh "z" in
      destruct (list_ends l) as [-> | (a & z & ? & ?)]
  end.
Ltac empty := cbn [nds List.map app last_opt first_opt] in *.
Ltac lasts := repeat match goal with H : last_opt ?l = Some _ |- context [last_opt ?l] => rewrite H end.

Definition good (ns : list Node) (ps h : list Loc) (n : Node) : Prop :=
  in_sequence ps -> (forall m, In m ns -> Nested m) -> Nested n /\ spans (expression n) h.

(** A node that is already there *)
Lemma good_self m : good [m] (nd m) (nd m) m.
Proof. intros S HN. split; [apply HN; now left | apply spans_one]. Qed.

Lemma heredoc_good b l z e s n s' : is_heredoc (Some b) = true -> in_sequence (nds l) -> in_sequence (tko z) ->
  (' (heredoc_body_l, heredoc_end_l, expression_l) <- heredoc_map (Some b) l z ;;
   ret (NHeredoc l heredoc_body_l heredoc_end_l expression_l)) e s = Ok n s' -> good l (tk b) (tk b) n.
Proof.
  intros Hb Hl Hz H S HN. unfold heredoc_map, bind, expect in H. destruct z as [z|]; [|discriminate].
  cbn [ret] in H. unfold ret in H. injection H as <- <-. split; [|apply spans_one].
  apply (nested_part _ (tk b) []); [exact S | apply spans_one | now left | apply sub_nil | | exact HN].
  cbn [heredoc_parts]. destruct (collection_expr l) as [c|] eqn:C; cbn [unwrap_or].
  - apply spans_inside; [exact Hl|]. now apply collection_expr_spans.
  - apply collection_expr_none in C. subst l. cbn. destruct Hz as (x & y & Hz). cbn in Hz. lia.
Qed.

Lemma string_compose_good b l z e s n s' : is_heredoc b = false -> string_compose b l z e s = Ok n s' ->
  good l (tko b ++ nds l ++ tko z) (tko b ++ nds l ++ tko z) n.
Proof.
  intros Hb H.
  assert (A : forall v bl el r s1, collection_map b l z e s = Ok (bl, el, r) s1 ->
    good l (tko b ++ nds l ++ tko z) (tko b ++ nds l ++ tko z) (NStr v bl el r)).
  { intros v bl el r s1 K S HN. apply collection_ok in K as (-> & -> & K). specialize (K S). split; [|exact K].
    eapply (nested_part _ _ (olist (maybe_loc b) ++ olist (maybe_loc z))); [exact S | exact K | now left | | exact I | intros c []].
    destruct b, z; cbn [tko maybe_loc option_map olist app]; try sub.
    all: rewrite ?app_nil_r; auto using sub_keep, sub_skip, sub_refl, sub_nil. }
  assert (D : forall bl el r s1, collection_map b l z e s = Ok (bl, el, r) s1 ->
    good l (tko b ++ nds l ++ tko z) (tko b ++ nds l ++ tko z) (NDstr l bl el r)).
  { intros bl el r s1 K S HN. apply collection_ok in K as (-> & -> & K). specialize (K S). split; [|exact K].
    eapply nested_intro; [exact S | exact K | | exact I | exact HN]. left. now destruct b, z. }
  assert (F : forall v, str_node b v l z e s = Ok n s' -> good l (tko b ++ nds l ++ tko z) (tko b ++ nds l ++ tko z) n).
  { intros v K. unfold str_node in K. rewrite Hb in K. apply bind_ok in K as ([[bl el] r] & s1 & K1 & K).
    injection K as <- <-. eapply A; eauto. }
  assert (G : (' (begin_l, end_l, expression_l) <- collection_map b l z ;;
               ret (NDstr l begin_l end_l expression_l)) e s = Ok n s' ->
              good l (tko b ++ nds l ++ tko z) (tko b ++ nds l ++ tko z) n).
  { intros K. apply bind_ok in K as ([[bl el] r] & s1 & K1 & K). injection K as <- <-. eapply D; eauto. }
  unfold string_compose in H. rewrite Hb in H.
  assert (B : forall p, l = [p] -> negb (is_some b) && negb (is_some z) = true -> n = p ->
    good l (tko b ++ nds l ++ tko z) (tko b ++ nds l ++ tko z) n).
  { intros p -> HB ->. destruct b, z; try discriminate. apply good_self. }
  destruct l as [|p [|q r]]; [now apply (F []) | |].
  - destruct p; try (now apply G); destruct (negb (is_some b) && negb (is_some z)) eqn:HB; try discriminate H;
      try (injection H as <- <-; eapply B; reflexivity).
    now apply (F value).
  - destruct p; now apply G.
Qed.
Lemma heredoc_compose_good b l z e s n s' : is_heredoc (Some b) = true -> in_sequence (nds l) -> in_sequence (tko z) ->
  string_compose (Some b) l z e s = Ok n s' -> good l (tk b) (tk b) n.
Proof.
  intros Hb Hl Hz H.
  pose proof (heredoc_good b l z e s n s' Hb Hl Hz) as G.
  unfold string_compose, str_node in H. rewrite Hb in H.
  destruct l as [|p [|q r]]; [now apply G | |].
  - destruct p; try (now apply G); cbn in H; discriminate H.
  - destruct p; now apply G.
Qed.
Lemma symbol_compose_good b l z e s n s' : symbol_compose b l z e s = Ok n s' ->
  good l (tk b ++ nds l ++ tk z) (tk b ++ nds l ++ tk z) n.
Proof.
  intros H S HN. unfold symbol_compose in H.
  assert (G : (' (begin_l, end_l, expression_l) <- collection_map (Some b) l (Some z) ;;
               ret (NDsym l begin_l end_l expression_l)) e s = Ok n s' ->
              Nested n /\ spans (expression n) (tk b ++ nds l ++ tk z)).
  { intros K. apply bind_ok in K as ([[bl el] r] & s1 & K1 & K). injection K as <- <-.
    apply collection_ok in K1 as (-> & -> & K). specialize (K S). split; [|exact K].
    eapply nested_intro; [exact S | exact K | now left | exact I | exact HN]. }
  destruct l as [|p [|q r]]; [now apply G | |].
  - destruct p; try (now apply G).
    apply bind_ok in H as ([[bl el] r] & s1 & K1 & H). apply bind_ok in H as (u & s2 & _ & H). injection H as <- <-.
    apply collection_ok in K1 as (-> & -> & K).
    assert (P : spans r (tk b ++ nds [NStr value begin_l end_l expression_l] ++ tk z)).
    { apply (spans_mid r (token_loc b) [expression_l]). apply K. eapply in_sequence_sub; [|exact S]. cbn. sub. }
    split; [|exact P]. eapply nested_part; [exact S | exact P | left; reflexivity | cbn; sub | exact I | intros c []].
  - destruct p; now apply G.
Qed.
Lemma character_good t : loc_begin (token_loc t) < loc_end (token_loc t) -> good [] (tk t) (tk t) (character t).
Proof.
  intros L S HN. split; [|apply spans_one]. unfold character. eapply (nested_at _ [with_end (token_loc t) (loc_begin (token_loc t) + 1)]);
    [| left; reflexivity | apply sub_refl | exact I | intros c []]. cbn. lia.
Qed.
Lemma xheredoc_good b l z : heredoc_mark (token_value b) = true -> in_sequence (nds l) -> in_sequence (tk z) ->
  good l (tk b) (tk b) (xstring_compose b l z).
Proof.
  intros Hb Hl Hz S HN. unfold xstring_compose. rewrite Hb. split; [|apply spans_one].
  apply (nested_part _ (tk b) []); [exact S | apply spans_one | now left | apply sub_nil | | exact HN].
  cbn [heredoc_parts]. destruct (collection_expr l) as [c|] eqn:C; cbn [unwrap_or].
  - apply spans_inside; [exact Hl|]. now apply collection_expr_spans.
  - apply collection_expr_none in C. subst l. cbn. destruct Hz as (x & y & Hz). cbn in Hz. lia.
Qed.
Lemma xstring_good b l z : heredoc_mark (token_value b) = false ->
  good l (tk b ++ nds l ++ tk z) (tk b ++ nds l ++ tk z) (xstring_compose b l z).
Proof. intros Hb S HN. unfold xstring_compose. rewrite Hb. done. Qed.
(** Dedenting keeps a part of the contents *)
Lemma dedent_parts l d : forall e s l' s', dedent_heredoc_parts l d e s = Ok l' s' ->
  Sub (nds l') (nds l) /\ ((forall m, In m l -> Nested m) -> forall c, In c l' -> Nested c).
Proof.
  induction l as [|p l IH]; intros e s l' s' H; cbn in H.
  - injection H as <- <-. split; [apply sub_nil | intros _ c []].
  - apply bind_ok in H as (o & s1 & H1 & H). apply bind_ok in H as (r & s2 & H2 & H). injection H as <- <-.
    destruct (IH _ _ _ _ H2) as [U K].
    assert (O : match o with Some q => expression q = expression p /\ (Nested p -> Nested q) | None => True end).
    { destruct p; try discriminate H1; try (injection H1 as <- <-; auto).
      destruct (dedent_string value d); [exact I|]. split; [reflexivity|]. intros N. apply nested_inv in N as [L C].
      constructor; [exact L | exact C]. }
    destruct o as [q|]; cbn.
    + destruct O as [-> O]. split; [now apply sub_keep|]. intros M c [<-|Hc]; [apply O, M; now left|].
      apply K; [|exact Hc]. intros m Hm. apply M. now right.
    + split; [now apply sub_drop|]. intros M c Hc. apply K; [|exact Hc]. intros m Hm. apply M. now right.
Qed.
Lemma heredoc_dedent_good h d e s n s' : heredoc_dedent h d e s = Ok n s' -> good [h] (nd h) (nd h) n.
Proof.
  intros H S HN. unfold heredoc_dedent in H. destruct (Z.eqb d 0); [injection H as <- <-; now apply good_self|].
  destruct (d <? 0)%Z; [discriminate|]. pose proof (HN h (or_introl eq_refl)) as N. apply nested_inv in N as [[L HP] C].
  destruct h; try discriminate H; apply bind_ok in H as (l & s1 & H1 & H); injection H as <- <-;
    (split; [|apply spans_one]); apply dedent_parts in H1 as [U K]; constructor.
  1, 3: split; [exact L|]; cbn in HP |- *; eapply inside_sub; eauto.
  all: exact (K C).
Qed.
Lemma regexp_good b l z o e s s1 s2 n s' : loc_begin (token_loc z) < loc_end (token_loc z) ->
  regexp_options z e s = Ok o s1 -> regexp_compose b l z o e s2 = Ok n s' ->
  good l (tk b ++ nds l ++ tk z) (tk b ++ nds l ++ tk z) n.
Proof.
  intros L Ho Hn S HN. unfold regexp_options in Ho. apply bind_ok in Ho as (k & t1 & Hk & Ho).
  apply sub_ok in Hk as [-> Hk]. unfold regexp_compose in Hn. apply bind_ok in Hn as (u & t2 & _ & Hn). injection Hn as <- <-.
  assert (E : match o with
              | None => loc_end (token_loc z) = loc_begin (token_loc z) + 1
              | Some o => exists x, o = NRegOpt x (mkLoc (loc_begin (token_loc z) + 1) (loc_end (token_loc z)))
              end).
  { destruct (loc_end (token_loc z) - loc_begin (token_loc z) =? 1) eqn:E.
    - injection Ho as <- <-. lia.
    - apply bind_ok in Ho as (x & t3 & Hx & Ho). apply bind_ok in Ho as (v & t4 & _ & Ho). injection Ho as <- <-.
      apply adjust_begin_ok in Hx as [H1 H2]. destruct x as [x y]. cbn in H1, H2. subst y.
      eexists. f_equal. f_equal. lia. }
  assert (P : spans (loc_join (token_loc b) (unwrap_or (maybe_node_expr o) (token_loc z))) (tk b ++ nds l ++ tk z)).
  { assert (Q : spans (loc_join (token_loc b) (token_loc z)) (tk b ++ nds l ++ tk z)) by (clean; span).
    destruct o as [o|]; [|exact Q]. destruct E as (x & ->). cbn. destruct Q as (a & y & Ha & Hy & Q).
    exists a, y. repeat split; auto. rewrite <- Q. cbn in Ha. injection Ha as <-.
    assert (y = token_loc z) as ->.
    { cbn [tk app] in Hy. rewrite (last_cons _ _ (token_loc z)) in Hy by (apply last_app; reflexivity). now injection Hy. }
    destruct S as (c & d & S). cbn [tk app inside] in S. destruct S as (_ & S1 & S). apply inside_app in S as (m & S2 & S3).
    apply inside_le in S2. cbn in S3. unfold loc_join. cbn. f_equal; lia. }
  split; [|exact P].
  pose proof (spans_inside _ _ S P) as J.
  assert (J' : inside (loc_begin (loc_join (token_loc b) (unwrap_or (maybe_node_expr o) (token_loc z))))
    (tk b ++ nds l ++ resize (token_loc z) 1 :: ndo o)
    (loc_end (loc_join (token_loc b) (unwrap_or (maybe_node_expr o) (token_loc z))))).
  { change (tk b ++ nds l ++ tk z) with ((tk b ++ nds l) ++ token_loc z :: []) in J || rewrite app_assoc in J.
    rewrite app_assoc. rewrite <- (app_nil_r (resize _ _ :: ndo o)).
    eapply inside_refine; [|exact J]. unfold resize, with_end. destruct o as [o|]; [destruct E as (x & ->)|]; cbn; lia. }
  eapply nested_at; [exact J' | left; reflexivity | apply sub_refl | exact I |].
  cbn [children]. intros c Hc. apply in_app_or in Hc as [Hc|Hc]; [now apply HN|].
  destruct o as [o|]; [|destruct Hc]. destruct E as (x & ->). destruct Hc as [<-|[]].
  constructor; [|intros c []]. split; [|exact I]. exists []. split; [now left|]. cbn. lia.
Qed.
Lemma symbols_parts l : forall e s l' s', map_m symbols_part l e s = Ok l' s' ->
  nds l' = nds l /\ ((forall m, In m l -> Nested m) -> forall c, In c l' -> Nested c).
Proof.
  induction l as [|p l IH]; intros e s l' s' H; cbn in H.
  - injection H as <- <-. split; [reflexivity | intros _ c []].
  - apply bind_ok in H as (q & s1 & H1 & H). apply bind_ok in H as (r & s2 & H2 & H). injection H as <- <-.
    destruct (IH _ _ _ _ H2) as [U K].
    assert (O : expression q = expression p /\ (Nested p -> Nested q)).
    { destruct p; cbn in H1; try (injection H1 as <- <-; auto; fail).
      - injection H1 as <- <-. split; [reflexivity|]. intros N. apply nested_inv in N as [L C]. now constructor.
      - apply bind_ok in H1 as (u & s3 & _ & H1). injection H1 as <- <-.
        split; [reflexivity|]. intros N. apply nested_inv in N as [L C]. now constructor. }
    destruct O as [E O]. split; [change (expression q :: nds r = expression p :: nds l); now rewrite E, U|].
    intros M c [<-|Hc]; [apply O, M; now left|]. apply K; [|exact Hc]. intros m Hm. apply M. now right.
Qed.
Lemma symbols_compose_good b l z e s n s' : symbols_compose b l z e s = Ok n s' ->
  good l (tk b ++ nds l ++ tk z) (tk b ++ nds l ++ tk z) n.
Proof.
  intros H S HN. unfold symbols_compose in H. apply bind_ok in H as (l' & s1 & H1 & H). injection H as <- <-.
  apply symbols_parts in H1 as [E K]. specialize (K HN). clear HN. rewrite <- E in S |- *. clear E. done.
Qed.
Lemma word_good l e s n s' : word l e s = Ok n s' -> good l (nds l) (nds l) n.
Proof.
  intros H S HN. unfold word in H.
  assert (G : (' (begin_l, end_l, expression_l) <- collection_map None l None ;;
               ret (NDstr l begin_l end_l expression_l)) e s = Ok n s' -> Nested n /\ spans (expression n) (nds l)).
  { intros K. apply bind_ok in K as ([[bl el] r] & s1 & K1 & K). injection K as <- <-.
    apply collection_ok in K1 as (-> & -> & K). cbn [tko app] in K. rewrite app_nil_r in K. specialize (K S). split; [|exact K].
    eapply nested_intro; [exact S | exact K | | exact I | exact HN]. left. cbn. apply app_nil_r. }
  destruct l as [|p [|q r]]; [now apply G | |].
  - destruct p; try (now apply G); injection H as <- <-; now apply good_self.
  - destruct p; now apply G.
Qed.
Lemma compstmt_good l e s n s' : compstmt l e s = Ok (Some n) s' -> good l (nds l) (nds l) n.
Proof.
  intros H S HN. unfold compstmt in H.
  destruct l as [|p [|q r]]; [discriminate | injection H as <- <-; now apply good_self|].
  apply bind_ok in H as ([[bl el] x] & s1 & K1 & K). injection K as <- <-.
  apply collection_ok in K1 as (-> & -> & K). cbn [tko app] in K. rewrite app_nil_r in K. specialize (K S). split; [|exact K].
  eapply nested_intro; [exact S | exact K | | exact I | exact HN]. left. cbn. now rewrite app_nil_r.
Qed.
(** Nodes with nothing in them *)
Lemma nested_leaf n l : layouts n = [[]] -> children n = [] -> heredoc_parts n -> expression n = l ->
  loc_begin l <= loc_end l -> Nested n.
Proof.
  intros L C H <- P. constructor; [|rewrite C; intros c []]. split; [|exact H]. exists []. rewrite L. split; [now left | exact P].
Qed.
Ltac leaf := eapply nested_leaf; [reflexivity | reflexivity | exact I | reflexivity |]; cbn [expression].
Lemma pair_keyword_good t v e s n s' : loc_begin (token_loc t) < loc_end (token_loc t) ->
  pair_keyword t v e s = Ok n s' -> good [v] (tk t ++ nd v) (tk t ++ nd v) n.
Proof.
  intros L H S HN. unfold pair_keyword in H. apply bind_ok in H as (k & s1 & H1 & H).
  apply bind_ok in H as (b & s2 & H2 & H). apply bind_ok in H as (u & s3 & _ & H). injection H as <- <-.
  apply sub_ok in H2 as [-> H2]. apply adjust_end_ok in H1 as [H3 H4].
  assert (P : spans (loc_join (token_loc t) (expression v)) (tk t ++ nd v)) by (clean; span).
  split; [|exact P]. pose proof (spans_inside _ _ S P) as J.
  eapply (nested_at _ [k; with_begin (token_loc t) (loc_end (token_loc t) - 1); expression v]);
    [| left; reflexivity | apply sub_refl | exact I |].
  - change (tk t ++ nd v) with ([] ++ token_loc t :: [expression v]) in J.
    apply (inside_refine (token_loc t) [k; with_begin (token_loc t) (loc_end (token_loc t) - 1)]) in J; [exact J|].
    cbn. lia.
  - cbn. intros c [<-|[<-|[]]]; [|apply HN; now left].
    leaf. lia.
Qed.
Lemma accessible_good m e s n s' : accessible m e s = Ok n s' -> good [m] (nd m) (nd m) n.
Proof.
  intros H. destruct m; cbn [accessible] in H; try (injection H as <- <-; apply good_self).
  intros S HN.
  assert (E : n = NLvar name expression_l \/ n = NSend None name [] None (Some expression_l) None None None expression_l)
    by (inv; auto).
  destruct E as [-> | ->]; [now apply good_self|]. split; [|apply spans_one].
  eapply nested_intro; [exact S | apply spans_one | left; reflexivity | exact I | intros c []].
Qed.
Lemma pair_label_good t e s n s' : loc_begin (token_loc t) < loc_end (token_loc t) ->
  pair_label t e s = Ok n s' -> good [] (tk t) (tk t) n.
Proof.
  intros L H S HN. unfold pair_label in H. apply bind_ok in H as (k & s1 & H1 & H).
  apply bind_ok in H as (lb & s2 & _ & H). apply bind_ok in H as (cc & s3 & _ & H). apply bind_ok in H as (f & s4 & _ & H).
  apply bind_ok in H as (v & s5 & Hv & H).
  pose proof H1 as A. apply adjust_end_ok in A as [A1 A2].
  assert (V : Nested v /\ expression v = k).
  { apply accessible_good in Hv.
    assert (Q : forall x, expression x = k -> Nested x -> good [x] (nd x) (nd x) v -> Nested v /\ expression v = k).
    { intros x Ex Nx G. destruct G as [G1 (a & z & Ha & Hz & G2)].
      - exists (loc_begin k), (loc_end k). cbn. rewrite Ex. lia.
      - intros m [<-|[]]. exact Nx.
      - split; [exact G1|]. cbn in Ha, Hz. injection Ha as <-. injection Hz as <-. rewrite G2, loc_eta. exact Ex. }
    destruct (is_lowercase cc f); eapply Q; [| | exact Hv | | | exact Hv]; try reflexivity.
    - leaf; lia.
    - eapply (nested_at _ [k]); [cbn; lia | left; reflexivity | apply sub_refl | exact I | intros c []]. }
  destruct V as [Nv Ev].
  unfold pair_keyword in H. apply bind_ok in H as (k' & s6 & H6 & H). 
  apply bind_ok in H as (b & s7 & H7 & H). apply bind_ok in H as (u & s8 & _ & H). injection H as <- <-.
  apply sub_ok in H7 as [-> H7]. apply adjust_end_ok in H6 as [H8 H9].
  assert (k' = k) as -> by (destruct k, k'; cbn in *; f_equal; lia).
  assert (P : loc_join (token_loc t) (expression v) = token_loc t).
  { rewrite Ev. unfold loc_join. rewrite <- (loc_eta (token_loc t)) at 3. f_equal; lia. }
  rewrite P. split; [|apply spans_one].
  eapply (nested_at _ [k; with_begin (token_loc t) (loc_end (token_loc t) - 1)]);
    [cbn; lia | right; cbn; rewrite Ev; unfold same_loc; rewrite !Nat.eqb_refl; left; reflexivity | apply sub_refl | exact I|].
  cbn. intros c [<-|[<-|[]]]; [|exact Nv]. leaf. lia.
Qed.
Lemma pair_quoted_good b l z v e s n s' : loc_begin (token_loc z) + 2 = loc_end (token_loc z) ->
  pair_quoted b l z v e s = Ok n s' ->
  good (l ++ [v]) (tk b ++ nds l ++ tk z ++ nd v) (tk b ++ nds l ++ tk z ++ nd v) n.
Proof.
  intros L H S HN. unfold pair_quoted in H. apply bind_ok in H as (b2 & s1 & H1 & H). apply bind_ok in H as (b1 & s2 & H2 & H).
  apply sub_ok in H1 as [-> H1]. apply sub_ok in H2 as [-> H2].
  apply bind_ok in H as (k & s3 & Hk & H). injection H as <- <-.
  apply symbol_compose_good in Hk. cbn [token_loc] in Hk.
  set (q := mkLoc (loc_end (token_loc z) - 2) (loc_end (token_loc z) - 1)) in *.
  set (co := with_begin (token_loc z) (loc_end (token_loc z) - 1)).
  assert (P : spans (loc_join (token_loc b) (expression v)) (tk b ++ nds l ++ tk z ++ nd v)) by (clean; span).
  split; [|exact P]. pose proof (spans_inside _ _ S P) as J.
  assert (J' : inside (loc_begin (loc_join (token_loc b) (expression v))) ((tk b ++ nds l ++ [q]) ++ [co; expression v])
                 (loc_end (loc_join (token_loc b) (expression v)))).
  { replace ((tk b ++ nds l ++ [q]) ++ [co; expression v]) with ((tk b ++ nds l) ++ [q; co] ++ [expression v])
      by (rewrite <- !app_assoc; reflexivity).
    eapply inside_refine; [|rewrite <- app_assoc; exact J]. cbn. lia. }
  destruct Hk as [Nk Pk].
  { apply inside_app in J' as (m & J1 & _). cbn. eexists _, _. exact J1. }
  { intros m Hm. apply HN. apply in_or_app. now left. }
  cbn [tk token_loc] in Pk. change [token_loc b] with (tk b) in Pk.
  eapply (nested_at _ [expression k; co; expression v]); [| left; reflexivity | apply sub_refl | exact I |].
  - apply inside_app in J' as (m & J1 & J2). apply (inside_app [expression k] _ [co; expression v]). exists m. split; [|exact J2].
    destruct Pk as (a & y & Ha & Hy & ->). pose proof (inside_ends _ _ _ _ _ J1 Ha Hy) as W. cbn [inside loc_begin loc_end loc_join expression] in *. lia.
  - cbn. intros c [<-|[<-|[]]]; [exact Nk|]. apply HN. apply in_or_app. right. now left.
Qed.
Lemma range_good l t r n : n = range_inclusive l t r \/ n = range_exclusive l t r ->
  good (olist l ++ olist r) (ndo l ++ tk t ++ ndo r) (ndo l ++ tk t ++ ndo r) n.
Proof.
  intros [-> | ->] S HN; unfold range_inclusive, range_exclusive in *;
    (assert (P : spans (maybe_join (maybe_join (token_loc t) (maybe_node_expr l)) (maybe_node_expr r)) (ndo l ++ tk t ++ ndo r));
     [destruct l as [l|], r as [r|]; clean; try span;
      rewrite (loc_join_comm (token_loc t)); destruct S as (b & e & S); exists (expression l), (expression r);
      repeat split; cbn in S; unfold loc_join; cbn; f_equal; lia
     |split; [|exact P]; eapply nested_intro; [exact S | exact P | left; reflexivity | exact I | kids]]).
Qed.
Lemma const_global_good t v e s n s' : const_global t v e s = Ok n s' -> good [] (tk t ++ tk v) (tk t ++ tk v) n.
Proof.
  intros H S HN. unfold const_global in H. inv. clean. split; [|span].
  eapply nested_intro; [exact S | clean; span | clean | exact I|].
  - right. unfold same_loc. rewrite !Nat.eqb_refl. now left.
  - cbn. intros c [<-|[]]. leaf. destruct S as (b & e' & S). cbn in *. lia.
Qed.
