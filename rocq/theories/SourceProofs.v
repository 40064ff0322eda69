(** * Lemmas about the line table, locations and rendering (C01-C05) *)
Require Import Verif.Base Verif.MaybeByteM Verif.InputM Verif.DiagnosticM Verif.SourceSpec.
Require Import ZifyBool ZifyNat ZifyN.

(** A recursive description of a correct line table for the bytes from offset [s] on *)
Fixpoint table_from (b : list N) (s : nat) (ls : list SourceLine) : Prop :=
  match ls with
  | [] => False
  | l :: rest =>
      l_start l = s /\ s <= l_end l /\ l_end l <= List.length b /\
      match rest with
      | [] => l_end l = List.length b /\ l_ends_with_eof l = true /\ no_newline_in b s (l_end l)
      | _ :: _ => s < l_end l /\ l_ends_with_eof l = false /\ at_ b (l_end l - 1) = Some newline
                  /\ no_newline_in b s (l_end l - 1) /\ table_from b (l_end l) rest
      end
  end.

Lemma skipn_cons_nth : forall (A : Type) (l : list A) n x r,
  skipn n l = x :: r -> nth_error l n = Some x /\ skipn (n + 1) l = r /\ n < List.length l.
Proof.
  induction l as [|a l IH]; intros n x r H.
  - rewrite skipn_nil in H. discriminate.
  - destruct n; simpl in *.
    + inversion H; subst. repeat split; simpl; auto. lia.
    + apply IH in H. destruct H as (H1 & H2 & H3). repeat split; auto. lia.
Qed.

Lemma update_loop_table : forall b rest idx line lines line' lines',
  skipn idx b = rest ->
  idx <= List.length b ->
  l_start line <= idx -> l_ends_with_eof line = true ->
  no_newline_in b (l_start line) idx ->
  update_loop rest idx line lines = (line', lines') ->
  exists new, lines' = lines ++ new /\ l_ends_with_eof line' = true /\
    table_from b (l_start line) (new ++ [mkLine (l_start line') (List.length b) true]).
Proof.
  induction rest as [|c rest IH]; intros idx line lines line' lines' Hsk Hidx Hs He Hnn Hu; simpl in Hu.
  - inversion Hu; subst. exists []. rewrite app_nil_r. simpl. repeat split; auto.
    + apply (f_equal (@List.length N)) in Hsk. rewrite skipn_length in Hsk. simpl in Hsk. lia.
    + apply (f_equal (@List.length N)) in Hsk. rewrite skipn_length in Hsk. simpl in Hsk.
      replace (List.length b) with idx by lia. exact Hnn.
  - destruct (skipn_cons_nth _ _ _ _ _ Hsk) as (Hn & Hsk' & Hlt).
    destruct (N.eqb c 10) eqn:Ec.
    + apply N.eqb_eq in Ec. subst c.
      simpl in Hu.
      specialize (IH (idx + 1) (mkLine (idx + 1) 0 true) (lines ++ [mkLine (l_start line) (idx + 1) false]) line' lines' Hsk').
      destruct IH as (new & Hl & He' & Ht); auto; simpl; try lia.
      { intros p Hp. lia. }
      exists (mkLine (l_start line) (idx + 1) false :: new). split; [|split]; auto.
      * rewrite Hl, <- app_assoc. reflexivity.
      * simpl in Ht. simpl. repeat split; auto; try lia.
        destruct (new ++ [mkLine (l_start line') (List.length b) true]) eqn:En.
        { destruct new; discriminate. }
        rewrite <- En. rewrite <- En in Ht.
        replace (idx + 1 - 1) with idx by lia. repeat split; auto. lia.
    + apply N.eqb_neq in Ec.
      specialize (IH (idx + 1) (mkLine (l_start line) (idx + 1) (l_ends_with_eof line)) lines line' lines' Hsk').
      simpl in IH. apply IH; auto; try lia.
      intros p Hp. destruct (Nat.eq_dec p idx).
      * subst. unfold at_. rewrite Hn. unfold newline. congruence.
      * apply Hnn. lia.
Qed.

Lemma update_bytes_table : forall b d,
  d_bytes (update_bytes b d) = b /\ d_name (update_bytes b d) = d_name d /\
  table_from b 0 (d_lines (update_bytes b d)).
Proof.
  intros b d. unfold update_bytes.
  destruct (update_loop b 0 (mkLine 0 0 true) []) as [line lines] eqn:E.
  destruct (update_loop_table b b 0 (mkLine 0 0 true) [] line lines) as (new & H1 & H2 & H3); simpl; auto; try lia.
  { intros p Hp; lia. }
  simpl in H1; subst. auto.
Qed.

Lemma table_from_cons : forall b s l rest,
  table_from b s (l :: rest) ->
  l_start l = s /\ s <= l_end l /\ l_end l <= List.length b.
Proof. simpl. tauto. Qed.

(** Index view of a table *)
Lemma table_nth : forall b ls s i l,
  table_from b s ls -> nth_error ls i = Some l ->
  s <= l_start l /\ l_start l <= l_end l /\ l_end l <= List.length b /\
  (i + 1 < List.length ls ->
     l_start l < l_end l /\ l_ends_with_eof l = false /\ at_ b (l_end l - 1) = Some newline /\
     no_newline_in b (l_start l) (l_end l - 1) /\
     exists l', nth_error ls (i + 1) = Some l' /\ l_start l' = l_end l) /\
  (i + 1 = List.length ls ->
     l_ends_with_eof l = true /\ l_end l = List.length b /\ no_newline_in b (l_start l) (l_end l)).
Proof.
  induction ls as [|x ls IH]; intros s i l Ht Hn.
  - destruct i; discriminate.
  - destruct i; simpl in Hn.
    + inversion Hn; subst. simpl in Ht. destruct Ht as (E & H1 & H2 & H3). subst.
      destruct ls as [|y ls].
      * simpl. repeat split; try lia; tauto.
      * simpl. split; [lia|]. split; [lia|]. split; [lia|]. split; [|lia]. intros _.
        destruct H3 as (A & B & C & D & F). repeat split; auto.
        exists y. split; auto. apply table_from_cons in F. tauto.
    + simpl in Ht. destruct ls as [|y ls]; [destruct i; discriminate|].
      destruct Ht as (E & H1 & H2 & A & B & C & D & F).
      specialize (IH _ _ _ F Hn). destruct IH as (I1 & I2 & I3 & I4 & I5).
      split; [lia|]. split; [lia|]. split; [lia|]. split.
      * intros Hlt. apply I4. simpl in *. lia.
      * intros Hlt. apply I5. simpl in *. lia.
Qed.

Lemma table_first : forall b s ls, table_from b s ls ->
  exists l, nth_error ls 0 = Some l /\ l_start l = s.
Proof. intros b s [|l ls] H; simpl in H; [tauto|]. exists l. simpl. split; [reflexivity|tauto]. Qed.

(** ** C02 *)

Lemma newlines_app : forall a b, newlines (a ++ b) = newlines a + newlines b.
Proof. induction a; intros; simpl; auto. rewrite IHa. lia. Qed.

Lemma no_newline_newlines : forall l, (forall p, at_ l p <> Some newline) -> newlines l = 0.
Proof.
  induction l as [|c l IH]; intros H; simpl; auto.
  destruct (N.eqb c newline) eqn:E.
  - apply N.eqb_eq in E; subst. exfalso. apply (H 0). reflexivity.
  - apply IH. intros p Hp. apply (H (S p)). exact Hp.
Qed.

Lemma upto_newline_all : forall l, (forall p, at_ l p <> Some newline) -> upto_newline l = l.
Proof.
  induction l as [|c l IH]; intros H; simpl; auto.
  destruct (N.eqb c newline) eqn:E.
  - apply N.eqb_eq in E; subst. exfalso. apply (H 0). reflexivity.
  - rewrite IH; auto. intros p Hp. apply (H (S p)). exact Hp.
Qed.

Lemma upto_newline_app : forall l r, (forall p, at_ l p <> Some newline) ->
  upto_newline (l ++ r) = l ++ upto_newline r.
Proof.
  induction l as [|c l IH]; intros r H; simpl; auto.
  destruct (N.eqb c newline) eqn:E.
  - apply N.eqb_eq in E; subst. exfalso. apply (H 0). reflexivity.
  - rewrite IH; auto. intros p Hp. apply (H (S p)). exact Hp.
Qed.

Lemma nth_error_rev_In : forall (l : list N) p x, nth_error (rev l) p = Some x -> In x l.
Proof. intros. apply nth_error_In in H. apply in_rev. exact H. Qed.

Lemma nth_error_firstn : forall (A : Type) (l : list A) n p,
  nth_error (firstn n l) p = if p <? n then nth_error l p else None.
Proof.
  induction l as [|a l IH]; intros n p.
  - rewrite firstn_nil. destruct p; destruct (_ <? _); reflexivity.
  - destruct n; simpl.
    + destruct p; reflexivity.
    + destruct p; simpl; auto. rewrite IH. reflexivity.
Qed.

Lemma nth_error_skipn : forall (A : Type) (l : list A) n p,
  nth_error (skipn n l) p = nth_error l (n + p).
Proof.
  induction l as [|a l IH]; intros n p.
  - rewrite skipn_nil. destruct p; destruct (n + _); reflexivity.
  - destruct n; simpl; auto.
Qed.

Lemma skipn_skipn : forall (A : Type) (x y : nat) (l : list A), skipn x (skipn y l) = skipn (x + y) l.
Proof.
  induction y; intros l.
  - rewrite Nat.add_0_r. reflexivity.
  - rewrite Nat.add_succ_r. destruct l; simpl; [apply skipn_nil|apply IHy].
Qed.

Lemma slice_nth : forall (b : list N) lo hi p,
  nth_error (firstn (hi - lo) (skipn lo b)) p =
  if p <? hi - lo then nth_error b (lo + p) else None.
Proof. intros. rewrite nth_error_firstn, nth_error_skipn. reflexivity. Qed.

Lemma no_newline_slice : forall b lo hi, no_newline_in b lo hi ->
  forall p, at_ (firstn (hi - lo) (skipn lo b)) p <> Some newline.
Proof.
  intros b lo hi H p. unfold at_. rewrite slice_nth.
  destruct (p <? hi - lo) eqn:E; [|discriminate]. apply H. lia.
Qed.

Lemma firstn_split : forall (A : Type) (b : list A) s p, s <= p ->
  firstn p b = firstn s b ++ firstn (p - s) (skipn s b).
Proof.
  intros A b s p H. rewrite <- (firstn_skipn s (firstn p b)).
  rewrite firstn_firstn, skipn_firstn_comm.
  replace (Nat.min s p) with s by lia. reflexivity.
Qed.

(** The prefix of length [p], when the current line starts at [s] *)
Lemma prefix_in_line : forall b s p,
  s <= p -> p <= List.length b -> no_newline_in b s p ->
  (s = 0 \/ at_ b (s - 1) = Some newline) ->
  newlines (firstn p b) = newlines (firstn s b) /\
  line_before b p = firstn (p - s) (skipn s b).
Proof.
  intros b s p Hsp Hp Hnn Hs.
  rewrite (firstn_split _ b s p Hsp) at 1. split.
  - rewrite newlines_app. rewrite (no_newline_newlines (firstn (p - s) _)); [lia|].
    apply no_newline_slice; auto.
  - unfold line_before. rewrite (firstn_split _ b s p Hsp).
    rewrite rev_app_distr. rewrite upto_newline_app.
    + replace (upto_newline (rev (firstn s b))) with (@nil N).
      * rewrite app_nil_r. apply rev_involutive.
      * destruct Hs as [Hs|Hs].
        { subst. reflexivity. }
        destruct s as [|s]; [reflexivity|].
        replace (S s - 1) with s in Hs by lia. unfold at_ in Hs.
        rewrite (firstn_split _ b s (S s)) by lia.
        replace (S s - s) with 1 by lia.
        assert (Hsk : skipn s b = newline :: skipn (S s) b).
        { clear -Hs. revert s Hs. induction b; intros s Hs; destruct s; simpl in *; try discriminate.
          - inversion Hs; reflexivity.
          - apply IHb; auto. }
        rewrite Hsk. simpl. rewrite rev_app_distr. reflexivity.
    + intros q Hq. unfold at_ in Hq. apply nth_error_rev_In in Hq.
      apply In_nth_error in Hq. destruct Hq as (q' & Hq').
      exact (no_newline_slice b s p Hnn q' Hq').
Qed.

Lemma newlines_line_end : forall b s e,
  s < e -> e <= List.length b -> no_newline_in b s (e - 1) -> at_ b (e - 1) = Some newline ->
  newlines (firstn e b) = newlines (firstn s b) + 1.
Proof.
  intros b s e H1 H2 H3 H4.
  rewrite (firstn_split _ b (e - 1) e) by lia. rewrite newlines_app.
  rewrite (firstn_split _ b s (e - 1)) by lia. rewrite newlines_app.
  rewrite (no_newline_newlines (firstn (e - 1 - s) _)) by (apply no_newline_slice; auto).
  replace (e - (e - 1)) with 1 by lia.
  unfold at_ in H4. rewrite <- (Nat.add_0_r (e - 1)) in H4 at 1. rewrite <- nth_error_skipn in H4.
  destruct (skipn (e - 1) b); simpl in H4; [discriminate|]. inversion H4; subst. simpl.
  unfold newline. simpl. lia.
Qed.

Lemma line_col_loop_spec : forall b ls s lineno p,
  table_from b s ls -> s <= p -> p < List.length b ->
  (s = 0 \/ at_ b (s - 1) = Some newline) ->
  lineno = newlines (firstn s b) ->
  exists k l, nth_error ls k = Some l /\
    line_col_loop ls lineno (p - s) = Some (lineno + k, p - l_start l) /\
    lineno + k = newlines (firstn p b) /\
    l_start l <= p < l_end l /\ p - l_start l = List.length (line_before b p).
Proof.
  induction ls as [|l ls IH]; intros s lineno p Ht Hsp Hp Hs Hl; [destruct Ht|].
  pose proof (table_from_cons _ _ _ _ Ht) as (E1 & E2 & E3).
  simpl. unfold line_len. rewrite E1.
  destruct (p - s <? l_end l - s) eqn:Ec.
  - exists 0, l. simpl. rewrite E1, Nat.add_0_r.
    assert (Hnn : no_newline_in b s p).
    { simpl in Ht. destruct Ht as (_ & _ & _ & Ht). destruct ls.
      - destruct Ht as (_ & _ & Ht). intros q Hq; apply Ht; lia.
      - destruct Ht as (_ & _ & _ & Ht & _). intros q Hq; apply Ht; lia. }
    destruct (prefix_in_line b s p) as (P1 & P2); auto; try lia.
    repeat split; auto; try lia.
    rewrite P2. rewrite firstn_length, skipn_length. lia.
  - simpl in Ht. destruct Ht as (_ & _ & _ & Ht). destruct ls as [|l2 ls].
    + exfalso. destruct Ht as (Ht & _). lia.
    + destruct Ht as (A & B & C & D & F).
      destruct (IH (l_end l) (lineno + 1) p F) as (k & l' & H1 & H2 & H3 & H4 & H5); auto; try lia.
      { subst. symmetry. apply newlines_line_end; auto. }
      exists (S k), l'. simpl. split; auto. split; [|split]; auto; try lia.
      replace (p - s - (l_end l - s)) with (p - l_end l) by lia.
      etransitivity; [exact H2|]. f_equal. f_equal. lia.
Qed.

Lemma line_col_loop_end : forall b ls s lineno p,
  table_from b s ls -> s <= p -> List.length b <= p -> line_col_loop ls lineno (p - s) = None.
Proof.
  induction ls as [|l ls IH]; intros s lineno p Ht Hsp Hp; [destruct Ht|].
  pose proof (table_from_cons _ _ _ _ Ht) as (E1 & E2 & E3).
  simpl. unfold line_len. rewrite E1.
  destruct (p - s <? l_end l - s) eqn:Ec; [exfalso; lia|].
  simpl in Ht. destruct Ht as (_ & _ & _ & Ht). destruct ls as [|l2 ls]; [reflexivity|].
  destruct Ht as (A & B & C & D & F).
  replace (p - s - (l_end l - s)) with (p - l_end l) by lia. apply IH; auto. lia.
Qed.

Lemma table_last : forall b ls s,
  table_from b s ls -> (s = 0 \/ at_ b (s - 1) = Some newline) ->
  exists l pre, ls = pre ++ [l] /\ l_end l = List.length b /\ s <= l_start l /\
    no_newline_in b (l_start l) (List.length b) /\
    (l_start l = 0 \/ at_ b (l_start l - 1) = Some newline) /\
    newlines b = newlines (firstn s b) + List.length pre.
Proof.
  induction ls as [|l ls IH]; intros s Ht Hs; [destruct Ht|].
  pose proof (table_from_cons _ _ _ _ Ht) as (E1 & E2 & E3).
  simpl in Ht. destruct Ht as (_ & _ & _ & Ht). destruct ls as [|l2 ls].
  - destruct Ht as (A & B & C). exists l, []. simpl.
    rewrite <- A. rewrite E1. repeat split; auto.
    rewrite Nat.add_0_r. destruct (prefix_in_line b s (l_end l)) as (P1 & _); auto.
    rewrite A in P1. rewrite firstn_all in P1. exact P1.
  - destruct Ht as (A & B & C & D & F).
    destruct (IH _ F) as (l' & pre & H1 & H2 & H3 & H4 & H5 & H6); auto.
    exists l', (l :: pre). rewrite H1. repeat split; auto; try lia.
    rewrite H6, (newlines_line_end b s (l_end l)); auto. simpl. lia.
Qed.

Lemma line_before_all : forall b p, List.length b <= p -> line_before b p = line_before b (List.length b).
Proof. intros. unfold line_before. rewrite firstn_all2, firstn_all; auto. Qed.

Lemma line_col_exact : forall b d p,
  line_col_for_pos (update_bytes b d) p =
  if p <=? List.length b
  then Some (newlines (firstn p b), List.length (line_before b p))
  else None.
Proof.
  intros b d p. unfold line_col_for_pos.
  destruct (update_bytes_table b d) as (Hb & _ & Ht). rewrite Hb.
  destruct (p =? List.length b) eqn:E.
  - apply Nat.eqb_eq in E. subst p. rewrite Nat.leb_refl.
    destruct (table_last _ _ _ Ht) as (l & pre & H1 & H2 & H3 & H4 & H5 & H6); auto.
    rewrite H1, rev_app_distr. simpl. rewrite app_length. simpl.
    rewrite firstn_all, H6. simpl. f_equal. f_equal; [lia|].
    unfold line_len. rewrite H2.
    destruct (prefix_in_line b (l_start l) (List.length b)) as (_ & P2); auto.
    { destruct (table_nth b _ 0 (List.length pre) l Ht) as (_ & Q & _); [|lia].
      rewrite H1. rewrite nth_error_app2 by lia. rewrite Nat.sub_diag. reflexivity. }
    rewrite P2, firstn_length, skipn_length. lia.
  - apply Nat.eqb_neq in E. destruct (p <=? List.length b) eqn:E2.
    + destruct (line_col_loop_spec b _ 0 0 p Ht) as (k & l & H1 & H2 & H3 & H4 & H5); auto; try lia.
      rewrite Nat.sub_0_r in H2. rewrite H2. f_equal. f_equal; auto; lia.
    + rewrite <- (Nat.sub_0_r p). apply line_col_loop_end with (b := b); auto; lia.
Qed.

(** Offsets are determined by line and column *)
Lemma newlines_pos_inj : forall b p q,
  p <= q -> q <= List.length b ->
  newlines (firstn p b) = newlines (firstn q b) ->
  List.length (line_before b p) = List.length (line_before b q) -> p = q.
Proof.
  intros b p q Hpq Hq Hn Hl.
  (* no newline in [p, q) *)
  assert (Hmid : newlines (firstn (q - p) (skipn p b)) = 0).
  { rewrite (firstn_split _ b p q Hpq) in Hn. rewrite newlines_app in Hn. lia. }
  assert (Hnn : forall l, newlines l = 0 -> forall r, at_ l r <> Some newline).
  { clear. induction l as [|c l IH]; intros H r; unfold at_ in *; destruct r; simpl in *; try discriminate.
    - intros E; inversion E; subst. rewrite N.eqb_refl in H. discriminate.
    - destruct (N.eqb c newline); [discriminate|]. apply IH; auto. }
  unfold line_before in Hl. rewrite (firstn_split _ b p q Hpq) in Hl.
  rewrite rev_app_distr in Hl. rewrite upto_newline_app in Hl.
  - rewrite !rev_length, app_length, rev_length, firstn_length, skipn_length in Hl. lia.
  - intros r Hr. unfold at_ in Hr. apply nth_error_rev_In in Hr. apply In_nth_error in Hr.
    destruct Hr as (r' & Hr'). exact (Hnn _ Hmid r' Hr').
Qed.

(** ** C03 *)

Lemma line_col_line : forall b d p n c,
  line_col_for_pos (update_bytes b d) p = Some (n, c) ->
  exists l, line_at (update_bytes b d) n = Some l /\ l_start l <= p /\
    (p < l_end l \/ p = List.length b /\ n + 1 = List.length (d_lines (update_bytes b d)) /\ l_end l = p) /\
    c = p - l_start l.
Proof.
  intros b d p n c H. destruct (update_bytes_table b d) as (Hb & _ & Ht).
  unfold line_col_for_pos in H. rewrite Hb in H.
  destruct (p =? List.length b) eqn:E.
  - apply Nat.eqb_eq in E.
    destruct (table_last _ _ _ Ht) as (l & pre & H1 & H2 & H3 & H4 & H5 & H6); auto.
    rewrite H1, rev_app_distr in H. simpl in H. inversion H; subst n c. clear H.
    assert (Hn : nth_error (d_lines (update_bytes b d)) (List.length (pre ++ [l]) - 1) = Some l).
    { rewrite H1, app_length. simpl. rewrite nth_error_app2 by lia.
      replace (List.length pre + 1 - 1 - List.length pre) with 0 by lia. reflexivity. }
    exists l. unfold line_at. rewrite Hn.
    destruct (table_nth b _ 0 _ l Ht Hn) as (_ & Q & _).
    repeat split; auto; try lia.
    + right. rewrite H1, app_length. simpl. lia.
    + unfold line_len. lia.
  - apply Nat.eqb_neq in E. destruct (le_lt_dec (List.length b) p) as [G|G].
    + rewrite <- (Nat.sub_0_r p) in H. rewrite (line_col_loop_end b _ 0 0 p Ht) in H; auto; [discriminate|lia].
    + destruct (line_col_loop_spec b _ 0 0 p Ht) as (k & l & H1 & H2 & H3 & H4 & H5); auto; try lia.
      rewrite Nat.sub_0_r in H2. rewrite H2 in H. inversion H; subst n c.
      exists l. unfold line_at. simpl. repeat split; auto; lia.
Qed.

Lemma table_start_ok : forall b ls s i l,
  table_from b s ls -> nth_error ls i = Some l -> (s = 0 \/ at_ b (s - 1) = Some newline) ->
  l_start l = 0 \/ at_ b (l_start l - 1) = Some newline.
Proof.
  induction ls as [|x ls IH]; intros s i l Ht Hn Hs; [destruct Ht|].
  destruct i; simpl in Hn.
  - inversion Hn; subst. apply table_from_cons in Ht. destruct Ht as (E & _). rewrite E. auto.
  - simpl in Ht. destruct ls as [|y ls]; [destruct i; discriminate|].
    destruct Ht as (_ & _ & _ & A & B & C & D & F). eapply IH; eauto.
Qed.

Lemma upto_newline_at : forall b p e,
  p <= e -> e <= List.length b -> no_newline_in b p e ->
  (e = List.length b \/ at_ b e = Some newline) ->
  line_after b p = firstn (e - p) (skipn p b).
Proof.
  intros b p e H1 H2 Hnn He. unfold line_after.
  rewrite <- (firstn_skipn (e - p) (skipn p b)) at 1.
  rewrite upto_newline_app by (apply no_newline_slice; auto).
  replace (upto_newline (skipn (e - p) (skipn p b))) with (@nil N); [apply app_nil_r|].
  rewrite skipn_skipn. replace (e - p + p) with e by lia.
  destruct He as [He|He].
  - rewrite skipn_all2 by lia. reflexivity.
  - unfold at_ in He. rewrite <- (Nat.add_0_r e) in He. rewrite <- nth_error_skipn in He.
    destruct (skipn e b); simpl in He; [discriminate|]. inversion He; subst. reflexivity.
Qed.

Lemma expand_to_line_exact : forall b d0 e l,
  let d := update_bytes b d0 in
  loc_begin l <= List.length b ->
  exists lo hi,
    expand_to_line l e d = Ok (Some (newlines (firstn (loc_begin l) b), mkLoc lo hi)) d /\
    lo <= loc_begin l <= hi /\ hi <= List.length b /\
    (lo = 0 \/ at_ b (lo - 1) = Some newline) /\
    (hi = List.length b \/ at_ b hi = Some newline) /\
    no_newline_in b lo hi.
Proof.
  intros b d0 e l d Hle. unfold expand_to_line, get, bind, begin_line_col.
  pose proof (line_col_exact b d0 (loc_begin l)) as Hlc. fold d in Hlc.
  replace (loc_begin l <=? List.length b) with true in Hlc by lia.
  rewrite Hlc.
  destruct (line_col_line b d0 _ _ _ Hlc) as (ln & Hat & H1 & H2 & H3). fold d in Hat.
  rewrite Hat. simpl.
  destruct (update_bytes_table b d0) as (Hb & _ & Ht). fold d in Ht.
  unfold line_at in Hat. fold d in H2.
  set (n := newlines (firstn (loc_begin l) b)) in *.
  destruct (table_nth b _ 0 _ _ Ht Hat) as (_ & Q1 & Q2 & Q3 & Q4).
  pose proof (table_start_ok b _ 0 _ _ Ht Hat (or_introl eq_refl)) as Qs.
  assert (Hn : n < List.length (d_lines d)) by (apply nth_error_Some; rewrite Hat; discriminate).
  exists (l_start ln), (line_end ln). unfold ret. split; [reflexivity|].
  unfold line_end. destruct (Nat.eq_dec (n + 1) (List.length (d_lines d))) as [Hlast|Hlast].
  - destruct Q4 as (R1 & R2 & R3); auto. rewrite R1. simpl. repeat split; auto; lia.
  - destruct Q3 as (R1 & R2 & R3 & R4 & _); [lia|]. rewrite R2. simpl. repeat split; auto; try lia.
Qed.

Lemma expand_to_line_none : forall b d0 e l,
  List.length b < loc_begin l -> expand_to_line l e (update_bytes b d0) = Ok None (update_bytes b d0).
Proof.
  intros b d0 e l H. unfold expand_to_line, get, bind, begin_line_col.
  rewrite line_col_exact. replace (loc_begin l <=? List.length b) with false by lia. reflexivity.
Qed.

(** ** C04 *)
Lemma substr_at_exact : forall d start stop,
  (exists s, substr_at d start stop = Some s) <-> start <= stop <= List.length (d_bytes d).
Proof.
  intros d start stop. unfold substr_at.
  destruct ((start <=? stop) && (stop <=? List.length (d_bytes d))) eqn:E.
  - split; intros; [lia|eauto].
  - split; [intros (s & H); discriminate|lia].
Qed.

Lemma substr_at_bytes : forall d start stop s,
  substr_at d start stop = Some s ->
  List.length s = stop - start /\ forall p, p < stop - start -> nth_error s p = nth_error (d_bytes d) (start + p).
Proof.
  intros d start stop s H. unfold substr_at in H.
  destruct ((start <=? stop) && (stop <=? List.length (d_bytes d))) eqn:E; [|discriminate].
  inversion H; subst. split.
  - rewrite firstn_length, skipn_length. lia.
  - intros p Hp. rewrite slice_nth. replace (p <? stop - start) with true by lia. reflexivity.
Qed.

Lemma substr_at_join : forall d a b c x y,
  substr_at d a b = Some x -> substr_at d b c = Some y -> substr_at d a c = Some (x ++ y).
Proof.
  intros d a b c x y H1 H2. unfold substr_at in *.
  destruct ((a <=? b) && (b <=? List.length (d_bytes d))) eqn:E1; [|discriminate].
  destruct ((b <=? c) && (c <=? List.length (d_bytes d))) eqn:E2; [|discriminate].
  replace ((a <=? c) && (c <=? List.length (d_bytes d))) with true by lia.
  inversion H1; inversion H2; subst. f_equal.
  rewrite (firstn_split _ (skipn a (d_bytes d)) (b - a) (c - a)) by lia.
  rewrite skipn_skipn. replace (b - a + a) with b by lia. replace (c - a - (b - a)) with (c - b) by lia.
  reflexivity.
Qed.

(** ** C05 *)

Lemma dec_value_app : forall l acc acc', dec_value (l ++ acc') acc = dec_value acc' (dec_value l acc).
Proof. induction l; intros; simpl; auto. Qed.

Fixpoint pow10 (n : nat) : N := match n with O => 1%N | S n => (10 * pow10 n)%N end.

Lemma dec_value_acc : forall l a, dec_value l a = (a * pow10 (List.length l) + dec_value l 0)%N.
Proof.
  induction l as [|c l IH]; intros a.
  - simpl. lia.
  - cbn [dec_value List.length pow10]. rewrite IH. rewrite (IH (10 * 0 + (c - 48))%N). lia.
Qed.

Lemma dec_digits_ok : forall fuel n acc,
  (n < 2 ^ N.of_nat fuel)%N -> fuel <> 0 ->
  exists l, dec_digits fuel n acc = l ++ acc /\ l <> [] /\ Forall (fun c => (48 <= c <= 57)%N) l /\
    dec_value l 0 = n /\ (hd 0%N l = 48%N -> l = [48%N]).
Proof.
  induction fuel as [|fuel IH]; intros n acc Hn Hf; [congruence|].
  cbn [dec_digits].
  pose proof (N.mod_upper_bound n 10 ltac:(lia)) as Hm.
  pose proof (N.div_mod n 10 ltac:(lia)) as Hdm.
  remember (n mod 10)%N as r. remember (n / 10)%N as q.
  destruct (n <? 10)%N eqn:E.
  - exists [(48 + r)%N]. split; [reflexivity|]. split; [discriminate|]. split; [constructor; [lia|constructor]|].
    cbn [dec_value hd]. split; [lia|]. intros H. f_equal. exact H.
  - assert (Hfuel : fuel <> 0). { intros ->. change (2 ^ N.of_nat 1)%N with 2%N in Hn. lia. }
    assert (Hq : (q < 2 ^ N.of_nat fuel)%N).
    { rewrite Nat2N.inj_succ, N.pow_succ_r' in Hn. lia. }
    destruct (IH q ((48 + r)%N :: acc) Hq Hfuel) as (l & H1 & H2 & H3 & H4 & H5).
    exists (l ++ [(48 + r)%N]). split; [rewrite H1, <- app_assoc; reflexivity|].
    split; [destruct l; discriminate|]. split.
    { apply Forall_app. split; auto. constructor; [lia|constructor]. }
    rewrite dec_value_app, H4. cbn [dec_value]. split; [lia|].
    intros Hhd. exfalso. destruct l as [|c l]; [congruence|]. cbn [hd app] in Hhd, H5.
    specialize (H5 Hhd). inversion H5; subst. cbn in H4. lia.
Qed.

Lemma show_nat_decimal : forall n, decimal (show_nat n) n.
Proof.
  intros n. unfold show_nat, show_N, decimal.
  set (k := N.of_nat n).
  destruct (dec_digits_ok (S (N.to_nat (N.log2 k))) k []) as (l & H1 & H2 & H3 & H4 & H5).
  - rewrite Nat2N.inj_succ, N2Nat.id.
    destruct (N.eq_dec k 0) as [->|Hk]; [reflexivity|]. apply N.log2_spec. lia.
  - discriminate.
  - rewrite H1, app_nil_r. repeat split; auto.
Qed.

Lemma slice_join : forall (b : list N) lo p hi, lo <= p -> p <= hi ->
  firstn (hi - lo) (skipn lo b) = firstn (p - lo) (skipn lo b) ++ firstn (hi - p) (skipn p b).
Proof.
  intros b lo p hi H1 H2. rewrite (firstn_split _ (skipn lo b) (p - lo) (hi - lo)) by lia.
  rewrite skipn_skipn. replace (p - lo + lo) with p by lia. replace (hi - lo - (p - lo)) with (hi - p) by lia.
  reflexivity.
Qed.

Lemma render_exact : forall b d0 e level msg l,
  let d := update_bytes b d0 in
  loc_begin l <= loc_end l -> loc_begin l <= List.length b ->
  exists lno col,
    decimal lno (newlines (firstn (loc_begin l) b) + 1) /\
    decimal col (List.length (line_before b (loc_begin l))) /\
    render level msg l e d =
    Ok (Some (d_name d0 ++ bs ":" ++ lno ++ bs ":" ++ col ++ bs ": "
              ++ (match level with Warning => bs "warning" | Error => bs "error" end) ++ bs ": " ++ msg ++ [newline]
              ++ d_name d0 ++ bs ":" ++ lno ++ bs ": " ++ (line_before b (loc_begin l) ++ line_after b (loc_begin l))
              ++ [newline]
              ++ d_name d0 ++ bs ":" ++ lno ++ bs ": "
              ++ repeat 32%N (List.length (line_before b (loc_begin l))) ++ bs "^"
              ++ repeat 126%N (loc_end l - loc_begin l - 1))) d.
Proof.
  intros b d0 e level msg l d Hbe Hle.
  destruct (expand_to_line_exact b d0 e l Hle) as (lo & hi & H1 & H2 & H3 & H4 & H5 & H6). fold d in H1.
  destruct (update_bytes_table b d0) as (Hb & Hname & Ht). fold d in Hb, Hname, Ht.
  exists (show_nat (newlines (firstn (loc_begin l) b) + 1)), (show_nat (List.length (line_before b (loc_begin l)))).
  split; [apply show_nat_decimal|]. split; [apply show_nat_decimal|].
  unfold render. unfold bind at 1. rewrite H1. unfold bind at 1, get at 1.
  unfold loc_source, substr_at. cbn [loc_begin loc_end]. rewrite Hb.
  replace ((lo <=? hi) && (hi <=? List.length b)) with true by lia.
  unfold begin_line_col. unfold d at 1. rewrite line_col_exact. fold d.
  replace (loc_begin l <=? List.length b) with true by lia.
  unfold loc_size. replace (loc_begin l <=? loc_end l) with true by lia.
  unfold expect, bind, ret, str_repeat.
  destruct (prefix_in_line b lo (loc_begin l)) as (_ & P); auto; try lia.
  { intros q Hq; apply H6; lia. }
  assert (PL : line_before b (loc_begin l) ++ line_after b (loc_begin l) = firstn (hi - lo) (skipn lo b)).
  { rewrite P, (upto_newline_at b (loc_begin l) hi); auto; try lia.
    - symmetry. apply slice_join; lia.
    - intros q Hq; apply H6; lia. }
  rewrite PL.
  rewrite Hname. unfold level_str, newline.
  replace (if 0 <? loc_end l - loc_begin l then repeat 126%N (loc_end l - loc_begin l - 1) else [])
    with (repeat 126%N (loc_end l - loc_begin l - 1)).
  - repeat rewrite <- app_assoc. reflexivity.
  - destruct (0 <? loc_end l - loc_begin l) eqn:E; auto.
    replace (loc_end l - loc_begin l - 1) with 0 by lia. reflexivity.
Qed.

Lemma render_none : forall b d0 e level msg l,
  List.length b < loc_begin l -> render level msg l e (update_bytes b d0) = Ok None (update_bytes b d0).
Proof.
  intros. unfold render, bind. rewrite expand_to_line_none; auto.
Qed.
