(** * Lemmas for C21, C27-C29 *)
Require Import Verif.Base Verif.StackStateM Verif.ScopesM Verif.TokensM Verif.ReservedM Verif.ScopeSpec.
Require Import ZifyBool ZifyNat ZifyN.

(** ** C27 *)
Fixpoint bits (st : list bool) : N :=
  match st with
  | [] => 0%N
  | b :: r => ((if b then 1 else 0) + 2 * bits r)%N
  end.

Lemma bits_bound : forall st, (bits st < 2 ^ N.of_nat (List.length st))%N.
Proof.
  induction st as [|b st IH]; [reflexivity|].
  cbn [bits List.length]. rewrite Nat2N.inj_succ, N.pow_succ_r'. destruct b; lia.
Qed.

Lemma bits_firstn : forall n st, bits (firstn n st) = (bits st mod 2 ^ N.of_nat n)%N.
Proof.
  induction n as [|n IH]; intros st.
  - simpl firstn. rewrite N.mod_1_r. reflexivity.
  - destruct st as [|b st].
    + simpl firstn. cbn [bits]. rewrite N.mod_0_l; auto. apply N.pow_nonzero. lia.
    + cbn [firstn bits]. rewrite IH, Nat2N.inj_succ, N.pow_succ_r'.
      set (p := (2 ^ N.of_nat n)%N). assert (p <> 0)%N by (apply N.pow_nonzero; lia).
      rewrite (N.mod_mul_r _ 2 p) by lia.
      replace (((if b then 1 else 0) + 2 * bits st) mod 2)%N with (if b then 1 else 0)%N.
      2:{ rewrite N.add_comm, N.mul_comm, N.add_comm, N.mod_add by lia. destruct b; reflexivity. }
      replace (((if b then 1 else 0) + 2 * bits st) / 2)%N with (bits st).
      2:{ rewrite (N.mul_comm 2), N.div_add by lia. destruct b; [change (1 / 2)%N with 0%N|change (0 / 2)%N with 0%N]; lia. }
      destruct b; lia.
Qed.

Lemma ss_push_bits : forall b st, ss_push b (bits st) = bits (firstn 64 (b :: st)).
Proof.
  intros b st. rewrite bits_firstn. unfold ss_push, usize_bits.
  rewrite N.land_ones. change (N.of_nat 64) with 64%N. cbn [bits].
  rewrite N.shiftl_mul_pow2. change (2 ^ 1)%N with 2%N.
  set (p := (2 ^ 64)%N).
  assert (Hev : ((bits st * 2) mod p = 2 * (bits st mod 2 ^ 63))%N).
  { unfold p. change 64%N with (N.succ 63). rewrite N.pow_succ_r'.
    rewrite (N.mul_comm (bits st) 2). rewrite N.mul_mod_distr_l; try lia. }
  rewrite Hev.
  assert (Hlor : forall x, N.lor (2 * x) 1 = (2 * x + 1)%N) by (destruct x; reflexivity).
  destruct b.
  - rewrite Hlor. unfold p. change 64%N with (N.succ 63). rewrite N.pow_succ_r'.
    rewrite (N.mod_mul_r (1 + 2 * bits st) 2) by lia.
    replace ((1 + 2 * bits st) mod 2)%N with 1%N.
    2:{ rewrite (N.mul_comm 2), N.mod_add by lia. reflexivity. }
    replace ((1 + 2 * bits st) / 2)%N with (bits st).
    2:{ rewrite (N.mul_comm 2), N.div_add by lia. change (1 / 2)%N with 0%N. lia. }
    lia.
  - rewrite N.lor_0_r. unfold p. change 64%N with (N.succ 63). rewrite N.pow_succ_r'.
    rewrite N.add_0_l. rewrite N.mul_mod_distr_l; try lia.
Qed.

Lemma ss_pop_bits : forall st, ss_pop (bits st) = bits (tl st).
Proof.
  intros [|b st]; [reflexivity|]. unfold ss_pop. rewrite N.shiftr_div_pow2. change (2 ^ 1)%N with 2%N.
  cbn [bits tl]. rewrite (N.mul_comm 2), N.div_add by lia.
  destruct b; [change (1 / 2)%N with 0%N|change (0 / 2)%N with 0%N]; lia.
Qed.

Lemma ss_active_bits : forall st, ss_is_active (bits st) = hd false st.
Proof.
  intros [|b st]; [reflexivity|]. unfold ss_is_active. cbn [bits hd].
  change 1%N with (N.ones 1) at 2. rewrite N.land_ones. change (2 ^ 1)%N with 2%N.
  rewrite (N.mul_comm 2), N.mod_add by lia. destruct b; reflexivity.
Qed.

Definition ss_step (op : StackOp) (s : StackState) : StackState :=
  match op with SPush b => ss_push b s | SPop => ss_pop s end.
Definition ss_run (ops : list StackOp) (s : StackState) : StackState :=
  fold_left (fun s op => ss_step op s) ops s.

Lemma ss_run_bits : forall ops st, List.length st <= 64 ->
  ss_run ops (bits st) = bits (bounded_run 64 ops st).
Proof.
  induction ops as [|op ops IH]; intros st Hl; [reflexivity|].
  cbn [ss_run bounded_run fold_left]. destruct op; cbn [ss_step stack_step].
  - rewrite ss_push_bits. apply IH. rewrite firstn_length. lia.
  - rewrite ss_pop_bits. rewrite (firstn_all2 (tl st)).
    + apply IH. destruct st; simpl in *; lia.
    + destruct st; simpl in *; lia.
Qed.

Lemma bounded_run_depth : forall n ops st, depth_ok n ops st -> bounded_run n ops st = stack_run ops st.
Proof.
  induction ops as [|op ops IH]; intros st Hd; [reflexivity|].
  cbn [bounded_run stack_run fold_left]. destruct Hd as (H1 & H2).
  rewrite firstn_all2.
  - apply IH; auto.
  - destruct ops; destruct H2 as (H2 & _); exact H2.
Qed.

(** ** C28 *)

Lemma bytes_eqb_eq : forall a b, bytes_eqb a b = true <-> a = b.
Proof.
  induction a as [|x a IH]; destruct b as [|y b]; simpl; try (split; congruence).
  rewrite andb_true_iff, N.eqb_eq, IH. split; [intros (-> & ->); reflexivity|intros H; inversion H; auto].
Qed.

Lemma set_contains_In : forall x s, set_contains x s = true <-> In x s.
Proof.
  intros x s. unfold set_contains. rewrite existsb_exists. split.
  - intros (y & H1 & H2). apply bytes_eqb_eq in H2. subst. exact H1.
  - intros H. exists x. split; auto. apply bytes_eqb_eq. reflexivity.
Qed.

Lemma set_insert_In : forall x y s, In x (set_insert y s) <-> x = y \/ In x s.
Proof.
  intros x y s. unfold set_insert. destruct (set_contains y s) eqn:E.
  - apply set_contains_In in E. split; auto. intros [->|H]; auto.
  - simpl. split; intros [H|H]; auto.
Qed.

Definition se_step (op : ScopeOp) (e : StaticEnv) : option StaticEnv :=
  match op with
  | Declare x => Some (declare x e)
  | ExtendStatic => Some (extend_static e)
  | ExtendDynamic => Some (extend_dynamic e)
  | Unextend => unextend e
  end.
Fixpoint se_run (ops : list ScopeOp) (e : StaticEnv) : option StaticEnv :=
  match ops with
  | [] => Some e
  | op :: ops => match se_step op e with Some e => se_run ops e | None => None end
  end.

(** The model's environment represents a non-empty list of scopes *)
Fixpoint represents (vars : strset) (stack : list strset) (l : list Scope) {struct l} : Prop :=
  match l with
  | [] => False
  | s :: r =>
      (forall x, In x vars <-> visible x l) /\
      match r with
      | [] => stack = []
      | _ :: _ => match stack with v :: st => represents v st r | [] => False end
      end
  end.

Lemma represents_step : forall op e l,
  represents (se_variables e) (se_stack e) l ->
  match se_step op e, scope_step op l with
  | Some e', Some l' => represents (se_variables e') (se_stack e') l'
  | None, None => True
  | _, _ => False
  end.
Proof.
  intros op [vars stack] l H. simpl in H. destruct l as [|s r]; [simpl in H; contradiction|].
  destruct op; simpl.
  - simpl in H. destruct H as (H1 & H2). split; auto.
    intros y. rewrite set_insert_In, H1. split.
    + intros [->|[H|H]]; auto.
    + intros [[->|H]|H]; auto.
  - split; auto. intros x. split; [tauto|]. intros [[]|(H' & _)]; discriminate.
  - split; auto. intros x. split.
    + intros Hx. right. split; auto. simpl in H. apply H. exact Hx.
    + intros [[]|(_ & Hv)]. simpl in H. apply H. exact Hv.
  - simpl in H. destruct H as (H1 & H2). destruct r as [|s' r].
    + rewrite H2. exact I.
    + destruct stack; [destruct H2|]. exact H2.
Qed.

Lemma represents_run : forall ops e l,
  represents (se_variables e) (se_stack e) l ->
  match se_run ops e, scope_run ops l with
  | Some e', Some l' => represents (se_variables e') (se_stack e') l'
  | None, None => True
  | _, _ => False
  end.
Proof.
  induction ops as [|op ops IH]; intros e l H; simpl; auto.
  pose proof (represents_step op e l H) as Hs.
  destruct (se_step op e), (scope_step op l); auto; try contradiction.
  apply IH. exact Hs.
Qed.

Lemma represents_init : represents (se_variables se_new) (se_stack se_new) outermost.
Proof. simpl. split; auto. intros x. split; [tauto|]. intros [[]|(H & _)]; discriminate. Qed.

Lemma represents_visible : forall x e l,
  represents (se_variables e) (se_stack e) l -> (is_declared x e = true <-> visible x l).
Proof.
  intros x [vars stack] [|s r] H; [simpl in H; contradiction|]. unfold is_declared. rewrite set_contains_In.
  simpl in H. simpl se_variables. apply H.
Qed.

Lemma se_run_app : forall a b e,
  se_run (a ++ b) e = match se_run a e with Some e' => se_run b e' | None => None end.
Proof. induction a as [|op a IH]; intros; simpl; auto. destruct (se_step op e); auto. Qed.

Lemma balanced_keeps_stack : forall h, balanced h -> forall e,
  exists e', se_run h e = Some e' /\ se_stack e' = se_stack e.
Proof.
  induction 1 as [|x h Hb IH|op h h' Hop Hb IH Hb' IH']; intros e.
  - exists e. auto.
  - simpl. destruct (IH (declare x e)) as (e' & H1 & H2). exists e'. auto.
  - simpl. assert (Hs : exists e1, se_step op e = Some e1 /\ se_stack e1 = se_variables e :: se_stack e).
    { destruct Hop; subst; simpl; eauto. }
    destruct Hs as (e1 & Hs1 & Hs2). rewrite Hs1, se_run_app.
    destruct (IH e1) as (e2 & H1 & H2). rewrite H1. simpl. unfold unextend.
    rewrite H2, Hs2. apply (IH' (mkSE (se_variables e) (se_stack e))).
Qed.

Lemma unextend_restores : forall op h e,
  op = ExtendStatic \/ op = ExtendDynamic -> balanced h ->
  se_run (op :: h ++ [Unextend]) e = Some e.
Proof.
  intros op h [vars st] Hop Hb. simpl.
  assert (Hs : exists e1, se_step op (mkSE vars st) = Some e1 /\ se_stack e1 = vars :: st).
  { destruct Hop; subst; simpl; eauto. }
  destruct Hs as (e1 & Hs1 & Hs2). rewrite Hs1, se_run_app.
  destruct (balanced_keeps_stack h Hb e1) as (e2 & H1 & H2). rewrite H1. simpl. unfold unextend.
  rewrite H2, Hs2. reflexivity.
Qed.

(** ** C29 *)
Section Histories.
  Context {P C E : Type} (push : P -> list E -> list E) (pop : list E -> list E)
          (chg : C -> list E -> option (list E)).
  (** Running a history with the operations of a stack *)
  Definition h_step (op : HOp P C) (s : list E) : option (list E) :=
    match op with
    | HPush p => Some (push p s)
    | HPop => Some (pop s)
    | HChange c => chg c s
    end.
  Fixpoint h_run (ops : list (HOp P C)) (s : list E) : option (list E) :=
    match ops with
    | [] => Some s
    | op :: ops => match h_step op s with Some s => h_run ops s | None => None end
    end.

  (** A change replaces the innermost entry only; entering adds one entry, leaving removes it *)
  Hypothesis chg_top : forall c x s, exists y, chg c (x :: s) = Some (y :: s).
  Hypothesis push_top : forall p s, exists y, push p s = y :: s.
  Hypothesis pop_top : forall x s, pop (x :: s) = s.

  Lemma h_run_app : forall a b s,
    h_run (a ++ b) s = match h_run a s with Some s' => h_run b s' | None => None end.
  Proof using. induction a as [|op a IH]; intros; simpl; auto. destruct (h_step op s); auto. Qed.

  Lemma h_balanced_top : forall h, hbalanced h -> forall x s, exists y, h_run h (x :: s) = Some (y :: s).
  Proof using chg_top push_top pop_top.
    induction 1 as [|c h Hb IH|p h h' Hb IH Hb' IH']; intros x s.
    - exists x; reflexivity.
    - simpl. destruct (chg_top c x s) as (y & Hy). rewrite Hy. apply IH.
    - simpl. rewrite h_run_app. destruct (push_top p (x :: s)) as (z & Hz). rewrite Hz.
      destruct (IH z (x :: s)) as (y & Hy). rewrite Hy. simpl. rewrite pop_top. apply IH'.
  Qed.

  Lemma h_restores : forall p h, hbalanced h -> forall s, h_run (HPush p :: h ++ [HPop]) s = Some s.
  Proof using chg_top push_top pop_top.
    intros p h Hb s. simpl. rewrite h_run_app. destruct (push_top p s) as (z & Hz). rewrite Hz.
    destruct (h_balanced_top h Hb z s) as (y & Hy). rewrite Hy. simpl. rewrite pop_top. reflexivity.
  Qed.
End Histories.

(** The changes each stack offers to its innermost entry *)
Inductive NpChange := NpSet (v : Z) | NpRegister (v : Z) | NpOrdinary.
Definition np_change (c : NpChange) (s : MaxNumparamStack) : option MaxNumparamStack :=
  match c with
  | NpSet v => np_set v s
  | NpRegister v => np_register v s
  | NpOrdinary => np_set_has_ordinary_params s
  end.
Lemma np_change_top : forall c x s, exists y, np_change c (x :: s) = Some (y :: s).
Proof. intros [v|v|] x s; simpl; unfold np_register, np_set_has_ordinary_params, np_set; eauto. Qed.
Definition ca_change (v : option (list N)) (s : CurrentArgStack) : option CurrentArgStack := Some (ca_set v s).
Lemma ca_change_top : forall c x s, exists y, ca_change c (x :: s) = Some (y :: s).
Proof. intros v x s. unfold ca_change, ca_set, ca_push, ca_pop. simpl. eauto. Qed.
Lemma vs_change_top : forall c x s, exists y, vs_declare c (x :: s) = Some (y :: s).
Proof. intros c x s. simpl. eauto. Qed.

Lemma np_register_max : forall v s s', np_register v s = Some s' ->
  np_top s' = Z.max (np_top s) v /\ tl s' = tl s.
Proof. intros v [|i s] s' H; unfold np_register, np_set in H; inversion H; subst. simpl. auto. Qed.

Lemma vs_declare_spec : forall x y s s', vs_declare y s = Some s' ->
  (vs_is_declared x s' = Some true <-> x = y \/ vs_is_declared x s = Some true).
Proof.
  intros x y [|t s] s' H; simpl in H; inversion H; subst. simpl.
  assert (Hb : forall b, Some b = Some true <-> b = true) by (intros b; split; congruence).
  rewrite !Hb, !set_contains_In, set_insert_In. reflexivity.
Qed.

Definition flag_pos (f : CtxFlag) : N :=
  match f with
  | IN_DEFINED => 0 | IN_KWARG => 1 | IN_ARGDEF => 2 | IN_DEF => 3
  | IN_CLASS => 4 | IN_LAMBDA => 5 | IN_BLOCK => 6
  end%N.
Lemma flag_bit_pow : forall f, flag_bit f = (2 ^ flag_pos f)%N.
Proof. destruct f; reflexivity. Qed.

Lemma land_pow2 : forall c n, negb (N.eqb (N.land c (2 ^ n)) 0) = N.testbit c n.
Proof.
  intros c n. destruct (N.testbit c n) eqn:E.
  - destruct (N.eqb_spec (N.land c (2 ^ n)) 0) as [H|H]; auto.
    assert (Hb : N.testbit (N.land c (2 ^ n)) n = true) by (rewrite N.land_spec, E, N.pow2_bits_true; reflexivity).
    rewrite H, N.bits_0 in Hb. discriminate.
  - replace (N.land c (2 ^ n)) with 0%N; [reflexivity|].
    apply N.bits_inj_0 || idtac. symmetry. apply N.bits_inj. intros m. rewrite N.bits_0, N.land_spec.
    destruct (N.eq_dec m n) as [->|Hm]; [rewrite E; reflexivity|].
    rewrite N.pow2_bits_false by auto. apply andb_false_r.
Qed.

Lemma flag_pos_inj : forall f g, flag_pos f = flag_pos g -> f = g.
Proof. destruct f, g; simpl; intros H; congruence || discriminate. Qed.
Lemma flag_pos_lt : forall f, (flag_pos f < 64)%N.
Proof. destruct f; reflexivity. Qed.

Lemma ctx_get_set : forall f g v c,
  ctx_get f (ctx_set g v c) = if N.eqb (flag_pos f) (flag_pos g) then v else ctx_get f c.
Proof.
  intros f g v c. unfold ctx_get, ctx_set. rewrite !flag_bit_pow, !land_pow2.
  destruct v.
  - rewrite N.lor_spec. destruct (N.eqb_spec (flag_pos f) (flag_pos g)) as [->|H].
    + rewrite N.pow2_bits_true. apply orb_true_r.
    + rewrite N.pow2_bits_false by auto. apply orb_false_r.
  - rewrite N.land_spec, N.lxor_spec, N.ones_spec_low by apply flag_pos_lt.
    destruct (N.eqb_spec (flag_pos f) (flag_pos g)) as [->|H].
    + rewrite N.pow2_bits_true. apply andb_false_r.
    + rewrite N.pow2_bits_false by auto. apply andb_true_r.
Qed.

(** ** C21 *)

Lemma bytes_cmp_eq : forall a b, bytes_cmp a b = Eq <-> a = b.
Proof.
  induction a as [|x a IH]; destruct b as [|y b]; simpl; try (split; congruence).
  destruct (N.compare_spec x y) as [H|H|H].
  - subst. rewrite IH. split; [intros ->; reflexivity|intros H; inversion H; auto].
  - split; [discriminate|]. intros E; inversion E; lia.
  - split; [discriminate|]. intros E; inversion E; lia.
Qed.

Lemma bytes_cmp_trans : forall a b c, bytes_cmp a b = Lt -> bytes_cmp b c = Lt -> bytes_cmp a c = Lt.
Proof.
  induction a as [|x a IH]; intros [|y b] [|z c]; simpl; try discriminate; auto.
  destruct (N.compare_spec x y), (N.compare_spec y z), (N.compare_spec x z); subst; intros; try lia; try discriminate; auto.
  eapply IH; eauto.
Qed.

Lemma bytes_cmp_gt : forall a b, bytes_cmp a b = Gt <-> bytes_cmp b a = Lt.
Proof.
  induction a as [|x a IH]; intros [|y b]; simpl; try (split; congruence).
  rewrite (N.compare_antisym x y). destruct (x ?= y)%N; simpl; auto; split; congruence.
Qed.

Definition sorted_bucket (l : list ReservedWord) : Prop :=
  forall i j x y, i < j -> nth_error l i = Some x -> nth_error l j = Some y ->
    bytes_cmp (rw_name x) (rw_name y) = Lt.

Fixpoint sortedb (l : list ReservedWord) : bool :=
  match l with
  | [] => true
  | x :: r => forallb (fun y => match bytes_cmp (rw_name x) (rw_name y) with Lt => true | _ => false end) r && sortedb r
  end.
Lemma sortedb_ok : forall l, sortedb l = true -> sorted_bucket l.
Proof.
  induction l as [|a l IH]; intros H i j x y Hij Hi Hj.
  - destruct i; discriminate.
  - simpl in H. apply andb_true_iff in H. destruct H as (H1 & H2).
    destruct j; [lia|]. destruct i; simpl in Hi, Hj.
    + inversion Hi; subst. rewrite forallb_forall in H1. apply nth_error_In in Hj.
      specialize (H1 _ Hj). destruct (bytes_cmp (rw_name x) (rw_name y)); auto; discriminate.
    + apply (IH H2 i j); auto. lia.
Qed.

Lemma bsearch_ok : forall fuel l tok left right,
  sorted_bucket l -> right <= List.length l -> right - left < fuel ->
  (forall i x, i < left -> nth_error l i = Some x -> bytes_cmp (rw_name x) tok = Lt) ->
  (forall i x, right <= i -> nth_error l i = Some x -> bytes_cmp (rw_name x) tok = Gt) ->
  match bsearch_loop fuel l tok left right with
  | Some i => exists w, nth_error l i = Some w /\ rw_name w = tok
  | None => forall w, In w l -> rw_name w <> tok
  end.
Proof.
  induction fuel as [|fuel IH]; intros l tok left right Hs Hr Hf HL HR; [lia|].
  cbn [bsearch_loop]. destruct (left <? right) eqn:E.
  - set (mid := left + (right - left) / 2).
    assert (Hmid : left <= mid < right).
    { unfold mid. pose proof (Nat.div_lt (right - left) 2 ltac:(lia) ltac:(lia)). lia. }
    destruct (nth_error l mid) as [e|] eqn:En.
    2:{ apply nth_error_None in En. lia. }
    destruct (bytes_cmp (rw_name e) tok) eqn:Ec.
    + exists e. split; auto. apply bytes_cmp_eq. exact Ec.
    + apply IH; auto; try lia. intros i x Hi Hx.
      destruct (Nat.eq_dec i mid) as [->|Hne]; [congruence|].
      eapply bytes_cmp_trans; [|exact Ec]. apply (Hs i mid); auto. lia.
    + apply IH; auto; try lia. intros i x Hi Hx.
      destruct (Nat.eq_dec i mid) as [->|Hne]; [congruence|].
      apply bytes_cmp_gt in Ec. apply bytes_cmp_gt. eapply bytes_cmp_trans; [exact Ec|].
      apply (Hs mid i); auto. lia.
  - intros w Hw Heq. apply In_nth_error in Hw. destruct Hw as (i & Hi).
    destruct (le_lt_dec left i).
    + assert (H := HR i w ltac:(lia) Hi). subst. rewrite (proj2 (bytes_cmp_eq _ _) eq_refl) in H. discriminate.
    + assert (H := HL i w ltac:(lia) Hi). subst. rewrite (proj2 (bytes_cmp_eq _ _) eq_refl) in H. discriminate.
Qed.

Lemma binary_search_ok : forall l tok, sorted_bucket l ->
  match binary_search l tok with
  | Some i => exists w, nth_error l i = Some w /\ rw_name w = tok
  | None => forall w, In w l -> rw_name w <> tok
  end.
Proof.
  intros l tok Hs. unfold binary_search. apply bsearch_ok; auto; try lia.
  intros i x Hi Hx. assert (i < List.length l) by (apply nth_error_Some; congruence). lia.
Qed.

Lemma buckets_sorted : forall b, In b RESERVED_WORDS -> sorted_bucket b.
Proof.
  intros b Hb. apply sortedb_ok.
  assert (H : forallb sortedb RESERVED_WORDS = true) by (vm_compute; reflexivity).
  rewrite forallb_forall in H. auto.
Qed.

Lemma sort_insert_In : forall w l x, In x (sort_insert w l) <-> x = w \/ In x l.
Proof.
  intros w. induction l as [|v l IH]; intros x; simpl.
  - split; intros [H|H]; auto.
  - destruct (bytes_cmp (rw_name w) (rw_name v)); simpl; rewrite ?IH; intuition auto.
Qed.
Lemma sort_words_In : forall l x, In x (sort_words l) <-> In x l.
Proof.
  unfold sort_words. induction l as [|v l IH]; intros x; simpl; [tauto|].
  rewrite sort_insert_In, IH. intuition auto.
Qed.

Lemma max_len_bound : forall w, In w RESERVED_TABLE -> List.length (rw_name w) <= max_len.
Proof.
  unfold max_len. induction RESERVED_TABLE as [|v l IH]; intros w Hw; simpl in *; [tauto|].
  destruct Hw as [->|Hw]; [lia|]. specialize (IH _ Hw). lia.
Qed.

Local Opaque RESERVED_TABLE max_len.
Lemma reserved_word_ok : forall tok,
  match reserved_word tok with
  | Some w => In w RESERVED_TABLE /\ rw_name w = tok
  | None => forall w, In w RESERVED_TABLE -> rw_name w <> tok
  end.
Proof.
  intros tok. unfold reserved_word.
  destruct (nth_error RESERVED_WORDS (List.length tok)) as [b|] eqn:Eb.
  - pose proof (binary_search_ok b tok (buckets_sorted b (nth_error_In _ _ Eb))) as H.
    unfold RESERVED_WORDS in Eb. rewrite nth_error_map in Eb.
    destruct (nth_error (seq 0 (max_len + 1)) (List.length tok)) as [k|] eqn:Ek; [|discriminate].
    cbn [option_map] in Eb. injection Eb as Eb'.
    assert (Hk : k = List.length tok).
    { apply nth_error_nth with (d := 0) in Ek as Ek'. rewrite seq_nth in Ek'; [cbn in Ek'; congruence|].
      assert (Q : nth_error (seq 0 (max_len + 1)) (List.length tok) <> None) by congruence.
      apply nth_error_Some in Q. rewrite seq_length in Q. exact Q. }
    assert (Hin : forall w, In w b <-> In w RESERVED_TABLE /\ List.length (rw_name w) = List.length tok).
    { intros w. subst b k. rewrite sort_words_In, filter_In, Nat.eqb_eq. reflexivity. }
    destruct (binary_search b tok) as [i|].
    + destruct H as (w & H1 & H2). rewrite H1. split; auto. apply (Hin w). eapply nth_error_In; eauto.
    + intros w Hw He. apply (H w); auto. apply Hin. subst; auto.
  - intros w Hw He. apply nth_error_None in Eb. unfold RESERVED_WORDS in Eb.
    rewrite map_length, seq_length in Eb. apply max_len_bound in Hw. subst. lia.
Qed.

Local Transparent RESERVED_TABLE max_len.
Lemma reserved_names : map rw_name (sort_words RESERVED_TABLE) =
  map rw_name (sort_words (map (fun s => mkRW (bs s) END_OF_INPUT END_OF_INPUT 0%N) ruby_keywords)).
Proof. vm_compute. reflexivity. Qed.

Local Opaque RESERVED_TABLE max_len sort_words ruby_keywords.
Lemma reserved_word_is_keyword : forall tok,
  (exists w, reserved_word tok = Some w) <-> In tok (map bs ruby_keywords).
Proof.
  intros tok. pose proof (reserved_word_ok tok) as H.
  assert (Hn : In tok (map rw_name RESERVED_TABLE) <-> In tok (map bs ruby_keywords)).
  { transitivity (In tok (map rw_name (sort_words RESERVED_TABLE))).
    { rewrite !in_map_iff. split; intros (w & H1 & H2); exists w; split; auto; apply sort_words_In; auto. }
    rewrite reserved_names. rewrite !in_map_iff. split.
    - intros (w & H1 & H2). apply (proj1 (sort_words_In _ _)) in H2. apply in_map_iff in H2. destruct H2 as (s & H3 & H4).
      subst. simpl. eauto.
    - intros (s & H1 & H2). eexists. split; [|apply sort_words_In; apply in_map_iff; exists s; split; [reflexivity|exact H2]].
      exact H1. }
  rewrite <- Hn, in_map_iff. destruct (reserved_word tok) as [w|].
  - split; [intros _; exists w; tauto|intros _; eauto].
  - split; [intros (w & Hw); discriminate|]. intros (w & H1 & H2). exfalso. eapply H; eauto.
Qed.

Lemma reserved_table_unique : forall v w, In v RESERVED_TABLE -> In w RESERVED_TABLE ->
  rw_name v = rw_name w -> v = w.
Proof.
  intros v w Hv Hw He. apply (proj2 (sort_words_In _ _)) in Hv, Hw.
  assert (Hs : sorted_bucket (sort_words RESERVED_TABLE)) by (apply sortedb_ok; vm_compute; reflexivity).
  apply In_nth_error in Hv, Hw. destruct Hv as (i & Hi), Hw as (j & Hj).
  destruct (lt_eq_lt_dec i j) as [[H|H]|H].
  - pose proof (Hs i j _ _ H Hi Hj) as Q. rewrite He, (proj2 (bytes_cmp_eq _ _) eq_refl) in Q. discriminate.
  - subst. congruence.
  - pose proof (Hs j i _ _ H Hj Hi) as Q. rewrite He, (proj2 (bytes_cmp_eq _ _) eq_refl) in Q. discriminate.
Qed.
