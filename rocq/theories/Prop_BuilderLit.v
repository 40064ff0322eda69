(** * The builder: literals (C24, C31, C33, C34) *)
Require Import Verif.Base Verif.MaybeByteM Verif.Utf8M Verif.InputM Verif.ScopesM Verif.TokensM
  Verif.DiagnosticM Verif.LexerM Verif.NodeM Verif.BuilderM Verif.BuilderNodesM Verif.BuilderSpec
  Verif.BuilderFacts.
Require Import ZifyBool ZifyNat ZifyN.

(** ** C24 *)

Definition dedented_from (col : nat) (s : list N) (w : nat) (r : list N) : Prop :=
  exists p, s = p ++ r /\ Forall blank p /\ column p col <= w /\
    (forall p' r', s = p' ++ r' -> Forall blank p' -> column p' col <= w -> List.length p' <= List.length p).

Lemma tab_stop col : col < (col / 8 + 1) * 8.
Proof. pose proof (Nat.div_mod col 8 ltac:(lia)). pose proof (Nat.mod_upper_bound col 8 ltac:(lia)). lia. Qed.
Lemma column_ge p col : col <= column p col.
Proof.
  revert col; induction p as [|c p IH]; intros col; cbn [column]; [lia|].
  pose proof (tab_stop col).
  destruct (N.eqb c 9); [specialize (IH ((col / 8 + 1) * 8)) | specialize (IH (S col))]; lia.
Qed.
Lemma column_gt c p col : col < column (c :: p) col.
Proof.
  cbn [column]. pose proof (tab_stop col).
  destruct (N.eqb c 9); [pose proof (column_ge p ((col / 8 + 1) * 8)) | pose proof (column_ge p (S col))]; lia.
Qed.
Lemma dedented_stop col s w : col <= w ->
  (forall c p, s = c :: p -> blank c -> w < column [c] col) -> dedented_from col s w s.
Proof.
  intros L H. exists []. repeat split; [constructor | exact L |].
  intros [|c p'] r' E F C; [cbn; lia|]. exfalso. cbn in E.
  assert (B : blank c) by now inversion F.
  specialize (H c (p' ++ r') E B). cbn [column] in *.
  pose proof (column_ge p' (if N.eqb c 9 then (col / 8 + 1) * 8 else S col)). lia.
Qed.
Lemma dedented_step col c s w r : blank c -> column [c] col <= w ->
  dedented_from (column [c] col) s w r -> dedented_from col (c :: s) w r.
Proof.
  intros B L (p & -> & F & C & M). exists (c :: p). split; [reflexivity|]. split; [now constructor|].
  split; [exact C|]. intros [|d p'] r' E F' C'; [cbn; lia|]. cbn in E. injection E as <- E.
  cbn [List.length]. apply le_n_S. apply (M p' r' E); [now inversion F' | exact C'].
Qed.

(** Widths and lines for which the code is right *)
Definition no_tab_in_indent (s : list N) : Prop := forall p r, s = p ++ 9%N :: r -> ~ Forall blank p.

Lemma dedent_loop_ok w s : forall col, col <= w -> (8 <= w < 16 \/ no_tab_in_indent s) ->
  dedented_from col s w (dedent_loop s w col).
Proof.
  induction s as [|c s IH]; intros col L H; cbn [dedent_loop].
  - apply dedented_stop; [exact L | discriminate].
  - destruct (Nat.ltb_spec col w) as [L1|L1].
    2: { apply dedented_stop; [exact L|]. intros d p E B. assert (col = w) by lia. subst. 
         pose proof (column_gt d [] w). lia. }
    destruct (N.eqb_spec c 32) as [->|Hc].
    { apply dedented_step; [now left | cbn; lia |]. replace (column [32%N] col) with (col + 1) by (cbn; lia).
      apply IH; [lia|]. destruct H as [H|H]; [now left | right].
      intros p r E F. apply (H (32%N :: p) r); [now rewrite E | constructor; [now left | exact F]]. }
    destruct (N.eqb_spec c 9) as [->|Hc'].
    + destruct H as [H|H]; [|exfalso; apply (H [] s); [reflexivity | constructor]].
      unfold TAB_WIDTH. pose proof (tab_stop col).
      assert (E : column [9%N] col = 8 * (col / 8 + 1)) by (cbn [column]; rewrite N.eqb_refl; lia).
      destruct (Nat.ltb_spec 8 (8 * (col / 8 + 1))) as [G|G].
      * apply dedented_stop; [exact L|]. intros d p Ed B. injection Ed as <- <-. rewrite E.
        assert (col / 8 <> 0) by lia. nia.
      * apply dedented_step; [now right | rewrite E; lia |]. rewrite E. apply IH; [lia | now left].
    + apply dedented_stop; [exact L|]. intros d p E B. injection E as -> _. exfalso. destruct B; auto.
Qed.

(** The code is right for every line when the width is 8 to 15, and for every width when no tab is among the
    leading blanks.  For all lines and widths it removes only blanks. *)
Theorem C24_dedent_partial : forall s w,
  (8 <= w < 16 \/ no_tab_in_indent s -> dedented s w (dedent_string s w)) /\
  (exists p, s = p ++ dedent_string s w /\ Forall blank p).
Proof.
  intros s w. split.
  - intros H. exact (dedent_loop_ok w s 0 ltac:(lia) H).
  - unfold dedent_string. generalize 0. induction s as [|c s IH]; intros col; cbn [dedent_loop].
    + exists []. auto.
    + destruct (col <? w); [|exists []; auto].
      destruct (N.eqb_spec c 32) as [->|Hc].
      { destruct (IH (col + 1)) as (p & E & F). exists (32%N :: p). split; [now rewrite E at 1|].
        constructor; [now left|exact F]. }
      destruct (N.eqb_spec c 9) as [->|Hc']; [|exists []; auto].
      destruct (TAB_WIDTH <? TAB_WIDTH * (col / TAB_WIDTH + 1)); [exists []; auto|].
      destruct (IH (TAB_WIDTH * (col / TAB_WIDTH + 1))) as (p & E & F).
      exists (9%N :: p). split; [now rewrite E at 1|]. constructor; [now right|exact F].
Qed.

(** In general the claim is false: the code compares the next tab stop with the tab width instead of the width
    to remove (builder.rs 545).  A tab is removed from a line dedented by 4, and only one of two tabs from a
    line dedented by 16. *)
Theorem C24_dedent_refuted : exists s w, ~ dedented s w (dedent_string s w).
Proof.
  exists [9; 120]%N, 4. intros (p & E & F & C & _). vm_compute in E.
  destruct p as [|a [|b p]]; [discriminate | | destruct p; discriminate].
  injection E as <-. vm_compute in C. lia.
Qed.
Theorem C24_dedent_short_refuted : exists s w r, dedented s w r /\
  List.length r < List.length (dedent_string s w).
Proof.
  exists [9; 9; 120]%N, 16, [120%N]. split; [|vm_compute; lia].
  exists [9; 9]%N. repeat split.
  - repeat (constructor; [now right|]). constructor.
  - vm_compute. lia.
  - intros p' r' E F _. cbn. destruct p' as [|a [|b [|c p']]]; cbn; try lia.
    cbn in E. injection E as <- <- <- _. inversion F as [|? ? _ F1]; inversion F1 as [|? ? _ F2];
      inversion F2 as [|? ? [B|B] _]; discriminate.
Qed.
Example C24_example : dedented [32; 32; 9; 32; 120]%N 9 [120]%N /\ dedented [32; 32; 32; 120]%N 2 [32; 120]%N.
Proof.
  split.
  - apply (proj1 (C24_dedent_partial [32; 32; 9; 32; 120]%N 9)). left. lia.
  - apply (proj1 (C24_dedent_partial [32; 32; 32; 120]%N 2)). right.
    intros p r E _. do 5 (destruct p as [|? p]; [discriminate E|]; cbn in E; try discriminate E; injection E as _ E).
Qed.
Print Assumptions C24_dedent_partial.

(** ** C31 *)

Lemma all2_forall2 (f : Node -> Node -> bool) (R : Node -> Node -> Prop) l1 : forall l2,
  (forall x y, In x l1 -> In y l2 -> (f x y = true <-> R x y)) -> (all2 f l1 l2 = true <-> Forall2 R l1 l2).
Proof.
  induction l1 as [|x l1 IH]; intros [|y l2] H; cbn; split; intros G; try discriminate; try inversion G; auto.
  - apply andb_true_iff in G as [G1 G2]. constructor.
    + apply H; cbn; auto.
    + apply (IH l2); [intros; apply H; cbn; auto | exact G2].
  - subst. apply andb_true_iff. split; [apply H; cbn; auto|].
    apply (IH l2); [intros; apply H; cbn; auto | assumption].
Qed.

Lemma keys_are_equal_ok k1 : plain_key k1 -> forall k2, plain_key k2 ->
  (keys_are_equal k1 k2 = true <-> same_literal k1 k2).
Proof.
  induction k1 as [k1 IH] using node_ind'. intros P1 k2 P2.
  destruct k1; try (split; [discriminate | intros H; inversion H]; fail);
    destruct k2; try (split; [discriminate | intros H; inversion H]; fail);
    cbn [keys_are_equal]; try (rewrite bytes_eqb_eq; split; [intros ->; constructor | intros H; now inversion H]; fail).
  inversion P1 as [? N|? ? ? ? F1]; subst; [exfalso; now eapply N|].
  inversion P2 as [? N|? ? ? ? F2]; subst; [exfalso; now eapply N|].
  cbn [options_eqb andb]. rewrite all2_forall2 with (R := same_literal).
  - split; [intros H; now constructor | intros H; now inversion H].
  - intros x y Hx Hy. rewrite Forall_forall in F1, F2. apply IH; auto. cbn. apply in_or_app. now left.
Qed.

(** Duplicates among a list of elements: an earlier and a later pair with equal literal keys *)
Definition duplicate_at (pairs : list Node) (l : Loc) : Prop :=
  exists h k1 v1 o1 e1 m k2 v2 o2 e2 t,
    pairs = h ++ NPair k1 v1 o1 e1 :: m ++ NPair k2 v2 o2 e2 :: t /\ same_literal k1 k2 /\ l = expression k2.
Definition dup_key_diag (l : Loc) : Diagnostic := mkDiag Warning DuplicateHashKey l.
Definition plain_pairs (pairs : list Node) : Prop :=
  forall k v o e, In (NPair k v o e) pairs -> plain_key k.

Lemma pair_key_some n k : pair_key n = Some k -> exists v o e, n = NPair k v o e.
Proof. destruct n; try discriminate. intros [= ->]. eauto. Qed.

Lemma warn_duplicates_ok p rest : plain_pairs (p :: rest) -> forall e b,
  exists ls, warn_duplicates p rest e b = Ok tt (add_diags (List.map dup_key_diag ls) b) /\
    (forall l, In l ls <-> exists k1 v1 o1 e1 k2 v2 o2 e2, p = NPair k1 v1 o1 e1 /\ In (NPair k2 v2 o2 e2) rest /\
       same_literal k1 k2 /\ l = expression k2).
Proof.
  intros P e. induction rest as [|q rest IH]; intros b.
  - exists []. cbn. rewrite add_diags_nil. split; [reflexivity|]. split; [intros [] | intros H].
    now destruct H as (? & ? & ? & ? & ? & ? & ? & ? & _ & [] & _).
  - assert (P' : plain_pairs (p :: rest)) by (intros k v o x [H|H]; apply (P k v o x); [now left | right; now right]).
    specialize (IH P'). cbn [warn_duplicates]. unfold bind.
    destruct (pair_key p) as [k1|] eqn:K1.
    2: { destruct (IH b) as (ls & E & H). exists ls. cbn [ret]. rewrite E. split; [reflexivity|].
         intros l. rewrite H. split; intros (k1 & v1 & o1 & e1 & ? & ? & ? & ? & -> & _); discriminate K1. }
    destruct (pair_key_some _ _ K1) as (v1 & o1 & e1 & ->).
    destruct (pair_key q) as [k2|] eqn:K2.
    2: { destruct (IH b) as (ls & E & H). exists ls. cbn [ret]. rewrite E. split; [reflexivity|].
         intros l. rewrite H.
         split; intros (a1 & a2 & a3 & a4 & a5 & a6 & a7 & a8 & E1 & I & S).
         - exists a1, a2, a3, a4, a5, a6, a7, a8. split; [exact E1|]. split; [now right | exact S].
         - exists a1, a2, a3, a4, a5, a6, a7, a8. split; [exact E1|]. split; [|exact S].
           destruct I as [->|I]; [discriminate K2 | exact I]. }
    destruct (pair_key_some _ _ K2) as (v2 & o2 & e2 & ->).
    assert (Q1 : plain_key k1) by (apply (P k1 v1 o1 e1); now left).
    assert (Q2 : plain_key k2) by (apply (P k2 v2 o2 e2); right; now left).
    pose proof (keys_are_equal_ok k1 Q1 k2 Q2) as KE.
    destruct (keys_are_equal k1 k2).
    + destruct (IH (add_diags [dup_key_diag (expression k2)] b)) as (ls & E & H).
      exists (expression k2 :: ls). split.
      * change (b_warn DuplicateHashKey (expression k2) e b)
          with (Ok tt (add_diags [dup_key_diag (expression k2)] b) : res Builder unit).
        cbv beta iota. rewrite E, add_diags_app. reflexivity.
      * intros l. cbn [In]. rewrite H. split.
        -- intros [<-|(a1 & a2 & a3 & a4 & a5 & a6 & a7 & a8 & E1 & I & S)].
           ++ exists k1, v1, o1, e1, k2, v2, o2, e2. repeat split; auto. now apply KE.
           ++ exists a1, a2, a3, a4, a5, a6, a7, a8. auto.
        -- intros (a1 & a2 & a3 & a4 & a5 & a6 & a7 & a8 & E1 & [I|I] & S & L).
           ++ left. injection I as -> -> -> ->. now rewrite L.
           ++ right. exists a1, a2, a3, a4, a5, a6, a7, a8. auto.
    + destruct (IH b) as (ls & E & H). exists ls. cbn [ret]. rewrite E. split; [reflexivity|].
      intros l. rewrite H. split.
      * intros (a1 & a2 & a3 & a4 & a5 & a6 & a7 & a8 & E1 & I & S).
        exists a1, a2, a3, a4, a5, a6, a7, a8. split; [exact E1|]. split; [now right | exact S].
      * intros (a1 & a2 & a3 & a4 & a5 & a6 & a7 & a8 & E1 & [I|I] & S & L).
        -- injection I as -> -> -> ->. injection E1 as -> -> -> ->. exfalso. now apply KE in S.
        -- exists a1, a2, a3, a4, a5, a6, a7, a8. auto.
Qed.

Lemma check_duplicate_keys_ok pairs : plain_pairs pairs -> forall e b,
  exists ls, check_duplicate_keys pairs e b = Ok tt (add_diags (List.map dup_key_diag ls) b) /\
    (forall l, In l ls <-> duplicate_at pairs l).
Proof.
  induction pairs as [|p pairs IH]; intros P e b; cbn [check_duplicate_keys].
  - exists []. cbn. rewrite add_diags_nil. split; [reflexivity|]. split; [intros [] | intros H].
    destruct H as (h & ? & ? & ? & ? & ? & ? & ? & ? & ? & ? & E & _). now destruct h.
  - destruct (warn_duplicates_ok p pairs P e b) as (l1 & E1 & H1).
    assert (P' : plain_pairs pairs) by (intros k v o x H; apply (P k v o x); now right).
    destruct (IH P' e (add_diags (List.map dup_key_diag l1) b)) as (l2 & E2 & H2).
    exists (l1 ++ l2). unfold bind. rewrite E1, E2, add_diags_app, <- map_app. split; [reflexivity|].
    intros l. rewrite in_app_iff, H1, H2. unfold duplicate_at. split.
    + intros [(k1 & v1 & o1 & e1 & k2 & v2 & o2 & e2 & -> & I & S & L)|H].
      * apply in_split in I as (m & t & ->). exists [], k1, v1, o1, e1, m, k2, v2, o2, e2, t. auto.
      * destruct H as (h & k1 & v1 & o1 & e1 & m & k2 & v2 & o2 & e2 & t & -> & S & L).
        exists (p :: h), k1, v1, o1, e1, m, k2, v2, o2, e2, t. auto.
    + intros (h & k1 & v1 & o1 & e1 & m & k2 & v2 & o2 & e2 & t & E & S & L).
      destruct h as [|q h]; cbn in E; injection E as -> E.
      * left. exists k1, v1, o1, e1, k2, v2, o2, e2. repeat split; auto. rewrite E. apply in_or_app. right. now left.
      * right. exists h, k1, v1, o1, e1, m, k2, v2, o2, e2, t. auto.
Qed.

(** [associate] warns exactly about the keys that equal an earlier literal key, reports nothing else and keeps
    the elements, for every list in which no regexp key has options. *)
Theorem C31_duplicate_hash_keys : forall begin_t pairs end_t e b,
  plain_pairs pairs -> (begin_t <> None \/ end_t <> None \/ pairs <> []) ->
  exists ls bl el x, associate begin_t pairs end_t e b =
      Ok (NHash pairs bl el x) (add_diags (List.map (mkDiag Warning DuplicateHashKey) ls) b) /\
    (forall l, In l ls <-> duplicate_at pairs l).
Proof.
  intros begin_t pairs end_t e b P NE. destruct (check_duplicate_keys_ok pairs P e b) as (ls & E & H).
  unfold associate, bind. rewrite E. unfold collection_map, bind.
  destruct (join_maybe_locs (join_maybe_locs (collection_expr pairs) (maybe_loc begin_t)) (maybe_loc end_t))
    as [x|] eqn:J.
  - cbn [expect ret]. exists ls, (maybe_loc begin_t), (maybe_loc end_t), x. split; [reflexivity | exact H].
  - exfalso. destruct begin_t as [t|], end_t as [t'|]; cbn in J;
      try (destruct (collection_expr pairs); cbn in J; discriminate J).
    destruct NE as [NE|[NE|NE]]; try (now apply NE).
    destruct pairs as [|q pairs]; [now apply NE|].
    unfold collection_expr in J. cbn in J. destruct (match pairs with [] => Some q | _ :: _ => last_opt pairs end); discriminate J.
Qed.

(** With options the claim is false of the code: the options are compared with their locations (builder.rs 910),
    so [{ /a/i => 1, /a/i => 2 }] is not warned about. *)
Definition C31_regexp (at_ : nat) : Node :=
  NRegexp [NStr (bs "a") None None (mkLoc (at_ + 1) (at_ + 2))]
    (Some (NRegOpt (Some (bs "i")) (mkLoc (at_ + 3) (at_ + 4))))
    (mkLoc at_ (at_ + 1)) (mkLoc (at_ + 2) (at_ + 3)) (mkLoc at_ (at_ + 4)).
Theorem C31_duplicate_hash_keys_refuted : exists pairs l, duplicate_at pairs l /\
  exists n, associate None pairs None no_env empty_builder = Ok n empty_builder.
Proof.
  exists [NPair (C31_regexp 0) (NNil (mkLoc 8 9)) (mkLoc 5 7) (mkLoc 0 9);
          NPair (C31_regexp 10) (NNil (mkLoc 18 19)) (mkLoc 15 17) (mkLoc 10 19)], (mkLoc 10 14). split.
  - do 11 eexists. split; [exact (eq_refl ([] ++ _ :: [] ++ _ :: []))|]. split; [|reflexivity].
    unfold C31_regexp. constructor; [repeat constructor | reflexivity].
  - eexists. vm_compute. reflexivity.
Qed.

Definition C31_example_pairs : list Node :=
  [NPair (NSym (bs "a") None None (mkLoc 1 3)) (NNil (mkLoc 4 5)) (mkLoc 3 4) (mkLoc 1 5);
   NKwsplat (NLvar (bs "x") (mkLoc 8 9)) (mkLoc 6 8) (mkLoc 6 9);
   NPair (NStr (bs "a") None None (mkLoc 10 13)) (NNil (mkLoc 14 15)) (mkLoc 13 14) (mkLoc 10 15);
   NPair (NSym (bs "a") None None (mkLoc 16 18)) (NNil (mkLoc 19 20)) (mkLoc 18 19) (mkLoc 16 20)].
Example C31_example : plain_pairs C31_example_pairs /\
  exists n, associate None C31_example_pairs None no_env empty_builder =
    Ok n (add_diags [mkDiag Warning DuplicateHashKey (mkLoc 16 18)] empty_builder).
Proof.
  split.
  - intros k v o x H. repeat (destruct H as [H|H]; [try (injection H as <- _ _ _); try discriminate H; constructor; discriminate|]).
    destruct H.
  - eexists. vm_compute. reflexivity.
Qed.
Print Assumptions C31_duplicate_hash_keys.

(** ** C33 *)

Lemma insert_char_in x c l : In x (insert_char c l) <-> x = c \/ In x l.
Proof.
  induction l as [|d l IH]; cbn; [intuition|]. destruct (c <=? d)%N; cbn; [intuition|]. rewrite IH. intuition.
Qed.
Lemma sort_chars_in x l : In x (sort_chars l) <-> In x l.
Proof. induction l as [|c l IH]; cbn; [tauto|]. rewrite insert_char_in, IH. intuition. Qed.
Fixpoint weakly_increasing (l : list N) : Prop :=
  match l with
  | c :: ((d :: _) as r) => (c <= d)%N /\ weakly_increasing r
  | _ => True
  end.
Lemma insert_char_sorted c l : weakly_increasing l -> weakly_increasing (insert_char c l).
Proof.
  induction l as [|d l IH]; intros H; [exact I|]. cbn [insert_char].
  destruct (N.leb_spec c d) as [L|L]; [split; assumption|].
  destruct l as [|x l]; [split; [lia | exact I]|]. destruct H as [H1 H2]. specialize (IH H2).
  cbn [insert_char] in *. destruct (c <=? x)%N; (split; [lia | exact IH]).
Qed.
Lemma sort_chars_sorted l : weakly_increasing (sort_chars l).
Proof. induction l as [|c l IH]; [exact I|]. cbn. now apply insert_char_sorted. Qed.
Lemma dedup_chars_in x l : In x (dedup_chars l) <-> In x l.
Proof.
  induction l as [|c l IH]; [cbn; tauto|]. destruct l as [|d l]; [cbn; tauto|].
  change (dedup_chars (c :: d :: l)) with (if N.eqb c d then dedup_chars (d :: l) else c :: dedup_chars (d :: l)).
  destruct (N.eqb_spec c d) as [->|]; [rewrite IH; cbn; tauto | cbn [In]; rewrite IH; cbn; tauto].
Qed.
Lemma dedup_chars_increasing l : weakly_increasing l ->
  increasing (dedup_chars l) /\ (forall c, hd_error l = Some c -> hd_error (dedup_chars l) = Some c).
Proof.
  induction l as [|c l IH]; intros W; [split; [exact I | auto]|].
  destruct l as [|d l]; [split; [exact I | auto]|].
  destruct W as [W1 W2]. destruct (IH W2) as [I1 I2]. specialize (I2 d eq_refl).
  change (dedup_chars (c :: d :: l)) with (if N.eqb c d then dedup_chars (d :: l) else c :: dedup_chars (d :: l)).
  destruct (N.eqb_spec c d) as [->|Hne]; [split; [exact I1 | exact (fun c H => eq_trans I2 H)]|].
  split; [|auto]. destruct (dedup_chars (d :: l)) as [|x r]; [discriminate|]. injection I2 as ->.
  split; [lia | exact I1].
Qed.

(** An ASCII string consists of its bytes *)
Lemma chars_ascii l : Forall (fun c => (c < 128)%N) l -> chars l = l.
Proof.
  unfold chars. induction 1 as [|c l H F IH]; [reflexivity|]. cbn [List.length chars_n].
  unfold first_char, char_len. apply N.ltb_lt in H. rewrite H. cbn [skipn]. now rewrite IH.
Qed.
Lemma utf8_valid_ascii l : Forall (fun c => (c < 128)%N) l -> utf8_valid l = true.
Proof. induction 1 as [|c l H F IH]; [reflexivity|]. cbn. apply N.ltb_lt in H. now rewrite H. Qed.
Lemma encode_ascii l : Forall (fun c => (c < 128)%N) l -> flat_map utf8_encode l = l.
Proof.
  induction 1 as [|c l H F IH]; [reflexivity|]. cbn. unfold utf8_encode at 1. apply N.ltb_lt in H. rewrite H. now rewrite IH.
Qed.

(** A set of letters has only one increasing list *)
Lemma increasing_lt c l : increasing (c :: l) -> forall x, In x l -> (c < x)%N.
Proof.
  revert c; induction l as [|d l IH]; intros c H x Hx; [destruct Hx|]. destruct H as [H1 H2].
  destruct Hx as [<-|Hx]; [exact H1|]. specialize (IH d H2 x Hx). lia.
Qed.
Lemma increasing_unique l1 : forall l2, increasing l1 -> increasing l2 ->
  (forall x, In x l1 <-> In x l2) -> l1 = l2.
Proof.
  induction l1 as [|c l1 IH]; intros [|d l2] I1 I2 H; auto.
  - exfalso. apply (H d). now left.
  - exfalso. apply (H c). now left.
  - assert (c = d).
    { destruct (proj1 (H c) (or_introl eq_refl)) as [E|E]; [auto|].
      destruct (proj2 (H d) (or_introl eq_refl)) as [E'|E']; [auto|].
      pose proof (increasing_lt _ _ I1 _ E'). pose proof (increasing_lt _ _ I2 _ E). lia. }
    subst d. f_equal. apply IH.
    + destruct l1; [exact I | apply I1].
    + destruct l2; [exact I | apply I2].
    + intros x. split; intros Hx.
      * pose proof (increasing_lt _ _ I1 _ Hx). destruct (proj1 (H x) (or_intror Hx)) as [E|E]; [lia | exact E].
      * pose proof (increasing_lt _ _ I2 _ Hx). destruct (proj2 (H x) (or_intror Hx)) as [E|E]; [lia | exact E].
Qed.

(** The end token of a regexp: its closing delimiter and the option letters [opts] (ASCII), in a source shorter
    than 2 GB.  The options node holds the letters in increasing order, each once; there is none without
    letters; it stands right behind the delimiter. *)
Definition regexp_end (t : Token) (delim : N) (opts : list N) : Prop :=
  token_value t = delim :: opts /\ Forall (fun c => (c < 128)%N) (delim :: opts) /\
  loc_end (token_loc t) = loc_begin (token_loc t) + List.length (delim :: opts) /\
  (Z.of_nat (loc_end (token_loc t)) < 2 ^ 31)%Z.
Theorem C33_regexp_options : forall t delim opts e b,
  regexp_end t delim opts ->
  exists r, regexp_options t e b = Ok r b /\
    ((opts = [] /\ r = None) \/
     (opts <> [] /\ exists letters, increasing letters /\ (forall c, In c letters <-> In c opts) /\
        r = Some (NRegOpt (Some letters) (mkLoc (loc_begin (token_loc t) + 1) (loc_end (token_loc t)))))).
Proof.
  intros t delim opts e b (V & A & L & Z). unfold regexp_options, bind, sub_ck.
  rewrite L. destruct (Nat.leb_spec (loc_begin (token_loc t)) (loc_begin (token_loc t) + List.length (delim :: opts)));
    [|lia]. unfold ret at 1.
  replace (loc_begin (token_loc t) + List.length (delim :: opts) - loc_begin (token_loc t)) with (S (List.length opts))
    by (cbn; lia).
  destruct opts as [|o opts].
  - exists None. split; [reflexivity | left; auto].
  - cbn [List.length Nat.eqb]. unfold adjust_begin, shift_pos, bind, i32_max. 
    destruct (Z.leb_spec (Z.of_nat (loc_begin (token_loc t))) 2147483647) as [Z1|Z1]; [|cbn [List.length] in *; lia].
    destruct (Z.ltb_spec 2147483647 (Z.of_nat (loc_begin (token_loc t)) + 1)) as [Z2|Z2]; [cbn [List.length] in *; lia|].
    destruct (Z.ltb_spec (Z.of_nat (loc_begin (token_loc t)) + 1) 0) as [Z3|Z3]; [lia|].
    unfold ret at 1 2. unfold value. rewrite V, (utf8_valid_ascii _ A). unfold ret at 1.
    rewrite (chars_ascii _ A). cbn [skipn].
    set (ls := dedup_chars (sort_chars (o :: opts))).
    assert (Hin : forall c, In c ls <-> In c (o :: opts)) by (intros c; unfold ls; now rewrite dedup_chars_in, sort_chars_in).
    assert (Ha : Forall (fun c => (c < 128)%N) ls).
    { apply Forall_forall. intros c Hc. apply Hin in Hc. rewrite Forall_forall in A. apply A. now right. }
    assert (Hi : increasing ls) by apply dedup_chars_increasing, sort_chars_sorted.
    exists (Some (NRegOpt (Some ls) (mkLoc (loc_begin (token_loc t) + 1) (loc_end (token_loc t))))). split.
    + destruct ls as [|x ls]; [exfalso; apply (Hin o); now left|].
      rewrite (encode_ascii _ Ha). unfold ret. do 4 f_equal. f_equal. lia.
    + right. split; [discriminate|]. exists ls. split; [exact Hi|]. split; [exact Hin|]. now rewrite L.
Qed.

(** Hence order and repetition do not matter *)
Theorem C33_order_and_repetition : forall t1 t2 delim1 delim2 opts1 opts2 l1 x1 l2 x2 e b,
  regexp_end t1 delim1 opts1 -> regexp_end t2 delim2 opts2 -> (forall c, In c opts1 <-> In c opts2) ->
  regexp_options t1 e b = Ok (Some (NRegOpt l1 x1)) b -> regexp_options t2 e b = Ok (Some (NRegOpt l2 x2)) b ->
  l1 = l2.
Proof.
  intros t1 t2 d1 d2 o1 o2 l1 x1 l2 x2 e b H1 H2 S R1 R2.
  destruct (C33_regexp_options t1 d1 o1 e b H1) as (r1 & E1 & [[_ ->]|(_ & ls1 & I1 & S1 & ->)]); [congruence|].
  destruct (C33_regexp_options t2 d2 o2 e b H2) as (r2 & E2 & [[_ ->]|(_ & ls2 & I2 & S2 & ->)]); [congruence|].
  assert (ls1 = ls2) by (apply increasing_unique; auto; intros x; rewrite S1, S2; apply S).
  congruence.
Qed.

Definition C33_token : Token :=
  mkToken tREGEXP_END (bs "/xmixm") (mkLoc 4 10).
Example C33_example : regexp_end C33_token 47%N (bs "xmixm") /\
  regexp_options C33_token no_env empty_builder = Ok (Some (NRegOpt (Some (bs "imx")) (mkLoc 5 10))) empty_builder.
Proof.
  split; [|vm_compute; reflexivity].
  split; [reflexivity|]. split; [repeat constructor|]. split; [reflexivity | cbn; lia].
Qed.
Print Assumptions C33_regexp_options.
Print Assumptions C33_order_and_repetition.

(** ** C34 *)

Lemma parse_digits_ok l : Forall is_digit_byte l -> forall acc,
  match parse_digits l acc with
  | Some v => v = decimal l acc
  | None => (2 ^ 64 <= decimal l acc)%N
  end.
Proof.
  assert (mono : forall l acc, (acc <= decimal l acc)%N).
  { induction l0 as [|c l0 IH]; intros acc; cbn [decimal]; [lia|]. specialize (IH (acc * 10 + (c - 48))%N). lia. }
  induction 1 as [|c l H F IH]; intros acc; cbn [parse_digits decimal]; [reflexivity|].
  unfold in_range. destruct H as [H1 H2]. apply N.leb_le in H1, H2. rewrite H1, H2. cbn [andb].
  destruct (N.ltb_spec (acc * 10 + (c - 48)) (2 ^ 64)) as [L|L]; [apply IH|].
  specialize (mono l (acc * 10 + (c - 48))%N). lia.
Qed.

(** A reference [$n] with any number of digits: no panic; the node keeps the digits as text; exactly one warning
    if the number exceeds 2^30-1, otherwise none. *)
Theorem C34_nth_ref : forall t digits e b,
  token_value t = 36%N :: digits -> digits <> [] -> Forall is_digit_byte digits ->
  nth_ref t e b =
    Ok (NNthRef digits (token_loc t))
       (add_diags (if (decimal digits 0 <=? 2 ^ 30 - 1)%N then []
                   else [mkDiag Warning (NthRefIsTooBig digits) (token_loc t)]) b).
Proof.
  intros t digits e b V NE F. unfold nth_ref, bind, value.
  assert (A : Forall (fun c => (c < 128)%N) (36%N :: digits)).
  { constructor; [lia|]. eapply Forall_impl; [|exact F]. intros c [? ?]. lia. }
  rewrite V, (utf8_valid_ascii _ A). unfold ret at 1. unfold str_from1.
  assert (B : boundary1 (36%N :: digits) = true).
  { cbn. destruct digits as [|c d]; [reflexivity|]. inversion F as [|? ? [H1 H2] _]; subst.
    unfold is_cont, in_range. replace (128 <=? c)%N with false by (symmetry; apply N.leb_gt; lia). reflexivity. }
  rewrite B. unfold ret at 1. cbn [tl].
  assert (P : parse_usize digits = parse_digits digits 0).
  { destruct digits as [|c d]; [now destruct NE|]. inversion F as [|? ? [H1 H2] _]; subst.
    unfold parse_usize. destruct c as [|p]; [reflexivity|].
    repeat (destruct p as [p|p|]; try reflexivity; try lia). }
  rewrite P. pose proof (parse_digits_ok digits F 0) as D. unfold MAX_NTH_REF.
  change (2 ^ 30 - 1)%N with 1073741823%N.
  destruct (parse_digits digits 0) as [v|].
  - subst v. destruct (N.ltb_spec 1073741823 (decimal digits 0)) as [L|L].
    + destruct (N.leb_spec (decimal digits 0) 1073741823); [lia | reflexivity].
    + destruct (N.leb_spec (decimal digits 0) 1073741823); [|lia]. now rewrite add_diags_nil.
  - destruct (N.leb_spec (decimal digits 0) 1073741823) as [L|L]; [|reflexivity].
    exfalso. change (2 ^ 64)%N with 18446744073709551616%N in D. lia.
Qed.

(** The clause "become 0" is false of the code: a too big reference keeps its digits *)
Theorem C34_too_big_becomes_zero_refuted : exists t digits n b,
  token_value t = 36%N :: digits /\ Forall is_digit_byte digits /\ (2 ^ 30 - 1 < decimal digits 0)%N /\
  nth_ref t no_env empty_builder = Ok n b /\ n <> NNthRef (bs "0") (token_loc t).
Proof.
  exists (mkToken tNTH_REF (bs "$99999999999999999999999") (mkLoc 0 24)), (bs "99999999999999999999999").
  eexists. eexists. split; [reflexivity|]. split; [|split; [vm_compute; reflexivity|split; [vm_compute; reflexivity | discriminate]]].
  repeat (constructor; [vm_compute; split; discriminate|]). constructor.
Qed.
Example C34_example :
  nth_ref (mkToken tNTH_REF (bs "$1073741823") (mkLoc 0 11)) no_env empty_builder
    = Ok (NNthRef (bs "1073741823") (mkLoc 0 11)) empty_builder /\
  nth_ref (mkToken tNTH_REF (bs "$1073741824") (mkLoc 0 11)) no_env empty_builder
    = Ok (NNthRef (bs "1073741824") (mkLoc 0 11))
         (add_diags [mkDiag Warning (NthRefIsTooBig (bs "1073741824")) (mkLoc 0 11)] empty_builder).
Proof. split; vm_compute; reflexivity. Qed.
Print Assumptions C34_nth_ref.
