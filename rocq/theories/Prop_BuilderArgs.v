(** * The builder: parameters, patterns and numbered parameters (C30, C32, C42) *)
Require Import Verif.Base Verif.MaybeByteM Verif.Utf8M Verif.InputM Verif.ScopesM Verif.TokensM
  Verif.DiagnosticM Verif.LexerM Verif.NodeM Verif.BuilderM Verif.BuilderNodesM Verif.BuilderSpec Verif.BuilderFacts.

(** ** C30 *)

(** The names in the map of check_duplicate_args, each bound to a parameter of that name *)
Definition map_names (m : ArgMap) : list (list N) := List.map fst m.
Definition map_ok (m : ArgMap) : Prop :=
  Forall (fun kv => exists p, param_of (snd kv) = [p] /\ pr_name p = fst kv) m.

Definition dup_diag (p : Param) : Diagnostic := mkDiag Error DuplicatedArgumentName (pr_loc p).
Lemma map_get_some m name v : map_ok m -> map_get name m = Some v ->
  In name (map_names m) /\ exists p, param_of v = [p] /\ pr_name p = name.
Proof.
  induction m as [|[k w] m IH]; cbn; [discriminate|].
  intros H; inversion H as [|? ? H1 H2]; subst.
  destruct (bytes_eqb k name) eqn:E.
  - intros [= ->]. apply bytes_eqb_eq in E as ->. split; [now left | exact H1].
  - intros G. destruct (IH H2 G). auto.
Qed.
Lemma map_get_none m name : map_get name m = None -> ~ In name (map_names m).
Proof.
  induction m as [|[k w] m IH]; cbn; [tauto|].
  destruct (bytes_eqb k name) eqn:E; [discriminate|]. apply bytes_eqb_neq in E. intros G [H|H]; [auto|].
  now apply IH.
Qed.

(** A name that can be cut after its first byte *)
Definition cuttable (name : list N) : Prop := boundary1 name = true.
Lemma ascii_cuttable name : utf8_valid name = true -> ascii_name name -> cuttable name.
Proof.
  intros V (c & r & -> & Hc). unfold cuttable, boundary1. destruct r as [|d r]; [reflexivity|].
  cbn [utf8_valid] in V. apply N.ltb_lt in Hc. rewrite Hc in V.
  destruct (is_cont d) eqn:E; [exfalso|reflexivity].
  assert (L : (128 <= d <= 191)%N).
  { unfold is_cont, in_range in E. apply andb_true_iff in E as [E1 E2].
    apply N.leb_le in E1; apply N.leb_le in E2. split; assumption. }
  clear E. unfold in_range in V.
  replace (d <? 128)%N with false in V by (symmetry; apply N.ltb_ge; lia).
  replace (194 <=? d)%N with false in V by (symmetry; apply N.leb_gt; lia).
  replace (224 <=? d)%N with false in V by (symmetry; apply N.leb_gt; lia).
  replace (240 <=? d)%N with false in V by (symmetry; apply N.leb_gt; lia).
  discriminate V.
Qed.

Lemma cuttable_head name : cuttable name -> exists c r, name = c :: r.
Proof. destruct name; [discriminate | eauto]. Qed.

Lemma arg_name_of n p : param_of n = [p] -> forall e b, arg_name n e b = Ok (Some (pr_name p)) b.
Proof.
  intros H e b. destruct n; cbn in H |- *; try discriminate H;
    repeat match type of H with context [match ?o with _ => _ end] => destruct o; try discriminate H end;
    injection H as <-; reflexivity.
Qed.
Lemma arg_name_loc_of n p : param_of n = [p] -> forall e b, arg_name_loc n e b = Ok (pr_loc p) b.
Proof.
  intros H e b. destruct n; cbn in H |- *; try discriminate H;
    repeat match type of H with context [match ?o with _ => _ end] => destruct o; try discriminate H end;
    injection H as <-; reflexivity.
Qed.
Lemma node_of_param n p : param_of n = [p] -> check_duplicate_args_node n = check_duplicate_arg n.
Proof. intros H. destruct n; cbn in H; try discriminate H; reflexivity. Qed.

Lemma first_underscore c r : bytes_eqb (firstn 1 (c :: r)) (bs "_") = N.eqb c 95.
Proof. cbn. now rewrite andb_true_r. Qed.

Lemma repeated_ext s s' ps : (forall x, In x s <-> In x s') -> repeated s ps = repeated s' ps.
Proof.
  revert s s'; induction ps as [|p ps IH]; intros s s' H; cbn; [reflexivity|].
  rewrite (IH (pr_name p :: s) (pr_name p :: s')) by (intros x; cbn; rewrite H; tauto).
  destruct (in_dec _ (pr_name p) s) as [I|I], (in_dec _ (pr_name p) s') as [J|J]; try reflexivity;
    exfalso; apply H in I || apply H in J; tauto.
Qed.
Lemma repeated_app s ps ps' :
  repeated s (ps ++ ps') = repeated s ps ++ repeated (List.map pr_name ps ++ s) ps'.
Proof.
  revert s; induction ps as [|p ps IH]; intros s; cbn; [reflexivity|].
  rewrite IH.
  rewrite (repeated_ext (List.map pr_name ps ++ pr_name p :: s) (pr_name p :: List.map pr_name ps ++ s))
    by (intros x; rewrite in_app_iff; cbn; rewrite in_app_iff; tauto).
  destruct (in_dec _ (pr_name p) s); [|reflexivity].
  now destruct (underscored (pr_name p)).
Qed.

(** One parameter *)
Lemma check_duplicate_arg_ok n p m e b :
  param_of n = [p] -> map_ok m -> cuttable (pr_name p) ->
  exists m', check_duplicate_arg n m e b =
               Ok m' (add_diags (List.map dup_diag (repeated (map_names m) [p])) b)
    /\ map_ok m' /\ (forall x, In x (map_names m') <-> In x (map_names m) \/ x = pr_name p).
Proof.
  intros Hp Hm Hc. unfold check_duplicate_arg, bind. rewrite (arg_name_of _ _ Hp).
  destruct (map_get (pr_name p) m) as [v|] eqn:E.
  - destruct (map_get_some _ _ _ Hm E) as (Hin & q & Hq & Hn). rewrite (arg_name_of _ _ Hq), Hn.
    unfold arg_name_collides, bind, str_to1. unfold cuttable in Hc. rewrite Hc. cbn [ret].
    rewrite bytes_eqb_refl, andb_true_r.
    destruct (cuttable_head _ Hc) as (c & r & Hcr).
    exists m. cbn [repeated].
    destruct (in_dec _ (pr_name p) (map_names m)) as [_|Hno]; [|now destruct Hno].
    rewrite Hcr, first_underscore.
    split; [|split; [exact Hm | intros x; split; [tauto | intros [H|H]; [exact H | rewrite H, <- Hcr; exact Hin]]]].
    cbn [underscored].
    destruct (N.eqb c 95).
    + cbn. now rewrite add_diags_nil.
    + cbn [negb]. rewrite (arg_name_loc_of _ _ Hp). reflexivity.
  - exists ((pr_name p, n) :: m). cbn [repeated].
    apply map_get_none in E.
    destruct (in_dec _ (pr_name p) (map_names m)) as [Hin|_]; [now destruct E|].
    cbn. rewrite add_diags_nil. split; [reflexivity|]. split.
    + constructor; [|exact Hm]. cbn. eauto.
    + intros x. split; [intros [H|H]; auto | intros [H|H]; auto].
Qed.

(** A whole list *)
Lemma check_duplicate_args_ok args ps : ParamList args ps -> forall m e b,
  map_ok m -> (forall p, In p ps -> cuttable (pr_name p)) ->
  exists m', fold_m check_duplicate_args_node args m e b =
               Ok m' (add_diags (List.map dup_diag (repeated (map_names m) ps)) b)
    /\ map_ok m' /\ (forall x, In x (map_names m') <-> In x (map_names m) \/ In x (List.map pr_name ps)).
Proof.
  induction 1 as [| n p l ps Hn _ IH | a b0 l ps _ IH | a b0 l ps _ IH | a b0 l ps _ IH | a l ps _ IH
                  | a b0 l ps _ IH | items a b0 c ps l ps' _ IH1 _ IH2 | items a b0 c ps l ps' _ IH1 _ IH2];
    intros m e b Hm Hc; cbn [fold_m].
  1: { exists m. cbn. rewrite add_diags_nil. repeat split; auto. tauto. }
  1: { destruct (check_duplicate_arg_ok n p m e b Hn Hm) as (m1 & E1 & Hm1 & N1); [apply Hc; now left|].
       destruct (IH m1 e (add_diags (List.map dup_diag (repeated (map_names m) [p])) b) Hm1) as (m2 & E2 & Hm2 & N2);
         [intros; apply Hc; now right|].
       exists m2. unfold bind. rewrite (node_of_param _ _ Hn), E1, E2, add_diags_app, <- map_app.
       split; [|split; [exact Hm2|]].
       - change (p :: ps) with ([p] ++ ps). rewrite repeated_app.
         rewrite (repeated_ext (map_names m1) (List.map pr_name [p] ++ map_names m)); [reflexivity|].
         intros x. rewrite N1. cbn. intuition.
       - intros x. rewrite N2, N1. cbn. intuition. }
  1-5: unfold bind; cbn; apply IH; auto.
  all: destruct (IH1 m e b Hm) as (m1 & E1 & Hm1 & N1); [intros; apply Hc, in_or_app; now left|];
       destruct (IH2 m1 e (add_diags (List.map dup_diag (repeated (map_names m) ps)) b) Hm1) as (m2 & E2 & Hm2 & N2);
         [intros; apply Hc, in_or_app; now right|];
       exists m2; unfold bind; cbn [check_duplicate_args_node];
       rewrite E1, E2, add_diags_app, <- map_app;
       (split; [|split; [exact Hm2|]];
       [ rewrite repeated_app;
         rewrite (repeated_ext (map_names m1) (List.map pr_name ps ++ map_names m)); [reflexivity|];
         intros x; rewrite N1, in_app_iff; tauto
       | intros x; rewrite N2, N1, map_app, in_app_iff; tauto ]).
Qed.

(** For every parameter list whose names start with an ASCII character, [check_duplicate_args] reports exactly
    the repeated occurrences (in order, at the place of the name), and changes nothing else. *)
Theorem C30_duplicate_arguments : forall args ps e b,
  ParamList args ps ->
  (forall p, In p ps -> utf8_valid (pr_name p) = true /\ ascii_name (pr_name p)) ->
  exists m, check_duplicate_args args [] e b =
              Ok m (add_diags (List.map (fun p => mkDiag Error DuplicatedArgumentName (pr_loc p)) (repeated [] ps)) b).
Proof.
  intros args ps e b H Hc.
  destruct (check_duplicate_args_ok args ps H [] e b) as (m & E & _).
  - constructor.
  - intros p Hp. destruct (Hc p Hp). now apply ascii_cuttable.
  - exists m. exact E.
Qed.

(** Without that restriction the claim is false of the code: [arg_name_collides] (builder.rs 3887-3889) cuts the
    name after its first byte, which panics when the repeated name starts with a non-ASCII character. *)
Definition e_acute : list N := [195; 169]%N.
Theorem C30_duplicate_arguments_refuted :
  exists args ps e b w, ParamList args ps /\ (forall p, In p ps -> utf8_valid (pr_name p) = true)
    /\ check_duplicate_args args [] e b = Panic w.
Proof.
  exists [NArg e_acute (mkLoc 6 8); NArg e_acute (mkLoc 10 12)], [mkParam e_acute (mkLoc 6 8); mkParam e_acute (mkLoc 10 12)],
    no_env, empty_builder, "byte index 1 is not a char boundary"%string.
  split; [|split].
  - repeat (apply pl_named; [reflexivity|]). constructor.
  - intros p [<-|[<-|[]]]; reflexivity.
  - vm_compute. reflexivity.
Qed.

Definition C30_example_args : list Node :=
  [NArg (bs "a") (mkLoc 1 2); NArg (bs "_") (mkLoc 3 4);
   NMlhs [NArg (bs "b") (mkLoc 6 7); NArg (bs "a") (mkLoc 8 9)] (Some (mkLoc 5 6)) (Some (mkLoc 9 10)) (mkLoc 5 10);
   NRestarg None (mkLoc 11 12) None (mkLoc 11 12); NArg (bs "_") (mkLoc 13 14);
   NKwarg (bs "b") (mkLoc 15 16) (mkLoc 15 17)].
Definition C30_example_params : list Param :=
  [mkParam (bs "a") (mkLoc 1 2); mkParam (bs "_") (mkLoc 3 4); mkParam (bs "b") (mkLoc 6 7);
   mkParam (bs "a") (mkLoc 8 9); mkParam (bs "_") (mkLoc 13 14); mkParam (bs "b") (mkLoc 15 16)].
Example C30_example_meets_hypotheses :
  ParamList C30_example_args C30_example_params /\
  (forall p, In p C30_example_params -> utf8_valid (pr_name p) = true /\ ascii_name (pr_name p)) /\
  repeated [] C30_example_params = [mkParam (bs "a") (mkLoc 8 9); mkParam (bs "b") (mkLoc 15 16)].
Proof.
  split; [|split].
  - unfold C30_example_args, C30_example_params.
    apply pl_named; [reflexivity|]. apply pl_named; [reflexivity|].
    apply (pl_mlhs _ _ _ _ [mkParam (bs "b") (mkLoc 6 7); mkParam (bs "a") (mkLoc 8 9)]).
    + repeat (apply pl_named; [reflexivity|]). constructor.
    + apply pl_anon_rest. repeat (apply pl_named; [reflexivity|]). constructor.
  - intros p H. repeat (destruct H as [<-|H]); try destruct H;
      (split; [reflexivity|]; eexists; eexists; split; [reflexivity|reflexivity]).
  - vm_compute. reflexivity.
Qed.
Print Assumptions C30_duplicate_arguments.

(** ** C32 *)

(** A history acting on the builder: the parser enters and leaves patterns (parse.y 1029-1038, 1059-1068,
    4567-4577, 4717-4824, 4889-4922), the builder declares the names.  The [Err] of a reported duplicate is
    dropped: the parser's error recovery goes on. *)
Definition pattern_variable_event (ev : PatEvent) : B unit :=
  match ev with
  | PEnter => modify (fun b => set_pattern_variables (vs_push (b_pattern_variables b)) b)
  | PLeave => modify (fun b => set_pattern_variables (vs_pop (b_pattern_variables b)) b)
  | PName name l => _ <- check_duplicate_pattern_variable name l ;; ret tt
  end.
Definition pattern_key_event (ev : PatEvent) : B unit :=
  match ev with
  | PEnter => modify (fun b => set_pattern_hash_keys (vs_push (b_pattern_hash_keys b)) b)
  | PLeave => modify (fun b => set_pattern_hash_keys (vs_pop (b_pattern_hash_keys b)) b)
  | PName name l => _ <- check_duplicate_pattern_key name l ;; ret tt
  end.
Fixpoint pattern_events (step : PatEvent -> B unit) (h : list PatEvent) : B unit :=
  match h with
  | [] => ret tt
  | ev :: h => step ev ;;; pattern_events step h
  end.

(** [name] occurred in the [k]-th pattern around the present one *)
Definition seen (k : nat) (name : list N) (past : list PatEvent) : Prop :=
  exists recent l older, past = recent ++ PName name l :: older /\ opens k recent.
Definition frames_ok (ignored : list N -> bool) (s : VariablesStack) (past : list PatEvent) : Prop :=
  forall k f name, nth_error s k = Some f -> ignored name = false -> (In name f <-> seen k name past).

Lemma in_set_insert x name s : In x (set_insert name s) <-> x = name \/ In x s.
Proof.
  unfold set_insert, set_contains. destruct (existsb (bytes_eqb name) s) eqn:E; cbn; [|intuition].
  apply existsb_exists in E as (y & Hy & Ey). apply bytes_eqb_eq in Ey as ->. intuition; subst; auto.
Qed.
Lemma contains_in x s : set_contains x s = true <-> In x s.
Proof.
  unfold set_contains. rewrite existsb_exists. split.
  - intros (y & Hy & E). apply bytes_eqb_eq in E as ->. exact Hy.
  - intros H. exists x. split; [exact H | apply bytes_eqb_refl].
Qed.

Lemma seen_name k x name l past :
  seen k x (PName name l :: past) <-> (k = 0 /\ x = name) \/ seen k x past.
Proof.
  split.
  - intros (r & l' & o & E & O). destruct r as [|ev r]; cbn in E.
    + inversion O; subst. injection E as <- _ _. auto.
    + injection E as <- E2. inversion O; subst. right. exists r, l', o. auto.
  - intros [[-> ->]|(r & l' & o & -> & O)].
    + exists [], l, past. split; [reflexivity|constructor].
    + exists (PName name l :: r), l', o. split; [reflexivity|now constructor].
Qed.
Lemma seen_enter_0 x past : ~ seen 0 x (PEnter :: past).
Proof.
  intros (r & l' & o & E & O). destruct r as [|ev r]; cbn in E; [discriminate|].
  injection E as <- E2. inversion O.
Qed.
Lemma seen_enter_S k x past : seen (S k) x (PEnter :: past) <-> seen k x past.
Proof.
  split.
  - intros (r & l' & o & E & O). destruct r as [|ev r]; cbn in E; [discriminate|].
    injection E as <- E2. inversion O; subst. exists r, l', o. auto.
  - intros (r & l' & o & -> & O). exists (PEnter :: r), l', o. split; [reflexivity|now constructor].
Qed.
Lemma seen_leave k x past : seen k x (PLeave :: past) <-> seen (S k) x past.
Proof.
  split.
  - intros (r & l' & o & E & O). destruct r as [|ev r]; cbn in E; [discriminate|].
    injection E as <- E2. inversion O; subst. exists r, l', o. auto.
  - intros (r & l' & o & -> & O). exists (PLeave :: r), l', o. split; [reflexivity|now constructor].
Qed.

Lemma frames_enter ig s past : frames_ok ig s past -> frames_ok ig (vs_push s) (PEnter :: past).
Proof.
  intros H [|k] f x Hf Hi; cbn in Hf.
  - injection Hf as <-. split; [intros [] | intros S; now apply seen_enter_0 in S].
  - rewrite seen_enter_S. now apply H.
Qed.
Lemma frames_leave ig s past : frames_ok ig s past -> frames_ok ig (vs_pop s) (PLeave :: past).
Proof.
  intros H k f x Hf Hi. rewrite seen_leave. apply H; [|exact Hi]. destruct s; cbn in *; [|exact Hf].
  now destruct k.
Qed.
Lemma frames_name ig t s past name l : frames_ok ig (t :: s) past -> 
  frames_ok ig (set_insert name t :: s) (PName name l :: past).
Proof.
  intros H [|k] f x Hf Hi; cbn in Hf; rewrite seen_name.
  - injection Hf as <-. rewrite in_set_insert. rewrite (H 0 t x eq_refl Hi). tauto.
  - rewrite (H (S k) f x Hf Hi). intuition discriminate.
Qed.
Lemma frames_ignored ig s past name l : ig name = true -> frames_ok ig s past ->
  frames_ok ig s (PName name l :: past).
Proof.
  intros G H k f x Hf Hi. rewrite seen_name, (H k f x Hf Hi). split; [auto|].
  intros [[_ ->]|S]; [congruence | exact S].
Qed.
Lemma frames_again ig t s past name l : In name t -> frames_ok ig (t :: s) past ->
  frames_ok ig (t :: s) (PName name l :: past).
Proof.
  intros G H. replace (t :: s) with (set_insert name t :: s); [now apply frames_name|].
  unfold set_insert. apply contains_in in G. now rewrite G.
Qed.

Section PatternStack.
  Variables (get_stack : Builder -> VariablesStack) (set_stack : VariablesStack -> Builder -> Builder).
  Variables (ignored : list N -> bool) (step : PatEvent -> B unit) (msg : Msg).
  Hypothesis gs : forall v b, get_stack (set_stack v b) = v.
  Hypothesis gd : forall ds b, get_stack (add_diags ds b) = get_stack b.
  Hypothesis ds : forall v b, b_diagnostics (set_stack v b) = b_diagnostics b.
  Hypothesis step_enter : forall e b, step PEnter e b = Ok tt (set_stack (vs_push (get_stack b)) b).
  Hypothesis step_leave : forall e b, step PLeave e b = Ok tt (set_stack (vs_pop (get_stack b)) b).
  Hypothesis step_ignored : forall name l e b, ignored name = true -> step (PName name l) e b = Ok tt b.
  Hypothesis step_again : forall name l e b t s, ignored name = false -> get_stack b = t :: s ->
    set_contains name t = true -> step (PName name l) e b = Ok tt (add_diags [mkDiag Error msg l] b).
  Hypothesis step_first : forall name l e b t s, ignored name = false -> get_stack b = t :: s ->
    set_contains name t = false -> step (PName name l) e b = Ok tt (set_stack (set_insert name t :: s) b).

  Lemma pattern_run h : forall past e b,
    frames_ok ignored (get_stack b) past -> within (List.length (get_stack b)) h ->
    exists ls b', reports ignored past h ls /\ pattern_events step h e b = Ok tt b' /\
      b_diagnostics b' = b_diagnostics b ++ List.map (mkDiag Error msg) ls.
  Proof.
    induction h as [|ev h IH]; intros past e b F W.
    - exists [], b. repeat split; [constructor|]. now rewrite app_nil_r.
    - destruct ev as [| |name l]; cbn [pattern_events]; unfold bind.
      + rewrite step_enter.
        destruct (IH (PEnter :: past) e (set_stack (vs_push (get_stack b)) b)) as (ls & b' & R & E & D).
        * rewrite gs. now apply frames_enter.
        * rewrite gs. exact W.
        * exists ls, b'. rewrite D, ds. split; [now constructor|auto].
      + rewrite step_leave.
        destruct (IH (PLeave :: past) e (set_stack (vs_pop (get_stack b)) b)) as (ls & b' & R & E & D).
        * rewrite gs. now apply frames_leave.
        * rewrite gs. cbn in W. destruct (get_stack b); [destruct W | exact W].
        * exists ls, b'. rewrite D, ds. split; [now constructor|auto].
      + destruct W as [W0 W]. destruct (get_stack b) as [|t s] eqn:Es; [now destruct W0|].
        destruct (ignored name) eqn:Hi.
        * rewrite step_ignored by exact Hi.
          destruct (IH (PName name l :: past) e b) as (ls & b' & R & E & D).
          -- rewrite Es. now apply frames_ignored.
          -- now rewrite Es.
          -- exists ls, b'. split; [apply rp_first; auto|auto].
        * destruct (set_contains name t) eqn:C.
          -- rewrite (step_again _ _ _ _ _ _ Hi Es C).
             destruct (IH (PName name l :: past) e (add_diags [mkDiag Error msg l] b)) as (ls & b' & R & E & D).
             ++ rewrite gd, Es. apply frames_again; [now apply contains_in | exact F].
             ++ now rewrite gd, Es.
             ++ exists (l :: ls), b'. split; [apply rp_again; auto|split; [exact E|]].
                ** apply contains_in in C. apply (F 0 t name eq_refl Hi) in C. exact C.
                ** rewrite D. cbn. now rewrite <- app_assoc.
          -- rewrite (step_first _ _ _ _ _ _ Hi Es C).
             destruct (IH (PName name l :: past) e (set_stack (set_insert name t :: s) b)) as (ls & b' & R & E & D).
             ++ rewrite gs. now apply frames_name.
             ++ rewrite gs. exact W.
             ++ exists ls, b'. rewrite D, ds. split; [apply rp_first; auto|auto].
                right. intros S. apply (F 0 t name eq_refl Hi) in S. apply contains_in in S. congruence.
  Qed.
End PatternStack.

(** The duplicates of a history are determined by it, so [reports] below describes the exact result *)
Lemma reports_det ig past h ls ls' : reports ig past h ls -> reports ig past h ls' -> ls = ls'.
Proof.
  intros H; revert ls'; induction H; intros ls' H'; inversion H'; subst; auto; try (f_equal; auto; fail);
    intuition congruence.
Qed.

Definition no_names : list N -> bool := fun _ => false.

(** Every history of patterns and variables from the empty stack: no panic, and the reported locations are
    exactly those of variables without leading underscore that occurred before in the same pattern. *)
Theorem C32_pattern_variables : forall h e b,
  b_pattern_variables b = [] -> within 0 h ->
  exists ls b', reports underscored [] h ls /\ pattern_events pattern_variable_event h e b = Ok tt b' /\
    b_diagnostics b' = b_diagnostics b ++ List.map (mkDiag Error DuplicateVariableName) ls.
Proof.
  intros h e b Hs W.
  assert (U : forall name, starts_with (bs "_") name = underscored name)
    by (intros [|c r]; [reflexivity|]; unfold starts_with, underscored; cbn; destruct c; try reflexivity;
        cbn; rewrite Pos.eqb_sym; apply andb_true_r).
  apply (pattern_run b_pattern_variables set_pattern_variables underscored pattern_variable_event); auto;
    try reflexivity.
  - intros name l e0 b0 Hi. unfold pattern_variable_event, check_duplicate_pattern_variable, bind. now rewrite U, Hi.
  - intros name l e0 b0 t s Hi Et C. unfold pattern_variable_event, check_duplicate_pattern_variable, bind, gets.
    rewrite U, Hi, Et. cbn [vs_is_declared expect ret]. now rewrite C.
  - intros name l e0 b0 t s Hi Et C. unfold pattern_variable_event, check_duplicate_pattern_variable, bind, gets.
    rewrite U, Hi, Et. cbn [vs_is_declared expect ret]. now rewrite C.
  - rewrite Hs. intros [|k] f name Hf; discriminate.
  - now rewrite Hs.
Qed.

(** The same for the keys of hash patterns, where no name is exempt *)
Theorem C32_pattern_keys : forall h e b,
  b_pattern_hash_keys b = [] -> within 0 h ->
  exists ls b', reports no_names [] h ls /\ pattern_events pattern_key_event h e b = Ok tt b' /\
    b_diagnostics b' = b_diagnostics b ++ List.map (mkDiag Error DuplicateKeyName) ls.
Proof.
  intros h e b Hs W.
  apply (pattern_run b_pattern_hash_keys set_pattern_hash_keys no_names pattern_key_event); auto;
    try reflexivity; try discriminate.
  - intros name l e0 b0 t s _ Et C. unfold pattern_key_event, check_duplicate_pattern_key, bind, gets.
    rewrite Et. cbn [vs_is_declared expect ret]. now rewrite C.
  - intros name l e0 b0 t s _ Et C. unfold pattern_key_event, check_duplicate_pattern_key, bind, gets.
    rewrite Et. cbn [vs_is_declared expect ret]. now rewrite C.
  - rewrite Hs. intros [|k] f name Hf; discriminate.
  - now rewrite Hs.
Qed.

Definition C32_history : list PatEvent :=
  [PEnter; PName (bs "a") (mkLoc 0 1); PEnter; PName (bs "a") (mkLoc 2 3); PName (bs "_") (mkLoc 4 5);
   PName (bs "_") (mkLoc 5 6); PLeave; PName (bs "b") (mkLoc 7 8); PName (bs "a") (mkLoc 8 9); PLeave].
Example C32_example : within 0 C32_history /\ reports underscored [] C32_history [mkLoc 8 9].
Proof.
  split; [cbn; repeat split; discriminate|].
  assert (NO : forall x past, past <> [] -> ~ seen 0 x past -> ~ occurred x past) by (intros; assumption).
  unfold C32_history.
  apply rp_enter, rp_first; [right; intros H; now apply seen_enter_0 in H|].
  apply rp_enter, rp_first; [right; intros H; now apply seen_enter_0 in H|].
  apply rp_first; [now left|]. apply rp_first; [now left|]. apply rp_leave.
  apply rp_first; [right; intros H|].
  { apply seen_leave in H. do 3 (apply seen_name in H as [[? ?]|H]; [discriminate|]).
    apply -> seen_enter_S in H. apply seen_name in H as [[_ E]|H]; [vm_compute in E; discriminate|].
    now apply seen_enter_0 in H. }
  apply rp_again; [reflexivity| |apply rp_leave; constructor].
  apply seen_name. right. apply seen_leave. do 3 (apply seen_name; right). apply <- seen_enter_S.
  apply seen_name. left; auto.
Qed.
Example C32_example_runs : exists b,
  pattern_events pattern_variable_event C32_history no_env empty_builder = Ok tt b /\
  b_diagnostics b = [mkDiag Error DuplicateVariableName (mkLoc 8 9)].
Proof. eexists. split; vm_compute; reflexivity. Qed.
Print Assumptions C32_pattern_variables.
Print Assumptions C32_pattern_keys.

(** ** C42 *)

(** The stack of enclosing scopes, innermost first: [top] is the present one, [outer] the dynamic scopes up to
    the nearest static one, [rest] the others. *)
Definition nearest_static (outer rest : list NumItem) : Prop :=
  Forall (fun i => ni_is_static i = false) outer /\
  (rest = [] \/ exists i r, rest = i :: r /\ ni_is_static i = true).
Definition numparam_name (name : list N) : Prop := exists d, (1 <= d <= 9)%N /\ name = [95%N; (48 + d)%N].

Lemma outer_numparams_ok outer rest loc : nearest_static outer rest -> forall e b,
  outer_numparams (outer ++ rest) loc e b =
    Ok tt (add_diags (List.map (fun _ => mkDiag Error NumparamUsed loc)
                        (filter (fun i => (0 <? ni_value i)%Z) outer)) b).
Proof.
  induction outer as [|i outer IH]; intros [F R] e b; cbn [app outer_numparams].
  - destruct R as [->|(i & r & -> & S)]; cbn [outer_numparams]; [|rewrite S]; cbn; now rewrite add_diags_nil.
  - inversion F as [|? ? F1 F2]; subst. rewrite F1. unfold bind. cbn [filter].
    destruct (0 <? ni_value i)%Z.
    + change (b_error NumparamUsed loc e b) with (Ok tt (add_diags [mkDiag Error NumparamUsed loc] b) : res Builder unit).
      cbv beta iota. rewrite IH by (split; assumption). now rewrite add_diags_app.
    + cbn [ret]. now rewrite IH by (split; assumption).
Qed.

(** For every stack of scopes.  The answer is [true] exactly for an undeclared [_1]..[_9] in a block or lambda.
    Then one error is reported if the present block has ordinary parameters, and one for each enclosing block up
    to the nearest static scope that uses numbered parameters, and no other; the name is declared and the
    number of parameters of the present block grows to at least it.  Otherwise nothing changes. *)
Theorem C42_numbered_parameters : forall name loc e b top outer rest,
  b_max_numparam_stack b = top :: outer ++ rest -> nearest_static outer rest ->
  exists r b', try_declare_numparam name loc e b = Ok r b' /\
    (r = true <-> numparam_name name /\ is_declared name (b_static_env b) = false /\
       (ctx_get IN_BLOCK (b_context b) = true \/ ctx_get IN_LAMBDA (b_context b) = true)) /\
    (r = false -> b' = b) /\
    (r = true ->
       b_diagnostics b' = b_diagnostics b
         ++ (if Z.eq_dec (ni_value top) (-1) then [mkDiag Error OrdinaryParamDefined loc] else [])
         ++ List.map (fun _ => mkDiag Error NumparamUsed loc) (filter (fun i => (0 <? ni_value i)%Z) outer) /\
       is_declared name (b_static_env b') = true /\
       exists d v, name = [95%N; (48 + d)%N] /\ (Z.of_N d <= v /\ ni_value top <= v)%Z /\
         (v = Z.of_N d \/ v = ni_value top) /\
         b_max_numparam_stack b' = mkNumItem v (ni_is_static top) :: outer ++ rest).
Proof.
  intros name loc e b top outer rest Hs Hn.
  assert (NOT : (forall n, name <> [95%N; n]) -> 
    exists r b', try_declare_numparam name loc e b = Ok r b' /\ r = false /\ b' = b).
  { intros H. exists false, b. unfold try_declare_numparam, bind, get.
    destruct name as [|c [|n [|]]]; auto; (destruct c as [|c]; [auto|]);
      repeat (destruct c as [c|c|]; auto); exfalso; now apply (H n). }
  destruct (list_eq_dec N.eq_dec (firstn 1 name) [95%N]) as [E1|E1];
    [destruct (Nat.eq_dec (List.length name) 2) as [E2|E2]|].
  2: { destruct NOT as (r & b' & E & -> & ->).
       - intros n ->. now apply E2.
       - exists false, b. repeat split; auto; try discriminate.
         intros ((d & _ & ->) & _). now destruct E2. }
  2: { destruct NOT as (r & b' & E & -> & ->).
       - intros n ->. now apply E1.
       - exists false, b. repeat split; auto; try discriminate.
         intros ((d & _ & ->) & _). now destruct E1. }
  clear NOT. destruct name as [|c [|n [|]]]; try discriminate E2. cbn in E1. injection E1 as ->.
  unfold try_declare_numparam, bind, get, is_in_dynamic_block.
  destruct (in_range 49%N 57%N n) eqn:R; cbn [andb].
  2: { exists false, b. repeat split; auto; try discriminate.
       intros ((d & Hd & E) & _). assert (En : n = (48 + d)%N) by congruence. clear E. unfold in_range in R.
       apply andb_false_iff in R as [R|R]; apply N.leb_gt in R; lia. }
  assert (Hr : (49 <= n <= 57)%N).
  { unfold in_range in R. apply andb_true_iff in R as [R1 R2]. apply N.leb_le in R1, R2. lia. }
  destruct (is_declared [95%N; n] (b_static_env b)) eqn:D; cbn [negb andb].
  { exists false, b. repeat split; auto; try discriminate. intros (_ & ? & _); discriminate. }
  destruct (ctx_get IN_BLOCK (b_context b) || ctx_get IN_LAMBDA (b_context b)) eqn:C.
  2: { exists false, b. repeat split; auto; try discriminate. intros (_ & _ & H).
       apply orb_false_iff in C as [C1 C2]. destruct H; congruence. }
  rewrite Hs. cbn [tl np_has_ordinary_params np_top np_register np_set].
  unfold np_has_ordinary_params, np_top, ORDINARY_PARAMS.
  set (d1 := if Z.eq_dec (ni_value top) (-1) then [mkDiag Error OrdinaryParamDefined loc] else []).
  match goal with |- context [match ?m e b with Ok _ _ => _ | Panic _ => _ | OutOfFuel => _ end] =>
    assert (E1 : m e b = Ok tt (add_diags d1 b));
    [unfold d1; destruct (Z.eq_dec (ni_value top) (-1)) as [Z1|Z1];
     [rewrite Z1; reflexivity | apply Z.eqb_neq in Z1; rewrite Z1, add_diags_nil; reflexivity]
    | rewrite E1; clear E1] end.
  rewrite (outer_numparams_ok _ _ _ Hn), add_diags_app.
  eexists true, _. split; [reflexivity|]. split; [|split; [discriminate|]].
  - split; [intros _|reflexivity]. split; [|split; [reflexivity|]].
    + exists (n - 48)%N. split; [lia|]. f_equal. f_equal. lia.
    + now apply orb_true_iff.
  - intros _. split; [reflexivity|]. split.
    + apply contains_in, in_set_insert. now left.
    + exists (n - 48)%N, (Z.max (ni_value top) (Z.of_N (n - 48))).
      split; [f_equal; f_equal; lia|]. split; [lia|]. split; [lia|reflexivity].
Qed.

(** A block with an ordinary parameter inside a block that uses [_1], in a method *)
Definition C42_example_builder : Builder :=
  mkBuilder se_new (ctx_set IN_BLOCK true ctx_new) ca_new
    [mkNumItem (-1) false; mkNumItem 2 false; mkNumItem 0 false; mkNumItem 0 true; mkNumItem 3 false]
    vs_new vs_new [] some_chars None.
Example C42_example :
  nearest_static [mkNumItem 2 false; mkNumItem 0 false] [mkNumItem 0 true; mkNumItem 3 false] /\
  exists b', try_declare_numparam (bs "_1") (mkLoc 3 5) no_env C42_example_builder = Ok true b' /\
    b_diagnostics b' = [mkDiag Error OrdinaryParamDefined (mkLoc 3 5); mkDiag Error NumparamUsed (mkLoc 3 5)].
Proof.
  split.
  - split; [repeat constructor | right; eauto].
  - eexists. split; vm_compute; reflexivity.
Qed.
Print Assumptions C42_numbered_parameters.
