(** * C54: what the builder does besides making nodes *)
Require Import Verif.Base Verif.TokensM Verif.NodeM Verif.ScopesM Verif.DiagnosticM Verif.Utf8M.
Require Import Verif.InputM Verif.LexerM Verif.BuilderM Verif.BuilderNodesM Verif.BuilderFacts Verif.ScopeSpec
  Verif.ScopeProofs Verif.Prop_Scopes Verif.EffectSpec.
From Coq Require Import Lia ZifyBool ZifyNat.

(** ** Functions that only report *)

Definition with_diags (ds : list Diagnostic) (s : Builder) : Builder :=
  mkBuilder (b_static_env s) (b_context s) (b_current_arg_stack s) (b_max_numparam_stack s) (b_pattern_variables s)
    (b_pattern_hash_keys s) (b_diagnostics s ++ ds) (b_chars s) (b_regex s).
Lemma with_nil s : with_diags [] s = s.
Proof. destruct s. unfold with_diags. cbn. now rewrite app_nil_r. Qed.
Lemma with_app a b s : with_diags b (with_diags a s) = with_diags (a ++ b) s.
Proof. unfold with_diags. cbn. now rewrite app_assoc. Qed.
Lemma error_app a b : has_error a \/ has_error b -> has_error (a ++ b).
Proof. intros [(d & H & E)|(d & H & E)]; exists d; rewrite in_app_iff; auto. Qed.

Definition calm {A} (bad : A -> bool) (m : B A) : Prop := forall e s r s', m e s = Ok r s' ->
  exists ds, s' = with_diags ds s /\ (bad r = true -> has_error ds).
Definition never {A} (_ : A) : bool := false.
Definition none {A} (o : option A) : bool := match o with None => true | Some _ => false end.

Lemma calm_ret {A} (bad : A -> bool) a : bad a = false -> calm bad (ret a).
Proof. intros H e s r s' E. injection E as <- <-. exists []. rewrite with_nil. split; [reflexivity|congruence]. Qed.
Lemma calm_panic {A} (bad : A -> bool) w : calm bad (panic w).
Proof. intros e s r s' E. discriminate. Qed.
Lemma calm_expect {A} (o : option A) w bad : (forall a, bad a = false) -> calm bad (expect o w).
Proof. destruct o; intros H; [now apply calm_ret | apply calm_panic]. Qed.
Lemma calm_sub a b : calm never (sub_ck a b).
Proof. intros e s r s' H. unfold sub_ck in H. destruct (b <=? a); [|discriminate]. injection H as <- <-.
  exists []. rewrite with_nil. split; [reflexivity|discriminate]. Qed.
Lemma calm_get : calm never (get : B Builder).
Proof. intros e s r s' E. injection E as <- <-. exists []. now rewrite with_nil. Qed.
Lemma calm_gets {A} (f : Builder -> A) : calm never (gets f : B A).
Proof. intros e s r s' E. injection E as <- <-. exists []. now rewrite with_nil. Qed.
Lemma calm_error m l : calm (fun _ => true) (b_error m l).
Proof. intros e s r s' E. injection E as <- <-. exists [mkDiag Error m l]. split; [reflexivity|]. intros _.
  eexists. split; [now left|reflexivity]. Qed.
Lemma calm_warn m l : calm never (b_warn m l).
Proof. intros e s r s' E. injection E as <- <-. exists [mkDiag Warning m l]. split; [reflexivity|discriminate]. Qed.
Lemma calm_bind {A C} (bad : C -> bool) (m : B A) (k : A -> B C) :
  calm never m -> (forall a, calm bad (k a)) -> calm bad (bind m k).
Proof.
  intros Hm Hk e s r s' H. unfold bind in H. destruct (m e s) as [a s1| |] eqn:E; try discriminate.
  destruct (Hm _ _ _ _ E) as (d1 & -> & _). destruct (Hk _ _ _ _ _ H) as (d2 & -> & F).
  exists (d1 ++ d2). rewrite with_app. split; [reflexivity|]. intros W. apply error_app. auto.
Qed.
Lemma calm_try {A C} (m : B (option A)) (k : A -> B (option C)) :
  calm none m -> (forall a, calm none (k a)) -> calm none (x <-? m ;; k x).
Proof.
  intros Hm Hk e s r s' H. unfold bind in H. destruct (m e s) as [a s1| |] eqn:E; try discriminate.
  destruct (Hm _ _ _ _ E) as (d1 & -> & F1). destruct a as [a|].
  - destruct (Hk _ _ _ _ _ H) as (d2 & -> & F).
    exists (d1 ++ d2). rewrite with_app. split; [reflexivity|]. intros W. apply error_app. auto.
  - injection H as <- <-. exists d1. auto.
Qed.
Lemma calm_fail {A} m l : calm none (b_error m l ;;; (err : B (option A))).
Proof.
  intros e s r s' E. injection E as <- <-. exists [mkDiag Error m l]. split; [reflexivity|]. intros _.
  eexists. split; [now left|reflexivity].
Qed.
Lemma calm_weak {A} (bad bad' : A -> bool) m : (forall a, bad' a = true -> bad a = true) -> calm bad m -> calm bad' m.
Proof. intros W H e s r s' E. destruct (H _ _ _ _ E) as (ds & -> & F). exists ds. auto. Qed.
Lemma calm_quiet {A} (bad : A -> bool) m : calm bad m -> calm never m.
Proof. apply calm_weak. discriminate. Qed.

Ltac calmly := match goal with
  | |- calm _ (bind (b_error _ _) (fun _ => err)) => apply calm_fail
  | |- calm none (bind _ (fun r => match r with Some _ => _ | None => ret None end)) =>
      first [apply calm_try; [|intros ?] | apply calm_bind; [|intros ?]]
  | |- calm _ (bind _ _) => apply calm_bind; [|intros ?]
  | |- calm _ (ret _) => apply calm_ret; reflexivity
  | |- calm _ (ok _) => apply calm_ret; reflexivity
  | |- calm never err => apply calm_ret; reflexivity
  | |- calm _ (panic _) => apply calm_panic
  | |- calm _ (expect _ _) => apply calm_expect; reflexivity
  | |- calm _ (sub_ck _ _) => apply calm_sub
  | |- calm _ get => apply calm_get
  | |- calm _ (gets _) => apply calm_gets
  | |- calm never (b_error _ _) => eapply calm_quiet, calm_error
  | |- calm _ (b_warn _ _) => apply calm_warn
  | |- calm _ (match ?x with _ => _ end) => destruct x
  | |- calm _ _ => solve [eauto with calm | eapply calm_quiet; eauto with calm]
  end.
Ltac calm1 := repeat calmly.

Create HintDb calm.
Lemma c_value t : calm never (value t). Proof. unfold value. calm1. Qed.
#[export] Hint Resolve c_value : calm.
Lemma c_maybe_value t : calm never (maybe_value t). Proof. unfold maybe_value. calm1. Qed.
Lemma c_shift p d : calm never (shift_pos p d). Proof. unfold shift_pos. calm1. Qed.
#[export] Hint Resolve c_maybe_value c_shift : calm.
Lemma c_adjust_begin l d : calm never (adjust_begin l d). Proof. unfold adjust_begin. calm1. Qed.
Lemma c_adjust_end l d : calm never (adjust_end l d). Proof. unfold adjust_end. calm1. Qed.
Lemma c_size l : calm never (size_i32 l). Proof. unfold size_i32. calm1. Qed.
Lemma c_collection b l z : calm never (collection_map b l z). Proof. unfold collection_map. calm1. Qed.
Lemma c_heredoc b l z : calm never (heredoc_map b l z). Proof. unfold heredoc_map. calm1. Qed.
Lemma c_from1 s : calm never (str_from1 s). Proof. unfold str_from1. calm1. Qed.
Lemma c_to1 s : calm never (str_to1 s). Proof. unfold str_to1. calm1. Qed.
#[export] Hint Resolve c_adjust_begin c_adjust_end c_size c_collection c_heredoc c_from1 c_to1 : calm.
Lemma c_str_node b v l z : calm never (str_node b v l z). Proof. unfold str_node. calm1. Qed.
Lemma c_valid v l : calm never (validate_sym_value v l). Proof. unfold validate_sym_value. calm1. Qed.
Lemma c_arg_name n : calm never (arg_name n). Proof. unfold arg_name. calm1. Qed.
Lemma c_arg_name_loc n : calm never (arg_name_loc n). Proof. unfold arg_name_loc. calm1. Qed.
Lemma c_collides a b : calm never (arg_name_collides a b). Proof. unfold arg_name_collides. calm1. Qed.
#[export] Hint Resolve c_str_node c_valid c_arg_name c_arg_name_loc c_collides : calm.
Lemma c_dup_arg a m : calm never (check_duplicate_arg a m). Proof. unfold check_duplicate_arg. calm1. Qed.
#[export] Hint Resolve c_dup_arg : calm.
Lemma c_fold_m {X A} (f : X -> A -> B A) l : (forall x a, In x l -> calm never (f x a)) -> forall a, calm never (fold_m f l a).
Proof.
  induction l as [|x l IH]; intros H a; cbn [fold_m]; [calm1|].
  apply calm_bind; [apply H; now left | intros b; apply IH; intros; apply H; now right].
Qed.
Lemma c_dup_node : forall n m, calm never (check_duplicate_args_node n m).
Proof.
  apply (node_ind' (fun n => forall m, calm never (check_duplicate_args_node n m))). intros n IH m.
  destruct n; cbn [check_duplicate_args_node]; try (calm1; fail);
    apply c_fold_m; intros x a Hx; apply IH; cbn [children]; assumption.
Qed.
#[export] Hint Resolve c_dup_node : calm.
Lemma c_dup_args l m : calm never (check_duplicate_args l m).
Proof. apply c_fold_m. auto with calm. Qed.
Lemma c_forward l : calm never (validate_no_forward_arg_after_restarg l).
Proof. unfold validate_no_forward_arg_after_restarg. calm1. Qed.
Lemma c_numparam x l : calm none (check_assignment_to_numparam x l).
Proof. unfold check_assignment_to_numparam. calm1. Qed.
Lemma c_reserved x l : calm none (check_reserved_for_numparam x l).
Proof. unfold check_reserved_for_numparam. calm1. Qed.
Lemma c_lvar_name x l : calm none (check_lvar_name x l).
Proof. unfold check_lvar_name. calm1. Qed.
Lemma c_static l o p : calm never (build_static_regexp l o p).
Proof. unfold build_static_regexp. calm1. Qed.
#[export] Hint Resolve c_dup_args c_forward c_numparam c_reserved c_lvar_name c_static : calm.
Lemma c_validate l o p : calm never (validate_static_regexp l o p).
Proof. unfold validate_static_regexp. calm1. Qed.
Lemma c_captures m : calm never (static_regexp_captures m).
Proof. unfold static_regexp_captures. calm1. Qed.
Lemma c_value_expr m : calm none (value_expr m).
Proof. unfold value_expr. calm1. Qed.
Lemma c_dedent l : forall d, calm never (dedent_heredoc_parts l d).
Proof. induction l as [|a l IH]; intros d; cbn [dedent_heredoc_parts]; calm1. Qed.
Lemma c_map_m {X Y} (f : X -> B Y) l : (forall x, calm never (f x)) -> calm never (map_m f l).
Proof. intros H. induction l as [|a l IH]; cbn [map_m]; calm1. Qed.
Lemma c_symbols_part m : calm never (symbols_part m).
Proof. unfold symbols_part. calm1. Qed.
#[export] Hint Resolve c_validate c_captures c_value_expr c_dedent c_map_m c_symbols_part : calm.
Lemma c_symbol_compose b l z : calm never (symbol_compose b l z).
Proof. unfold symbol_compose. calm1. Qed.
Lemma c_pair_keyword t v : calm never (pair_keyword t v).
Proof. unfold pair_keyword. calm1. Qed.
Lemma c_warn_dup p l : calm never (warn_duplicates p l).
Proof. induction l as [|a l IH]; cbn [warn_duplicates]; calm1. Qed.
#[export] Hint Resolve c_symbol_compose c_pair_keyword c_warn_dup : calm.
Lemma c_pair_quoted b l z v : calm never (pair_quoted b l z v).
Proof. unfold pair_quoted. calm1. Qed.
Lemma c_keys l : calm never (check_duplicate_keys l).
Proof. induction l as [|a l IH]; cbn [check_duplicate_keys]; calm1. Qed.
Lemma c_reserved_name t : calm none (reserved_name t).
Proof. unfold reserved_name. calm1. Qed.
Lemma c_block_arg l : calm none (validate_block_and_block_arg l).
Proof. unfold validate_block_and_block_arg. calm1. Qed.
Lemma c_rewrite a l b z k body : calm never (rewrite_args_and_loc a l b z k body).
Proof. unfold rewrite_args_and_loc. calm1. Qed.
Lemma c_body_rescue c l el : calm never (begin_body_rescue c l el).
Proof. unfold begin_body_rescue. calm1. Qed.
#[export] Hint Resolve c_pair_quoted c_keys c_reserved_name c_block_arg c_rewrite c_body_rescue : calm.

(** ** What a call may do *)

Definition does {A} (m : B A) (bad : A -> bool) (binds : Builder -> A -> list (list N)) (stacks : list Stack) : Prop :=
  forall e s r s', m e s = Ok r s' ->
  se_run (List.map Declare (binds s r)) (b_static_env s) = Some (b_static_env s') /\ frame stacks s s' /\
  exists ds, reported s s' ds /\ (bad r = true -> has_error ds).
Lemma does_calm {A} (m : B A) bad bad' binds stacks : calm bad m -> (forall s r, binds s r = []) ->
  (forall a, bad' a = true -> bad a = true) -> does m bad' binds stacks.
Proof.
  intros H Hb Hw e s r s' E. destruct (H _ _ _ _ E) as (ds & -> & F). rewrite Hb. cbn.
  split; [reflexivity|]. split; [repeat split|]. exists ds. split; [reflexivity|auto].
Qed.

Lemma se_run_app a b e e' : se_run a e = Some e' -> se_run (a ++ b) e = se_run b e'.
Proof. revert e. induction a as [|op a IH]; intros e H; cbn in *; [congruence|]. destruct (se_step op e); [auto|discriminate]. Qed.
Lemma frame_trans st st1 st2 s s1 s2 : incl st1 st -> incl st2 st -> frame st1 s s1 -> frame st2 s1 s2 -> frame st s s2.
Proof.
  intros I1 I2 (A1 & A2 & A3 & A4 & A5 & A6 & A7) (B1 & B2 & B3 & B4 & B5 & B6 & B7).
  repeat split; try congruence; intros H.
  - rewrite B5, A5; auto.
  - rewrite B6, A6; auto.
  - rewrite B7, A7; auto.
Qed.
Lemma does_bind {A C} (m : B A) (k : A -> B C) bad binds st st1 :
  does m never (fun _ _ => []) st1 -> incl st1 st -> (forall a, does (k a) bad (fun _ => binds) st) ->
  does (bind m k) bad (fun _ => binds) st.
Proof.
  intros Hm I Hk e s r s' H. unfold bind in H. destruct (m e s) as [a s1| |] eqn:E; try discriminate.
  destruct (Hm _ _ _ _ E) as (E1 & F1 & d1 & R1 & _). destruct (Hk _ _ _ _ _ H) as (E2 & F2 & d2 & R2 & W).
  cbn in E1. injection E1 as E1. split; [rewrite E1; exact E2|]. split.
  - eapply frame_trans; [exact I | apply incl_refl | eassumption | eassumption].
  - exists (d1 ++ d2). unfold reported in *. rewrite R2, R1, app_assoc. split; [reflexivity|]. intros B0. apply error_app. auto.
Qed.
Lemma does_try {A C} (m : B (option A)) (k : A -> B (option C)) binds st st1 :
  does m none (fun _ _ => []) st1 -> incl st1 st -> binds None = [] ->
  (forall a, does (k a) none (fun _ => binds) st) -> does (x <-? m ;; k x) none (fun _ => binds) st.
Proof.
  intros Hm I B0 Hk e s r s' H. unfold bind in H. destruct (m e s) as [a s1| |] eqn:E; try discriminate.
  destruct (Hm _ _ _ _ E) as (E1 & F1 & d1 & R1 & W1). cbn in E1. injection E1 as E1. destruct a as [a|].
  - destruct (Hk _ _ _ _ _ H) as (E2 & F2 & d2 & R2 & W).
    split; [rewrite E1; exact E2|]. split.
    + eapply frame_trans; [exact I | apply incl_refl | eassumption | eassumption].
    + exists (d1 ++ d2). unfold reported in *. rewrite R2, R1, app_assoc. split; [reflexivity|]. intros B1. apply error_app. auto.
  - injection H as <- <-. rewrite B0. cbn. split; [now rewrite E1|]. split; [|exists d1; auto].
    destruct F1 as (A1 & A2 & A3 & A4 & A5 & A6 & A7). repeat split; auto.
Qed.
Lemma does_declare {A} x (m : B A) bad (binds : A -> list (list N)) st : calm bad m ->
  (forall e s r s', m e s = Ok r s' -> binds r = [x]) -> does (b_declare x ;;; m) bad (fun _ => binds) st.
Proof.
  intros Hc Hm e s r s' H. unfold bind, b_declare, modify in H. rewrite (Hm _ _ _ _ H).
  destruct (Hc _ _ _ _ H) as (ds & -> & W). cbn. split; [reflexivity|]. split; [repeat split|]. exists ds. split; [reflexivity|auto].
Qed.
Lemma does_weak {A} (m : B A) bad bad' binds binds' st st' : does m bad binds st -> incl st st' ->
  (forall a, bad' a = true -> bad a = true) -> (forall s r, binds' s r = binds s r) -> does m bad' binds' st'.
Proof.
  intros H I W Hb e s r s' E. destruct (H _ _ _ _ E) as (E1 & F & ds & R & G). rewrite Hb. split; [exact E1|]. split.
  - eapply frame_trans with (s1 := s); [apply incl_nil_l | exact I | repeat split | exact F].
  - exists ds. auto.
Qed.
Lemma calm_does {A} (m : B A) bad : calm bad m -> does m bad (fun _ _ => []) [].
Proof. intros H. eapply does_calm; eauto. Qed.

Lemma d_pattern_variable x l : does (check_duplicate_pattern_variable x l) none (fun _ _ => []) [Patterns].
Proof.
  intros e s r s' H. unfold check_duplicate_pattern_variable, bind, gets, expect in H.
  destruct (starts_with (bs "_") x).
  - injection H as <- <-. split; [reflexivity|]. split; [repeat split|]. exists []. unfold reported. rewrite app_nil_r. now split.
  - destruct (vs_is_declared x (b_pattern_variables s)) as [[]|]; cbv [ret panic] in H; try discriminate.
    + injection H as <- <-. split; [reflexivity|]. split; [repeat split|]. eexists. split; [reflexivity|].
      intros _. eexists. split; [now left|reflexivity].
    + destruct (vs_declare x (b_pattern_variables s)); cbv [ret panic modify ok] in H; try discriminate. injection H as <- <-.
      split; [reflexivity|]. split; [repeat split; cbn; tauto|]. exists []. unfold reported. cbn. rewrite app_nil_r. now split.
Qed.
Lemma d_pattern_key x l : does (check_duplicate_pattern_key x l) none (fun _ _ => []) [Keys].
Proof.
  intros e s r s' H. unfold check_duplicate_pattern_key, bind, gets, expect in H.
  destruct (vs_is_declared x (b_pattern_hash_keys s)) as [[]|]; cbv [ret panic] in H; try discriminate.
  - injection H as <- <-. split; [reflexivity|]. split; [repeat split|]. eexists. split; [reflexivity|].
    intros _. eexists. split; [now left|reflexivity].
  - destruct (vs_declare x (b_pattern_hash_keys s)); cbv [ret panic modify ok] in H; try discriminate. injection H as <- <-.
    split; [reflexivity|]. split; [repeat split; cbn; tauto|]. exists []. unfold reported. cbn. rewrite app_nil_r. now split.
Qed.

Definition of_some (f : Node -> list (list N)) (r : option Node) : list (list N) :=
  match r with Some n => f n | None => [] end.
Lemma d_lvar_name x l : does (check_lvar_name x l) none (fun _ _ => []) [].
Proof. apply calm_does, c_lvar_name. Qed.

Lemma d_match_var t : does (match_var t) none (fun _ => of_some matched) [Patterns].
Proof.
  unfold match_var. eapply does_bind; [apply calm_does; auto with calm | apply incl_nil_l | intros name].
  eapply does_try; [apply d_lvar_name | apply incl_nil_l | reflexivity | intros _].
  eapply does_try; [apply d_pattern_variable | apply incl_refl | reflexivity | intros _].
  apply does_declare; [calm1|]. intros e s r s' E. now injection E as <- <-.
Qed.
Lemma d_match_hash_var t : does (match_hash_var t) none (fun _ => of_some matched) [Patterns].
Proof.
  unfold match_hash_var. eapply does_bind; [apply calm_does; auto with calm | apply incl_nil_l | intros l].
  eapply does_bind; [apply calm_does; auto with calm | apply incl_nil_l | intros name].
  eapply does_try; [apply d_lvar_name | apply incl_nil_l | reflexivity | intros _].
  eapply does_try; [apply d_pattern_variable | apply incl_refl | reflexivity | intros _].
  apply does_declare; [calm1|]. intros e s r s' E. now injection E as <- <-.
Qed.
Lemma does_fail {A} m l (binds : option A -> list (list N)) st : binds None = [] ->
  does (b_error m l ;;; err) none (fun _ => binds) st.
Proof.
  intros B0 e s r s' E. injection E as <- <-. rewrite B0. split; [reflexivity|]. split; [repeat split|].
  eexists. split; [reflexivity|]. intros _. eexists. split; [now left|reflexivity].
Qed.
Lemma d_hash_node b z : forall n, does (match_hash_var_node b n z) none (fun _ => of_some matched) [Patterns].
Proof.
  apply (node_ind' (fun n => does (match_hash_var_node b n z) none (fun _ => of_some matched) [Patterns])). intros n IH.
  destruct n; cbn [match_hash_var_node]; try (apply does_fail; reflexivity).
  - destruct statements as [|m [|m' r]]; try (apply does_fail; reflexivity). apply IH. now left.
  - eapply does_try; [apply d_lvar_name | apply incl_nil_l | reflexivity | intros _].
    eapply does_try; [apply d_pattern_variable | apply incl_refl | reflexivity | intros _].
    apply does_declare; [calm1|]. intros e s r s' E. unfold bind in E.
    repeat match type of E with
    | match ?m ?e ?s with Ok _ _ => _ | Panic _ => _ | OutOfFuel => _ end = _ => destruct (m e s) as [?a ?s1| |]; try discriminate
    | match ?o with Some _ => _ | None => _ end _ _ = _ => destruct o
    end.
    all: try (injection E as <- <-; reflexivity).
    all: destruct begin_l, end_l; cbn in *; try discriminate.
    all: repeat match type of E with
    | match ?m ?e ?s with Ok _ _ => _ | Panic _ => _ | OutOfFuel => _ end = _ => destruct (m e s) as [?a ?s1| |]; try discriminate
    | context[match ?m ?e ?s with Ok _ _ => _ | Panic _ => _ | OutOfFuel => _ end] => destruct (m e s) as [?a ?s1| |]; try discriminate
    end.
    all: injection E as <- <-; reflexivity.
Qed.
Lemma d_from_str b l z : does (match_hash_var_from_str b l z) none (fun _ => of_some matched) [Patterns].
Proof.
  unfold match_hash_var_from_str. destruct l as [|m [|m' r]]; try (apply does_fail; reflexivity). apply d_hash_node.
Qed.
Lemma d_match_pair k v : does (match_pair k v) none (fun _ => of_some (fun _ => [])) [Keys].
Proof.
  destruct k; cbn [match_pair].
  - eapply does_try; [apply d_pattern_key | apply incl_refl | reflexivity | intros _].
    eapply (does_calm _ none); [calm1 | now intros ? [] | auto].
  - destruct (static_string parts); [|apply does_fail; reflexivity].
    eapply does_try; [apply d_pattern_key | apply incl_refl | reflexivity | intros _].
    eapply (does_calm _ none); [calm1 | now intros ? [] | auto].
Qed.
Lemma d_match_rest t v : does (match_rest t v) none (fun _ => of_some rest_matched) [Patterns].
Proof.
  unfold match_rest. destruct v as [v|].
  - intros e s r s' H. unfold bind in H. destruct (match_var v e s) as [a s1| |] eqn:E; try discriminate.
    destruct (d_match_var v _ _ _ _ E) as (E1 & F & ds & R & W). destruct a as [n|]; cbv [ret ok] in H; injection H as <- <-.
    + cbn in *. split; [exact E1|]. split; [exact F|]. exists ds. split; [exact R|discriminate].
    + cbn in *. split; [exact E1|]. split; [exact F|]. exists ds. auto.
  - intros e s r s' H. cbv [bind ret ok] in H. injection H as <- <-. split; [reflexivity|]. split; [repeat split|].
    exists []. unfold reported. rewrite app_nil_r. now split.
Qed.
Lemma d_assignable m : does (assignable m) none (fun _ => of_some (fun n => match m with NLvar _ _ => assigned n | _ => [] end)) [].
Proof.
  destruct m; cbn [assignable]; try (apply does_fail; reflexivity);
    try (eapply (does_calm _ none); [calm1 | now intros ? [] | auto]; fail).
  eapply does_try; [apply calm_does, c_numparam | apply incl_nil_l | reflexivity | intros _].
  eapply does_try; [apply calm_does, c_reserved | apply incl_nil_l | reflexivity | intros _].
  apply does_declare; [calm1|]. intros e s r s' E. now injection E as <- <-.
Qed.

(** Reading a variable *)
Lemma c_outer l p : calm never (outer_numparams l p).
Proof. induction l as [|a l IH]; cbn [outer_numparams]; calm1. Qed.
#[export] Hint Resolve c_outer : calm.
Lemma declared_again x e : is_declared x e = true -> declare x e = e.
Proof. unfold is_declared, declare, set_insert. intros ->. now destruct e. Qed.
Lemma declared_now x e : is_declared x (declare x e) = true.
Proof. unfold is_declared, declare. cbn. apply set_contains_In, set_insert_In. now left. Qed.
(** An unassigned [_1] to [_9] in a block or lambda *)
Definition numbered (name : list N) (s : Builder) : Prop :=
  (exists d, (1 <= d <= 9)%N /\ name = [95%N; (48 + d)%N]) /\
  (ctx_get IN_BLOCK (b_context s) = true \/ ctx_get IN_LAMBDA (b_context s) = true).
Lemma try_shape name l e s r s' : try_declare_numparam name l e s = Ok r s' ->
  (r = false /\ s' = s /\ (numbered name s -> is_declared name (b_static_env s) = true)) \/
  (r = true /\ b_static_env s' = declare name (b_static_env s) /\ frame [Params] s s' /\ (exists ds, reported s s' ds) /\
   numbered name s).
Proof.
  unfold try_declare_numparam, bind, get. intros H.
  assert (NO : (forall n, name <> [95%N; n]) -> numbered name s -> is_declared name (b_static_env s) = true)
    by (intros F [(d & _ & E) _]; now destruct (F (48 + d)%N)).
  destruct name as [|c [|n [|c2 name]]].
  1: { left. injection H as <- <-. split; [reflexivity|]. split; [reflexivity|]. apply NO. discriminate. }
  1: { left. assert (G : Ok false s = Ok r s').
       { rewrite <- H. destruct c as [|c]; [reflexivity|]. do 7 (try destruct c as [c|c|]); reflexivity. }
       injection G as <- <-. split; [reflexivity|]. split; [reflexivity|]. apply NO. discriminate. }
  2: { left. assert (G : Ok false s = Ok r s').
       { rewrite <- H. destruct c as [|c]; [reflexivity|]. do 7 (try destruct c as [c|c|]); reflexivity. }
       injection G as <- <-. split; [reflexivity|]. split; [reflexivity|]. apply NO. discriminate. }
  destruct (N.eq_dec c 95) as [-> |Hc].
  2: { left. assert (G : Ok false s = Ok r s').
       { rewrite <- H. destruct c as [|c]; [reflexivity|].
         do 7 (try (destruct c as [c|c|]; try reflexivity)). now destruct Hc. }
       injection G as <- <-. split; [reflexivity|]. split; [reflexivity|]. apply NO. congruence. }
  match type of H with (if ?c then _ else _) _ _ = _ => destruct c eqn:C end.
  2: { left. injection H as <- <-. split; [reflexivity|]. split; [reflexivity|].
       intros [(d & Hd & Ed) Hc]. assert (En : n = (48 + d)%N) by congruence. clear Ed NO.
       replace (MaybeByteM.in_range 49%N 57%N n) with true in C
         by (unfold MaybeByteM.in_range; symmetry; apply andb_true_intro; split; apply N.leb_le; lia).
       unfold is_in_dynamic_block in C.
       assert (X : ctx_get IN_BLOCK (b_context s) || ctx_get IN_LAMBDA (b_context s) = true)
         by (destruct Hc as [-> | ->]; [reflexivity | apply orb_true_r]).
       rewrite X, andb_true_r in C. now apply negb_false_iff in C. }
  right. apply andb_prop in C as [C C3]. apply andb_prop in C as [C1 _].
  assert (NU : numbered [95%N; n] s).
  { split.
    - unfold MaybeByteM.in_range in C1. apply andb_prop in C1 as [A B0]. apply N.leb_le in A, B0.
      exists (n - 48)%N. split; [lia|]. do 2 f_equal. lia.
    - unfold is_in_dynamic_block in C3. now apply orb_true_iff in C3. }
  clear C1.
  match type of H with match ?m e s with Ok _ _ => _ | Panic _ => _ | OutOfFuel => _ end = _ =>
    assert (C1 : calm never m) by calm1; destruct (m e s) as [a1 s1| |] eqn:E1; try discriminate end.
  destruct (C1 _ _ _ _ E1) as (d1 & -> & _).
  match type of H with match ?m e ?s1 with Ok _ _ => _ | Panic _ => _ | OutOfFuel => _ end = _ =>
    assert (C2 : calm never m) by calm1; destruct (m e s1) as [a2 s2| |] eqn:E2; try discriminate end.
  destruct (C2 _ _ _ _ E2) as (d2 & -> & _). rewrite with_app in *. unfold b_declare, modify, expect in H.
  destruct (np_register _ _) in H; cbv [ret panic] in H; try discriminate. injection H as <- <-.
  split; [reflexivity|]. split; [reflexivity|]. split; [repeat split; cbn; tauto|]. split; [|exact NU].
  exists (d1 ++ d2). reflexivity.
Qed.
Lemma accessible_shape x l e s r s' : accessible (NLvar x l) e s = Ok r s' ->
  (r = NLvar x l \/ r = NSend None x [] None (Some l) None None None l) /\
  b_static_env s' = fold_left (fun v y => declare y v) (read_ r) (b_static_env s) /\ frame [Params] s s' /\
  (exists ds, reported s s' ds) /\
  (r = NLvar x l <-> is_declared x (b_static_env s) = true \/ numbered x s).
Proof.
  unfold accessible. intros H. unfold bind in H at 1.
  match type of H with match ?m e s with Ok _ _ => _ | Panic _ => _ | OutOfFuel => _ end = _ =>
    assert (C1 : calm never m) by calm1; destruct (m e s) as [a1 s1| |] eqn:E1; try discriminate end.
  destruct (C1 _ _ _ _ E1) as (d1 & -> & _). unfold bind in H at 1.
  destruct (try_declare_numparam x l e (with_diags d1 s)) as [b s2| |] eqn:E2; try discriminate.
  apply try_shape in E2 as [(-> & -> & NN)|(-> & Hd & Hf & (d2 & Hr) & NN)].
  - unfold bind, get in H. cbv iota in H.
    destruct (is_declared x (b_static_env (with_diags d1 s))) eqn:D; cbn [negb] in H.
    + match type of H with match ?m e ?s1 with Ok _ _ => _ | Panic _ => _ | OutOfFuel => _ end = _ =>
        assert (C2 : calm never m) by calm1; destruct (m e s1) as [a2 s2| |] eqn:E2; try discriminate end.
      destruct (C2 _ _ _ _ E2) as (d2 & -> & _). injection H as <- <-. rewrite with_app. cbn [read_ fold_left].
      cbn [with_diags b_static_env] in *. rewrite (declared_again _ _ D). split; [now left|]. split; [reflexivity|].
      split; [repeat split|]. split; [exists (d1 ++ d2); reflexivity|]. split; [now left | reflexivity].
    + injection H as <- <-. cbn. split; [now right|]. split; [reflexivity|]. split; [repeat split|].
      split; [exists d1; reflexivity|]. split; [intros Q; discriminate Q|]. cbn in D. intros [D'|D']; [congruence|].
      apply NN in D'. cbn in D'. congruence.
  - injection H as <- <-. cbn [read_ fold_left]. split; [now left|]. split; [exact Hd|]. split.
    + eapply frame_trans; [apply incl_nil_l | apply incl_refl | | exact Hf]. repeat split.
    + split; [|split; [now right|reflexivity]].
      exists (d1 ++ d2). unfold reported in *. rewrite Hr. cbn. now rewrite app_assoc.
Qed.
Lemma read_run r e : se_run (List.map Declare (read_ r)) e = Some (fold_left (fun v y => declare y v) (read_ r) e).
Proof. destruct r; reflexivity. Qed.
Lemma d_accessible x l : does (accessible (NLvar x l)) (fun _ => false) (fun _ => read_) [Params].
Proof.
  intros e s r s' H. apply accessible_shape in H as (_ & E & F & (ds & R) & _). rewrite read_run, E. split; [reflexivity|].
  split; [exact F|]. exists ds. split; [exact R|discriminate].
Qed.
Lemma d_accessible_any m : does (accessible m) (fun _ => false) (fun _ r => match m with NLvar _ _ => read_ r | _ => [] end) [Params].
Proof.
  destruct m; try (eapply (does_calm _ never); [unfold accessible; calm1 | reflexivity | discriminate]; fail).
  apply d_accessible.
Qed.
Lemma accessible_other m e s : (forall x l, m <> NLvar x l) -> accessible m e s = Ok m s.
Proof. intros H. destruct m; try reflexivity. now destruct (H name expression_l). Qed.
Lemma d_pair_label t : does (pair_label t) (fun _ => false) (fun _ => value_read) [Params].
Proof.
  unfold pair_label. eapply does_bind; [apply calm_does; auto with calm | apply incl_nil_l | intros l].
  eapply does_bind; [apply calm_does; auto with calm | apply incl_nil_l | intros label].
  eapply does_bind; [apply calm_does, calm_gets | apply incl_nil_l | intros cc].
  eapply does_bind; [apply calm_does, calm_expect; reflexivity | apply incl_nil_l | intros first].
  intros e s r s' H. unfold bind in H. destruct (is_lowercase cc first).
  - destruct (accessible (NLvar label l) e s) as [v s1| |] eqn:E; try discriminate.
    destruct (d_accessible _ _ _ _ _ _ E) as (E1 & F & d1 & R & _).
    destruct (c_pair_keyword _ _ _ _ _ _ H) as (d2 & -> & _).
    assert (Hv : value_read r = read_ v).
    { unfold pair_keyword, bind in H.
      repeat match type of H with match ?m ?e ?s with Ok _ _ => _ | Panic _ => _ | OutOfFuel => _ end = _ =>
        destruct (m e s) as [? ?| |]; try discriminate end. now injection H as <- _. }
    rewrite Hv. split; [exact E1|]. split; [eapply frame_trans; [apply incl_refl | apply incl_nil_l | exact F | repeat split]|].
    exists (d1 ++ d2). unfold reported in *. cbn. rewrite R, app_assoc. split; [reflexivity|discriminate].
  - cbv [accessible ret] in H. assert (Hc : calm never (pair_keyword t (NConst None label None l l))) by auto with calm.
    destruct (Hc _ _ _ _ H) as (ds & -> & _).
    assert (Hv : value_read r = []).
    { unfold pair_keyword, bind in H.
      repeat match type of H with match ?m ?e ?s with Ok _ _ => _ | Panic _ => _ | OutOfFuel => _ end = _ =>
        destruct (m e s) as [? ?| |]; try discriminate end. now injection H as <- _. }
    rewrite Hv. split; [reflexivity|]. split; [repeat split|]. exists ds. split; [reflexivity|discriminate].
Qed.

(** Named groups *)
Lemma text_same l : (forall m, In m l -> regexp_text m = static_string_node m) ->
  fold_right (fun m acc => match regexp_text m, acc with Some a, Some b => Some (a ++ b) | _, _ => None end) (Some []) l
    = concat_opt static_string_node l.
Proof.
  induction l as [|a l IH]; intros H; [reflexivity|]. cbn. rewrite IH by (intros; apply H; now right).
  rewrite (H a (or_introl eq_refl)). destruct (static_string_node a); [|reflexivity]. now destruct (concat_opt static_string_node l).
Qed.
Lemma regexp_text_same : forall n, regexp_text n = static_string_node n.
Proof.
  apply (node_ind' (fun n => regexp_text n = static_string_node n)). intros n IH.
  destruct n; reflexivity.
Qed.
Lemma source_same l : regexp_source l = static_string l.
Proof. apply text_same. intros. apply regexp_text_same. Qed.
Lemma declare_run l e s : declare_all l e s =
  Ok tt (set_static_env (fold_left (fun v x => declare x v) l (b_static_env s)) s).
Proof.
  revert s. induction l as [|x l IH]; intros s; cbn [declare_all fold_left]; [now destruct s|].
  unfold bind, b_declare, modify. rewrite IH. reflexivity.
Qed.
Lemma declares_run l v : se_run (List.map Declare l) v = Some (fold_left (fun v x => declare x v) l v).
Proof. revert v. induction l as [|x l IH]; intros v; [reflexivity|]. cbn. apply IH. Qed.
Lemma d_match_op l t r : does (match_op l t r) none (fun s o => match o with Some n => captured s n | None => [] end) [].
Proof.
  intros e s o s' H. unfold match_op, bind in H.
  destruct (value_expr l e s) as [a s1| |] eqn:E1; try discriminate.
  destruct (c_value_expr _ _ _ _ _ E1) as (d1 & -> & W1).
  destruct a as [[]|]; [|injection H as <- <-; split; [reflexivity|]; split; [repeat split|]; exists d1; split; [reflexivity|auto]].
  destruct (value_expr r e (with_diags d1 s)) as [a s1| |] eqn:E2; try discriminate.
  destruct (c_value_expr _ _ _ _ _ E2) as (d2 & -> & W2). rewrite with_app in *.
  destruct a as [[]|].
  2: { injection H as <- <-; split; [reflexivity|]; split; [repeat split|]; exists (d1 ++ d2); split; [reflexivity|].
       intros _. apply error_app. auto. }
  destruct (static_regexp_captures l e (with_diags (d1 ++ d2) s)) as [c s1| |] eqn:E3; try discriminate.
  destruct (c_captures l _ _ _ _ E3) as (d3 & -> & _). rewrite with_app in *. destruct c as [names|].
  - rewrite declare_run in H. injection H as <- <-.
    assert (N : captured s (NMatchWithLvasgn l r (loc t) (join_exprs l r)) = names).
    { destruct l; try discriminate E3. cbn [static_regexp_captures] in E3. unfold build_static_regexp, bind, gets in E3.
      cbn [captured with_diags b_regex] in *. rewrite source_same. destruct (b_regex s) as [engine|]; [|discriminate].
      destruct (static_string parts) as [src|]; [|discriminate]. unfold extended.
      assert (X : forall x, match options with Some (NRegOpt (Some o) _) => existsb (N.eqb 120) o | _ => false end = x ->
        match engine src x with inr ns => ns | inl _ => [] end = names).
      { intros x <-. destruct options as [[]|]; try (cbn in E3; destruct (engine _ _); [discriminate|now injection E3]). }
      apply X. reflexivity. }
    rewrite N. cbn [set_static_env b_static_env with_diags]. rewrite declares_run. split; [reflexivity|].
    split; [repeat split|]. exists ((d1 ++ d2) ++ d3). split; [reflexivity|discriminate].
  - injection H as <- <-. cbn. split; [reflexivity|]. split; [repeat split|]. exists ((d1 ++ d2) ++ d3). split; [reflexivity|discriminate].
Qed.

(** ** The theorems *)

(** Every call: it declares exactly the variables its node introduces, in the innermost scope; it changes no stack
    but the named ones, nor the context; it only adds diagnostics; and if it fails it has reported an error *)
Theorem C54_call f e s r s' : Public f -> f_run f e s = Ok r s' ->
  se_run (List.map Declare (f_binds f s r)) (b_static_env s) = Some (b_static_env s') /\
  frame (f_stacks f) s s' /\
  exists ds, reported s s' ds /\ (f_failed f r = true -> has_error ds).
Proof.
  intros P. revert e s r s'. change (does (f_run f) (f_failed f) (f_binds f) (f_stacks f)).
  destruct P; cbn [total partial_ binding f_run f_failed f_binds f_stacks].
  all: try (apply d_accessible || apply d_pair_label || apply d_match_var || apply d_match_hash_var || apply d_from_str ||
            apply d_match_rest || apply d_match_pair || apply d_assignable || apply d_match_op || apply d_pattern_key).
  all: try (match goal with |- does (match_label ?k) _ _ _ => destruct k; [apply d_match_hash_var | apply d_from_str] end).
  all: first
    [ eapply (does_calm _ never); [|reflexivity|discriminate]; solve [auto with calm]
    | eapply (does_calm _ none); [|reflexivity|auto]; solve [auto with calm] | idtac ].
  all: try (intros e s r s' E; match type of E with accessible ?m _ _ = _ =>
    rewrite (accessible_other m) in E by assumption; injection E as <- <- end;
    split; [reflexivity|]; split; [repeat split|]; exists []; unfold reported; rewrite app_nil_r; split; [reflexivity|discriminate]).
  all: first
    [ eapply (does_calm _ none); [|reflexivity|intros [?|]; auto; discriminate]; 
      unfold op_assign, def_method, def_endless_method, def_singleton, def_endless_singleton, arg, optarg, restarg,
        kwarg, kwoptarg, kwrestarg, shadowarg, blockarg, block, binary_op, unary_op, not_op, logical_op, keyword_cmd;
      solve [calm1]
    | eapply (does_calm _ never); [|reflexivity|discriminate];
      unfold integer, float, rational, complex, unary_num, string_compose, symbol, symbol_internal, heredoc_dedent,
        regexp_options, regexp_compose, array, word, symbols_compose, associate, lvar, ivar, gvar, cvar, back_ref, nth_ref,
        const_, const_global, const_fetch, const_op_assignable, assign, multi_lhs, args_, procarg0, call_method, attr_asgn,
        condition_mod, begin_body, compstmt, hash_pattern, array_pattern, find_pattern; solve [calm1]].
Qed.
Print Assumptions C54_call.

(** In particular: a call that adds no error has succeeded *)
Corollary C54_no_silent_failure f e s r s' ds : Public f -> f_run f e s = Ok r s' ->
  b_diagnostics s' = b_diagnostics s ++ ds -> (forall d, In d ds -> dg_level d = Warning) -> f_failed f r = false.
Proof.
  intros P H E W. destruct (C54_call f e s r s' P H) as (_ & _ & ds' & R & F). unfold reported in R.
  rewrite E in R. apply app_inv_head in R as ->. destruct (f_failed f r); [|reflexivity].
  destruct (F eq_refl) as (d & I & D). rewrite (W d I) in D. discriminate.
Qed.

(** The scopes after a whole run are those of the history of declarations *)
Theorem C54_history h s : Session se_step h s -> se_run h se_new = Some (b_static_env s).
Proof.
  induction 1 as [s E|h s f e r s' _ IH P R|h s op s' _ IH R|h s s' _ IH E].
  - cbn. congruence.
  - rewrite (se_run_app _ _ _ _ IH). now destruct (C54_call f e s r s' P R) as (E & _).
  - rewrite (se_run_app _ _ _ _ IH). cbn. now rewrite R.
  - now rewrite E.
Qed.
(** A name that is read is a local variable exactly if it is visible: declared by an assignment, a pattern, a
    named group or the parser, in the present scope or in an enclosing one with only blocks in between; or if it
    is a numbered parameter.  Otherwise it is a method call *)
Theorem C54_read h s x l e r s' : Session se_step h s -> accessible (NLvar x l) e s = Ok r s' ->
  exists scopes, scope_run h outermost = Some scopes /\
    (r = NLvar x l <-> visible x scopes \/ numbered x s) /\
    (~ (visible x scopes \/ numbered x s) -> r = NSend None x [] None (Some l) None None None l).
Proof.
  intros S H. pose proof (C54_history h s S) as R. pose proof (C28_scoping h x) as C. rewrite R in C.
  destruct (scope_run h outermost) as [scopes|]; [|contradiction]. exists scopes. split; [reflexivity|].
  apply accessible_shape in H as (D & _ & _ & _ & Q). rewrite C in Q. split; [exact Q|].
  intros F. destruct D as [D|D]; [|exact D]. now apply Q in D.
Qed.
Print Assumptions C54_read.

(** ** Examples *)

(** [a = 1; f { b = a; def m; a; end }]: what the builder makes of each [a] *)
Definition lv (x : string) : Node := NLvar (bs x) (mkLoc 0 1).
Definition scope_changed (g : StaticEnv -> StaticEnv) (s : Builder) : Builder := set_static_env (g (b_static_env s)) s.
Definition assigning (x : string) : Func := binding (assignable (lv x)) (fun _ => assigned) [].
Definition after {A} (r : res Builder A) : Builder := match r with Ok _ s => s | _ => empty_builder end.
Definition made (x : string) : option Node := Some (NLvasgn (bs x) None (mkLoc 0 1) None (mkLoc 0 1)).
Definition s_a := after (assignable (lv "a") no_env empty_builder).
Definition s_block := scope_changed extend_dynamic s_a.
Definition s_b := after (assignable (lv "b") no_env s_block).
Definition s_def := scope_changed extend_static s_b.
Example C54_example :
  assignable (lv "a") no_env empty_builder = Ok (made "a") s_a /\
  assignable (lv "b") no_env s_block = Ok (made "b") s_b /\
  Session se_step [Declare (bs "a"); ExtendDynamic; Declare (bs "b"); ExtendStatic] s_def /\
  accessible (lv "a") no_env s_b = Ok (lv "a") s_b /\
  accessible (lv "a") no_env s_def =
    Ok (NSend None (bs "a") [] None (Some (mkLoc 0 1)) None None None (mkLoc 0 1)) s_def /\
  visible (bs "a") [mkScope true [bs "b"]; mkScope false [bs "a"]] /\ ~ visible (bs "a") [mkScope false []].
Proof.
  assert (E1 : assignable (lv "a") no_env empty_builder = Ok (made "a") s_a) by (vm_compute; reflexivity).
  assert (E2 : assignable (lv "b") no_env s_block = Ok (made "b") s_b) by (vm_compute; reflexivity).
  split; [exact E1|]. split; [exact E2|]. split.
  - pose proof (session_call se_step [] empty_builder (assigning "a") no_env (made "a") s_a
      (session_start se_step empty_builder eq_refl) (u_assignable (lv "a")) E1) as S1.
    pose proof (session_scope se_step _ _ ExtendDynamic s_block S1 eq_refl) as S2.
    pose proof (session_call se_step _ _ (assigning "b") no_env (made "b") s_b S2 (u_assignable (lv "b")) E2) as S3.
    exact (session_scope se_step _ _ ExtendStatic s_def S3 eq_refl).
  - split; [vm_compute; reflexivity|]. split; [vm_compute; reflexivity|]. split; [right; cbn; auto|]. cbn. tauto.
Qed.
(** [self = 1] fails with one error *)
Example C54_failure : exists s, assignable (NSelf_ (mkLoc 0 4)) no_env empty_builder = Ok None s /\
  b_diagnostics s = [mkDiag Error CantAssignToSelf (mkLoc 0 4)].
Proof. eexists. split; vm_compute; reflexivity. Qed.
