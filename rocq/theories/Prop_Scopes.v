(** * C21, C27-C29: reserved words, bit stacks, scopes, small stacks and context flags *)
Require Import Verif.Base Verif.StackStateM Verif.ScopesM Verif.LexStateM Verif.TokensM Verif.ReservedM Verif.ScopeSpec Verif.ScopeProofs.

(** C21.  [reserved_word] finds exactly the entries of the table, ... *)
Theorem C21_reserved_word_complete : forall tok : list N,
  match reserved_word tok with
  | Some w => In w RESERVED_TABLE /\ rw_name w = tok
  | None => forall w, In w RESERVED_TABLE -> rw_name w <> tok
  end.
Proof. exact reserved_word_ok. Qed.
Print Assumptions C21_reserved_word_complete.

(** ... of which there is one per name, ... *)
Theorem C21_reserved_table_unique : forall v w : ReservedWord,
  In v RESERVED_TABLE -> In w RESERVED_TABLE -> rw_name v = rw_name w -> v = w.
Proof. exact reserved_table_unique. Qed.
Print Assumptions C21_reserved_table_unique.

(** ... and the names are the 41 keywords of Ruby. *)
Theorem C21_reserved_word_keywords : forall tok : list N,
  (exists w, reserved_word tok = Some w) <-> In tok (map bs ruby_keywords).
Proof. exact reserved_word_is_keyword. Qed.
Print Assumptions C21_reserved_word_keywords.

Example C21_example :
  reserved_word (bs "unless") = Some (mkRW (bs "unless") kUNLESS kUNLESS_MOD EXPR_VALUE) /\
  reserved_word (bs "unlesz") = None /\ List.length ruby_keywords = 41.
Proof. repeat split; vm_compute; reflexivity. Qed.

(** C27.  The bit stack is exactly a stack of booleans that remembers the newest 64 entries, ... *)
Theorem C27_stack_state_bounded : forall ops : list StackOp,
  ss_is_active (ss_run ops ss_new) = stack_top (bounded_run 64 ops []).
Proof.
  intros ops. change ss_new with (bits []). rewrite ss_run_bits by (simpl; lia). apply ss_active_bits.
Qed.
Print Assumptions C27_stack_state_bounded.

(** ... hence a stack as long as the nesting stays within 64, ... *)
Theorem C27_stack_state_lifo : forall ops : list StackOp,
  depth_ok 64 ops [] -> ss_is_active (ss_run ops ss_new) = stack_top (stack_run ops []).
Proof.
  intros ops H. rewrite C27_stack_state_bounded, bounded_run_depth; auto.
Qed.
Print Assumptions C27_stack_state_lifo.

(** ... but not beyond: the claim for every sequence is false. *)
Theorem C27_stack_state_lifo_refuted : exists ops : list StackOp,
  ss_is_active (ss_run ops ss_new) <> stack_top (stack_run ops []).
Proof.
  exists (SPush true :: repeat (SPush false) 64 ++ repeat SPop 64). vm_compute. discriminate.
Qed.
Print Assumptions C27_stack_state_lifo_refuted.

Example C27_example :
  let ops := [SPush true; SPush false; SPop; SPush true; SPush false; SPop; SPop] in
  depth_ok 64 ops [] /\ ss_is_active (ss_run ops ss_new) = true.
Proof. split; [simpl; repeat split; lia|reflexivity]. Qed.

(** C28.  Lexical scoping: the environment and a list of scopes run in lockstep and agree on visibility. *)
Theorem C28_scoping : forall (ops : list ScopeOp) (x : list N),
  match se_run ops se_new, scope_run ops outermost with
  | Some e, Some scopes => is_declared x e = true <-> visible x scopes
  | None, None => True
  | _, _ => False
  end.
Proof.
  intros ops x. pose proof (represents_run ops se_new outermost represents_init) as H.
  destruct (se_run ops se_new), (scope_run ops outermost); auto.
  apply represents_visible. exact H.
Qed.
Print Assumptions C28_scoping.

(** Leaving a scope restores the environment of the matching entry exactly. *)
Theorem C28_unextend_restores : forall (op : ScopeOp) (h : list ScopeOp) (e : StaticEnv),
  op = ExtendStatic \/ op = ExtendDynamic -> balanced h -> se_run (op :: h ++ [Unextend]) e = Some e.
Proof. exact unextend_restores. Qed.
Print Assumptions C28_unextend_restores.

Example C28_example :
  let ops := [Declare (bs "a"); ExtendDynamic; Declare (bs "b"); ExtendStatic; Declare (bs "c")] in
  (exists e, se_run ops se_new = Some e /\
             is_declared (bs "c") e = true /\ is_declared (bs "a") e = false) /\
  (exists e, se_run (ops ++ [Unextend]) se_new = Some e /\
             is_declared (bs "a") e = true /\ is_declared (bs "b") e = true /\ is_declared (bs "c") e = false) /\
  balanced [Declare (bs "b"); ExtendStatic; Declare (bs "c"); Unextend].
Proof.
  split; [|split].
  - eexists; split; [reflexivity|split; reflexivity].
  - eexists; split; [reflexivity|repeat split; reflexivity].
  - apply bal_declare. apply (bal_scope ExtendStatic [Declare (bs "c")] []); auto; repeat constructor.
Qed.

(** C29.  Popping restores the enclosing entries, for every balanced history in between. *)
Theorem C29_numparam_restores : forall is_static h s,
  hbalanced h -> h_run np_push np_pop np_change (HPush is_static :: h ++ [HPop]) s = Some s.
Proof. intros is_static h s H. apply h_restores; auto; [exact np_change_top|intros; unfold np_push; eauto]. Qed.
Print Assumptions C29_numparam_restores.

Theorem C29_current_arg_restores : forall v h s,
  hbalanced h -> h_run ca_push ca_pop ca_change (HPush v :: h ++ [HPop]) s = Some s.
Proof. intros v h s H. apply h_restores; auto; [exact ca_change_top|intros; unfold ca_push; eauto]. Qed.
Print Assumptions C29_current_arg_restores.

Theorem C29_variables_restores : forall h s,
  hbalanced h -> h_run (fun _ : unit => vs_push) vs_pop vs_declare (HPush tt :: h ++ [HPop]) s = Some s.
Proof. intros h s H. apply h_restores; auto; [exact vs_change_top|intros; unfold vs_push; eauto]. Qed.
Print Assumptions C29_variables_restores.

(** register keeps the maximum and touches the innermost entry only *)
Theorem C29_register_keeps_max : forall v s s',
  np_register v s = Some s' -> np_top s' = Z.max (np_top s) v /\ tl s' = tl s.
Proof. exact np_register_max. Qed.
Print Assumptions C29_register_keeps_max.

(** declare adds exactly that name to the innermost set *)
Theorem C29_variables_declare : forall x y s s',
  vs_declare y s = Some s' -> (vs_is_declared x s' = Some true <-> x = y \/ vs_is_declared x s = Some true).
Proof. exact vs_declare_spec. Qed.
Print Assumptions C29_variables_declare.

(** the innermost argument is the last one set *)
Theorem C29_current_arg_top : forall v s, ca_top (ca_set v s) = v /\ ca_top (ca_push v s) = v /\ ca_pop (ca_push v s) = s.
Proof. intros [v|] s; repeat split; reflexivity. Qed.
Print Assumptions C29_current_arg_top.

(** context flags are independent *)
Theorem C29_context_flags : forall (f g : CtxFlag) (v : bool) (c : Context),
  (f = g -> ctx_get f (ctx_set g v c) = v) /\ (f <> g -> ctx_get f (ctx_set g v c) = ctx_get f c).
Proof.
  intros f g v c. rewrite ctx_get_set. split; intros H.
  - subst. rewrite N.eqb_refl. reflexivity.
  - destruct (N.eqb_spec (flag_pos f) (flag_pos g)) as [E|E]; auto. apply flag_pos_inj in E. contradiction.
Qed.
Print Assumptions C29_context_flags.

Example C29_example :
  hbalanced [HChange (NpRegister 2%Z); HPush false; HChange NpOrdinary; HPop] /\
  h_run np_push np_pop np_change [HPush true; HChange (NpRegister 2%Z); HChange (NpRegister 1%Z)] []
    = Some [mkNumItem 2 true] /\
  ctx_get IN_CLASS (ctx_set IN_DEF true (ctx_set IN_CLASS true ctx_new)) = true.
Proof.
  split; [|split; reflexivity].
  apply hb_change. apply (hb_nest false [HChange NpOrdinary] []); repeat constructor.
Qed.
