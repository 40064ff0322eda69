(** * Specification for C54: what a call of the builder does besides making a node

    The builder shares with the parser the scopes, the context and the stacks of the checks, and it reports
    diagnostics.  [Public] lists every function of the builder that can see this state, each with what it may
    declare, which of the stacks it may change, and when its answer is a failure.  (The functions that are not
    listed have type [Node] in the model: they do not take part in the state at all.) *)
Require Import Verif.Base Verif.TokensM Verif.NodeM Verif.ScopesM Verif.DiagnosticM Verif.Utf8M.
Require Import Verif.InputM Verif.LexerM Verif.BuilderM Verif.BuilderNodesM Verif.ScopeSpec.

(** The stacks of the checks *)
Inductive Stack : Type := Params | Patterns | Keys.

(** A function applied to its arguments *)
Record Func : Type := mkFunc {
  f_res : Type;
  f_run : B f_res;
  f_failed : f_res -> bool;                       (* is this answer a failure *)
  f_binds : Builder -> f_res -> list (list N);    (* the variables it declares, given where it starts and its answer *)
  f_stacks : list Stack                           (* the stacks it may change *)
}.
(** A function that cannot fail, one that can, neither with a further effect *)
Definition total {A} (m : B A) : Func := mkFunc A m (fun _ => false) (fun _ _ => []) [].
Definition partial_ (m : B (option Node)) : Func :=
  mkFunc (option Node) m (fun r => match r with None => true | Some _ => false end) (fun _ _ => []) [].
(** A function that can fail, and otherwise declares the variables that its node introduces *)
Definition binding (m : B (option Node)) (binds : Builder -> Node -> list (list N)) (stacks : list Stack) : Func :=
  mkFunc (option Node) m (fun r => match r with None => true | Some _ => false end)
    (fun s r => match r with Some n => binds s n | None => [] end) stacks.

(** The variable that a node introduces: an assignment, a variable in a pattern (also behind a star) *)
Definition assigned (n : Node) : list (list N) := match n with NLvasgn x _ _ _ _ => [x] | _ => [] end.
Definition matched (n : Node) : list (list N) := match n with NMatchVar x _ _ => [x] | _ => [] end.
Definition rest_matched (n : Node) : list (list N) := match n with NMatchRest (Some v) _ _ => matched v | _ => [] end.
(** A read variable is visible; a numbered parameter becomes so by being read *)
Definition read_ (n : Node) : list (list N) := match n with NLvar x _ => [x] | _ => [] end.
Definition value_read (n : Node) : list (list N) := match n with NPair _ v _ _ => read_ v | _ => [] end.

(** The text of a regular expression without interpolation (of variables or code that is not a string) *)
Fixpoint regexp_text (n : Node) : option (list N) :=
  match n with
  | NStr v _ _ _ => Some (utf8_lossy v)
  | NBegin l _ _ _ =>
      fold_right (fun m acc => match regexp_text m, acc with Some a, Some b => Some (a ++ b) | _, _ => None end)
        (Some []) l
  | _ => None
  end.
Definition regexp_source (l : list Node) : option (list N) :=
  fold_right (fun m acc => match regexp_text m, acc with Some a, Some b => Some (a ++ b) | _, _ => None end) (Some []) l.
Definition extended (options : option Node) : bool :=
  match options with Some (NRegOpt (Some o) _) => existsb (N.eqb 120%N) o | _ => false end.
(** A match of a regular expression on the left declares its named groups *)
Definition captured (s : Builder) (n : Node) : list (list N) :=
  match n with
  | NMatchWithLvasgn (NRegexp parts options _ _ _) _ _ _ =>
      match b_regex s, regexp_source parts with
      | Some engine, Some src => match engine src (extended options) with inr names => names | inl _ => [] end
      | _, _ => []
      end
  | _ => []
  end.

Inductive Public : Func -> Prop :=
(* literals *)
| u_integer t : Public (total (integer t))
| u_float t : Public (total (float t))
| u_rational t : Public (total (rational t))
| u_complex t : Public (total (complex t))
| u_unary_num t m : Public (total (unary_num t m))
| u_string_compose b l z : Public (total (string_compose b l z))
| u_symbol b t : Public (total (symbol b t))
| u_symbol_internal t : Public (total (symbol_internal t))
| u_symbol_compose b l z : Public (total (symbol_compose b l z))
| u_heredoc_dedent m d : Public (total (heredoc_dedent m d))
| u_regexp_options t : Public (total (regexp_options t))
| u_regexp_compose b l z o : Public (total (regexp_compose b l z o))
| u_array b l z : Public (total (array b l z))
| u_word l : Public (total (word l))
| u_symbols_compose b l z : Public (total (symbols_compose b l z))
| u_pair_keyword t v : Public (total (pair_keyword t v))
| u_pair_quoted b l z v : Public (total (pair_quoted b l z v))
| u_pair_label t : Public (mkFunc Node (pair_label t) (fun _ => false) (fun _ => value_read) [Params])
| u_associate b l z : Public (total (associate b l z))
(* access *)
| u_lvar t : Public (total (lvar t))
| u_ivar t : Public (total (ivar t))
| u_gvar t : Public (total (gvar t))
| u_cvar t : Public (total (cvar t))
| u_back_ref t : Public (total (back_ref t))
| u_nth_ref t : Public (total (nth_ref t))
| u_accessible x l : Public (mkFunc Node (accessible (NLvar x l)) (fun _ => false) (fun _ => read_) [Params])
| u_accessible_other m : (forall x l, m <> NLvar x l) -> Public (total (accessible m))
| u_const t : Public (total (const_ t))
| u_const_global t v : Public (total (const_global t v))
| u_const_fetch m t v : Public (total (const_fetch m t v))
(* assignments *)
| u_assignable m : Public (binding (assignable m) (fun _ n => match m with NLvar _ _ => assigned n | _ => [] end) [])
| u_const_op_assignable m : Public (total (const_op_assignable m))
| u_assign l t r : Public (total (assign l t r))
| u_op_assign l t r : Public (partial_ (op_assign l t r))
| u_multi_lhs b l z : Public (total (multi_lhs b l z))
(* definitions *)
| u_def_method kw t args body z : Public (partial_ (def_method kw t args body z))
| u_def_endless_method kw t args a body : Public (partial_ (def_endless_method kw t args a body))
| u_def_singleton kw d dot t args body z : Public (partial_ (def_singleton kw d dot t args body z))
| u_def_endless_singleton kw d dot t args a body : Public (partial_ (def_endless_singleton kw d dot t args a body))
(* formal arguments; a parameter list may be absent.  The parser itself declares the parameters *)
| u_args b l z : Public (total (args_ b l z))
| u_arg t : Public (partial_ (arg t))
| u_optarg t q d : Public (partial_ (optarg t q d))
| u_restarg t v : Public (partial_ (restarg t v))
| u_kwarg t : Public (partial_ (kwarg t))
| u_kwoptarg t d : Public (partial_ (kwoptarg t d))
| u_kwrestarg t v : Public (partial_ (kwrestarg t v))
| u_shadowarg t : Public (partial_ (shadowarg t))
| u_blockarg t v : Public (partial_ (blockarg t v))
| u_procarg0 m : Public (total (procarg0 m))
(* calls *)
| u_call_method recv dot sel b args z : Public (total (call_method recv dot sel b args z))
| u_block m b args body z : Public (partial_ (block m b args body z))
| u_attr_asgn m dot t : Public (total (attr_asgn m dot t))
| u_binary_op l t r : Public (partial_ (binary_op l t r))
| u_match_op l t r : Public (binding (match_op l t r) captured [])
| u_unary_op t m : Public (partial_ (unary_op t m))
| u_not_op t b m z : Public (partial_ (not_op t b m z))
(* control flow *)
| u_logical_op k l t r : Public (partial_ (logical_op k l t r))
| u_condition_mod t f kw c : Public (total (condition_mod t f kw c))
| u_keyword_cmd k kw b l z : Public (partial_ (keyword_cmd k kw b l z))
(* bodies; they may be absent *)
| u_begin_body c l el ens : Public (total (begin_body c l el ens))
| u_compstmt l : Public (total (compstmt l))
(* pattern matching *)
| u_match_var t : Public (binding (match_var t) (fun _ => matched) [Patterns])
| u_match_hash_var t : Public (binding (match_hash_var t) (fun _ => matched) [Patterns])
| u_match_hash_var_from_str b l z : Public (binding (match_hash_var_from_str b l z) (fun _ => matched) [Patterns])
| u_match_rest t v : Public (binding (match_rest t v) (fun _ => rest_matched) [Patterns])
| u_hash_pattern b l z : Public (total (hash_pattern b l z))
| u_array_pattern b l comma z : Public (total (array_pattern b l comma z))
| u_find_pattern b l z : Public (total (find_pattern b l z))
| u_match_pair k v : Public (binding (match_pair k v) (fun _ _ => []) [Keys])
| u_match_label k : Public (binding (match_label k) (fun _ => matched) [Patterns])
(* checks that the parser calls itself *)
| u_value_expr m : Public (mkFunc (option unit) (value_expr m) (fun r => match r with None => true | Some _ => false end) (fun _ _ => []) [])
| u_check_duplicate_args l : Public (total (check_duplicate_args l []))
| u_check_reserved x l : Public (mkFunc (option unit) (check_reserved_for_numparam x l) (fun r => match r with None => true | Some _ => false end) (fun _ _ => []) [])
| u_check_key x l : Public (mkFunc (option unit) (check_duplicate_pattern_key x l) (fun r => match r with None => true | Some _ => false end) (fun _ _ => []) [Keys]).

(** What stays: the context, the parameter being read and the options always, each stack unless it is named *)
Definition frame (stacks : list Stack) (s s' : Builder) : Prop :=
  b_context s' = b_context s /\ b_current_arg_stack s' = b_current_arg_stack s /\ b_chars s' = b_chars s /\
  b_regex s' = b_regex s /\
  (~ In Params stacks -> b_max_numparam_stack s' = b_max_numparam_stack s) /\
  (~ In Patterns stacks -> b_pattern_variables s' = b_pattern_variables s) /\
  (~ In Keys stacks -> b_pattern_hash_keys s' = b_pattern_hash_keys s).
(** Diagnostics are only added *)
Definition reported (s s' : Builder) (ds : list Diagnostic) : Prop := b_diagnostics s' = b_diagnostics s ++ ds.
Definition has_error (ds : list Diagnostic) : Prop := exists d, In d ds /\ dg_level d = Error.

(** ** A whole run of a parser

    The parser calls the builder, enters and leaves scopes, declares parameters, and does as it likes with the
    rest of the state.  [Session h s]: this led to the state [s], and [h] is what it did with scopes. *)
Inductive Session (scope : ScopeOp -> StaticEnv -> option StaticEnv) : list ScopeOp -> Builder -> Prop :=
| session_start s : b_static_env s = se_new -> Session scope [] s
| session_call h s f e r s' : Session scope h s -> Public f -> f_run f e s = Ok r s' ->
    Session scope (h ++ List.map Declare (f_binds f s r)) s'
| session_scope h s op s' : Session scope h s -> scope op (b_static_env s) = Some (b_static_env s') ->
    Session scope (h ++ [op]) s'
| session_other h s s' : Session scope h s -> b_static_env s' = b_static_env s -> Session scope h s'.
