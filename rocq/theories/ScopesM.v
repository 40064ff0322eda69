(** * Model of the parser's scope bookkeeping

    src/static_environment.rs, src/variables_stack.rs, src/current_arg_stack.rs,
    src/max_numparam_stack.rs, src/context.rs.  The [Rc<RefCell<_>>] sharing is not modelled: each value
    is a pure state threaded by the caller.  Strings are byte lists.  A [BTreeSet<String>] is a list used
    only through membership and insertion.  Stacks ([Vec]) are lists with the top first. *)
Require Import Verif.Base.

Definition strset := list (list N).
Definition set_contains (name : list N) (s : strset) : bool := existsb (bytes_eqb name) s.
Definition set_insert (name : list N) (s : strset) : strset :=
  if set_contains name s then s else name :: s.

(** ** src/static_environment.rs *)

(** static_environment.rs 25-28 *)
Record StaticEnv : Type := mkSE { se_variables : strset; se_stack : list strset }.

(** 35-40 *)
Definition se_new : StaticEnv := mkSE [] [].
(** 42-44 *)
Definition se_is_empty (e : StaticEnv) : bool := match se_stack e with [] => true | _ => false end.
(** 49-52 *)
Definition extend_static (e : StaticEnv) : StaticEnv := mkSE [] (se_variables e :: se_stack e).
(** 57-61 *)
Definition extend_dynamic (e : StaticEnv) : StaticEnv :=
  mkSE (se_variables e) (se_variables e :: se_stack e).
(** 64-70; [None] is the panic of [expect] *)
Definition unextend (e : StaticEnv) : option StaticEnv :=
  match se_stack e with
  | vars :: rest => Some (mkSE vars rest)
  | [] => None
  end.
(** 73-75 *)
Definition declare (name : list N) (e : StaticEnv) : StaticEnv :=
  mkSE (set_insert name (se_variables e)) (se_stack e).
(** 78-80 *)
Definition is_declared (name : list N) (e : StaticEnv) : bool := set_contains name (se_variables e).
(** 30-31, 82-96 *)
Definition FORWARD_ARGS : list N := bs "FORWARD_ARGS".
Definition ANONYMOUS_BLOCKARG : list N := bs "ANONYMOUS_BLOCKARG".
Definition declare_forward_args : StaticEnv -> StaticEnv := declare FORWARD_ARGS.
Definition is_forward_args_declared : StaticEnv -> bool := is_declared FORWARD_ARGS.
Definition declare_anonymous_blockarg : StaticEnv -> StaticEnv := declare ANONYMOUS_BLOCKARG.
Definition is_anonymous_blockarg_declared : StaticEnv -> bool := is_declared ANONYMOUS_BLOCKARG.

(** ** src/variables_stack.rs *)

(** variables_stack.rs 6-8 *)
Definition VariablesStack := list strset.
(** 11-19 *)
Definition vs_new : VariablesStack := [].
Definition vs_is_empty (s : VariablesStack) : bool := match s with [] => true | _ => false end.
(** 21-27; [Vec::pop] on an empty stack does nothing *)
Definition vs_push (s : VariablesStack) : VariablesStack := [] :: s.
Definition vs_pop (s : VariablesStack) : VariablesStack := tl s.
(** 29-35; [None] is the panic *)
Definition vs_declare (name : list N) (s : VariablesStack) : option VariablesStack :=
  match s with
  | top :: rest => Some (set_insert name top :: rest)
  | [] => None
  end.
(** 37-43 *)
Definition vs_is_declared (name : list N) (s : VariablesStack) : option bool :=
  match s with
  | top :: _ => Some (set_contains name top)
  | [] => None
  end.

(** ** src/current_arg_stack.rs *)

(** current_arg_stack.rs 13-15 *)
Definition CurrentArgStack := list (option (list N)).
(** 18-26 *)
Definition ca_new : CurrentArgStack := [].
Definition ca_is_empty (s : CurrentArgStack) : bool := match s with [] => true | _ => false end.
(** 28-39 *)
Definition ca_push (v : option (list N)) (s : CurrentArgStack) : CurrentArgStack := v :: s.
Definition ca_pop (s : CurrentArgStack) : CurrentArgStack := tl s.
Definition ca_set (v : option (list N)) (s : CurrentArgStack) : CurrentArgStack := ca_push v (ca_pop s).
(** 41-46 *)
Definition ca_top (s : CurrentArgStack) : option (list N) :=
  match s with Some v :: _ => Some v | _ => None end.

(** ** src/max_numparam_stack.rs *)

(** max_numparam_stack.rs 5-13 *)
Record NumItem : Type := mkNumItem { ni_value : Z; ni_is_static : bool }.
Definition MaxNumparamStack := list NumItem.
Definition i32_min : Z := (-2147483648)%Z.
(** 16 *)
Definition ORDINARY_PARAMS : Z := (-1)%Z.
(** 18-26 *)
Definition np_new : MaxNumparamStack := [].
Definition np_is_empty (s : MaxNumparamStack) : bool := match s with [] => true | _ => false end.
(** 44-50 *)
Definition np_top (s : MaxNumparamStack) : Z :=
  match s with i :: _ => ni_value i | [] => i32_min end.
(** 52-61 *)
Definition np_push (is_static : bool) (s : MaxNumparamStack) : MaxNumparamStack :=
  mkNumItem 0 is_static :: s.
Definition np_pop (s : MaxNumparamStack) : MaxNumparamStack := tl s.
(** 63-67; [None]: [len - 1] underflows on an empty stack *)
Definition np_set (v : Z) (s : MaxNumparamStack) : option MaxNumparamStack :=
  match s with
  | i :: rest => Some (mkNumItem v (ni_is_static i) :: rest)
  | [] => None
  end.
(** 28-42 *)
Definition np_set_has_ordinary_params (s : MaxNumparamStack) : option MaxNumparamStack :=
  np_set ORDINARY_PARAMS s.
Definition np_has_ordinary_params (s : MaxNumparamStack) : bool := Z.eqb (np_top s) ORDINARY_PARAMS.
Definition np_has_numparams (s : MaxNumparamStack) : bool := Z.ltb 0 (np_top s).
Definition np_register (numparam : Z) (s : MaxNumparamStack) : option MaxNumparamStack :=
  np_set (Z.max (np_top s) numparam) s.

(** ** src/context.rs *)

(** context.rs 9-12 *)
Definition Context := N.
(** The flags of context.rs 48-54 *)
Inductive CtxFlag : Type :=
  IN_DEFINED | IN_KWARG | IN_ARGDEF | IN_DEF | IN_CLASS | IN_LAMBDA | IN_BLOCK.
Definition flag_bit (f : CtxFlag) : N :=
  match f with
  | IN_DEFINED => 1 | IN_KWARG => 2 | IN_ARGDEF => 4 | IN_DEF => 8
  | IN_CLASS => 16 | IN_LAMBDA => 32 | IN_BLOCK => 64
  end%N.
(** The getter and setter of the macro, context.rs 19-32; [!flag] is the complement on 64 bits *)
Definition ctx_get (f : CtxFlag) (c : Context) : bool := negb (N.eqb (N.land c (flag_bit f)) 0).
Definition ctx_set (f : CtxFlag) (v : bool) (c : Context) : Context :=
  if v then N.lor c (flag_bit f)
  else N.land c (N.lxor (N.ones 64) (flag_bit f)).
(** 57-59 *)
Definition ctx_new : Context := 0%N.
(** 65-71 *)
Definition is_in_dynamic_block (c : Context) : bool := ctx_get IN_BLOCK c || ctx_get IN_LAMBDA c.
Definition ctx_is_empty (c : Context) : bool := N.eqb c 0.
