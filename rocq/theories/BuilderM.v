(** * src/builder.rs: the state of the builder, its helper functions and its checks

    [Builder] (builder.rs 61-71) holds shared mutable state.  The [Rc<RefCell<_>>] cells are modelled as one
    state record threaded through every call; [pool_factory] (a memory pool) is left out.  [Result<T, ()>] is
    [option T]: [None] is [Err(())].  Unicode properties of characters outside ASCII ([char::is_lowercase],
    [char::is_alphanumeric]) and the regular expression engine of the optional feature "onig" (off by default)
    are parameters stored in the record and never changed. *)
Require Import Verif.Base Verif.MaybeByteM Verif.Utf8M Verif.InputM Verif.ScopesM Verif.TokensM
  Verif.DiagnosticM Verif.LexerM Verif.NodeM.

(** ** State *)

(** What std knows about code points from 128 on *)
Record CharClass : Type := mkCharClass { cc_lower : N -> bool; cc_alnum : N -> bool }.

(** The engine behind the feature "onig": given the source of a static regexp and whether option [x] is set,
    either the description of an error or the names of the captures, builder.rs 3959-3989, 4010-4035 *)
Definition RegexEngine := list N -> bool -> list N + list (list N).

(** builder.rs 61-71 *)
Record Builder : Type := mkBuilder {
  b_static_env : StaticEnv;
  b_context : Context;
  b_current_arg_stack : CurrentArgStack;
  b_max_numparam_stack : MaxNumparamStack;
  b_pattern_variables : VariablesStack;
  b_pattern_hash_keys : VariablesStack;
  b_diagnostics : list Diagnostic;
  b_chars : CharClass;
  b_regex : option RegexEngine
}.
Definition B (A : Type) : Type := M Builder A.

Definition set_static_env (v : StaticEnv) (b : Builder) : Builder :=
  mkBuilder v (b_context b) (b_current_arg_stack b) (b_max_numparam_stack b) (b_pattern_variables b)
    (b_pattern_hash_keys b) (b_diagnostics b) (b_chars b) (b_regex b).
Definition set_numparams (v : MaxNumparamStack) (b : Builder) : Builder :=
  mkBuilder (b_static_env b) (b_context b) (b_current_arg_stack b) v (b_pattern_variables b)
    (b_pattern_hash_keys b) (b_diagnostics b) (b_chars b) (b_regex b).
Definition set_pattern_variables (v : VariablesStack) (b : Builder) : Builder :=
  mkBuilder (b_static_env b) (b_context b) (b_current_arg_stack b) (b_max_numparam_stack b) v
    (b_pattern_hash_keys b) (b_diagnostics b) (b_chars b) (b_regex b).
Definition set_pattern_hash_keys (v : VariablesStack) (b : Builder) : Builder :=
  mkBuilder (b_static_env b) (b_context b) (b_current_arg_stack b) (b_max_numparam_stack b)
    (b_pattern_variables b) v (b_diagnostics b) (b_chars b) (b_regex b).
Definition add_diag (d : Diagnostic) (b : Builder) : Builder :=
  mkBuilder (b_static_env b) (b_context b) (b_current_arg_stack b) (b_max_numparam_stack b)
    (b_pattern_variables b) (b_pattern_hash_keys b) (b_diagnostics b ++ [d]) (b_chars b) (b_regex b).

(** Rust's [?] on [Result<_, ()>] *)
Notation "x <-? m ;; k" := (bind m (fun r => match r with Some x => k | None => ret None end))
  (at level 61, m at next level, right associativity) : monad_scope.
Definition ok {S A} (a : A) : M S (option A) := ret (Some a).
Definition err {S A} : M S (option A) := ret None.

(** ** Strings *)

Definition FFFD : list N := [239; 191; 189]%N.
(** [String::from_utf8_lossy]: every maximal ill-formed piece becomes U+FFFD (documented behaviour of std) *)
Fixpoint utf8_lossy (l : list N) : list N :=
  match l with
  | [] => []
  | c1 :: r1 =>
      if (c1 <? 128)%N then c1 :: utf8_lossy r1
      else if in_range 194%N 223%N c1 then
        match r1 with
        | c2 :: r2 => if is_cont c2 then c1 :: c2 :: utf8_lossy r2 else FFFD ++ utf8_lossy r1
        | [] => FFFD
        end
      else if in_range 224%N 239%N c1 then
        match r1 with
        | c2 :: r2 =>
            if second3_ok c1 c2 then
              match r2 with
              | c3 :: r3 => if is_cont c3 then c1 :: c2 :: c3 :: utf8_lossy r3 else FFFD ++ utf8_lossy r2
              | [] => FFFD
              end
            else FFFD ++ utf8_lossy r1
        | [] => FFFD
        end
      else if in_range 240%N 244%N c1 then
        match r1 with
        | c2 :: r2 =>
            if second4_ok c1 c2 then
              match r2 with
              | c3 :: r3 =>
                  if is_cont c3 then
                    match r3 with
                    | c4 :: r4 => if is_cont c4 then c1 :: c2 :: c3 :: c4 :: utf8_lossy r4
                                  else FFFD ++ utf8_lossy r3
                    | [] => FFFD
                    end
                  else FFFD ++ utf8_lossy r2
              | [] => FFFD
              end
            else FFFD ++ utf8_lossy r1
        | [] => FFFD
        end
      else FFFD ++ utf8_lossy r1
  end.

(** [str::chars] of a valid string; the length of a character from its first byte *)
Definition char_len (c : N) : nat :=
  if (c <? 128)%N then 1 else if (c <? 224)%N then 2 else if (c <? 240)%N then 3 else 4.
Fixpoint chars_n (n : nat) (l : list N) : list N :=
  match n with
  | O => []
  | S n => match l with
           | [] => []
           | c :: _ => match first_char l with
                       | Some cp => cp :: chars_n n (skipn (char_len c) l)
                       | None => []
                       end
           end
  end.
Definition chars (l : list N) : list N := chars_n (List.length l) l.

(** [char::is_lowercase], [char::is_alphanumeric] *)
Definition is_lowercase (cc : CharClass) (c : N) : bool :=
  if (c <? 128)%N then in_range 97%N 122%N c else cc_lower cc c.
Definition is_alphanumeric (cc : CharClass) (c : N) : bool :=
  if (c <? 128)%N then in_range 97%N 122%N c || in_range 65%N 90%N c || in_range 48%N 57%N c else cc_alnum cc c.

(** [&s[1..]] and [&s[0..1]] on a [&str]: panic unless 1 is a character boundary *)
Definition boundary1 (s : list N) : bool :=
  match s with
  | [] => false
  | [_] => true
  | _ :: c :: _ => negb (is_cont c)
  end.
Definition str_from1 (s : list N) : B (list N) :=
  if boundary1 s then ret (tl s) else panic "byte index 1 is not a char boundary".
Definition str_to1 (s : list N) : B (list N) :=
  if boundary1 s then ret (firstn 1 s) else panic "byte index 1 is not a char boundary".

(** [str::parse::<usize>()]: an optional '+', then at least one digit, no overflow of 64 bits *)
Fixpoint parse_digits (l : list N) (acc : N) : option N :=
  match l with
  | [] => Some acc
  | c :: l => if in_range 48%N 57%N c then
                let v := (acc * 10 + (c - 48))%N in
                if (v <? 2 ^ 64)%N then parse_digits l v else None
              else None
  end.
Definition parse_usize (l : list N) : option N :=
  match l with
  | [] => None
  | [43%N] => None
  | 43%N :: l => parse_digits l 0
  | _ => parse_digits l 0
  end.

(** builder.rs 4300-4310; [into_string().unwrap()] panics on invalid UTF-8 *)
Definition value (t : Token) : B (list N) :=
  if utf8_valid (token_value t) then ret (token_value t)
  else panic "called `Result::unwrap()` on an `Err` value".
Definition clone_value (t : Token) : list N := utf8_lossy (token_value t).
Definition maybe_value (t : option Token) : B (option (list N)) :=
  match t with Some t => v <- value t ;; ret (Some v) | None => ret None end.

(** ** Locations *)

(** [adjust_begin], [adjust_end] of the external crate (text kept in loc_ext.rs 65-94): conversions to i32 and
    back, each of which panics when out of range *)
Definition i32_max : Z := 2147483647%Z.
Definition shift_pos (p : nat) (d : Z) : B nat :=
  if (Z.of_nat p <=? i32_max)%Z then
    let r := (Z.of_nat p + d)%Z in
    if (i32_max <? r)%Z then panic "attempt to add with overflow"
    else if (r <? 0)%Z then panic "failed to convert location to usize (is it negative?)"
    else ret (Z.to_nat r)
  else panic "failed to convert location to i32 (is it too big?)".
Definition adjust_begin (l : Loc) (d : Z) : B Loc :=
  p <- shift_pos (loc_begin l) d ;; ret (mkLoc p (loc_end l)).
Definition adjust_end (l : Loc) (d : Z) : B Loc :=
  p <- shift_pos (loc_end l) d ;; ret (mkLoc (loc_begin l) p).
(** [resize], loc_ext.rs 96-100 *)
Definition resize (l : Loc) (n : nat) : Loc := with_end l (loc_begin l + n).
(** [size], then [try_into::<i32>().expect(..)], builder.rs 3352-3356, 3360-3364 *)
Definition size_i32 (l : Loc) : B Z :=
  n <- expect (loc_size l) "attempt to subtract with overflow" ;;
  if (Z.of_nat n <=? i32_max)%Z then ret (Z.of_nat n)
  else panic "failed to convert usize loc into i32, is it too big?".

(** [slice::last], [slice::first] *)
Fixpoint last_opt {A} (l : list A) : option A :=
  match l with [] => None | [x] => Some x | _ :: l => last_opt l end.
Definition first_opt {A} (l : list A) : option A := match l with [] => None | x :: _ => Some x end.

(** builder.rs 4042-4048 *)
Definition maybe_loc (t : option Token) : option Loc := option_map token_loc t.
(** 4288-4298, 4312-4327 *)
Definition maybe_node_expr (n : option Node) : option Loc := option_map expression n.
Definition join_exprs (lhs rhs : Node) : Loc := loc_join (expression lhs) (expression rhs).
Definition join_maybe_locs (lhs rhs : option Loc) : option Loc :=
  match lhs, rhs with
  | None, None => None
  | None, Some rhs => Some rhs
  | Some lhs, None => Some lhs
  | Some lhs, Some rhs => Some (loc_join lhs rhs)
  end.
Definition join_maybe_exprs (lhs rhs : option Node) : option Loc :=
  join_maybe_locs (maybe_node_expr lhs) (maybe_node_expr rhs).
Definition collection_expr (nodes : list Node) : option Loc :=
  join_maybe_exprs (first_opt nodes) (last_opt nodes).
(** [Option::or_else] *)
Definition or_else {A} (a b : option A) : option A := match a with Some _ => a | None => b end.
Definition unwrap_or {A} (a : option A) (b : A) : A := match a with Some a => a | None => b end.

(** 4050-4071, 4329-4333 *)
Definition collection_map (begin_t : option Token) (parts : list Node) (end_t : option Token)
  : B (option Loc * option Loc * Loc) :=
  let begin_l := maybe_loc begin_t in
  let end_l := maybe_loc end_t in
  let expression_l := collection_expr parts in
  let expression_l := join_maybe_locs expression_l begin_l in
  let expression_l := join_maybe_locs expression_l end_l in
  expression_l <- expect expression_l "empty collection without begin_t/end_t, can't build source map" ;;
  ret (begin_l, end_l, expression_l).

(** 4073-4081 *)
Definition heredoc_mark (v : list N) : bool :=
  match v with 60%N :: 60%N :: _ => true | _ => false end.
Definition is_heredoc (begin_t : option Token) : bool :=
  match begin_t with Some t => heredoc_mark (token_value t) | None => false end.
(** 4083-4101, 4335-4339 *)
Definition heredoc_map (begin_t : option Token) (parts : list Node) (end_t : option Token)
  : B (Loc * Loc * Loc) :=
  begin_t <- expect begin_t "bug: begin_t must be Some" ;;
  end_t <- expect end_t "heredoc must have end_t" ;;
  let heredoc_body_l := unwrap_or (collection_expr parts) (token_loc end_t) in
  ret (heredoc_body_l, token_loc end_t, token_loc begin_t).

(** ** Diagnostics: 4103-4117 *)
Definition b_error (m : Msg) (l : Loc) : B unit := modify (add_diag (mkDiag Error m l)).
Definition b_warn (m : Msg) (l : Loc) : B unit := modify (add_diag (mkDiag Warning m l)).

(** [self.static_env.declare(name)] *)
Definition b_declare (name : list N) : B unit :=
  modify (fun b => set_static_env (declare name (b_static_env b)) b).

(** ** Verification *)

(** [Option::map] with a recursive function (so that the recursion below is structural) *)
Definition map_opt {A C} (f : A -> C) (o : option A) : option C :=
  match o with Some a => Some (f a) | None => None end.

(** check_condition, builder.rs 3618-3707 *)
Fixpoint check_condition (cond : Node) : Node :=
  match cond with
  | NBegin statements begin_l end_l expression_l =>
      match statements with
      | [stmt] => NBegin [check_condition stmt] begin_l end_l expression_l
      | _ => cond
      end
  | NAnd lhs rhs operator_l expression_l =>
      NAnd (check_condition lhs) (check_condition rhs) operator_l expression_l
  | NOr lhs rhs operator_l expression_l =>
      NOr (check_condition lhs) (check_condition rhs) operator_l expression_l
  | NIrange left_ right_ operator_l expression_l =>
      NIFlipFlop (map_opt check_condition left_) (map_opt check_condition right_) operator_l expression_l
  | NErange left_ right_ operator_l expression_l =>
      NEFlipFlop (map_opt check_condition left_) (map_opt check_condition right_) operator_l expression_l
  | NRegexp _ _ _ _ expression_l => NMatchCurrentLine cond expression_l
  | other => other
  end.

(** arg_name, 3743-3758: [None] is a parameter without a name *)
Definition arg_name (n : Node) : B (option (list N)) :=
  match n with
  | NArg name _ | NOptarg name _ _ _ _ | NKwarg name _ _ | NKwoptarg name _ _ _ | NShadowarg name _ =>
      ret (Some name)
  | NRestarg name _ _ _ | NKwrestarg name _ _ _ | NBlockarg name _ _ _ => ret name
  | _ => panic "unsupported arg"
  end.
(** arg_name_loc, 3760-3796 *)
Definition arg_name_loc (n : Node) : B Loc :=
  match n with
  | NArg _ expression_l => ret expression_l
  | NOptarg _ _ name_l _ _ => ret name_l
  | NKwarg _ name_l _ => ret name_l
  | NKwoptarg _ _ name_l _ => ret name_l
  | NShadowarg _ expression_l => ret expression_l
  | NBlockarg _ _ name_l expression_l | NRestarg _ _ name_l expression_l
  | NKwrestarg _ _ name_l expression_l => ret (unwrap_or name_l expression_l)
  | _ => panic "unsupported arg"
  end.
(** arg_name_collides, 3887-3889 *)
Definition arg_name_collides (this_name that_name : list N) : B bool :=
  first <- str_to1 this_name ;;
  ret (negb (bytes_eqb first (bs "_")) && bytes_eqb this_name that_name).

(** The [HashMap<String, &Node>] of check_duplicate_args: only [get] and [insert] of absent keys *)
Definition ArgMap := list (list N * Node).
Fixpoint map_get (name : list N) (m : ArgMap) : option Node :=
  match m with
  | [] => None
  | (k, v) :: m => if bytes_eqb k name then Some v else map_get name m
  end.

(** check_duplicate_arg, 3798-3827 *)
Definition check_duplicate_arg (this_arg : Node) (map : ArgMap) : B ArgMap :=
  this_name <- arg_name this_arg ;;
  match this_name with
  | None => ret map
  | Some this_name =>
      match map_get this_name map with
      | None => ret ((this_name, this_arg) :: map)
      | Some that_arg =>
          that_name <- arg_name that_arg ;;
          match that_name with
          | None => ret map
          | Some that_name =>
              collides <- arg_name_collides this_name that_name ;;
              (if (collides : bool) then
                 l <- arg_name_loc this_arg ;; b_error DuplicatedArgumentName l
               else ret tt) ;;;
              ret map
          end
      end
  end.

(** [for x in l] threading an accumulator *)
Section FoldM.
  Context {X A : Type} (f : X -> A -> B A).
  Fixpoint fold_m (l : list X) (a : A) : B A :=
    match l with
    | [] => ret a
    | x :: l => a <- f x a ;; fold_m l a
    end.
End FoldM.

(** check_duplicate_args, 3710-3741 (the body of the loop, then the loop) *)
Fixpoint check_duplicate_args_node (arg : Node) (map : ArgMap) {struct arg} : B ArgMap :=
  match arg with
  | NArg _ _ | NOptarg _ _ _ _ _ | NRestarg _ _ _ _ | NKwarg _ _ _ | NKwoptarg _ _ _ _
  | NKwrestarg _ _ _ _ | NShadowarg _ _ | NBlockarg _ _ _ _ => check_duplicate_arg arg map
  | NMlhs items _ _ _ => fold_m check_duplicate_args_node items map
  | NProcarg0 args _ _ _ => fold_m check_duplicate_args_node args map
  | NForwardArg _ | NKwnilarg _ _ => ret map
  | _ => panic "unsupported arg type"
  end.
Definition check_duplicate_args (args : list Node) (map : ArgMap) : B ArgMap :=
  fold_m check_duplicate_args_node args map.

(** The names "_1" to "_9" (3835-3838, 3874) *)
Definition numparam_names : list (list N) :=
  List.map (fun d => [95; d])%N [49; 50; 51; 52; 53; 54; 55; 56; 57]%N.
Definition is_numparam_name (name : list N) : bool := existsb (bytes_eqb name) numparam_names.

(** check_assignment_to_numparam, 3829-3847 *)
Definition check_assignment_to_numparam (name : list N) (loc : Loc) : B (option unit) :=
  b <- get ;;
  if is_in_dynamic_block (b_context b) && is_numparam_name name && np_has_numparams (b_max_numparam_stack b)
  then b_error (CantAssignToNumparam name) loc ;;; err
  else ok tt.

(** validate_no_forward_arg_after_restarg, 3849-3870 *)
Definition validate_no_forward_arg_after_restarg (args : list Node) : B unit :=
  let '(restarg, forward_arg) :=
    fold_left (fun '(restarg, forward_arg) arg =>
                 match arg with
                 | NRestarg _ _ _ _ => (Some arg, forward_arg)
                 | NForwardArg _ => (restarg, Some arg)
                 | _ => (restarg, forward_arg)
                 end) args (None, None) in
  match restarg with
  | None => ret tt
  | Some _ => match forward_arg with
              | Some forward_arg => b_error ForwardArgAfterRestarg (expression forward_arg)
              | None => ret tt
              end
  end.

(** check_reserved_for_numparam, 3872-3885 *)
Definition check_reserved_for_numparam (name : list N) (loc : Loc) : B (option unit) :=
  if is_numparam_name name then b_error (ReservedForNumparam name) loc ;;; err else ok tt.

(** check_lvar_name, 3891-3904 *)
Definition check_lvar_name (name : list N) (loc : Loc) : B (option unit) :=
  cc <- gets b_chars ;;
  match chars name with
  | [] => panic "local variable name can't be empty"
  | first :: rest =>
      if (is_lowercase cc first || N.eqb first 95%N)
         && forallb (fun c => is_alphanumeric cc c || N.eqb c 95%N) rest
      then ok tt
      else b_error KeyMustBeValidAsLocalVariable loc ;;; err
  end.

(** check_duplicate_pattern_variable, 3906-3918 *)
Definition check_duplicate_pattern_variable (name : list N) (loc : Loc) : B (option unit) :=
  if starts_with (bs "_") name then ok tt
  else
    vs <- gets b_pattern_variables ;;
    declared <- expect (vs_is_declared name vs) "expected variables stack to be non-empty" ;;
    if (declared : bool) then b_error DuplicateVariableName loc ;;; err
    else
      vs <- expect (vs_declare name vs) "expected variables stack to be non-empty" ;;
      modify (set_pattern_variables vs) ;;;
      ok tt.

(** check_duplicate_pattern_key, 3920-3928 *)
Definition check_duplicate_pattern_key (name : list N) (loc : Loc) : B (option unit) :=
  vs <- gets b_pattern_hash_keys ;;
  declared <- expect (vs_is_declared name vs) "expected variables stack to be non-empty" ;;
  if (declared : bool) then b_error DuplicateKeyName loc ;;; err
  else
    vs <- expect (vs_declare name vs) "expected variables stack to be non-empty" ;;
    modify (set_pattern_hash_keys vs) ;;;
    ok tt.

(** ** Helpers *)

Section ConcatOpt.
  Context {X : Type} (f : X -> option (list N)).
  Fixpoint concat_opt (l : list X) : option (list N) :=
    match l with
    | [] => Some []
    | x :: l => match f x with
                | Some a => match concat_opt l with Some b => Some (a ++ b) | None => None end
                | None => None
                end
    end.
End ConcatOpt.
(** static_string, 3934-3957 (one node, then a list of nodes) *)
Fixpoint static_string_node (n : Node) : option (list N) :=
  match n with
  | NStr value _ _ _ => Some (utf8_lossy value)
  | NBegin statements _ _ _ => concat_opt static_string_node statements
  | _ => None
  end.
Definition static_string (nodes : list Node) : option (list N) := concat_opt static_string_node nodes.

(** build_static_regexp, 3959-3989; [None] when the feature is off *)
Definition build_static_regexp (parts : list Node) (options : option (list N)) (loc : Loc)
  : B (option (list (list N))) :=
  engine <- gets b_regex ;;
  match engine with
  | None => err
  | Some engine =>
      match static_string parts with
      | None => err
      | Some source =>
          let x := match options with Some o => existsb (N.eqb 120%N) o | None => false end in
          match engine source x with
          | inr captures => ok captures
          | inl error => b_error (RegexError error) loc ;;; err
          end
      end
  end.
(** validate_static_regexp, 3991-4008 *)
Definition validate_static_regexp (parts : list Node) (options : option (list N)) (loc : Loc) : B unit :=
  build_static_regexp parts options loc ;;; ret tt.
(** static_regexp_captures, 4010-4040 *)
Definition static_regexp_captures (node : Node) : B (option (list (list N))) :=
  match node with
  | NRegexp parts options _ _ expression_l =>
      let re_options := match options with Some (NRegOpt options _) => options | _ => None end in
      build_static_regexp parts re_options expression_l
  | _ => err
  end.

Section LastWith.
  Context {X A : Type} (f : X -> option A).
  (** [f] of the last element, [None] for the empty list *)
  Fixpoint last_with (l : list X) : option A :=
    match l with [] => None | [x] => f x | _ :: l => last_with l end.
End LastWith.

Definition is_some {A} (o : option A) : bool := match o with Some _ => true | None => false end.

(** void_value, 4131-4184 *)
Fixpoint void_value (node : Node) : option Node :=
  match node with
  | NReturn _ _ _ | NBreak _ _ _ | NNext _ _ _ | NRedo _ | NRetry _ => Some node
  | NMatchPattern value _ _ _ | NMatchPatternP value _ _ _ => void_value value
  | NBegin statements _ _ _ | NKwBegin statements _ _ _ => last_with void_value statements
  | NIfTernary _ if_true if_false _ _ _ =>
      if is_some (void_value if_true) && is_some (void_value if_false) then Some if_true else None
  | NIf _ if_true if_false _ _ _ _ _ | NIfMod _ if_true if_false _ _ =>
      match if_true, if_false with
      | Some if_true, Some if_false =>
          if is_some (void_value if_true) && is_some (void_value if_false) then Some if_true else None
      | _, _ => None
      end
  | NAnd lhs _ _ _ | NOr lhs _ _ _ => void_value lhs
  | _ => None
  end.

(** value_expr, 4119-4129 *)
Definition value_expr (node : Node) : B (option unit) :=
  match void_value node with
  | Some void_node => b_error VoidValueExpression (expression void_node) ;;; err
  | None => ok tt
  end.

(** is_kwargs, 4227-4236 *)
Definition is_kwargs (n : Node) : bool :=
  match n with NHash _ None None _ => true | _ => false end.

(** rewrite_hash_args_to_kwargs, 4186-4225.  [args.pop()] and [args.push] work on the end of the vector, hence
    on the front of the reversed list. *)
Definition rewrite_hash_args_to_kwargs (args : list Node) : list Node :=
  match rev args with
  | NHash pairs None None expression_l :: r => rev (NKwargs pairs expression_l :: r)
  | (NBlockPass _ _ _) as block_pass :: NHash pairs None None expression_l :: r =>
      rev (block_pass :: NKwargs pairs expression_l :: r)
  | _ => args
  end.

(** The loop over the enclosing scopes in try_declare_numparam, 4258-4275 *)
Fixpoint outer_numparams (outer : list NumItem) (loc : Loc) : B unit :=
  match outer with
  | [] => ret tt
  | outer_scope :: outer =>
      if ni_is_static outer_scope then ret tt
      else
        (if (0 <? ni_value outer_scope)%Z then b_error NumparamUsed loc else ret tt) ;;;
        outer_numparams outer loc
  end.

(** try_declare_numparam, 4238-4285.  The stack is a list with its top first, so the outer scopes in the order
    in which [iter().rev()] visits them are its tail. *)
Definition try_declare_numparam (name : list N) (loc : Loc) : B bool :=
  b <- get ;;
  match name with
  | [95%N; n] =>
      if in_range 49%N 57%N n && negb (is_declared name (b_static_env b)) && is_in_dynamic_block (b_context b)
      then
        (if np_has_ordinary_params (b_max_numparam_stack b) then b_error OrdinaryParamDefined loc else ret tt) ;;;
        outer_numparams (tl (b_max_numparam_stack b)) loc ;;;
        b_declare name ;;;
        np <- expect (np_register (Z.of_N (n - 48)) (b_max_numparam_stack b)) "attempt to subtract with overflow" ;;
        modify (set_numparams np) ;;;
        ret true
      else ret false
  | _ => ret false
  end.
