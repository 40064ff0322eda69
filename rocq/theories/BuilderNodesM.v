(** * src/builder.rs: the functions that build nodes

    Every [pub(crate)] function of builder.rs that returns a node, in the order of the file.  Functions that
    cannot fail and have no effects are plain functions; the others live in the monad [B] of BuilderM. *)
Require Import Verif.Base Verif.MaybeByteM Verif.Utf8M Verif.InputM Verif.ScopesM Verif.TokensM
  Verif.DiagnosticM Verif.LexerM Verif.NodeM Verif.BuilderM.

Notation loc := token_loc (only parsing).

(** ** Literals *)

(** 102-118 *)
Definition nil_ (nil_t : Token) : Node := NNil (loc nil_t).
Definition true_ (true_t : Token) : Node := NTrue (loc true_t).
Definition false_ (false_t : Token) : Node := NFalse (loc false_t).
(** 122-156 *)
Definition integer (t : Token) : B Node := v <- value t ;; ret (NInt v None (loc t)).
Definition float (t : Token) : B Node := v <- value t ;; ret (NFloat v None (loc t)).
Definition rational (t : Token) : B Node := v <- value t ;; ret (NRational v None (loc t)).
Definition complex (t : Token) : B Node := v <- value t ;; ret (NComplex v None (loc t)).
(** 158-191 *)
Definition unary_num (unary_t : Token) (numeric : Node) : B Node :=
  let new_operator_l := loc unary_t in
  sign <- value unary_t ;;
  match numeric with
  | NInt v _ e => ret (NInt (sign ++ v) (Some new_operator_l) (loc_join new_operator_l e))
  | NFloat v _ e => ret (NFloat (sign ++ v) (Some new_operator_l) (loc_join new_operator_l e))
  | NRational v _ e => ret (NRational (sign ++ v) (Some new_operator_l) (loc_join new_operator_l e))
  | NComplex v _ e => ret (NComplex (sign ++ v) (Some new_operator_l) (loc_join new_operator_l e))
  | _ => panic "internal error: entered unreachable code"
  end.
(** 193-197 *)
Definition line_ (line_t : Token) : Node := NLine (loc line_t).

(** 201-235 *)
Definition str_node (begin_t : option Token) (value : list N) (parts : list Node) (end_t : option Token)
  : B Node :=
  if is_heredoc begin_t then
    ' (heredoc_body_l, heredoc_end_l, expression_l) <- heredoc_map begin_t parts end_t ;;
    ret (NHeredoc parts heredoc_body_l heredoc_end_l expression_l)
  else
    ' (begin_l, end_l, expression_l) <- collection_map begin_t parts end_t ;;
    ret (NStr value begin_l end_l expression_l).
(** 237-246 *)
Definition string_internal (string_t : Token) : Node := NStr (token_value string_t) None None (loc string_t).
(** 248-306 *)
Definition string_compose (begin_t : option Token) (parts : list Node) (end_t : option Token) : B Node :=
  let compose :=
    if is_heredoc begin_t then
      ' (heredoc_body_l, heredoc_end_l, expression_l) <- heredoc_map begin_t parts end_t ;;
      ret (NHeredoc parts heredoc_body_l heredoc_end_l expression_l)
    else
      ' (begin_l, end_l, expression_l) <- collection_map begin_t parts end_t ;;
      ret (NDstr parts begin_l end_l expression_l) in
  let bare := negb (is_some begin_t) && negb (is_some end_t) in
  match parts with
  | [] => str_node begin_t [] parts end_t
  | [NStr v _ _ _ as part] => if bare then ret part else str_node begin_t v parts end_t
  | [NDstr _ _ _ _ as part] | [NHeredoc _ _ _ _ as part] =>
      if bare then ret part else panic "internal error: entered unreachable code"
  | _ => compose
  end.
(** 308-322 *)
Definition character (char_t : Token) : Node :=
  let str_loc := loc char_t in
  NStr (token_value char_t) (Some (with_end str_loc (loc_begin str_loc + 1))) None str_loc.
(** 324-328 *)
Definition file_ (file_t : Token) : Node := NFile (loc file_t).

(** 332-341 *)
Definition validate_sym_value (value : list N) (l : Loc) : B unit :=
  if utf8_valid value then ret tt else b_error (InvalidSymbol (bs "UTF-8")) l.
(** 343-358 *)
Definition symbol (start_t value_t : Token) : B Node :=
  let expression_l := loc_join (loc start_t) (loc value_t) in
  validate_sym_value (token_value value_t) expression_l ;;;
  ret (NSym (token_value value_t) (Some (loc start_t)) None expression_l).
(** 360-370 *)
Definition symbol_internal (symbol_t : Token) : B Node :=
  validate_sym_value (token_value symbol_t) (loc symbol_t) ;;;
  ret (NSym (token_value symbol_t) None None (loc symbol_t)).
(** 372-411 *)
Definition symbol_compose (begin_t : Token) (parts : list Node) (end_t : Token) : B Node :=
  match parts with
  | [NStr value _ _ _] =>
      ' (begin_l, end_l, expression_l) <- collection_map (Some begin_t) [] (Some end_t) ;;
      validate_sym_value value expression_l ;;;
      ret (NSym value begin_l end_l expression_l)
  | _ =>
      ' (begin_l, end_l, expression_l) <- collection_map (Some begin_t) parts (Some end_t) ;;
      ret (NDsym parts begin_l end_l expression_l)
  end.
(** 415-446 *)
Definition xstring_compose (begin_t : Token) (parts : list Node) (end_t : Token) : Node :=
  let begin_l := loc begin_t in
  if heredoc_mark (token_value begin_t) then
    NXHeredoc parts (unwrap_or (collection_expr parts) (loc end_t)) (loc end_t) begin_l
  else
    NXstr parts begin_l (loc end_t) (loc_join begin_l (loc end_t)).

(** ** Indented strings *)

(** 529 *)
Definition TAB_WIDTH : nat := 8.
(** dedent_string, 531-556: [col] and the rest of the string *)
Fixpoint dedent_loop (s : list N) (width col : nat) : list N :=
  match s with
  | [] => []
  | c :: r =>
      if col <? width then
        if N.eqb c 32 then dedent_loop r width (col + 1)
        else if N.eqb c 9 then
          let n := TAB_WIDTH * (col / TAB_WIDTH + 1) in
          if TAB_WIDTH <? n then s else dedent_loop r width n
        else s
      else s
  end.
Definition dedent_string (s : list N) (width : nat) : list N := dedent_loop s width 0.

(** The closure of heredoc_dedent, 459-489 *)
Fixpoint dedent_heredoc_parts (parts : list Node) (dedent_level : nat) : B (list Node) :=
  match parts with
  | [] => ret []
  | part :: parts =>
      part <- match part with
              | NStr value begin_l end_l expression_l =>
                  let value := dedent_string value dedent_level in
                  ret (match value with [] => None | _ => Some (NStr value begin_l end_l expression_l) end)
              | NBegin _ _ _ _ | NGvar _ _ | NBackRef _ _ | NNthRef _ _ | NIvar _ _ | NCvar _ _ => ret (Some part)
              | _ => panic "unsupported heredoc child"
              end ;;
      parts <- dedent_heredoc_parts parts dedent_level ;;
      ret (match part with Some p => p :: parts | None => parts end)
  end.
(** 450-527 *)
Definition heredoc_dedent (node : Node) (dedent_level : Z) : B Node :=
  if Z.eqb dedent_level 0 then ret node
  else if (dedent_level <? 0)%Z then panic "dedent_level must be positive"
  else
    let dedent_level := Z.to_nat dedent_level in
    match node with
    | NHeredoc parts heredoc_body_l heredoc_end_l expression_l =>
        parts <- dedent_heredoc_parts parts dedent_level ;;
        ret (NHeredoc parts heredoc_body_l heredoc_end_l expression_l)
    | NXHeredoc parts heredoc_body_l heredoc_end_l expression_l =>
        parts <- dedent_heredoc_parts parts dedent_level ;;
        ret (NXHeredoc parts heredoc_body_l heredoc_end_l expression_l)
    | _ => panic "unsupported heredoc_dedent argument"
    end.

(** ** Regular expressions *)

(** [sort_unstable] and [dedup] on characters: for a total order on characters every sorting algorithm gives
    the same list, here insertion *)
Fixpoint insert_char (c : N) (l : list N) : list N :=
  match l with
  | [] => [c]
  | d :: r => if (c <=? d)%N then c :: l else d :: insert_char c r
  end.
Definition sort_chars (l : list N) : list N := fold_right insert_char [] l.
Fixpoint dedup_chars (l : list N) : list N :=
  match l with
  | c :: ((d :: _) as r) => if N.eqb c d then dedup_chars r else c :: dedup_chars r
  | _ => l
  end.
(** 560-580 *)
Definition regexp_options (regexp_end_t : Token) : B (option Node) :=
  n <- sub_ck (loc_end (loc regexp_end_t)) (loc_begin (loc regexp_end_t)) ;;
  if n =? 1 then ret None
  else
    expression_l <- adjust_begin (loc regexp_end_t) 1 ;;
    options <- value regexp_end_t ;;
    let options := dedup_chars (sort_chars (skipn 1 (chars options))) in
    let options := match options with [] => None | _ => Some (flat_map utf8_encode options) end in
    ret (Some (NRegOpt options expression_l)).
(** 582-610 *)
Definition regexp_compose (begin_t : Token) (parts : list Node) (end_t : Token) (options : option Node)
  : B Node :=
  let begin_l := loc begin_t in
  let end_l := resize (loc end_t) 1 in
  let expression_l := loc_join begin_l (unwrap_or (maybe_node_expr options) (loc end_t)) in
  match options with
  | Some (NRegOpt opts l) => validate_static_regexp parts opts l
  | None => validate_static_regexp parts None expression_l
  | _ => panic "must be Option<RegOpt>"
  end ;;;
  ret (NRegexp parts options begin_l end_l expression_l).

(** ** Arrays *)

(** 614-632 *)
Definition array (begin_t : option Token) (elements : list Node) (end_t : option Token) : B Node :=
  ' (begin_l, end_l, expression_l) <- collection_map begin_t elements end_t ;;
  ret (NArray elements begin_l end_l expression_l).
(** 634-643 *)
Definition splat (star_t : Token) (value : option Node) : Node :=
  NSplat value (loc star_t) (maybe_join (loc star_t) (maybe_node_expr value)).
(** 645-666 *)
Definition word (parts : list Node) : B Node :=
  let compose :=
    ' (begin_l, end_l, expression_l) <- collection_map None parts None ;;
    ret (NDstr parts begin_l end_l expression_l) in
  match parts with
  | [NStr _ _ _ _ as part] | [NDstr _ _ _ _ as part] => ret part
  | _ => compose
  end.
(** 668-683 *)
Definition words_compose (begin_t : Token) (elements : list Node) (end_t : Token) : Node :=
  NArray elements (Some (loc begin_t)) (Some (loc end_t)) (loc_join (loc begin_t) (loc end_t)).
(** The closure of symbols_compose, 691-718 *)
Definition symbols_part (part : Node) : B Node :=
  match part with
  | NStr value begin_l end_l expression_l =>
      validate_sym_value value expression_l ;;; ret (NSym value begin_l end_l expression_l)
  | NDstr parts begin_l end_l expression_l => ret (NDsym parts begin_l end_l expression_l)
  | other => ret other
  end.
Fixpoint map_m {X Y} (f : X -> B Y) (l : list X) : B (list Y) :=
  match l with
  | [] => ret []
  | x :: l => y <- f x ;; l <- map_m f l ;; ret (y :: l)
  end.
(** 685-732 *)
Definition symbols_compose (begin_t : Token) (parts : list Node) (end_t : Token) : B Node :=
  parts <- map_m symbols_part parts ;;
  ret (NArray parts (Some (loc begin_t)) (Some (loc end_t)) (loc_join (loc begin_t) (loc end_t))).

(** ** Hashes *)

(** 736-751 *)
Definition pair (key : Node) (assoc_t : Token) (value : Node) : Node :=
  NPair key value (loc assoc_t) (join_exprs key value).
(** 753-773 *)
Definition pair_keyword (key_t : Token) (value : Node) : B Node :=
  let key_loc := loc key_t in
  key_l <- adjust_end key_loc (-1) ;;
  b <- sub_ck (loc_end key_loc) 1 ;;
  let colon_l := with_begin key_loc b in
  let expression_l := loc_join key_loc (expression value) in
  validate_sym_value (token_value key_t) key_l ;;;
  ret (NPair (NSym (token_value key_t) None None key_l) value colon_l expression_l).
(** 775-805 *)
Definition pair_quoted (begin_t : Token) (parts : list Node) (end_t : Token) (value : Node) : B Node :=
  let end_l := loc end_t in
  b2 <- sub_ck (loc_end end_l) 2 ;;
  b1 <- sub_ck (loc_end end_l) 1 ;;
  let quote_loc := mkLoc b2 b1 in
  let colon_l := with_begin end_l b1 in
  let end_t := mkToken (token_type end_t) (token_value end_t) quote_loc in
  let expression_l := loc_join (loc begin_t) (expression value) in
  key <- symbol_compose begin_t parts end_t ;;
  ret (NPair key value colon_l expression_l).

(** [str::ends_with(char)] for an ASCII character *)
Definition ends_with (c : N) (s : list N) : bool :=
  match last_opt s with Some d => N.eqb c d | None => false end.
(** accessible, 1061-1114 *)
Definition accessible (node : Node) : B Node :=
  match node with
  | NLvar name expression_l =>
      (if ends_with 63 name || ends_with 33 name then b_error (InvalidIdToGet name) expression_l else ret tt) ;;;
      numparam <- try_declare_numparam name expression_l ;;
      if (numparam : bool) then ret (NLvar name expression_l)
      else
        b <- get ;;
        if negb (is_declared name (b_static_env b)) then
          ret (NSend None name [] None (Some expression_l) None None None expression_l)
        else
          (match ca_top (b_current_arg_stack b) with
           | Some current_arg =>
               if bytes_eqb current_arg name then b_error (CircularArgumentReference name) expression_l else ret tt
           | None => ret tt
           end) ;;;
          ret (NLvar name expression_l)
  | _ => ret node
  end.
(** 807-833 *)
Definition pair_label (key_t : Token) : B Node :=
  let key_l := loc key_t in
  value_l <- adjust_end key_l (-1) ;;
  label <- value key_t ;;
  cc <- gets b_chars ;;
  first <- expect (first_char label) "bug: label can't be empty" ;;
  let value := if is_lowercase cc first then NLvar label value_l
               else NConst None label None value_l value_l in
  value <- accessible value ;;
  pair_keyword key_t value.
(** 835-844 *)
Definition kwsplat (dstar_t : Token) (value : Node) : Node :=
  NKwsplat value (loc dstar_t) (loc_join (expression value) (loc dstar_t)).

(** [==] on the options of two regexps, 910: structural equality of [Option<Box<Node>>], which includes the
    locations.  Only [RegOpt] nodes occur there (regexp_compose, 594-602); other nodes compare as different. *)
Definition opt_bytes_eqb (a b : option (list N)) : bool :=
  match a, b with
  | None, None => true
  | Some a, Some b => bytes_eqb a b
  | _, _ => false
  end.
Definition loc_eqb (a b : Loc) : bool := (loc_begin a =? loc_begin b) && (loc_end a =? loc_end b).
Definition options_eqb (a b : option Node) : bool :=
  match a, b with
  | None, None => true
  | Some (NRegOpt o1 l1), Some (NRegOpt o2 l2) => opt_bytes_eqb o1 o2 && loc_eqb l1 l2
  | _, _ => false
  end.
Section All2.
  Context {X Y : Type} (f : X -> Y -> bool).
  (** [zip(..).all(..)] together with the comparison of the lengths *)
  Fixpoint all2 (l1 : list X) (l2 : list Y) : bool :=
    match l1, l2 with
    | [], [] => true
    | x :: l1, y :: l2 => f x y && all2 l1 l2
    | _, _ => false
    end.
End All2.
(** keys_are_equal, 867-928 *)
Fixpoint keys_are_equal (left_ right_ : Node) {struct left_} : bool :=
  match left_, right_ with
  | NSym name1 _ _ _, NSym name2 _ _ _ => bytes_eqb name1 name2
  | NStr value1 _ _ _, NStr value2 _ _ _ => bytes_eqb value1 value2
  | NInt value1 _ _, NInt value2 _ _ => bytes_eqb value1 value2
  | NFloat value1 _ _, NFloat value2 _ _ => bytes_eqb value1 value2
  | NRational value1 _ _, NRational value2 _ _ => bytes_eqb value1 value2
  | NComplex value1 _ _, NComplex value2 _ _ => bytes_eqb value1 value2
  | NRegexp parts1 options1 _ _ _, NRegexp parts2 options2 _ _ _ =>
      options_eqb options1 options2 && all2 keys_are_equal parts1 parts2
  | _, _ => false
  end.
(** The key of a pair; [None] for a double splat, 854-865 *)
Definition pair_key (n : Node) : option Node := match n with NPair key _ _ _ => Some key | _ => None end.
(** The inner loop over j, 853-935 *)
Fixpoint warn_duplicates (p : Node) (rest : list Node) : B unit :=
  match rest with
  | [] => ret tt
  | q :: rest =>
      match pair_key p, pair_key q with
      | Some key1, Some key2 =>
          if keys_are_equal key1 key2 then b_warn DuplicateHashKey (expression key2) else ret tt
      | _, _ => ret tt
      end ;;;
      warn_duplicates p rest
  end.
(** The outer loop over i, 852-937 *)
Fixpoint check_duplicate_keys (pairs : list Node) : B unit :=
  match pairs with
  | [] => ret tt
  | p :: rest => warn_duplicates p rest ;;; check_duplicate_keys rest
  end.
(** 846-949 *)
Definition associate (begin_t : option Token) (pairs : list Node) (end_t : option Token) : B Node :=
  check_duplicate_keys pairs ;;;
  ' (begin_l, end_l, expression_l) <- collection_map begin_t pairs end_t ;;
  ret (NHash pairs begin_l end_l expression_l).

(** ** Ranges, 953-989 *)
Definition range_inclusive (left_ : option Node) (dot2_t : Token) (right_ : option Node) : Node :=
  NIrange left_ right_ (loc dot2_t)
    (maybe_join (maybe_join (loc dot2_t) (maybe_node_expr left_)) (maybe_node_expr right_)).
Definition range_exclusive (left_ : option Node) (dot3_t : Token) (right_ : option Node) : Node :=
  NErange left_ right_ (loc dot3_t)
    (maybe_join (maybe_join (loc dot3_t) (maybe_node_expr left_)) (maybe_node_expr right_)).

(** ** Access *)

(** 995-1039 *)
Definition self_ (t : Token) : Node := NSelf_ (loc t).
Definition lvar (t : Token) : B Node := v <- value t ;; ret (NLvar v (loc t)).
Definition ivar (t : Token) : B Node := v <- value t ;; ret (NIvar v (loc t)).
Definition gvar (t : Token) : B Node := v <- value t ;; ret (NGvar v (loc t)).
Definition cvar (t : Token) : B Node := v <- value t ;; ret (NCvar v (loc t)).
Definition back_ref (t : Token) : B Node := v <- value t ;; ret (NBackRef v (loc t)).
(** 1041 *)
Definition MAX_NTH_REF : N := 1073741823%N.
(** 1043-1060 *)
Definition nth_ref (t : Token) : B Node :=
  name <- value t ;;
  name <- str_from1 name ;;
  (match parse_usize name with
   | Some n => if (MAX_NTH_REF <? n)%N then b_warn (NthRefIsTooBig name) (loc t) else ret tt
   | None => b_warn (NthRefIsTooBig name) (loc t)
   end) ;;;
  ret (NNthRef name (loc t)).
(** 1116-1127 *)
Definition const_ (name_t : Token) : B Node :=
  v <- value name_t ;; ret (NConst None v None (loc name_t) (loc name_t)).
(** 1129-1149 *)
Definition const_global (t_colon3 name_t : Token) : B Node :=
  let scope := NCbase (loc t_colon3) in
  v <- value name_t ;;
  ret (NConst (Some scope) v (Some (loc t_colon3)) (loc name_t) (loc_join (expression scope) (loc name_t))).
(** 1151-1169 *)
Definition const_fetch (scope : Node) (t_colon2 name_t : Token) : B Node :=
  v <- value name_t ;;
  ret (NConst (Some scope) v (Some (loc t_colon2)) (loc name_t) (loc_join (expression scope) (loc name_t))).
(** 1171-1175 *)
Definition encoding_ (t : Token) : Node := NEncoding (loc t).

(** ** Assignments *)

(** 1181-1306 *)
Definition assignable (node : Node) : B (option Node) :=
  match node with
  | NCvar name e => ok (NCvasgn name None e None e)
  | NIvar name e => ok (NIvasgn name None e None e)
  | NGvar name e => ok (NGvasgn name None e None e)
  | NConst scope name double_colon_l name_l e =>
      b <- get ;;
      if ctx_get IN_DEF (b_context b) then b_error DynamicConstantAssignment e ;;; err
      else ok (NCasgn scope name None double_colon_l name_l None e)
  | NLvar name e =>
      _ <-? check_assignment_to_numparam name e ;;
      _ <-? check_reserved_for_numparam name e ;;
      b_declare name ;;;
      ok (NLvasgn name None e None e)
  | NMatchVar name name_l e =>
      _ <-? check_assignment_to_numparam name name_l ;;
      _ <-? check_reserved_for_numparam name name_l ;;
      ok (NMatchVar name name_l e)
  | NSelf_ e => b_error CantAssignToSelf e ;;; err
  | NNil e => b_error CantAssignToNil e ;;; err
  | NTrue e => b_error CantAssignToTrue e ;;; err
  | NFalse e => b_error CantAssignToFalse e ;;; err
  | NFile e => b_error CantAssignToFile e ;;; err
  | NLine e => b_error CantAssignToLine e ;;; err
  | NEncoding e => b_error CantAssignToEncoding e ;;; err
  | NBackRef name e => b_error (CantSetVariable name) e ;;; err
  | NNthRef name e => b_error (CantSetVariable (bs "$" ++ name)) e ;;; err
  | _ => panic "can't be used in assignment"
  end.
(** 1308-1329 *)
Definition const_op_assignable (node : Node) : B Node :=
  match node with
  | NConst scope name double_colon_l name_l e => ret (NCasgn scope name None double_colon_l name_l None e)
  | _ => panic "unsupported const_op_assignable argument"
  end.
(** 1331-1405 *)
Definition assign (lhs : Node) (eql_t : Token) (new_rhs : Node) : B Node :=
  let op_l := Some (loc eql_t) in
  let expr_l := join_exprs lhs new_rhs in
  match lhs with
  | NCvasgn name _ name_l _ _ => ret (NCvasgn name (Some new_rhs) name_l op_l expr_l)
  | NIvasgn name _ name_l _ _ => ret (NIvasgn name (Some new_rhs) name_l op_l expr_l)
  | NGvasgn name _ name_l _ _ => ret (NGvasgn name (Some new_rhs) name_l op_l expr_l)
  | NLvasgn name _ name_l _ _ => ret (NLvasgn name (Some new_rhs) name_l op_l expr_l)
  | NCasgn scope name _ double_colon_l name_l _ _ =>
      ret (NCasgn scope name (Some new_rhs) double_colon_l name_l op_l expr_l)
  | NIndexAsgn recv indexes _ begin_l end_l _ _ =>
      ret (NIndexAsgn recv indexes (Some new_rhs) begin_l end_l op_l expr_l)
  | NSend recv method_name args dot_l selector_l begin_l end_l _ _ =>
      match args with
      | [] => ret (NSend recv method_name [new_rhs] dot_l selector_l begin_l end_l op_l expr_l)
      | _ => panic "can't assign to method call with args"
      end
  | NCSend recv method_name args dot_l selector_l begin_l end_l _ _ =>
      match args with
      | [] => ret (NCSend recv method_name [new_rhs] dot_l selector_l begin_l end_l op_l expr_l)
      | _ => panic "can't assign to method call with args"
      end
  | _ => panic "can't be used in assignment"
  end.
(** 1407-1495; [operator.pop()] removes the final '=' (the last character) *)
Definition op_assign (lhs : Node) (op_t : Token) (rhs : Node) : B (option Node) :=
  let operator_l := loc op_t in
  operator <- value op_t ;;
  let operator := flat_map utf8_encode (removelast (chars operator)) in
  let expression_l := join_exprs lhs rhs in
  lhs <-? match lhs with
          | NGvasgn _ _ _ _ _ | NIvasgn _ _ _ _ _ | NLvasgn _ _ _ _ _ | NCvasgn _ _ _ _ _
          | NCasgn _ _ _ _ _ _ _ | NSend _ _ _ _ _ _ _ _ _ | NCSend _ _ _ _ _ _ _ _ _ => ok lhs
          | NIndex recv indexes begin_l end_l e => ok (NIndexAsgn recv indexes None begin_l end_l None e)
          | NBackRef name e => b_error (CantSetVariable name) e ;;; err
          | NNthRef name e => b_error (CantSetVariable (bs "$" ++ name)) e ;;; err
          | _ => panic "unsupported op_assign lhs"
          end ;;
  ok (if bytes_eqb operator (bs "&&") then NAndAsgn lhs rhs operator_l expression_l
      else if bytes_eqb operator (bs "||") then NOrAsgn lhs rhs operator_l expression_l
      else NOpAsgn lhs operator rhs operator_l expression_l).
(** 1497-1515 *)
Definition multi_lhs (begin_t : option Token) (items : list Node) (end_t : option Token) : B Node :=
  ' (begin_l, end_l, expression_l) <- collection_map begin_t items end_t ;;
  ret (NMlhs items begin_l end_l expression_l).
(** 1517-1532 *)
Definition multi_assign (lhs : Node) (eql_t : Token) (rhs : Node) : Node :=
  NMasgn lhs rhs (loc eql_t) (join_exprs lhs rhs).

(** ** Class and module definition *)

(** 1538-1561 *)
Definition def_class (class_t : Token) (name : Node) (lt_t : option Token) (superclass body : option Node)
  (end_t : Token) : Node :=
  NClass name superclass body (loc class_t) (maybe_loc lt_t) (loc end_t) (loc_join (loc class_t) (loc end_t)).
(** 1563-1584 *)
Definition def_sclass (class_t lshift_t : Token) (expr : Node) (body : option Node) (end_t : Token) : Node :=
  NSClass expr body (loc class_t) (loc lshift_t) (loc end_t) (loc_join (loc class_t) (loc end_t)).
(** 1586-1604 *)
Definition def_module (module_t : Token) (name : Node) (body : option Node) (end_t : Token) : Node :=
  NModule name body (loc module_t) (loc end_t) (loc_join (loc module_t) (loc end_t)).

(** ** Method (un)definition *)

(** 1610-1636 *)
Definition def_method (def_t name_t : Token) (args body : option Node) (end_t : Token) : B (option Node) :=
  name <- value name_t ;;
  _ <-? check_reserved_for_numparam name (loc name_t) ;;
  ok (NDef name args body (loc def_t) (loc name_t) (Some (loc end_t)) None
        (loc_join (loc def_t) (loc end_t))).
(** 1638-1667 *)
Definition def_endless_method (def_t name_t : Token) (args : option Node) (assignment_t : Token)
  (body : option Node) : B (option Node) :=
  body_l <- expect (maybe_node_expr body) "endless method always has a body" ;;
  name <- value name_t ;;
  _ <-? check_reserved_for_numparam name (loc name_t) ;;
  ok (NDef name args body (loc def_t) (loc name_t) None (Some (loc assignment_t))
        (loc_join (loc def_t) body_l)).
(** 1669-1700 *)
Definition def_singleton (def_t : Token) (definee : Node) (dot_t name_t : Token) (args body : option Node)
  (end_t : Token) : B (option Node) :=
  name <- value name_t ;;
  _ <-? check_reserved_for_numparam name (loc name_t) ;;
  ok (NDefs definee name args body (loc def_t) (loc dot_t) (loc name_t) None (Some (loc end_t))
        (loc_join (loc def_t) (loc end_t))).
(** 1702-1736 *)
Definition def_endless_singleton (def_t : Token) (definee : Node) (dot_t name_t : Token) (args : option Node)
  (assignment_t : Token) (body : option Node) : B (option Node) :=
  body_l <- expect (maybe_node_expr body) "endless method always has body" ;;
  name <- value name_t ;;
  _ <-? check_reserved_for_numparam name (loc name_t) ;;
  ok (NDefs definee name args body (loc def_t) (loc dot_t) (loc name_t) (Some (loc assignment_t)) None
        (loc_join (loc def_t) body_l)).
(** 1738-1746 *)
Definition undef_method (undef_t : Token) (names : list Node) : Node :=
  NUndef names (loc undef_t) (maybe_join (loc undef_t) (collection_expr names)).
(** 1748-1762 *)
Definition alias (alias_t : Token) (to from : Node) : Node :=
  NAlias to from (loc alias_t) (loc_join (loc alias_t) (expression from)).

(** ** Formal arguments *)

(** 1768-1793 *)
Definition args_ (begin_t : option Token) (args : list Node) (end_t : option Token) : B (option Node) :=
  check_duplicate_args args [] ;;;
  validate_no_forward_arg_after_restarg args ;;;
  match begin_t, args, end_t with
  | None, [], None => ret None
  | _, _, _ =>
      ' (begin_l, end_l, expression_l) <- collection_map begin_t args end_t ;;
      ret (Some (NArgs args begin_l end_l expression_l))
  end.
(** 1795-1799 *)
Definition forward_arg (dots_t : Token) : Node := NForwardArg (loc dots_t).
(** 1801-1811 *)
Definition arg (name_t : Token) : B (option Node) :=
  name <- value name_t ;;
  _ <-? check_reserved_for_numparam name (loc name_t) ;;
  ok (NArg name (loc name_t)).
(** 1813-1833 *)
Definition optarg (name_t eql_t : Token) (default : Node) : B (option Node) :=
  name <- value name_t ;;
  _ <-? check_reserved_for_numparam name (loc name_t) ;;
  ok (NOptarg name default (loc name_t) (loc eql_t) (loc_join (loc name_t) (expression default))).
(** The shared beginning of restarg and kwrestarg, 1840-1847 and 1901-1908 *)
Definition reserved_name (name_t : option Token) : B (option (option (list N) * option Loc)) :=
  match name_t with
  | Some name_t =>
      name <- value name_t ;;
      _ <-? check_reserved_for_numparam name (loc name_t) ;;
      ok (Some name, Some (loc name_t))
  | None => ok (None, None)
  end.
(** 1835-1858 *)
Definition restarg (star_t : Token) (name_t : option Token) : B (option Node) :=
  r <-? reserved_name name_t ;;
  let '(name, name_l) := r in
  ok (NRestarg name (loc star_t) name_l (maybe_join (loc star_t) name_l)).
(** 1860-1873 *)
Definition kwarg (name_t : Token) : B (option Node) :=
  name <- value name_t ;;
  _ <-? check_reserved_for_numparam name (loc name_t) ;;
  name_l <- adjust_end (loc name_t) (-1) ;;
  ok (NKwarg name name_l (loc name_t)).
(** 1875-1894 *)
Definition kwoptarg (name_t : Token) (default : Node) : B (option Node) :=
  name <- value name_t ;;
  _ <-? check_reserved_for_numparam name (loc name_t) ;;
  name_l <- adjust_end (loc name_t) (-1) ;;
  ok (NKwoptarg name default name_l (loc_join (expression default) (loc name_t))).
(** 1896-1919 *)
Definition kwrestarg (dstar_t : Token) (name_t : option Token) : B (option Node) :=
  r <-? reserved_name name_t ;;
  let '(name, name_l) := r in
  ok (NKwrestarg name (loc dstar_t) name_l (maybe_join (loc dstar_t) name_l)).
(** 1921-1929 *)
Definition kwnilarg (dstar_t nil_t : Token) : Node :=
  NKwnilarg (loc nil_t) (loc_join (loc dstar_t) (loc nil_t)).
(** 1931-1940 *)
Definition shadowarg (name_t : Token) : B (option Node) :=
  name <- value name_t ;;
  _ <-? check_reserved_for_numparam name (loc name_t) ;;
  ok (NShadowarg name (loc name_t)).
(** 1942-1962 *)
Definition blockarg (amper_t : Token) (name_t : option Token) : B (option Node) :=
  name <- maybe_value name_t ;;
  let name_l := maybe_loc name_t in
  _ <-? match name_l, name with
        | Some name_l, Some name => check_reserved_for_numparam name name_l
        | _, _ => ok tt
        end ;;
  ok (NBlockarg name (loc amper_t) name_l (maybe_join (loc amper_t) name_l)).
(** 1964-1987 *)
Definition procarg0 (arg : Node) : B Node :=
  match arg with
  | NMlhs items begin_l end_l e => ret (NProcarg0 items begin_l end_l e)
  | NArg name e => ret (NProcarg0 [NArg name e] None None e)
  | _ => panic "unsupported procarg0 child"
  end.

(** ** Method calls *)

(** 38-41, 1993-1998: is it a safe-navigation call *)
Definition is_csend (dot_t : option Token) : bool :=
  match dot_t with
  | Some t => match token_type t with tANDDOT => true | _ => false end
  | None => false
  end.
(** 2000-2004 *)
Definition forwarded_args (dots_t : Token) : Node := NForwardedArgs (loc dots_t).
(** 2006-2061 *)
Definition call_method (receiver : option Node) (dot_t selector_t lparen_t : option Token) (args : list Node)
  (rparen_t : option Token) : B Node :=
  begin_l <- expect (or_else (maybe_node_expr receiver) (maybe_loc selector_t)) "can't compute begin_l" ;;
  end_l <- expect (or_else (or_else (maybe_loc rparen_t) (maybe_node_expr (last_opt args))) (maybe_loc selector_t))
             "can't compute end_l" ;;
  let expression_l := loc_join begin_l end_l in
  let dot_l := maybe_loc dot_t in
  let selector_l := maybe_loc selector_t in
  let begin_l := maybe_loc lparen_t in
  let end_l := maybe_loc rparen_t in
  method_name <- maybe_value selector_t ;;
  let method_name := unwrap_or method_name (bs "call") in
  let args := rewrite_hash_args_to_kwargs args in
  if is_csend dot_t then
    recv <- expect receiver "csend node must have a receiver" ;;
    dot_l <- expect dot_l "csend node must have &." ;;
    ret (NCSend recv method_name args dot_l selector_l begin_l end_l None expression_l)
  else ret (NSend receiver method_name args dot_l selector_l begin_l end_l None expression_l).
(** 2063-2067 *)
Definition call_lambda (lambda_t : Token) : Node := NLambda (loc lambda_t).

(** 55-59 *)
Inductive ArgsType : Type := ArgsT (args : option Node) | Numargs (n : N).
(** The closure validate_block_and_block_arg, 2079-2094 *)
Definition validate_block_and_block_arg (args : list Node) : B (option unit) :=
  match last_opt args with
  | Some ((NBlockPass _ _ _ | NForwardedArgs _) as last_arg) =>
      b_error BlockAndBlockArgGiven (expression last_arg) ;;; err
  | _ => ok tt
  end.
(** The block node around a call, 2118-2149 and 2164-2187; [Loc { begin: 0, end: 0 }] is 2133, 2180 *)
Definition block_node (call : Node) (begin_l end_l : Loc) (block_args : ArgsType) (body : option Node) : Node :=
  let expression_l := loc_join (expression call) end_l in
  match block_args with
  | ArgsT args => NBlock call args body begin_l end_l expression_l
  | Numargs n => NNumblock call n (unwrap_or body (NNil (mkLoc 0 0))) begin_l end_l expression_l
  end.
(** The closure rewrite_args_and_loc, 2110-2155 *)
Definition rewrite_args_and_loc (method_args : list Node) (keyword_expression_l : Loc) (begin_l end_l : Loc)
  (block_args : ArgsType) (body : option Node) : B (list Node * Loc) :=
  actual_send <- expect (first_opt method_args) "called `Option::unwrap()` on a `None` value" ;;
  let block := block_node actual_send begin_l end_l block_args body in
  ret ([block], loc_join keyword_expression_l (expression block)).
(** 2069-2236 *)
Definition block (method_call : Node) (begin_t : Token) (block_args : ArgsType) (body : option Node)
  (end_t : Token) : B (option Node) :=
  _ <-? match method_call with
        | NYield _ keyword_l _ _ _ => b_error BlockGivenToYield keyword_l ;;; err
        | NSend _ _ args _ _ _ _ _ _ => validate_block_and_block_arg args
        | NCSend _ _ args _ _ _ _ _ _ => validate_block_and_block_arg args
        | _ => ok tt
        end ;;
  let begin_l := loc begin_t in
  let end_l := loc end_t in
  match method_call with
  | NSend _ _ _ _ _ _ _ _ _ | NCSend _ _ _ _ _ _ _ _ _ | NIndex _ _ _ _ _ | NSuper _ _ _ _ _ | NZSuper _
  | NLambda _ => ok (block_node method_call begin_l end_l block_args body)
  | NReturn args keyword_l e =>
      ' (args, e) <- rewrite_args_and_loc args e begin_l end_l block_args body ;; ok (NReturn args keyword_l e)
  | NNext args keyword_l e =>
      ' (args, e) <- rewrite_args_and_loc args e begin_l end_l block_args body ;; ok (NNext args keyword_l e)
  | NBreak args keyword_l e =>
      ' (args, e) <- rewrite_args_and_loc args e begin_l end_l block_args body ;; ok (NBreak args keyword_l e)
  | _ => panic "unsupported method call"
  end.
(** 2237-2250 *)
Definition block_pass (amper_t : Token) (value : option Node) : Node :=
  NBlockPass value (loc amper_t) (maybe_join (loc amper_t) (maybe_node_expr value)).
(** 2252-2290 *)
Definition attr_asgn (receiver : Node) (dot_t selector_t : Token) : B Node :=
  let expression_l := loc_join (expression receiver) (loc selector_t) in
  name <- value selector_t ;;
  let method_name := name ++ bs "=" in
  if is_csend (Some dot_t) then
    ret (NCSend receiver method_name [] (loc dot_t) (Some (loc selector_t)) None None None expression_l)
  else
    ret (NSend (Some receiver) method_name [] (Some (loc dot_t)) (Some (loc selector_t)) None None None expression_l).
(** 2292-2312 *)
Definition index (recv : Node) (lbrack_t : Token) (indexes : list Node) (rbrack_t : Token) : Node :=
  NIndex recv (rewrite_hash_args_to_kwargs indexes) (loc lbrack_t) (loc rbrack_t)
    (loc_join (expression recv) (loc rbrack_t)).
(** 2314-2334 *)
Definition index_asgn (recv : Node) (lbrack_t : Token) (indexes : list Node) (rbrack_t : Token) : Node :=
  NIndexAsgn recv indexes None (loc lbrack_t) (loc rbrack_t) None (loc_join (expression recv) (loc rbrack_t)).
(** 2336-2359 *)
Definition binary_op (receiver : Node) (operator_t : Token) (arg : Node) : B (option Node) :=
  _ <-? value_expr receiver ;;
  _ <-? value_expr arg ;;
  name <- value operator_t ;;
  ok (NSend (Some receiver) name [arg] None (Some (loc operator_t)) None None None (join_exprs receiver arg)).
(** The loop over the captures, 2375-2377 *)
Fixpoint declare_all (names : list (list N)) : B unit :=
  match names with [] => ret tt | x :: l => b_declare x ;;; declare_all l end.
(** 2361-2400 *)
Definition match_op (receiver : Node) (match_t : Token) (arg : Node) : B (option Node) :=
  _ <-? value_expr receiver ;;
  _ <-? value_expr arg ;;
  let expression_l := join_exprs receiver arg in
  captures <- static_regexp_captures receiver ;;
  match captures with
  | Some captures => declare_all captures ;;; ok (NMatchWithLvasgn receiver arg (loc match_t) expression_l)
  | None => ok (NSend (Some receiver) (bs "=~") [arg] None (Some (loc match_t)) None None None expression_l)
  end.
(** 2402-2425 *)
Definition unary_op (op_t : Token) (receiver : Node) : B (option Node) :=
  _ <-? value_expr receiver ;;
  op <- value op_t ;;
  let method_name := if bytes_eqb op (bs "+") || bytes_eqb op (bs "-") then op ++ bs "@" else op in
  ok (NSend (Some receiver) method_name [] None (Some (loc op_t)) None None None
        (loc_join (expression receiver) (loc op_t))).
(** 2427-2488 *)
Definition not_op (not_t : Token) (begin_t : option Token) (receiver : option Node) (end_t : option Token)
  : B (option Node) :=
  match receiver with
  | Some receiver =>
      _ <-? value_expr receiver ;;
      let end_l := unwrap_or (maybe_loc end_t) (expression receiver) in
      ok (NSend (Some (check_condition receiver)) (bs "!") [] None (Some (loc not_t)) (maybe_loc begin_t)
            (maybe_loc end_t) None (loc_join (loc not_t) end_l))
  | None =>
      ' (begin_l, end_l, expression_l) <- collection_map begin_t [] end_t ;;
      let nil_node := NBegin [] begin_l end_l expression_l in
      ok (NSend (Some nil_node) (bs "!") [] None (Some (loc not_t)) None None None
            (loc_join (expression nil_node) (loc not_t)))
  end.

(** ** Control flow *)

(** 43-47 *)
Inductive LogicalOp : Type := LAnd | LOr.
(** 2496-2525 *)
Definition logical_op (type_ : LogicalOp) (lhs : Node) (op_t : Token) (rhs : Node) : B (option Node) :=
  _ <-? value_expr lhs ;;
  ok (match type_ with
      | LAnd => NAnd lhs rhs (loc op_t) (join_exprs lhs rhs)
      | LOr => NOr lhs rhs (loc op_t) (join_exprs lhs rhs)
      end).
(** 2529-2562 *)
Definition condition (cond_t : Token) (cond : Node) (then_t : Token) (if_true : option Node)
  (else_t : option Token) (if_false : option Node) (end_t : option Token) : Node :=
  let end_l :=
    unwrap_or (or_else (or_else (or_else (maybe_loc end_t) (maybe_node_expr if_false)) (maybe_loc else_t))
                 (maybe_node_expr if_true)) (loc then_t) in
  NIf (check_condition cond) if_true if_false (loc cond_t) (loc then_t) (maybe_loc else_t) (maybe_loc end_t)
    (loc_join (loc cond_t) end_l).
(** 2564-2588 *)
Definition condition_mod (if_true if_false : option Node) (cond_t : Token) (cond : Node) : B Node :=
  pre <- match if_true, if_false with
         | None, None => panic "at least one of if_true/if_false is required"
         | None, Some if_false => ret if_false
         | Some if_true, None => ret if_true
         | Some _, Some _ => panic "only one of if_true/if_false is required"
         end ;;
  ret (NIfMod (check_condition cond) if_true if_false (loc cond_t) (loc_join (expression pre) (expression cond))).
(** 2590-2610 *)
Definition ternary (cond : Node) (question_t : Token) (if_true : Node) (colon_t : Token) (if_false : Node) : Node :=
  NIfTernary cond if_true if_false (loc question_t) (loc colon_t) (join_exprs cond if_false).
(** 2614-2636 *)
Definition when_ (when_t : Token) (patterns : list Node) (then_t : Token) (body : option Node) : Node :=
  let expr_end_l := unwrap_or (or_else (maybe_node_expr body) (maybe_node_expr (last_opt patterns))) (loc when_t) in
  NWhen patterns body (loc when_t) (loc then_t) (loc_join (loc when_t) expr_end_l).
(** 2638-2661 *)
Definition case (case_t : Token) (expr : option Node) (when_bodies : list Node) (else_t : option Token)
  (else_body : option Node) (end_t : Token) : Node :=
  NCase expr when_bodies else_body (loc case_t) (maybe_loc else_t) (loc end_t) (loc_join (loc case_t) (loc end_t)).

(** 19-23 *)
Inductive LoopType : Type := LWhile | LUntil.
(** 2665-2699 *)
Definition loop_ (loop_type : LoopType) (keyword_t : Token) (cond : Node) (do_t : Token) (body : option Node)
  (end_t : Token) : Node :=
  let cond := check_condition cond in
  let e := loc_join (loc keyword_t) (loc end_t) in
  match loop_type with
  | LWhile => NWhile cond body (loc keyword_t) (Some (loc do_t)) (Some (loc end_t)) e
  | LUntil => NUntil cond body (loc keyword_t) (Some (loc do_t)) (Some (loc end_t)) e
  end.
(** 2701-2743 *)
Definition loop_mod (loop_type : LoopType) (body : Node) (keyword_t : Token) (cond : Node) : Node :=
  let e := loc_join (expression body) (expression cond) in
  let cond := check_condition cond in
  match loop_type, body with
  | LWhile, NKwBegin _ _ _ _ => NWhilePost cond body (loc keyword_t) e
  | LWhile, _ => NWhile cond (Some body) (loc keyword_t) None None e
  | LUntil, NKwBegin _ _ _ _ => NUntilPost cond body (loc keyword_t) e
  | LUntil, _ => NUntil cond (Some body) (loc keyword_t) None None e
  end.
(** 2745-2771 *)
Definition for_ (for_t : Token) (iterator : Node) (in_t : Token) (iteratee : Node) (do_t : Token)
  (body : option Node) (end_t : Token) : Node :=
  NFor iterator iteratee body (loc for_t) (loc in_t) (loc do_t) (loc end_t) (loc_join (loc for_t) (loc end_t)).

(** 25-36 *)
Inductive KeywordCmd : Type :=
  KBreak | KDefined | KNext | KRedo | KRetry | KReturn | KSuper | KYield | KZsuper.
(** 2775-2851 *)
Definition keyword_cmd (type_ : KeywordCmd) (keyword_t : Token) (lparen_t : option Token) (args : list Node)
  (rparen_t : option Token) : B (option Node) :=
  let keyword_l := loc keyword_t in
  let reject := match type_, last_opt args with
                | KYield, Some (NBlockPass _ _ _) => true
                | _, _ => false
                end in
  if reject then b_error BlockGivenToYield keyword_l ;;; err
  else
    let args := match type_ with
                | KYield | KSuper => rewrite_hash_args_to_kwargs args
                | _ => args
                end in
    let begin_l := maybe_loc lparen_t in
    let end_l := maybe_loc rparen_t in
    let expr_end_l := unwrap_or (or_else end_l (maybe_node_expr (last_opt args))) keyword_l in
    let e := loc_join keyword_l expr_end_l in
    match type_ with
    | KBreak => ok (NBreak args keyword_l e)
    | KDefined =>
        value <- expect (first_opt args) "called `Option::unwrap()` on a `None` value" ;;
        ok (NDefined value keyword_l begin_l end_l e)
    | KNext => ok (NNext args keyword_l e)
    | KRedo => ok (NRedo e)
    | KRetry => ok (NRetry e)
    | KReturn => ok (NReturn args keyword_l e)
    | KSuper => ok (NSuper args keyword_l begin_l end_l e)
    | KYield => ok (NYield args keyword_l begin_l end_l e)
    | KZsuper => ok (NZSuper e)
    end.
(** 2855-2894 *)
Definition preexe (preexe_t lbrace_t : Token) (body : option Node) (rbrace_t : Token) : Node :=
  NPreexe body (loc preexe_t) (loc lbrace_t) (loc rbrace_t) (loc_join (loc preexe_t) (loc rbrace_t)).
Definition postexe (postexe_t lbrace_t : Token) (body : option Node) (rbrace_t : Token) : Node :=
  NPostexe body (loc postexe_t) (loc lbrace_t) (loc rbrace_t) (loc_join (loc postexe_t) (loc rbrace_t)).

(** ** Exception handling *)

(** 2898-2927 *)
Definition rescue_body (rescue_t : Token) (exc_list : option Node) (assoc_t : option Token)
  (exc_var : option Node) (then_t : option Token) (body : option Node) : Node :=
  let end_l :=
    unwrap_or (or_else (or_else (or_else (maybe_node_expr body) (maybe_loc then_t)) (maybe_node_expr exc_var))
                 (maybe_node_expr exc_list)) (loc rescue_t) in
  NRescueBody exc_list exc_var body (loc rescue_t) (maybe_loc assoc_t) (maybe_loc then_t)
    (loc_join (loc rescue_t) end_l).
(** The part of begin_body before [ensure], 2936-3017 *)
Definition begin_body_rescue (compound_stmt : option Node) (rescue_bodies : list Node)
  (else_ : option (Token * option Node)) : B (option Node) :=
  match rescue_bodies with
  | _ :: _ =>
      begin_l <- expect (or_else (maybe_node_expr compound_stmt) (maybe_node_expr (first_opt rescue_bodies)))
                   "can't compute begin_l" ;;
      match else_ with
      | Some (else_t, else_) =>
          let end_l := unwrap_or (maybe_node_expr else_) (loc else_t) in
          ret (Some (NRescue compound_stmt rescue_bodies else_ (Some (loc else_t)) (loc_join begin_l end_l)))
      | None =>
          end_l <- expect (maybe_node_expr (last_opt rescue_bodies)) "can't compute end_l" ;;
          ret (Some (NRescue compound_stmt rescue_bodies None None (loc_join begin_l end_l)))
      end
  | [] =>
      match else_ with
      | Some (else_t, else_) =>
          let statements := match compound_stmt with
                            | Some (NBegin stmts _ _ _) => stmts
                            | Some other => [other]
                            | None => []
                            end in
          let parts := olist else_ in
          ' (begin_l, end_l, expression_l) <- collection_map (Some else_t) parts None ;;
          let statements := statements ++ [NBegin parts begin_l end_l expression_l] in
          ' (begin_l, end_l, expression_l) <- collection_map None statements None ;;
          ret (Some (NBegin statements begin_l end_l expression_l))
      | None => ret compound_stmt
      end
  end.
(** 2929-3040 *)
Definition begin_body (compound_stmt : option Node) (rescue_bodies : list Node)
  (else_ ensure : option (Token * option Node)) : B (option Node) :=
  result <- begin_body_rescue compound_stmt rescue_bodies else_ ;;
  match ensure with
  | Some (ensure_t, ensure_body) =>
      let begin_l := unwrap_or (maybe_node_expr result) (loc ensure_t) in
      let end_l := unwrap_or (maybe_node_expr ensure_body) (loc ensure_t) in
      ret (Some (NEnsure result ensure_body (loc ensure_t) (loc_join begin_l end_l)))
  | None => ret result
  end.

(** ** Expression grouping *)

(** 3047-3066 *)
Definition compstmt (statements : list Node) : B (option Node) :=
  match statements with
  | [] => ret None
  | [stmt] => ret (Some stmt)
  | _ =>
      ' (begin_l, end_l, expression_l) <- collection_map None statements None ;;
      ret (Some (NBegin statements begin_l end_l expression_l))
  end.
(** 3068-3124 *)
Definition begin (begin_t : Token) (body : option Node) (end_t : Token) : Node :=
  let new_begin_l := Some (loc begin_t) in
  let new_end_l := Some (loc end_t) in
  let e := loc_join (loc begin_t) (loc end_t) in
  match body with
  | Some (NMlhs items _ _ _) => NMlhs items new_begin_l new_end_l e
  | Some (NBegin statements None None _) => NBegin statements new_begin_l new_end_l e
  | Some body => NBegin [body] new_begin_l new_end_l e
  | None => NBegin [] new_begin_l new_end_l e
  end.
(** 3126-3167 *)
Definition begin_keyword (begin_t : Token) (body : option Node) (end_t : Token) : Node :=
  let begin_l := Some (loc begin_t) in
  let end_l := Some (loc end_t) in
  let e := loc_join (loc begin_t) (loc end_t) in
  match body with
  | Some (NBegin statements _ _ _) => NKwBegin statements begin_l end_l e
  | Some other => NKwBegin [other] begin_l end_l e
  | None => NKwBegin [] begin_l end_l e
  end.

(** ** Pattern matching *)

(** 3173-3203 *)
Definition case_match (case_t : Token) (expr : Node) (in_bodies : list Node) (else_t : option Token)
  (else_body : option Node) (end_t : Token) : Node :=
  let else_body := match else_t, else_body with
                   | Some else_t, None => Some (NEmptyElse (loc else_t))
                   | _, _ => else_body
                   end in
  NCaseMatch expr in_bodies else_body (loc case_t) (maybe_loc else_t) (loc end_t)
    (loc_join (loc case_t) (loc end_t)).
(** 3205-3237 *)
Definition match_pattern (value : Node) (assoc_t : Token) (pattern : Node) : Node :=
  NMatchPattern value pattern (loc assoc_t) (join_exprs value pattern).
Definition match_pattern_p (value : Node) (in_t : Token) (pattern : Node) : Node :=
  NMatchPatternP value pattern (loc in_t) (join_exprs value pattern).
(** 3239-3263 *)
Definition in_pattern (in_t : Token) (pattern : Node) (guard : option Node) (then_t : Token) (body : option Node)
  : Node :=
  let e := loc_join (unwrap_or (or_else (maybe_node_expr body) (maybe_node_expr guard)) (expression pattern))
             (loc in_t) in
  NInPattern pattern guard body (loc in_t) (loc then_t) e.
(** 3265-3284 *)
Definition if_guard (if_t : Token) (cond : Node) : Node :=
  NIfGuard cond (loc if_t) (loc_join (loc if_t) (expression cond)).
Definition unless_guard (unless_t : Token) (cond : Node) : Node :=
  NUnlessGuard cond (loc unless_t) (loc_join (loc unless_t) (expression cond)).
(** 3286-3300 *)
Definition match_var (name_t : Token) : B (option Node) :=
  name <- value name_t ;;
  _ <-? check_lvar_name name (loc name_t) ;;
  _ <-? check_duplicate_pattern_variable name (loc name_t) ;;
  b_declare name ;;;
  ok (NMatchVar name (loc name_t) (loc name_t)).
(** 3302-3317 *)
Definition match_hash_var (name_t : Token) : B (option Node) :=
  let expression_l := loc name_t in
  name_l <- adjust_end expression_l (-1) ;;
  name <- value name_t ;;
  _ <-? check_lvar_name name name_l ;;
  _ <-? check_duplicate_pattern_variable name name_l ;;
  b_declare name ;;;
  ok (NMatchVar name name_l expression_l).
(** 3318-3387: one string, and the list it must be the only element of *)
Fixpoint match_hash_var_node (begin_t : Token) (string : Node) (end_t : Token) {struct string}
  : B (option Node) :=
  match string with
  | NStr value begin_l end_l expression_l =>
      let name := utf8_lossy value in
      let name_l := expression_l in
      _ <-? check_lvar_name name name_l ;;
      _ <-? check_duplicate_pattern_variable name name_l ;;
      b_declare name ;;;
      name_l <- match begin_l with
                | Some begin_l => d <- size_i32 begin_l ;; adjust_begin name_l d
                | None => ret name_l
                end ;;
      name_l <- match end_l with
                | Some end_l => d <- size_i32 end_l ;; adjust_end name_l (- d)
                | None => ret name_l
                end ;;
      ok (NMatchVar name name_l (loc_join (loc_join (loc begin_t) expression_l) (loc end_t)))
  | NBegin statements _ _ _ =>
      match statements with
      | [string] => match_hash_var_node begin_t string end_t
      | _ => b_error SymbolLiteralWithInterpolation (loc_join (loc begin_t) (loc end_t)) ;;; err
      end
  | _ => b_error SymbolLiteralWithInterpolation (loc_join (loc begin_t) (loc end_t)) ;;; err
  end.
Definition match_hash_var_from_str (begin_t : Token) (strings : list Node) (end_t : Token) : B (option Node) :=
  match strings with
  | [string] => match_hash_var_node begin_t string end_t
  | _ => b_error SymbolLiteralWithInterpolation (loc_join (loc begin_t) (loc end_t)) ;;; err
  end.
(** 3389-3408 *)
Definition match_rest (star_t : Token) (name_t : option Token) : B (option Node) :=
  name <-? match name_t with
           | Some name_t => n <-? match_var name_t ;; ok (Some n)
           | None => ok None
           end ;;
  ok (NMatchRest name (loc star_t) (maybe_join (loc star_t) (maybe_node_expr name))).
(** 3410-3428 *)
Definition hash_pattern (lbrace_t : option Token) (kwargs : list Node) (rbrace_t : option Token) : B Node :=
  ' (begin_l, end_l, expression_l) <- collection_map lbrace_t kwargs rbrace_t ;;
  ret (NHashPattern kwargs begin_l end_l expression_l).
(** 3430-3469 *)
Definition array_pattern (lbrack_t : option Token) (elements : list Node) (trailing_comma rbrack_t : option Token)
  : B Node :=
  ' (begin_l, end_l, expression_l) <- collection_map lbrack_t elements rbrack_t ;;
  let expression_l := maybe_join expression_l (maybe_loc trailing_comma) in
  match elements, trailing_comma with
  | [], _ => ret (NArrayPattern [] begin_l end_l expression_l)
  | _, Some _ => ret (NArrayPatternWithTail elements begin_l end_l expression_l)
  | _, None => ret (NArrayPattern elements begin_l end_l expression_l)
  end.
(** 3471-3489 *)
Definition find_pattern (lbrack_t : option Token) (elements : list Node) (rbrack_t : option Token) : B Node :=
  ' (begin_l, end_l, expression_l) <- collection_map lbrack_t elements rbrack_t ;;
  ret (NFindPattern elements begin_l end_l expression_l).
(** 3491-3509 *)
Definition const_pattern (const_ : Node) (ldelim_t : Token) (pattern : Node) (rdelim_t : Token) : Node :=
  NConstPattern const_ pattern (loc ldelim_t) (loc rdelim_t) (loc_join (expression const_) (loc rdelim_t)).
(** 3511-3520 *)
Definition pin (pin_t : Token) (var : Node) : Node :=
  NPin var (loc pin_t) (loc_join (expression var) (loc pin_t)).
(** 3522-3554 *)
Definition match_alt (lhs : Node) (pipe_t : Token) (rhs : Node) : Node :=
  NMatchAlt lhs rhs (loc pipe_t) (join_exprs lhs rhs).
Definition match_as (value : Node) (assoc_t : Token) (as_ : Node) : Node :=
  NMatchAs value as_ (loc assoc_t) (join_exprs value as_).
(** 3556-3570 *)
Definition match_nil_pattern (dstar_t nil_t : Token) : Node :=
  NMatchNilPattern (loc dstar_t) (loc nil_t) (loc_join (loc dstar_t) (loc nil_t)).

(** 49-53 *)
Inductive PKwLabel : Type :=
| PlainLabel (label_t : Token)
| QuotedLabel (begin_t : Token) (parts : list Node) (end_t : Token).
(** 3572-3603 *)
Definition match_pair (p_kw_label : PKwLabel) (value : Node) : B (option Node) :=
  match p_kw_label with
  | PlainLabel label_t =>
      _ <-? check_duplicate_pattern_key (clone_value label_t) (loc label_t) ;;
      n <- pair_keyword label_t value ;; ok n
  | QuotedLabel begin_t parts end_t =>
      let label_loc := loc_join (loc begin_t) (loc end_t) in
      match static_string parts with
      | Some var_name =>
          _ <-? check_duplicate_pattern_key var_name label_loc ;;
          n <- pair_quoted begin_t parts end_t value ;; ok n
      | None => b_error SymbolLiteralWithInterpolation label_loc ;;; err
      end
  end.
(** 3605-3612 *)
Definition match_label (p_kw_label : PKwLabel) : B (option Node) :=
  match p_kw_label with
  | PlainLabel label_t => match_hash_var label_t
  | QuotedLabel begin_t parts end_t => match_hash_var_from_str begin_t parts end_t
  end.
