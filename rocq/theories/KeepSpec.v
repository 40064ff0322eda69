(** * What a syntax tree records (specification for C52)

    Independent of how src/builder.rs works: the pieces of the program that a tree records, and for every
    function of builder.rs the pieces it is given.  A piece is a mark (the place of a keyword, an operator or a
    delimiter), a name with its place, or the text of a literal.  The range of a node is no piece of its own
    unless the node has nothing else. *)
Require Import Verif.Base Verif.InputM Verif.TokensM Verif.NodeM.
Require Import Verif.LexerM Verif.BuilderM Verif.BuilderNodesM.
From Coq Require Import Permutation.

Inductive Item : Type := Mark (l : Loc) | Name (name : list N) (l : Loc) | Text (v : list N).

Definition marks (l : option Loc) : list Item := match l with Some l => [Mark l] | None => [] end.
Definition text (v : list N) : list Item := match v with [] => [] | _ => [Text v] end.
(** A name whose place may be missing (the method of [f.()]) *)
Definition named_at (name : list N) (l : option Loc) : list Item :=
  match l with Some l => [Name name l] | None => [Text name] end.
(** A parameter that may have no name *)
Definition name_opt (name : option (list N)) (l : option Loc) : list Item :=
  match name with Some name => named_at name l | None => marks l end.
Definition opt_items {A} (f : A -> list Item) (o : option A) : list Item :=
  match o with Some a => f a | None => [] end.

(** ** What a tree records *)

(** Marks and names of the node, then those of the nodes below it; the place of the body of a heredoc follows
    from its parts, the letters of the options of a regexp are the subject of C33 *)
Fixpoint items (n : Node) : list Item :=
  match n with
  | NAlias to from keyword_l _ => [Mark keyword_l] ++ items to ++ items from
  | NAnd lhs rhs operator_l _ => [Mark operator_l] ++ items lhs ++ items rhs
  | NAndAsgn recv value operator_l _ => [Mark operator_l] ++ items recv ++ items value
  | NArg name expression_l => [Name name expression_l]
  | NArgs args begin_l end_l _ => marks begin_l ++ marks end_l ++ flat_map items args
  | NArray elements begin_l end_l _ => marks begin_l ++ marks end_l ++ flat_map items elements
  | NArrayPattern elements begin_l end_l _ => marks begin_l ++ marks end_l ++ flat_map items elements
  | NArrayPatternWithTail elements begin_l end_l _ => marks begin_l ++ marks end_l ++ flat_map items elements
  | NBackRef name expression_l => [Name name expression_l]
  | NBegin statements begin_l end_l _ => marks begin_l ++ marks end_l ++ flat_map items statements
  | NBlock call args body begin_l end_l _ =>
      [Mark begin_l] ++ [Mark end_l] ++ items call ++ opt_items items args ++ opt_items items body
  | NBlockPass value operator_l _ => [Mark operator_l] ++ opt_items items value
  | NBlockarg name operator_l name_l _ => name_opt name name_l ++ [Mark operator_l]
  | NBreak args keyword_l _ => [Mark keyword_l] ++ flat_map items args
  | NCSend recv method_name args dot_l selector_l begin_l end_l operator_l _ =>
      named_at method_name selector_l ++ [Mark dot_l] ++ marks begin_l ++ marks end_l ++ marks operator_l ++
      items recv ++ flat_map items args
  | NCase expr when_bodies else_body keyword_l else_l end_l _ =>
      [Mark keyword_l] ++ marks else_l ++ [Mark end_l] ++ opt_items items expr ++ flat_map items when_bodies ++
      opt_items items else_body
  | NCaseMatch expr in_bodies else_body keyword_l else_l end_l _ =>
      [Mark keyword_l] ++ marks else_l ++ [Mark end_l] ++ items expr ++ flat_map items in_bodies ++
      opt_items items else_body
  | NCasgn scope name value double_colon_l name_l operator_l _ =>
      [Name name name_l] ++ marks double_colon_l ++ marks operator_l ++ opt_items items scope ++
      opt_items items value
  | NCbase expression_l => [Mark expression_l]
  | NClass name superclass body keyword_l operator_l end_l _ =>
      [Mark keyword_l] ++ marks operator_l ++ [Mark end_l] ++ items name ++ opt_items items superclass ++
      opt_items items body
  | NComplex value operator_l expression_l => [Name value expression_l] ++ marks operator_l
  | NConst scope name double_colon_l name_l _ =>
      [Name name name_l] ++ marks double_colon_l ++ opt_items items scope
  | NConstPattern const_ pattern begin_l end_l _ => [Mark begin_l] ++ [Mark end_l] ++ items const_ ++ items pattern
  | NCvar name expression_l => [Name name expression_l]
  | NCvasgn name value name_l operator_l _ => [Name name name_l] ++ marks operator_l ++ opt_items items value
  | NDef name args body keyword_l name_l end_l assignment_l _ =>
      [Name name name_l] ++ [Mark keyword_l] ++ marks end_l ++ marks assignment_l ++ opt_items items args ++
      opt_items items body
  | NDefined value keyword_l begin_l end_l _ => [Mark keyword_l] ++ marks begin_l ++ marks end_l ++ items value
  | NDefs definee name args body keyword_l operator_l name_l assignment_l end_l _ =>
      [Name name name_l] ++ [Mark keyword_l] ++ [Mark operator_l] ++ marks assignment_l ++ marks end_l ++
      items definee ++ opt_items items args ++ opt_items items body
  | NDstr parts begin_l end_l _ => marks begin_l ++ marks end_l ++ flat_map items parts
  | NDsym parts begin_l end_l _ => marks begin_l ++ marks end_l ++ flat_map items parts
  | NEFlipFlop left_ right_ operator_l _ => [Mark operator_l] ++ opt_items items left_ ++ opt_items items right_
  | NEmptyElse expression_l => [Mark expression_l]
  | NEncoding expression_l => [Mark expression_l]
  | NEnsure body ensure keyword_l _ => [Mark keyword_l] ++ opt_items items body ++ opt_items items ensure
  | NErange left_ right_ operator_l _ => [Mark operator_l] ++ opt_items items left_ ++ opt_items items right_
  | NFalse expression_l => [Mark expression_l]
  | NFile expression_l => [Mark expression_l]
  | NFindPattern elements begin_l end_l _ => marks begin_l ++ marks end_l ++ flat_map items elements
  | NFloat value operator_l expression_l => [Name value expression_l] ++ marks operator_l
  | NFor iterator iteratee body keyword_l operator_l begin_l end_l _ =>
      [Mark keyword_l] ++ [Mark operator_l] ++ [Mark begin_l] ++ [Mark end_l] ++ items iterator ++
      items iteratee ++ opt_items items body
  | NForwardArg expression_l => [Mark expression_l]
  | NForwardedArgs expression_l => [Mark expression_l]
  | NGvar name expression_l => [Name name expression_l]
  | NGvasgn name value name_l operator_l _ => [Name name name_l] ++ marks operator_l ++ opt_items items value
  | NHash pairs begin_l end_l _ => marks begin_l ++ marks end_l ++ flat_map items pairs
  | NHashPattern elements begin_l end_l _ => marks begin_l ++ marks end_l ++ flat_map items elements
  | NHeredoc parts _ heredoc_end_l expression_l =>
      [Mark expression_l] ++ [Mark heredoc_end_l] ++ flat_map items parts
  | NIFlipFlop left_ right_ operator_l _ => [Mark operator_l] ++ opt_items items left_ ++ opt_items items right_
  | NIf cond if_true if_false keyword_l begin_l else_l end_l _ =>
      [Mark keyword_l] ++ [Mark begin_l] ++ marks else_l ++ marks end_l ++ items cond ++
      opt_items items if_true ++ opt_items items if_false
  | NIfGuard cond keyword_l _ => [Mark keyword_l] ++ items cond
  | NIfMod cond if_true if_false keyword_l _ =>
      [Mark keyword_l] ++ items cond ++ opt_items items if_true ++ opt_items items if_false
  | NIfTernary cond if_true if_false question_l colon_l _ =>
      [Mark question_l] ++ [Mark colon_l] ++ items cond ++ items if_true ++ items if_false
  | NInPattern pattern guard body keyword_l begin_l _ =>
      [Mark keyword_l] ++ [Mark begin_l] ++ items pattern ++ opt_items items guard ++ opt_items items body
  | NIndex recv indexes begin_l end_l _ => [Mark begin_l] ++ [Mark end_l] ++ items recv ++ flat_map items indexes
  | NIndexAsgn recv indexes value begin_l end_l operator_l _ =>
      [Mark begin_l] ++ [Mark end_l] ++ marks operator_l ++ items recv ++ flat_map items indexes ++
      opt_items items value
  | NInt value operator_l expression_l => [Name value expression_l] ++ marks operator_l
  | NIrange left_ right_ operator_l _ => [Mark operator_l] ++ opt_items items left_ ++ opt_items items right_
  | NIvar name expression_l => [Name name expression_l]
  | NIvasgn name value name_l operator_l _ => [Name name name_l] ++ marks operator_l ++ opt_items items value
  | NKwBegin statements begin_l end_l _ => marks begin_l ++ marks end_l ++ flat_map items statements
  | NKwarg name name_l _ => [Name name name_l]
  | NKwargs pairs _ => flat_map items pairs
  | NKwnilarg name_l _ => [Mark name_l]
  | NKwoptarg name default name_l _ => [Name name name_l] ++ items default
  | NKwrestarg name operator_l name_l _ => name_opt name name_l ++ [Mark operator_l]
  | NKwsplat value operator_l _ => [Mark operator_l] ++ items value
  | NLambda expression_l => [Mark expression_l]
  | NLine expression_l => [Mark expression_l]
  | NLvar name expression_l => [Name name expression_l]
  | NLvasgn name value name_l operator_l _ => [Name name name_l] ++ marks operator_l ++ opt_items items value
  | NMasgn lhs rhs operator_l _ => [Mark operator_l] ++ items lhs ++ items rhs
  | NMatchAlt lhs rhs operator_l _ => [Mark operator_l] ++ items lhs ++ items rhs
  | NMatchAs value as_ operator_l _ => [Mark operator_l] ++ items value ++ items as_
  | NMatchCurrentLine re _ => items re
  | NMatchNilPattern operator_l name_l _ => [Mark operator_l] ++ [Mark name_l]
  | NMatchPattern value pattern operator_l _ => [Mark operator_l] ++ items value ++ items pattern
  | NMatchPatternP value pattern operator_l _ => [Mark operator_l] ++ items value ++ items pattern
  | NMatchRest name operator_l _ => [Mark operator_l] ++ opt_items items name
  | NMatchVar name name_l _ => [Name name name_l]
  | NMatchWithLvasgn re value operator_l _ => [Mark operator_l] ++ items re ++ items value
  | NMlhs l begin_l end_l _ => marks begin_l ++ marks end_l ++ flat_map items l
  | NModule name body keyword_l end_l _ => [Mark keyword_l] ++ [Mark end_l] ++ items name ++ opt_items items body
  | NNext args keyword_l _ => [Mark keyword_l] ++ flat_map items args
  | NNil expression_l => [Mark expression_l]
  | NNthRef name expression_l => [Name name expression_l]
  | NNumblock call numargs body begin_l end_l _ =>
      [Text [numargs]] ++ [Mark begin_l] ++ [Mark end_l] ++ items call ++ items body
  | NOpAsgn recv operator value operator_l _ => [Name operator operator_l] ++ items recv ++ items value
  | NOptarg name default name_l operator_l _ => [Name name name_l] ++ [Mark operator_l] ++ items default
  | NOr lhs rhs operator_l _ => [Mark operator_l] ++ items lhs ++ items rhs
  | NOrAsgn recv value operator_l _ => [Mark operator_l] ++ items recv ++ items value
  | NPair key value operator_l _ => [Mark operator_l] ++ items key ++ items value
  | NPin var selector_l _ => [Mark selector_l] ++ items var
  | NPostexe body keyword_l begin_l end_l _ =>
      [Mark keyword_l] ++ [Mark begin_l] ++ [Mark end_l] ++ opt_items items body
  | NPreexe body keyword_l begin_l end_l _ =>
      [Mark keyword_l] ++ [Mark begin_l] ++ [Mark end_l] ++ opt_items items body
  | NProcarg0 args begin_l end_l _ => marks begin_l ++ marks end_l ++ flat_map items args
  | NRational value operator_l expression_l => [Name value expression_l] ++ marks operator_l
  | NRedo expression_l => [Mark expression_l]
  | NRegOpt _ expression_l => [Mark expression_l]
  | NRegexp parts options begin_l end_l _ =>
      [Mark begin_l] ++ [Mark end_l] ++ flat_map items parts ++ opt_items items options
  | NRescue body rescue_bodies else_ else_l _ =>
      marks else_l ++ opt_items items body ++ flat_map items rescue_bodies ++ opt_items items else_
  | NRescueBody exc_list exc_var body keyword_l assoc_l begin_l _ =>
      [Mark keyword_l] ++ marks assoc_l ++ marks begin_l ++ opt_items items exc_list ++
      opt_items items exc_var ++ opt_items items body
  | NRestarg name operator_l name_l _ => name_opt name name_l ++ [Mark operator_l]
  | NRetry expression_l => [Mark expression_l]
  | NReturn args keyword_l _ => [Mark keyword_l] ++ flat_map items args
  | NSClass expr body keyword_l operator_l end_l _ =>
      [Mark keyword_l] ++ [Mark operator_l] ++ [Mark end_l] ++ items expr ++ opt_items items body
  | NSelf_ expression_l => [Mark expression_l]
  | NSend recv method_name args dot_l selector_l begin_l end_l operator_l _ =>
      named_at method_name selector_l ++ marks dot_l ++ marks begin_l ++ marks end_l ++ marks operator_l ++
      opt_items items recv ++ flat_map items args
  | NShadowarg name expression_l => [Name name expression_l]
  | NSplat value operator_l _ => [Mark operator_l] ++ opt_items items value
  | NStr value begin_l end_l _ => text value ++ marks begin_l ++ marks end_l
  | NSuper args keyword_l begin_l end_l _ =>
      [Mark keyword_l] ++ marks begin_l ++ marks end_l ++ flat_map items args
  | NSym name begin_l end_l _ => text name ++ marks begin_l ++ marks end_l
  | NTrue expression_l => [Mark expression_l]
  | NUndef names keyword_l _ => [Mark keyword_l] ++ flat_map items names
  | NUnlessGuard cond keyword_l _ => [Mark keyword_l] ++ items cond
  | NUntil cond body keyword_l begin_l end_l _ =>
      [Mark keyword_l] ++ marks begin_l ++ marks end_l ++ items cond ++ opt_items items body
  | NUntilPost cond body keyword_l _ => [Mark keyword_l] ++ items cond ++ items body
  | NWhen patterns body keyword_l begin_l _ =>
      [Mark keyword_l] ++ [Mark begin_l] ++ flat_map items patterns ++ opt_items items body
  | NWhile cond body keyword_l begin_l end_l _ =>
      [Mark keyword_l] ++ marks begin_l ++ marks end_l ++ items cond ++ opt_items items body
  | NWhilePost cond body keyword_l _ => [Mark keyword_l] ++ items cond ++ items body
  | NXHeredoc parts _ heredoc_end_l expression_l =>
      [Mark expression_l] ++ [Mark heredoc_end_l] ++ flat_map items parts
  | NXstr parts begin_l end_l _ => [Mark begin_l] ++ [Mark end_l] ++ flat_map items parts
  | NYield args keyword_l begin_l end_l _ =>
      [Mark keyword_l] ++ marks begin_l ++ marks end_l ++ flat_map items args
  | NZSuper expression_l => [Mark expression_l]
  end.
Definition all_items (ns : list Node) : list Item := flat_map items ns.

(** ** What the functions of the builder are given *)

Definition at_ (t : Token) : list Item := [Mark (token_loc t)].
Definition at_opt (t : option Token) : list Item := opt_items at_ t.
Definition called (t : Token) : list Item := [Name (token_value t) (token_loc t)].
Definition called_opt (t : option Token) : list Item := opt_items called t.
(** A label token ends with a colon *)
Definition key_of (l : Loc) : Loc := mkLoc (loc_begin l) (loc_end l - 1).
Definition colon_of (l : Loc) : Loc := mkLoc (loc_end l - 1) (loc_end l).
Definition clause_given (c : option (Token * option Node)) : list Item :=
  match c with Some (t, _) => at_ t | None => [] end.
Definition clause_body (c : option (Token * option Node)) : list Node :=
  match c with Some (_, body) => olist body | None => [] end.
(** Delimiters that a function replaces must not be there *)
Definition undelimited (n : Node) : Prop :=
  match n with
  | NMlhs _ b e _ | NBegin _ b e _ => b = None /\ e = None
  | _ => True
  end.
Definition undelimited_opt (n : option Node) : Prop := match n with Some n => undelimited n | None => True end.
(** The string of which a composed string or symbol consists has no delimiters of its own *)
Definition plain_part (l : list Node) : Prop :=
  match l with [NStr _ b e _] => b = None /\ e = None | _ => True end.
(** Nothing is assigned yet *)
Definition no_value (n : Node) : Prop :=
  match n with
  | NCvasgn _ v _ op _ | NIvasgn _ v _ op _ | NGvasgn _ v _ op _ | NLvasgn _ v _ op _
  | NCasgn _ _ v _ _ op _ | NIndexAsgn _ _ v _ _ op _ => v = None /\ op = None
  | NSend _ _ _ _ _ _ _ op _ | NCSend _ _ _ _ _ _ _ op _ => op = None
  | _ => True
  end.
(** A block is given to a call, or to the only argument of [return], [break] or [next] *)
Definition takes_block (n : Node) : Prop :=
  match n with NReturn l _ _ | NBreak l _ _ | NNext l _ _ => List.length l = 1 | _ => True end.
Definition keyword_shape (k : KeywordCmd) (b : option Token) (l : list Node) (z : option Token) : Prop :=
  match k with
  | KBreak | KNext | KReturn => b = None /\ z = None
  | KRedo | KRetry | KZsuper => b = None /\ l = [] /\ z = None
  | KDefined => List.length l = 1
  | KSuper | KYield => True
  end.
Definition numeric (n : Node) (v : list N) (x : Loc) : Prop :=
  n = NInt v None x \/ n = NFloat v None x \/ n = NRational v None x \/ n = NComplex v None x.

(** [Given its ns n]: a function of builder.rs, called in any state of the builder with the nodes [ns] and tokens
    that stand for the pieces [its], returns the node [n].  One constructor for each function.  Tokens that
    builder.rs does not record on purpose are left out: the comma behind the elements of an array pattern and
    the stars of [**nil] (both lie within the range of the node).  The colon of a keyword parameter is no piece
    of its own. *)
Inductive Given : list Item -> list Node -> Node -> Prop :=
(* literals *)
| g_nil t : Given (at_ t) [] (nil_ t)
| g_true t : Given (at_ t) [] (true_ t)
| g_false t : Given (at_ t) [] (false_ t)
| g_integer t e s n s' : integer t e s = Ok n s' -> Given (called t) [] n
| g_float t e s n s' : float t e s = Ok n s' -> Given (called t) [] n
| g_rational t e s n s' : rational t e s = Ok n s' -> Given (called t) [] n
| g_complex t e s n s' : complex t e s = Ok n s' -> Given (called t) [] n
    (* a sign and a number become one number *)
| g_unary_num t m v x e s n s' : numeric m v x -> unary_num t m e s = Ok n s' ->
    Given (Name (token_value t ++ v) (loc_join (token_loc t) x) :: at_ t) [] n
| g_line t : Given (at_ t) [] (line_ t)
| g_string_internal t : Given (text (token_value t)) [] (string_internal t)
| g_string_compose b l z e s n s' : (b = None /\ z = None) \/ plain_part l -> string_compose b l z e s = Ok n s' ->
    Given (at_opt b ++ at_opt z) l n
| g_character t : Given (text (token_value t) ++
    [Mark (mkLoc (loc_begin (token_loc t)) (loc_begin (token_loc t) + 1))]) [] (character t)
| g_file t : Given (at_ t) [] (file_ t)
| g_symbol t v e s n s' : symbol t v e s = Ok n s' -> Given (at_ t ++ text (token_value v)) [] n
| g_symbol_internal t e s n s' : symbol_internal t e s = Ok n s' -> Given (text (token_value t)) [] n
| g_symbol_compose b l z e s n s' : plain_part l -> symbol_compose b l z e s = Ok n s' -> Given (at_ b ++ at_ z) l n
| g_xstring b l z : Given (at_ b ++ at_ z) l (xstring_compose b l z)
    (* the end token holds a delimiter and the options *)
| g_regexp_options t e s n s' : regexp_options t e s = Ok (Some n) s' ->
    Given [Mark (mkLoc (loc_begin (token_loc t) + 1) (loc_end (token_loc t)))] [] n
| g_regexp_compose b l z o e s n s' : regexp_compose b l z o e s = Ok n s' ->
    Given (at_ b ++ [Mark (mkLoc (loc_begin (token_loc z)) (loc_begin (token_loc z) + 1))]) (l ++ olist o) n
| g_array b l z e s n s' : array b l z e s = Ok n s' -> Given (at_opt b ++ at_opt z) l n
| g_splat t v : Given (at_ t) (olist v) (splat t v)
| g_word l e s n s' : word l e s = Ok n s' -> Given [] l n
| g_words_compose b l z : Given (at_ b ++ at_ z) l (words_compose b l z)
| g_symbols_compose b l z e s n s' : symbols_compose b l z e s = Ok n s' -> Given (at_ b ++ at_ z) l n
(* hashes *)
| g_pair k t v : Given (at_ t) [k; v] (pair k t v)
| g_pair_keyword t v e s n s' : pair_keyword t v e s = Ok n s' ->
    Given (text (token_value t) ++ [Mark (colon_of (token_loc t))]) [v] n
| g_pair_quoted b l z v e s n s' : plain_part l -> pair_quoted b l z v e s = Ok n s' ->
    Given (at_ b ++ [Mark (mkLoc (loc_end (token_loc z) - 2) (loc_end (token_loc z) - 1))] ++
           [Mark (colon_of (token_loc z))]) (l ++ [v]) n
    (* a key without a value stands for the variable of that name too *)
| g_pair_label t e s n s' : pair_label t e s = Ok n s' ->
    Given (text (token_value t) ++ [Mark (colon_of (token_loc t))] ++
           [Name (token_value t) (key_of (token_loc t))]) [] n
| g_kwsplat t v : Given (at_ t) [v] (kwsplat t v)
| g_associate b l z e s n s' : associate b l z e s = Ok n s' -> Given (at_opt b ++ at_opt z) l n
(* ranges *)
| g_range_inclusive l t r : Given (at_ t) (olist l ++ olist r) (range_inclusive l t r)
| g_range_exclusive l t r : Given (at_ t) (olist l ++ olist r) (range_exclusive l t r)
(* access *)
| g_self t : Given (at_ t) [] (self_ t)
| g_lvar t e s n s' : lvar t e s = Ok n s' -> Given (called t) [] n
| g_ivar t e s n s' : ivar t e s = Ok n s' -> Given (called t) [] n
| g_gvar t e s n s' : gvar t e s = Ok n s' -> Given (called t) [] n
| g_cvar t e s n s' : cvar t e s = Ok n s' -> Given (called t) [] n
| g_back_ref t e s n s' : back_ref t e s = Ok n s' -> Given (called t) [] n
    (* the number, without the dollar sign *)
| g_nth_ref t e s n s' : nth_ref t e s = Ok n s' -> Given [Name (tl (token_value t)) (token_loc t)] [] n
| g_accessible m e s n s' : accessible m e s = Ok n s' -> Given [] [m] n
| g_const t e s n s' : const_ t e s = Ok n s' -> Given (called t) [] n
    (* the leading colons are recorded as the scope too *)
| g_const_global t v e s n s' : const_global t v e s = Ok n s' -> Given (at_ t ++ at_ t ++ called v) [] n
| g_const_fetch m t v e s n s' : const_fetch m t v e s = Ok n s' -> Given (at_ t ++ called v) [m] n
| g_encoding t : Given (at_ t) [] (encoding_ t)
(* assignments *)
| g_assignable m e s n s' : assignable m e s = Ok (Some n) s' -> Given [] [m] n
| g_const_op_assignable m e s n s' : const_op_assignable m e s = Ok n s' -> Given [] [m] n
| g_assign l t r e s n s' : no_value l -> assign l t r e s = Ok n s' -> Given (at_ t) [l; r] n
    (* the operator, without the equals sign *)
| g_op_assign l t o r e s n s' : token_value t = o ++ [61%N] -> forallb (fun c => (c <? 128)%N) o = true ->
    op_assign l t r e s = Ok (Some n) s' ->
    Given (if bytes_eqb o (bs "&&") || bytes_eqb o (bs "||") then at_ t else [Name o (token_loc t)]) [l; r] n
| g_multi_lhs b l z e s n s' : multi_lhs b l z e s = Ok n s' -> Given (at_opt b ++ at_opt z) l n
| g_multi_assign l t r : Given (at_ t) [l; r] (multi_assign l t r)
(* definitions *)
| g_def_class kw m lt sup body z :
    Given (at_ kw ++ at_opt lt ++ at_ z) (m :: olist sup ++ olist body) (def_class kw m lt sup body z)
| g_def_sclass kw lt x body z : Given (at_ kw ++ at_ lt ++ at_ z) (x :: olist body) (def_sclass kw lt x body z)
| g_def_module kw m body z : Given (at_ kw ++ at_ z) (m :: olist body) (def_module kw m body z)
| g_def_method kw t args body z e s n s' : def_method kw t args body z e s = Ok (Some n) s' ->
    Given (at_ kw ++ called t ++ at_ z) (olist args ++ olist body) n
| g_def_endless_method kw t args a body e s n s' : def_endless_method kw t args a body e s = Ok (Some n) s' ->
    Given (at_ kw ++ called t ++ at_ a) (olist args ++ olist body) n
| g_def_singleton kw d dot t args body z e s n s' : def_singleton kw d dot t args body z e s = Ok (Some n) s' ->
    Given (at_ kw ++ at_ dot ++ called t ++ at_ z) (d :: olist args ++ olist body) n
| g_def_endless_singleton kw d dot t args a body e s n s' :
    def_endless_singleton kw d dot t args a body e s = Ok (Some n) s' ->
    Given (at_ kw ++ at_ dot ++ called t ++ at_ a) (d :: olist args ++ olist body) n
| g_undef_method kw l : Given (at_ kw) l (undef_method kw l)
| g_alias kw a b : Given (at_ kw) [a; b] (alias kw a b)
(* formal arguments *)
| g_args b l z e s n s' : args_ b l z e s = Ok (Some n) s' -> Given (at_opt b ++ at_opt z) l n
| g_forward_arg t : Given (at_ t) [] (forward_arg t)
| g_arg t e s n s' : arg t e s = Ok (Some n) s' -> Given (called t) [] n
| g_optarg t q d e s n s' : optarg t q d e s = Ok (Some n) s' -> Given (called t ++ at_ q) [d] n
| g_restarg t v e s n s' : restarg t v e s = Ok (Some n) s' -> Given (at_ t ++ called_opt v) [] n
| g_kwarg t e s n s' : kwarg t e s = Ok (Some n) s' -> Given [Name (token_value t) (key_of (token_loc t))] [] n
| g_kwoptarg t d e s n s' : kwoptarg t d e s = Ok (Some n) s' ->
    Given [Name (token_value t) (key_of (token_loc t))] [d] n
| g_kwrestarg t v e s n s' : kwrestarg t v e s = Ok (Some n) s' -> Given (at_ t ++ called_opt v) [] n
| g_kwnilarg t v : Given (at_ v) [] (kwnilarg t v)
| g_shadowarg t e s n s' : shadowarg t e s = Ok (Some n) s' -> Given (called t) [] n
| g_blockarg t v e s n s' : blockarg t v e s = Ok (Some n) s' -> Given (at_ t ++ called_opt v) [] n
| g_procarg0 m e s n s' : procarg0 m e s = Ok n s' -> Given [] [m] n
(* calls *)
| g_forwarded_args t : Given (at_ t) [] (forwarded_args t)
| g_call_method recv dot sel b args z e s n s' : call_method recv dot sel b args z e s = Ok n s' ->
    Given (at_opt dot ++ match sel with Some sel => called sel | None => [Text (bs "call")] end ++ at_opt b ++ at_opt z)
          (olist recv ++ args) n
| g_call_lambda t : Given (at_ t) [] (call_lambda t)
| g_block m b args body z e s n s' : takes_block m -> block m b (ArgsT args) body z e s = Ok (Some n) s' ->
    Given (at_ b ++ at_ z) (m :: olist args ++ olist body) n
| g_numblock m b k body z e s n s' : takes_block m -> block m b (Numargs k) (Some body) z e s = Ok (Some n) s' ->
    Given (Text [k] :: at_ b ++ at_ z) [m; body] n
| g_block_pass t v : Given (at_ t) (olist v) (block_pass t v)
    (* the name of the method that assigns *)
| g_attr_asgn m dot t e s n s' : attr_asgn m dot t e s = Ok n s' ->
    Given (at_ dot ++ [Name (token_value t ++ [61%N]) (token_loc t)]) [m] n
| g_index m b l z : Given (at_ b ++ at_ z) (m :: l) (index m b l z)
| g_index_asgn m b l z : Given (at_ b ++ at_ z) (m :: l) (index_asgn m b l z)
| g_binary_op l t r e s n s' : binary_op l t r e s = Ok (Some n) s' -> Given (called t) [l; r] n
    (* [=~] is a call or declares variables *)
| g_match_op l t r e s n s' : match_op l t r e s = Ok (Some n) s' ->
    Given [match n with NMatchWithLvasgn _ _ _ _ => Mark (token_loc t) | _ => Name (bs "=~") (token_loc t) end] [l; r] n
    (* the name of the unary method *)
| g_unary_op t m e s n s' : unary_op t m e s = Ok (Some n) s' ->
    Given [Name (token_value t ++ match token_value t with [43%N] | [45%N] => [64%N] | _ => [] end) (token_loc t)] [m] n
| g_not_op t b m z e s n s' : not_op t b m z e s = Ok (Some n) s' ->
    Given (Name (bs "!") (token_loc t) :: at_opt b ++ at_opt z) (olist m) n
(* control flow *)
| g_logical_op k l t r e s n s' : logical_op k l t r e s = Ok (Some n) s' -> Given (at_ t) [l; r] n
| g_condition kw c th t el f z :
    Given (at_ kw ++ at_ th ++ at_opt el ++ at_opt z) (c :: olist t ++ olist f) (condition kw c th t el f z)
| g_condition_mod t f kw c e s n s' : condition_mod t f kw c e s = Ok n s' ->
    Given (at_ kw) (olist t ++ olist f ++ [c]) n
| g_ternary c q t k f : Given (at_ q ++ at_ k) [c; t; f] (ternary c q t k f)
| g_when kw l th body : Given (at_ kw ++ at_ th) (l ++ olist body) (when_ kw l th body)
| g_case kw x l el body z :
    Given (at_ kw ++ at_opt el ++ at_ z) (olist x ++ l ++ olist body) (case kw x l el body z)
| g_loop k kw c d body z : Given (at_ kw ++ at_ d ++ at_ z) (c :: olist body) (loop_ k kw c d body z)
| g_loop_mod k body kw c : Given (at_ kw) [body; c] (loop_mod k body kw c)
| g_for kw it i x d body z : Given (at_ kw ++ at_ i ++ at_ d ++ at_ z) (it :: x :: olist body) (for_ kw it i x d body z)
| g_keyword_cmd k kw b l z e s n s' : keyword_shape k b l z -> keyword_cmd k kw b l z e s = Ok (Some n) s' ->
    Given (at_ kw ++ at_opt b ++ at_opt z) l n
| g_preexe kw b body z : Given (at_ kw ++ at_ b ++ at_ z) (olist body) (preexe kw b body z)
| g_postexe kw b body z : Given (at_ kw ++ at_ b ++ at_ z) (olist body) (postexe kw b body z)
(* exceptions *)
| g_rescue_body kw x a v th body :
    Given (at_ kw ++ at_opt a ++ at_opt th) (olist x ++ olist v ++ olist body) (rescue_body kw x a v th body)
| g_begin_body c l el ens e s n s' : (l = [] -> el <> None -> undelimited_opt c) ->
    begin_body c l el ens e s = Ok (Some n) s' ->
    Given (clause_given el ++ clause_given ens) (olist c ++ l ++ clause_body el ++ clause_body ens) n
(* groups *)
| g_compstmt l e s n s' : compstmt l e s = Ok (Some n) s' -> Given [] l n
| g_begin b body z : (forall l x y r, body = Some (NMlhs l x y r) -> x = None /\ y = None) ->
    Given (at_ b ++ at_ z) (olist body) (begin b body z)
| g_begin_keyword b body z : undelimited_opt body -> Given (at_ b ++ at_ z) (olist body) (begin_keyword b body z)
(* pattern matching; an [else] without a body is recorded as an empty one too *)
| g_case_match kw x l el body z :
    Given (at_ kw ++ at_opt el ++ match body with None => at_opt el | Some _ => [] end ++ at_ z) (x :: l ++ olist body)
          (case_match kw x l el body z)
| g_match_pattern l t r : Given (at_ t) [l; r] (match_pattern l t r)
| g_match_pattern_p l t r : Given (at_ t) [l; r] (match_pattern_p l t r)
| g_in_pattern kw p g th body : Given (at_ kw ++ at_ th) (p :: olist g ++ olist body) (in_pattern kw p g th body)
| g_if_guard kw c : Given (at_ kw) [c] (if_guard kw c)
| g_unless_guard kw c : Given (at_ kw) [c] (unless_guard kw c)
| g_match_var t e s n s' : match_var t e s = Ok (Some n) s' -> Given (called t) [] n
| g_match_hash_var t e s n s' : match_hash_var t e s = Ok (Some n) s' ->
    Given [Name (token_value t) (key_of (token_loc t))] [] n
    (* the text between the quotes of a label *)
| g_match_hash_var_from_str b t z e s n s' : utf8_lossy (token_value t) = token_value t ->
    match_hash_var_from_str b [string_internal t] z e s = Ok (Some n) s' -> Given (called t) [] n
| g_match_rest t v e s n s' : match_rest t v e s = Ok (Some n) s' -> Given (at_ t ++ called_opt v) [] n
| g_hash_pattern b l z e s n s' : hash_pattern b l z e s = Ok n s' -> Given (at_opt b ++ at_opt z) l n
| g_array_pattern b l comma z e s n s' : array_pattern b l comma z e s = Ok n s' -> Given (at_opt b ++ at_opt z) l n
| g_find_pattern b l z e s n s' : find_pattern b l z e s = Ok n s' -> Given (at_opt b ++ at_opt z) l n
| g_const_pattern c b p z : Given (at_ b ++ at_ z) [c; p] (const_pattern c b p z)
| g_pin t v : Given (at_ t) [v] (pin t v)
| g_match_alt l t r : Given (at_ t) [l; r] (match_alt l t r)
| g_match_as l t r : Given (at_ t) [l; r] (match_as l t r)
| g_match_nil_pattern t v : Given (at_ t ++ at_ v) [] (match_nil_pattern t v)
| g_match_pair_plain t v e s n s' : match_pair (PlainLabel t) v e s = Ok (Some n) s' ->
    Given (text (token_value t) ++ [Mark (colon_of (token_loc t))]) [v] n
| g_match_pair_quoted b l z v e s n s' : plain_part l -> match_pair (QuotedLabel b l z) v e s = Ok (Some n) s' ->
    Given (at_ b ++ [Mark (mkLoc (loc_end (token_loc z) - 2) (loc_end (token_loc z) - 1))] ++
           [Mark (colon_of (token_loc z))]) (l ++ [v]) n.

(** A tree and everything that went into it, call by call *)
Inductive Collected : list Item -> Node -> Prop :=
| collected : forall its ns n rest, Given its ns n -> Each ns rest -> Collected (its ++ rest) n
with Each : list Node -> list Item -> Prop :=
| each_nil : Each [] []
| each_cons : forall n ns its rest, Collected its n -> Each ns rest -> Each (n :: ns) (its ++ rest).
Scheme Collected_rec := Minimality for Collected Sort Prop
with Each_rec := Minimality for Each Sort Prop.
