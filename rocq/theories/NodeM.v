(** * The abstract syntax tree: [Node] of the external crate lib_ruby_parser_ast

    The repository re-exports the node types of that crate (src/lib.rs 17-23); their fields are read off the
    places where src/builder.rs constructs and matches them.  One constructor per variant of [Node] that
    src/builder.rs mentions (all 124), named with a leading [N].  Fields in the order builder.rs writes them,
    with [expression_l] always last.  [Box<Node>] is [Node], [Vec<Node>] a list; [String] and [Bytes] are byte
    lists; [u8] is [N].  The order of fields is immaterial in Rust (they are named). *)
Require Import Verif.Base Verif.MaybeByteM Verif.InputM.

Unset Elimination Schemes.
Inductive Node : Type :=
| NAlias (to : Node) (from : Node) (keyword_l : Loc) (expression_l : Loc)
| NAnd (lhs : Node) (rhs : Node) (operator_l : Loc) (expression_l : Loc)
| NAndAsgn (recv : Node) (value : Node) (operator_l : Loc) (expression_l : Loc)
| NArg (name : list N) (expression_l : Loc)
| NArgs (args : list Node) (begin_l : option Loc) (end_l : option Loc) (expression_l : Loc)
| NArray (elements : list Node) (begin_l : option Loc) (end_l : option Loc) (expression_l : Loc)
| NArrayPattern (elements : list Node) (begin_l : option Loc) (end_l : option Loc) (expression_l : Loc)
| NArrayPatternWithTail (elements : list Node) (begin_l : option Loc) (end_l : option Loc) (expression_l : Loc)
| NBackRef (name : list N) (expression_l : Loc)
| NBegin (statements : list Node) (begin_l : option Loc) (end_l : option Loc) (expression_l : Loc)
| NBlock (call : Node) (args : option Node) (body : option Node) (begin_l : Loc) (end_l : Loc) (expression_l : Loc)
| NBlockPass (value : option Node) (operator_l : Loc) (expression_l : Loc)
| NBlockarg (name : option (list N)) (operator_l : Loc) (name_l : option Loc) (expression_l : Loc)
| NBreak (args : list Node) (keyword_l : Loc) (expression_l : Loc)
| NCSend (recv : Node) (method_name : list N) (args : list Node) (dot_l : Loc) (selector_l : option Loc) (begin_l : option Loc) (end_l : option Loc) (operator_l : option Loc) (expression_l : Loc)
| NCase (expr : option Node) (when_bodies : list Node) (else_body : option Node) (keyword_l : Loc) (else_l : option Loc) (end_l : Loc) (expression_l : Loc)
| NCaseMatch (expr : Node) (in_bodies : list Node) (else_body : option Node) (keyword_l : Loc) (else_l : option Loc) (end_l : Loc) (expression_l : Loc)
| NCasgn (scope : option Node) (name : list N) (value : option Node) (double_colon_l : option Loc) (name_l : Loc) (operator_l : option Loc) (expression_l : Loc)
| NCbase (expression_l : Loc)
| NClass (name : Node) (superclass : option Node) (body : option Node) (keyword_l : Loc) (operator_l : option Loc) (end_l : Loc) (expression_l : Loc)
| NComplex (value : list N) (operator_l : option Loc) (expression_l : Loc)
| NConst (scope : option Node) (name : list N) (double_colon_l : option Loc) (name_l : Loc) (expression_l : Loc)
| NConstPattern (const_ : Node) (pattern : Node) (begin_l : Loc) (end_l : Loc) (expression_l : Loc)
| NCvar (name : list N) (expression_l : Loc)
| NCvasgn (name : list N) (value : option Node) (name_l : Loc) (operator_l : option Loc) (expression_l : Loc)
| NDef (name : list N) (args : option Node) (body : option Node) (keyword_l : Loc) (name_l : Loc) (end_l : option Loc) (assignment_l : option Loc) (expression_l : Loc)
| NDefined (value : Node) (keyword_l : Loc) (begin_l : option Loc) (end_l : option Loc) (expression_l : Loc)
| NDefs (definee : Node) (name : list N) (args : option Node) (body : option Node) (keyword_l : Loc) (operator_l : Loc) (name_l : Loc) (assignment_l : option Loc) (end_l : option Loc) (expression_l : Loc)
| NDstr (parts : list Node) (begin_l : option Loc) (end_l : option Loc) (expression_l : Loc)
| NDsym (parts : list Node) (begin_l : option Loc) (end_l : option Loc) (expression_l : Loc)
| NEFlipFlop (left_ : option Node) (right_ : option Node) (operator_l : Loc) (expression_l : Loc)
| NEmptyElse (expression_l : Loc)
| NEncoding (expression_l : Loc)
| NEnsure (body : option Node) (ensure : option Node) (keyword_l : Loc) (expression_l : Loc)
| NErange (left_ : option Node) (right_ : option Node) (operator_l : Loc) (expression_l : Loc)
| NFalse (expression_l : Loc)
| NFile (expression_l : Loc)
| NFindPattern (elements : list Node) (begin_l : option Loc) (end_l : option Loc) (expression_l : Loc)
| NFloat (value : list N) (operator_l : option Loc) (expression_l : Loc)
| NFor (iterator : Node) (iteratee : Node) (body : option Node) (keyword_l : Loc) (operator_l : Loc) (begin_l : Loc) (end_l : Loc) (expression_l : Loc)
| NForwardArg (expression_l : Loc)
| NForwardedArgs (expression_l : Loc)
| NGvar (name : list N) (expression_l : Loc)
| NGvasgn (name : list N) (value : option Node) (name_l : Loc) (operator_l : option Loc) (expression_l : Loc)
| NHash (pairs : list Node) (begin_l : option Loc) (end_l : option Loc) (expression_l : Loc)
| NHashPattern (elements : list Node) (begin_l : option Loc) (end_l : option Loc) (expression_l : Loc)
| NHeredoc (parts : list Node) (heredoc_body_l : Loc) (heredoc_end_l : Loc) (expression_l : Loc)
| NIFlipFlop (left_ : option Node) (right_ : option Node) (operator_l : Loc) (expression_l : Loc)
| NIf (cond : Node) (if_true : option Node) (if_false : option Node) (keyword_l : Loc) (begin_l : Loc) (else_l : option Loc) (end_l : option Loc) (expression_l : Loc)
| NIfGuard (cond : Node) (keyword_l : Loc) (expression_l : Loc)
| NIfMod (cond : Node) (if_true : option Node) (if_false : option Node) (keyword_l : Loc) (expression_l : Loc)
| NIfTernary (cond : Node) (if_true : Node) (if_false : Node) (question_l : Loc) (colon_l : Loc) (expression_l : Loc)
| NInPattern (pattern : Node) (guard : option Node) (body : option Node) (keyword_l : Loc) (begin_l : Loc) (expression_l : Loc)
| NIndex (recv : Node) (indexes : list Node) (begin_l : Loc) (end_l : Loc) (expression_l : Loc)
| NIndexAsgn (recv : Node) (indexes : list Node) (value : option Node) (begin_l : Loc) (end_l : Loc) (operator_l : option Loc) (expression_l : Loc)
| NInt (value : list N) (operator_l : option Loc) (expression_l : Loc)
| NIrange (left_ : option Node) (right_ : option Node) (operator_l : Loc) (expression_l : Loc)
| NIvar (name : list N) (expression_l : Loc)
| NIvasgn (name : list N) (value : option Node) (name_l : Loc) (operator_l : option Loc) (expression_l : Loc)
| NKwBegin (statements : list Node) (begin_l : option Loc) (end_l : option Loc) (expression_l : Loc)
| NKwarg (name : list N) (name_l : Loc) (expression_l : Loc)
| NKwargs (pairs : list Node) (expression_l : Loc)
| NKwnilarg (name_l : Loc) (expression_l : Loc)
| NKwoptarg (name : list N) (default : Node) (name_l : Loc) (expression_l : Loc)
| NKwrestarg (name : option (list N)) (operator_l : Loc) (name_l : option Loc) (expression_l : Loc)
| NKwsplat (value : Node) (operator_l : Loc) (expression_l : Loc)
| NLambda (expression_l : Loc)
| NLine (expression_l : Loc)
| NLvar (name : list N) (expression_l : Loc)
| NLvasgn (name : list N) (value : option Node) (name_l : Loc) (operator_l : option Loc) (expression_l : Loc)
| NMasgn (lhs : Node) (rhs : Node) (operator_l : Loc) (expression_l : Loc)
| NMatchAlt (lhs : Node) (rhs : Node) (operator_l : Loc) (expression_l : Loc)
| NMatchAs (value : Node) (as_ : Node) (operator_l : Loc) (expression_l : Loc)
| NMatchCurrentLine (re : Node) (expression_l : Loc)
| NMatchNilPattern (operator_l : Loc) (name_l : Loc) (expression_l : Loc)
| NMatchPattern (value : Node) (pattern : Node) (operator_l : Loc) (expression_l : Loc)
| NMatchPatternP (value : Node) (pattern : Node) (operator_l : Loc) (expression_l : Loc)
| NMatchRest (name : option Node) (operator_l : Loc) (expression_l : Loc)
| NMatchVar (name : list N) (name_l : Loc) (expression_l : Loc)
| NMatchWithLvasgn (re : Node) (value : Node) (operator_l : Loc) (expression_l : Loc)
| NMlhs (items : list Node) (begin_l : option Loc) (end_l : option Loc) (expression_l : Loc)
| NModule (name : Node) (body : option Node) (keyword_l : Loc) (end_l : Loc) (expression_l : Loc)
| NNext (args : list Node) (keyword_l : Loc) (expression_l : Loc)
| NNil (expression_l : Loc)
| NNthRef (name : list N) (expression_l : Loc)
| NNumblock (call : Node) (numargs : N) (body : Node) (begin_l : Loc) (end_l : Loc) (expression_l : Loc)
| NOpAsgn (recv : Node) (operator : list N) (value : Node) (operator_l : Loc) (expression_l : Loc)
| NOptarg (name : list N) (default : Node) (name_l : Loc) (operator_l : Loc) (expression_l : Loc)
| NOr (lhs : Node) (rhs : Node) (operator_l : Loc) (expression_l : Loc)
| NOrAsgn (recv : Node) (value : Node) (operator_l : Loc) (expression_l : Loc)
| NPair (key : Node) (value : Node) (operator_l : Loc) (expression_l : Loc)
| NPin (var : Node) (selector_l : Loc) (expression_l : Loc)
| NPostexe (body : option Node) (keyword_l : Loc) (begin_l : Loc) (end_l : Loc) (expression_l : Loc)
| NPreexe (body : option Node) (keyword_l : Loc) (begin_l : Loc) (end_l : Loc) (expression_l : Loc)
| NProcarg0 (args : list Node) (begin_l : option Loc) (end_l : option Loc) (expression_l : Loc)
| NRational (value : list N) (operator_l : option Loc) (expression_l : Loc)
| NRedo (expression_l : Loc)
| NRegOpt (options : option (list N)) (expression_l : Loc)
| NRegexp (parts : list Node) (options : option Node) (begin_l : Loc) (end_l : Loc) (expression_l : Loc)
| NRescue (body : option Node) (rescue_bodies : list Node) (else_ : option Node) (else_l : option Loc) (expression_l : Loc)
| NRescueBody (exc_list : option Node) (exc_var : option Node) (body : option Node) (keyword_l : Loc) (assoc_l : option Loc) (begin_l : option Loc) (expression_l : Loc)
| NRestarg (name : option (list N)) (operator_l : Loc) (name_l : option Loc) (expression_l : Loc)
| NRetry (expression_l : Loc)
| NReturn (args : list Node) (keyword_l : Loc) (expression_l : Loc)
| NSClass (expr : Node) (body : option Node) (keyword_l : Loc) (operator_l : Loc) (end_l : Loc) (expression_l : Loc)
| NSelf_ (expression_l : Loc)
| NSend (recv : option Node) (method_name : list N) (args : list Node) (dot_l : option Loc) (selector_l : option Loc) (begin_l : option Loc) (end_l : option Loc) (operator_l : option Loc) (expression_l : Loc)
| NShadowarg (name : list N) (expression_l : Loc)
| NSplat (value : option Node) (operator_l : Loc) (expression_l : Loc)
| NStr (value : list N) (begin_l : option Loc) (end_l : option Loc) (expression_l : Loc)
| NSuper (args : list Node) (keyword_l : Loc) (begin_l : option Loc) (end_l : option Loc) (expression_l : Loc)
| NSym (name : list N) (begin_l : option Loc) (end_l : option Loc) (expression_l : Loc)
| NTrue (expression_l : Loc)
| NUndef (names : list Node) (keyword_l : Loc) (expression_l : Loc)
| NUnlessGuard (cond : Node) (keyword_l : Loc) (expression_l : Loc)
| NUntil (cond : Node) (body : option Node) (keyword_l : Loc) (begin_l : option Loc) (end_l : option Loc) (expression_l : Loc)
| NUntilPost (cond : Node) (body : Node) (keyword_l : Loc) (expression_l : Loc)
| NWhen (patterns : list Node) (body : option Node) (keyword_l : Loc) (begin_l : Loc) (expression_l : Loc)
| NWhile (cond : Node) (body : option Node) (keyword_l : Loc) (begin_l : option Loc) (end_l : option Loc) (expression_l : Loc)
| NWhilePost (cond : Node) (body : Node) (keyword_l : Loc) (expression_l : Loc)
| NXHeredoc (parts : list Node) (heredoc_body_l : Loc) (heredoc_end_l : Loc) (expression_l : Loc)
| NXstr (parts : list Node) (begin_l : Loc) (end_l : Loc) (expression_l : Loc)
| NYield (args : list Node) (keyword_l : Loc) (begin_l : option Loc) (end_l : option Loc) (expression_l : Loc)
| NZSuper (expression_l : Loc).
Set Elimination Schemes.

(** [Node::expression]: every variant has the field [expression_l] *)
Definition expression (n : Node) : Loc :=
  match n with
  | NAlias _ _ _ l => l
  | NAnd _ _ _ l => l
  | NAndAsgn _ _ _ l => l
  | NArg _ l => l
  | NArgs _ _ _ l => l
  | NArray _ _ _ l => l
  | NArrayPattern _ _ _ l => l
  | NArrayPatternWithTail _ _ _ l => l
  | NBackRef _ l => l
  | NBegin _ _ _ l => l
  | NBlock _ _ _ _ _ l => l
  | NBlockPass _ _ l => l
  | NBlockarg _ _ _ l => l
  | NBreak _ _ l => l
  | NCSend _ _ _ _ _ _ _ _ l => l
  | NCase _ _ _ _ _ _ l => l
  | NCaseMatch _ _ _ _ _ _ l => l
  | NCasgn _ _ _ _ _ _ l => l
  | NCbase l => l
  | NClass _ _ _ _ _ _ l => l
  | NComplex _ _ l => l
  | NConst _ _ _ _ l => l
  | NConstPattern _ _ _ _ l => l
  | NCvar _ l => l
  | NCvasgn _ _ _ _ l => l
  | NDef _ _ _ _ _ _ _ l => l
  | NDefined _ _ _ _ l => l
  | NDefs _ _ _ _ _ _ _ _ _ l => l
  | NDstr _ _ _ l => l
  | NDsym _ _ _ l => l
  | NEFlipFlop _ _ _ l => l
  | NEmptyElse l => l
  | NEncoding l => l
  | NEnsure _ _ _ l => l
  | NErange _ _ _ l => l
  | NFalse l => l
  | NFile l => l
  | NFindPattern _ _ _ l => l
  | NFloat _ _ l => l
  | NFor _ _ _ _ _ _ _ l => l
  | NForwardArg l => l
  | NForwardedArgs l => l
  | NGvar _ l => l
  | NGvasgn _ _ _ _ l => l
  | NHash _ _ _ l => l
  | NHashPattern _ _ _ l => l
  | NHeredoc _ _ _ l => l
  | NIFlipFlop _ _ _ l => l
  | NIf _ _ _ _ _ _ _ l => l
  | NIfGuard _ _ l => l
  | NIfMod _ _ _ _ l => l
  | NIfTernary _ _ _ _ _ l => l
  | NInPattern _ _ _ _ _ l => l
  | NIndex _ _ _ _ l => l
  | NIndexAsgn _ _ _ _ _ _ l => l
  | NInt _ _ l => l
  | NIrange _ _ _ l => l
  | NIvar _ l => l
  | NIvasgn _ _ _ _ l => l
  | NKwBegin _ _ _ l => l
  | NKwarg _ _ l => l
  | NKwargs _ l => l
  | NKwnilarg _ l => l
  | NKwoptarg _ _ _ l => l
  | NKwrestarg _ _ _ l => l
  | NKwsplat _ _ l => l
  | NLambda l => l
  | NLine l => l
  | NLvar _ l => l
  | NLvasgn _ _ _ _ l => l
  | NMasgn _ _ _ l => l
  | NMatchAlt _ _ _ l => l
  | NMatchAs _ _ _ l => l
  | NMatchCurrentLine _ l => l
  | NMatchNilPattern _ _ l => l
  | NMatchPattern _ _ _ l => l
  | NMatchPatternP _ _ _ l => l
  | NMatchRest _ _ l => l
  | NMatchVar _ _ l => l
  | NMatchWithLvasgn _ _ _ l => l
  | NMlhs _ _ _ l => l
  | NModule _ _ _ _ l => l
  | NNext _ _ l => l
  | NNil l => l
  | NNthRef _ l => l
  | NNumblock _ _ _ _ _ l => l
  | NOpAsgn _ _ _ _ l => l
  | NOptarg _ _ _ _ l => l
  | NOr _ _ _ l => l
  | NOrAsgn _ _ _ l => l
  | NPair _ _ _ l => l
  | NPin _ _ l => l
  | NPostexe _ _ _ _ l => l
  | NPreexe _ _ _ _ l => l
  | NProcarg0 _ _ _ l => l
  | NRational _ _ l => l
  | NRedo l => l
  | NRegOpt _ l => l
  | NRegexp _ _ _ _ l => l
  | NRescue _ _ _ _ l => l
  | NRescueBody _ _ _ _ _ _ l => l
  | NRestarg _ _ _ l => l
  | NRetry l => l
  | NReturn _ _ l => l
  | NSClass _ _ _ _ _ l => l
  | NSelf_ l => l
  | NSend _ _ _ _ _ _ _ _ l => l
  | NShadowarg _ l => l
  | NSplat _ _ l => l
  | NStr _ _ _ l => l
  | NSuper _ _ _ _ l => l
  | NSym _ _ _ l => l
  | NTrue l => l
  | NUndef _ _ l => l
  | NUnlessGuard _ _ l => l
  | NUntil _ _ _ _ _ l => l
  | NUntilPost _ _ _ l => l
  | NWhen _ _ _ _ l => l
  | NWhile _ _ _ _ _ l => l
  | NWhilePost _ _ _ l => l
  | NXHeredoc _ _ _ l => l
  | NXstr _ _ _ l => l
  | NYield _ _ _ _ l => l
  | NZSuper l => l
  end.

(** [Option] as a list *)
Definition olist {A} (o : option A) : list A := match o with Some a => [a] | None => [] end.

(** The immediate sub-nodes of a node, in the order of its fields (specification helper, no Rust counterpart) *)
Definition children (n : Node) : list Node :=
  match n with
  | NAlias to from _ _ => [to] ++ [from]
  | NAnd lhs rhs _ _ => [lhs] ++ [rhs]
  | NAndAsgn recv value _ _ => [recv] ++ [value]
  | NArgs args _ _ _ => args
  | NArray elements _ _ _ => elements
  | NArrayPattern elements _ _ _ => elements
  | NArrayPatternWithTail elements _ _ _ => elements
  | NBegin statements _ _ _ => statements
  | NBlock call args body _ _ _ => [call] ++ olist args ++ olist body
  | NBlockPass value _ _ => olist value
  | NBreak args _ _ => args
  | NCSend recv _ args _ _ _ _ _ _ => [recv] ++ args
  | NCase expr when_bodies else_body _ _ _ _ => olist expr ++ when_bodies ++ olist else_body
  | NCaseMatch expr in_bodies else_body _ _ _ _ => [expr] ++ in_bodies ++ olist else_body
  | NCasgn scope _ value _ _ _ _ => olist scope ++ olist value
  | NClass name superclass body _ _ _ _ => [name] ++ olist superclass ++ olist body
  | NConst scope _ _ _ _ => olist scope
  | NConstPattern const_ pattern _ _ _ => [const_] ++ [pattern]
  | NCvasgn _ value _ _ _ => olist value
  | NDef _ args body _ _ _ _ _ => olist args ++ olist body
  | NDefined value _ _ _ _ => [value]
  | NDefs definee _ args body _ _ _ _ _ _ => [definee] ++ olist args ++ olist body
  | NDstr parts _ _ _ => parts
  | NDsym parts _ _ _ => parts
  | NEFlipFlop left_ right_ _ _ => olist left_ ++ olist right_
  | NEnsure body ensure _ _ => olist body ++ olist ensure
  | NErange left_ right_ _ _ => olist left_ ++ olist right_
  | NFindPattern elements _ _ _ => elements
  | NFor iterator iteratee body _ _ _ _ _ => [iterator] ++ [iteratee] ++ olist body
  | NGvasgn _ value _ _ _ => olist value
  | NHash pairs _ _ _ => pairs
  | NHashPattern elements _ _ _ => elements
  | NHeredoc parts _ _ _ => parts
  | NIFlipFlop left_ right_ _ _ => olist left_ ++ olist right_
  | NIf cond if_true if_false _ _ _ _ _ => [cond] ++ olist if_true ++ olist if_false
  | NIfGuard cond _ _ => [cond]
  | NIfMod cond if_true if_false _ _ => [cond] ++ olist if_true ++ olist if_false
  | NIfTernary cond if_true if_false _ _ _ => [cond] ++ [if_true] ++ [if_false]
  | NInPattern pattern guard body _ _ _ => [pattern] ++ olist guard ++ olist body
  | NIndex recv indexes _ _ _ => [recv] ++ indexes
  | NIndexAsgn recv indexes value _ _ _ _ => [recv] ++ indexes ++ olist value
  | NIrange left_ right_ _ _ => olist left_ ++ olist right_
  | NIvasgn _ value _ _ _ => olist value
  | NKwBegin statements _ _ _ => statements
  | NKwargs pairs _ => pairs
  | NKwoptarg _ default _ _ => [default]
  | NKwsplat value _ _ => [value]
  | NLvasgn _ value _ _ _ => olist value
  | NMasgn lhs rhs _ _ => [lhs] ++ [rhs]
  | NMatchAlt lhs rhs _ _ => [lhs] ++ [rhs]
  | NMatchAs value as_ _ _ => [value] ++ [as_]
  | NMatchCurrentLine re _ => [re]
  | NMatchPattern value pattern _ _ => [value] ++ [pattern]
  | NMatchPatternP value pattern _ _ => [value] ++ [pattern]
  | NMatchRest name _ _ => olist name
  | NMatchWithLvasgn re value _ _ => [re] ++ [value]
  | NMlhs items _ _ _ => items
  | NModule name body _ _ _ => [name] ++ olist body
  | NNext args _ _ => args
  | NNumblock call _ body _ _ _ => [call] ++ [body]
  | NOpAsgn recv _ value _ _ => [recv] ++ [value]
  | NOptarg _ default _ _ _ => [default]
  | NOr lhs rhs _ _ => [lhs] ++ [rhs]
  | NOrAsgn recv value _ _ => [recv] ++ [value]
  | NPair key value _ _ => [key] ++ [value]
  | NPin var _ _ => [var]
  | NPostexe body _ _ _ _ => olist body
  | NPreexe body _ _ _ _ => olist body
  | NProcarg0 args _ _ _ => args
  | NRegexp parts options _ _ _ => parts ++ olist options
  | NRescue body rescue_bodies else_ _ _ => olist body ++ rescue_bodies ++ olist else_
  | NRescueBody exc_list exc_var body _ _ _ _ => olist exc_list ++ olist exc_var ++ olist body
  | NReturn args _ _ => args
  | NSClass expr body _ _ _ _ => [expr] ++ olist body
  | NSend recv _ args _ _ _ _ _ _ => olist recv ++ args
  | NSplat value _ _ => olist value
  | NSuper args _ _ _ _ => args
  | NUndef names _ _ => names
  | NUnlessGuard cond _ _ => [cond]
  | NUntil cond body _ _ _ _ => [cond] ++ olist body
  | NUntilPost cond body _ _ => [cond] ++ [body]
  | NWhen patterns body _ _ _ => patterns ++ olist body
  | NWhile cond body _ _ _ _ => [cond] ++ olist body
  | NWhilePost cond body _ _ => [cond] ++ [body]
  | NXHeredoc parts _ _ _ => parts
  | NXstr parts _ _ _ => parts
  | NYield args _ _ _ _ => args
  | _ => []
  end.

(** The lists of sub-nodes of a node (specification helper) *)
Definition child_lists (n : Node) : list (list Node) :=
  match n with
  | NArgs args _ _ _ => [args]
  | NArray elements _ _ _ => [elements]
  | NArrayPattern elements _ _ _ => [elements]
  | NArrayPatternWithTail elements _ _ _ => [elements]
  | NBegin statements _ _ _ => [statements]
  | NBreak args _ _ => [args]
  | NCSend _ _ args _ _ _ _ _ _ => [args]
  | NCase _ when_bodies _ _ _ _ _ => [when_bodies]
  | NCaseMatch _ in_bodies _ _ _ _ _ => [in_bodies]
  | NDstr parts _ _ _ => [parts]
  | NDsym parts _ _ _ => [parts]
  | NFindPattern elements _ _ _ => [elements]
  | NHash pairs _ _ _ => [pairs]
  | NHashPattern elements _ _ _ => [elements]
  | NHeredoc parts _ _ _ => [parts]
  | NIndex _ indexes _ _ _ => [indexes]
  | NIndexAsgn _ indexes _ _ _ _ _ => [indexes]
  | NKwBegin statements _ _ _ => [statements]
  | NKwargs pairs _ => [pairs]
  | NMlhs items _ _ _ => [items]
  | NNext args _ _ => [args]
  | NProcarg0 args _ _ _ => [args]
  | NRegexp parts _ _ _ _ => [parts]
  | NRescue _ rescue_bodies _ _ _ => [rescue_bodies]
  | NReturn args _ _ => [args]
  | NSend _ _ args _ _ _ _ _ _ => [args]
  | NSuper args _ _ _ _ => [args]
  | NUndef names _ _ => [names]
  | NWhen patterns _ _ _ _ => [patterns]
  | NXHeredoc parts _ _ _ => [parts]
  | NXstr parts _ _ _ => [parts]
  | NYield args _ _ _ _ => [args]
  | _ => []
  end.

(** The locations of a node other than [expression_l] (specification helper) *)
Definition own_locs (n : Node) : list Loc :=
  match n with
  | NAlias _ _ keyword_l _ => [keyword_l]
  | NAnd _ _ operator_l _ => [operator_l]
  | NAndAsgn _ _ operator_l _ => [operator_l]
  | NArgs _ begin_l end_l _ => olist begin_l ++ olist end_l
  | NArray _ begin_l end_l _ => olist begin_l ++ olist end_l
  | NArrayPattern _ begin_l end_l _ => olist begin_l ++ olist end_l
  | NArrayPatternWithTail _ begin_l end_l _ => olist begin_l ++ olist end_l
  | NBegin _ begin_l end_l _ => olist begin_l ++ olist end_l
  | NBlock _ _ _ begin_l end_l _ => [begin_l] ++ [end_l]
  | NBlockPass _ operator_l _ => [operator_l]
  | NBlockarg _ operator_l name_l _ => [operator_l] ++ olist name_l
  | NBreak _ keyword_l _ => [keyword_l]
  | NCSend _ _ _ dot_l selector_l begin_l end_l operator_l _ => [dot_l] ++ olist selector_l ++ olist begin_l ++ olist end_l ++ olist operator_l
  | NCase _ _ _ keyword_l else_l end_l _ => [keyword_l] ++ olist else_l ++ [end_l]
  | NCaseMatch _ _ _ keyword_l else_l end_l _ => [keyword_l] ++ olist else_l ++ [end_l]
  | NCasgn _ _ _ double_colon_l name_l operator_l _ => olist double_colon_l ++ [name_l] ++ olist operator_l
  | NClass _ _ _ keyword_l operator_l end_l _ => [keyword_l] ++ olist operator_l ++ [end_l]
  | NComplex _ operator_l _ => olist operator_l
  | NConst _ _ double_colon_l name_l _ => olist double_colon_l ++ [name_l]
  | NConstPattern _ _ begin_l end_l _ => [begin_l] ++ [end_l]
  | NCvasgn _ _ name_l operator_l _ => [name_l] ++ olist operator_l
  | NDef _ _ _ keyword_l name_l end_l assignment_l _ => [keyword_l] ++ [name_l] ++ olist end_l ++ olist assignment_l
  | NDefined _ keyword_l begin_l end_l _ => [keyword_l] ++ olist begin_l ++ olist end_l
  | NDefs _ _ _ _ keyword_l operator_l name_l assignment_l end_l _ => [keyword_l] ++ [operator_l] ++ [name_l] ++ olist assignment_l ++ olist end_l
  | NDstr _ begin_l end_l _ => olist begin_l ++ olist end_l
  | NDsym _ begin_l end_l _ => olist begin_l ++ olist end_l
  | NEFlipFlop _ _ operator_l _ => [operator_l]
  | NEnsure _ _ keyword_l _ => [keyword_l]
  | NErange _ _ operator_l _ => [operator_l]
  | NFindPattern _ begin_l end_l _ => olist begin_l ++ olist end_l
  | NFloat _ operator_l _ => olist operator_l
  | NFor _ _ _ keyword_l operator_l begin_l end_l _ => [keyword_l] ++ [operator_l] ++ [begin_l] ++ [end_l]
  | NGvasgn _ _ name_l operator_l _ => [name_l] ++ olist operator_l
  | NHash _ begin_l end_l _ => olist begin_l ++ olist end_l
  | NHashPattern _ begin_l end_l _ => olist begin_l ++ olist end_l
  | NHeredoc _ heredoc_body_l heredoc_end_l _ => [heredoc_body_l] ++ [heredoc_end_l]
  | NIFlipFlop _ _ operator_l _ => [operator_l]
  | NIf _ _ _ keyword_l begin_l else_l end_l _ => [keyword_l] ++ [begin_l] ++ olist else_l ++ olist end_l
  | NIfGuard _ keyword_l _ => [keyword_l]
  | NIfMod _ _ _ keyword_l _ => [keyword_l]
  | NIfTernary _ _ _ question_l colon_l _ => [question_l] ++ [colon_l]
  | NInPattern _ _ _ keyword_l begin_l _ => [keyword_l] ++ [begin_l]
  | NIndex _ _ begin_l end_l _ => [begin_l] ++ [end_l]
  | NIndexAsgn _ _ _ begin_l end_l operator_l _ => [begin_l] ++ [end_l] ++ olist operator_l
  | NInt _ operator_l _ => olist operator_l
  | NIrange _ _ operator_l _ => [operator_l]
  | NIvasgn _ _ name_l operator_l _ => [name_l] ++ olist operator_l
  | NKwBegin _ begin_l end_l _ => olist begin_l ++ olist end_l
  | NKwarg _ name_l _ => [name_l]
  | NKwnilarg name_l _ => [name_l]
  | NKwoptarg _ _ name_l _ => [name_l]
  | NKwrestarg _ operator_l name_l _ => [operator_l] ++ olist name_l
  | NKwsplat _ operator_l _ => [operator_l]
  | NLvasgn _ _ name_l operator_l _ => [name_l] ++ olist operator_l
  | NMasgn _ _ operator_l _ => [operator_l]
  | NMatchAlt _ _ operator_l _ => [operator_l]
  | NMatchAs _ _ operator_l _ => [operator_l]
  | NMatchNilPattern operator_l name_l _ => [operator_l] ++ [name_l]
  | NMatchPattern _ _ operator_l _ => [operator_l]
  | NMatchPatternP _ _ operator_l _ => [operator_l]
  | NMatchRest _ operator_l _ => [operator_l]
  | NMatchVar _ name_l _ => [name_l]
  | NMatchWithLvasgn _ _ operator_l _ => [operator_l]
  | NMlhs _ begin_l end_l _ => olist begin_l ++ olist end_l
  | NModule _ _ keyword_l end_l _ => [keyword_l] ++ [end_l]
  | NNext _ keyword_l _ => [keyword_l]
  | NNumblock _ _ _ begin_l end_l _ => [begin_l] ++ [end_l]
  | NOpAsgn _ _ _ operator_l _ => [operator_l]
  | NOptarg _ _ name_l operator_l _ => [name_l] ++ [operator_l]
  | NOr _ _ operator_l _ => [operator_l]
  | NOrAsgn _ _ operator_l _ => [operator_l]
  | NPair _ _ operator_l _ => [operator_l]
  | NPin _ selector_l _ => [selector_l]
  | NPostexe _ keyword_l begin_l end_l _ => [keyword_l] ++ [begin_l] ++ [end_l]
  | NPreexe _ keyword_l begin_l end_l _ => [keyword_l] ++ [begin_l] ++ [end_l]
  | NProcarg0 _ begin_l end_l _ => olist begin_l ++ olist end_l
  | NRational _ operator_l _ => olist operator_l
  | NRegexp _ _ begin_l end_l _ => [begin_l] ++ [end_l]
  | NRescue _ _ _ else_l _ => olist else_l
  | NRescueBody _ _ _ keyword_l assoc_l begin_l _ => [keyword_l] ++ olist assoc_l ++ olist begin_l
  | NRestarg _ operator_l name_l _ => [operator_l] ++ olist name_l
  | NReturn _ keyword_l _ => [keyword_l]
  | NSClass _ _ keyword_l operator_l end_l _ => [keyword_l] ++ [operator_l] ++ [end_l]
  | NSend _ _ _ dot_l selector_l begin_l end_l operator_l _ => olist dot_l ++ olist selector_l ++ olist begin_l ++ olist end_l ++ olist operator_l
  | NSplat _ operator_l _ => [operator_l]
  | NStr _ begin_l end_l _ => olist begin_l ++ olist end_l
  | NSuper _ keyword_l begin_l end_l _ => [keyword_l] ++ olist begin_l ++ olist end_l
  | NSym _ begin_l end_l _ => olist begin_l ++ olist end_l
  | NUndef _ keyword_l _ => [keyword_l]
  | NUnlessGuard _ keyword_l _ => [keyword_l]
  | NUntil _ _ keyword_l begin_l end_l _ => [keyword_l] ++ olist begin_l ++ olist end_l
  | NUntilPost _ _ keyword_l _ => [keyword_l]
  | NWhen _ _ keyword_l begin_l _ => [keyword_l] ++ [begin_l]
  | NWhile _ _ keyword_l begin_l end_l _ => [keyword_l] ++ olist begin_l ++ olist end_l
  | NWhilePost _ _ keyword_l _ => [keyword_l]
  | NXHeredoc _ heredoc_body_l heredoc_end_l _ => [heredoc_body_l] ++ [heredoc_end_l]
  | NXstr _ begin_l end_l _ => [begin_l] ++ [end_l]
  | NYield _ keyword_l begin_l end_l _ => [keyword_l] ++ olist begin_l ++ olist end_l
  | _ => []
  end.
(** Induction over trees *)
Fixpoint all_of {A} (P : A -> Prop) (l : list A) : Prop :=
  match l with [] => True | x :: l => P x /\ all_of P l end.
Lemma all_of_in {A} (P : A -> Prop) l : all_of P l -> forall c, In c l -> P c.
Proof. induction l as [|a l IHl]; cbn; [tauto|]. intros [Ha Hl] c [<- | Hc]; auto. Qed.

Lemma node_ind' (P : Node -> Prop) :
  (forall n, (forall c, In c (children n) -> P c) -> P n) -> forall n, P n.
Proof.
  intros H. fix IH 1. intros n. apply H.
  destruct n; cbn [children]; intros c Hc;
    repeat (rewrite in_app_iff in Hc);
    repeat match type of Hc with _ \/ _ => destruct Hc as [Hc | Hc] end;
    match type of Hc with
    | False => destruct Hc
    | In _ [] => destruct Hc
    | In _ [?x] => destruct Hc as [<- | []]; apply IH
    | In _ (olist ?o) => destruct o as [x|]; [destruct Hc as [<- | []]; apply IH | destruct Hc]
    | In _ ?l => apply (all_of_in P l); [|exact Hc]; clear Hc;
        revert l; fix IHlist 1; intros [|a l]; [exact I | split; [apply IH | apply IHlist]]
    end.
Qed.
