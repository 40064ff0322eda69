(** * How a syntax tree reads back (specification for C55)

    Independent of how src/builder.rs works: the program text of a node in the concrete syntax of Ruby, as a
    sequence of pieces in the order in which they stand in the source; and for every function of builder.rs the
    sequence that it is called for.  Keywords and operators that belong to the kind of node are words, so that a
    [while] is not an [until]; a node of a kind without a word of its own starts with a tag. *)
Require Import Verif.Base Verif.InputM Verif.TokensM Verif.NodeM.
Require Import Verif.LexerM Verif.BuilderM Verif.BuilderNodesM Verif.KeepSpec.

Inductive Piece : Type :=
| Word (w : string) (l : Loc)           (* a keyword or operator that says what the node is *)
| Sign (l : Loc)                        (* a delimiter, or a keyword that can be written in several ways *)
| Id (name : list N) (l : Loc)          (* a name or number *)
| Quoted (v : list N)                   (* the text of a literal *)
| Tag (k : string).                     (* says what the following is *)
Arguments Word w%string l.
Arguments Tag k%string.

Definition sign (l : option Loc) : list Piece := match l with Some l => [Sign l] | None => [] end.
Definition quoted (v : list N) : list Piece := match v with [] => [] | _ => [Quoted v] end.
Definition word_opt (w : string) (l : option Loc) : list Piece := match l with Some l => [Word w l] | None => [] end.
Arguments word_opt w%string l.
(** A name whose place may be missing (the method of [f.()]); a parameter that may have no name *)
Definition id_at (name : list N) (l : option Loc) : list Piece :=
  match l with Some l => [Id name l] | None => [Quoted name] end.
Definition id_opt (name : option (list N)) (l : option Loc) : list Piece :=
  match name with Some name => id_at name l | None => sign l end.
Definition opt {A} (f : A -> list Piece) (o : option A) : list Piece := match o with Some a => f a | None => [] end.
(** A branch, marked by its role *)
Definition branch {A} (f : A -> list Piece) (role : string) (o : option A) : list Piece :=
  match o with Some a => Tag role :: f a | None => [] end.
Arguments branch {A} f role%string o.

(** ** The text of a tree

    The receiver stands before the operator also for a unary operator.  [NIf] and [NIfMod] are read with the
    branch for a true condition first: [unless] is [if] with its branches exchanged.  A hash without braces as
    the last argument is a hash; a range or a regular expression as a condition is still one. *)
Fixpoint reading (n : Node) : list Piece :=
  match n with
  | NAlias to from keyword_l _ => [Word "alias" keyword_l] ++ reading to ++ reading from
  | NAnd lhs rhs operator_l _ => reading lhs ++ [Word "and" operator_l] ++ reading rhs
  | NAndAsgn recv value operator_l _ => reading recv ++ [Word "&&=" operator_l] ++ reading value
  | NArg name l => [Tag "arg"; Id name l]
  | NArgs args begin_l end_l _ => [Tag "args"] ++ sign begin_l ++ flat_map reading args ++ sign end_l
  | NArray elements begin_l end_l _ => [Tag "array"] ++ sign begin_l ++ flat_map reading elements ++ sign end_l
  | NArrayPattern elements begin_l end_l _ => [Tag "array_pattern"] ++ sign begin_l ++ flat_map reading elements ++ sign end_l
  | NArrayPatternWithTail elements begin_l end_l _ =>
      [Tag "array_pattern_with_tail"] ++ sign begin_l ++ flat_map reading elements ++ sign end_l
  | NBackRef name l => [Tag "back_ref"; Id name l]
  | NBegin statements begin_l end_l _ => sign begin_l ++ flat_map reading statements ++ sign end_l
  | NBlock call args body begin_l end_l _ =>
      reading call ++
      match call with
      | NLambda _ => opt reading args ++ [Sign begin_l]
      | _ => [Sign begin_l] ++ opt reading args
      end ++ branch reading "body" body ++ [Sign end_l]
  | NBlockPass value operator_l _ => [Word "&" operator_l] ++ opt reading value
  | NBlockarg name operator_l name_l _ => [Word "&arg" operator_l] ++ id_opt name name_l
  | NBreak args keyword_l _ => [Word "break" keyword_l] ++ flat_map reading args
  | NCSend recv method_name args dot_l selector_l begin_l end_l operator_l _ =>
      [Tag "call"] ++ reading recv ++ [Word "&." dot_l] ++ id_at method_name selector_l ++ sign begin_l ++
      sign operator_l ++ flat_map reading args ++ sign end_l
  | NCase expr when_bodies else_body keyword_l else_l end_l _ =>
      [Word "case" keyword_l] ++ branch reading "subject" expr ++ flat_map reading when_bodies ++ sign else_l ++
      branch reading "else" else_body ++ [Sign end_l]
  | NCaseMatch expr in_bodies else_body keyword_l else_l end_l _ =>
      [Word "case/in" keyword_l] ++ reading expr ++ flat_map reading in_bodies ++ sign else_l ++
      branch reading "else" else_body ++ [Sign end_l]
  | NCasgn scope name value double_colon_l name_l operator_l _ =>
      [Tag "const"] ++ opt reading scope ++ sign double_colon_l ++ [Id name name_l] ++ sign operator_l ++ opt reading value
  | NCbase l => [Word "::" l]
  | NClass name superclass body keyword_l operator_l end_l _ =>
      [Word "class" keyword_l] ++ reading name ++ sign operator_l ++ branch reading "superclass" superclass ++
      branch reading "body" body ++ [Sign end_l]
  | NComplex value operator_l l => [Tag "complex"; Id value l] ++ sign operator_l
  | NConst scope name double_colon_l name_l _ =>
      [Tag "const"] ++ opt reading scope ++ sign double_colon_l ++ [Id name name_l]
  | NConstPattern const_ pattern begin_l end_l _ => reading const_ ++ [Sign begin_l] ++ reading pattern ++ [Sign end_l]
  | NCvar name l => [Tag "cvar"; Id name l]
  | NCvasgn name value name_l operator_l _ => [Tag "cvar"; Id name name_l] ++ sign operator_l ++ opt reading value
  | NDef name args body keyword_l name_l end_l assignment_l _ =>
      [Word "def" keyword_l; Id name name_l] ++ opt reading args ++ sign assignment_l ++ branch reading "body" body ++ sign end_l
  | NDefined value keyword_l begin_l end_l _ => [Word "defined?" keyword_l] ++ sign begin_l ++ reading value ++ sign end_l
  | NDefs definee name args body keyword_l operator_l name_l assignment_l end_l _ =>
      [Word "def" keyword_l] ++ reading definee ++ [Sign operator_l; Id name name_l] ++ opt reading args ++
      sign assignment_l ++ branch reading "body" body ++ sign end_l
  | NDstr parts begin_l end_l _ => sign begin_l ++ flat_map reading parts ++ sign end_l
  | NDsym parts begin_l end_l _ => [Tag "sym"] ++ sign begin_l ++ flat_map reading parts ++ sign end_l
  | NEFlipFlop left_ right_ operator_l _ => opt reading left_ ++ [Word "..." operator_l] ++ opt reading right_
  | NEmptyElse l => [Word "else" l]
  | NEncoding l => [Word "__ENCODING__" l]
  | NEnsure body ensure keyword_l _ => opt reading body ++ [Word "ensure" keyword_l] ++ opt reading ensure
  | NErange left_ right_ operator_l _ => opt reading left_ ++ [Word "..." operator_l] ++ opt reading right_
  | NFalse l => [Word "false" l]
  | NFile l => [Word "__FILE__" l]
  | NFindPattern elements begin_l end_l _ => [Tag "find_pattern"] ++ sign begin_l ++ flat_map reading elements ++ sign end_l
  | NFloat value operator_l l => [Tag "float"; Id value l] ++ sign operator_l
  | NFor iterator iteratee body keyword_l operator_l begin_l end_l _ =>
      [Word "for" keyword_l] ++ reading iterator ++ [Word "in" operator_l] ++ reading iteratee ++ [Sign begin_l] ++
      opt reading body ++ [Sign end_l]
  | NForwardArg l => [Word "(...)" l]
  | NForwardedArgs l => [Word "f(...)" l]
  | NGvar name l => [Tag "gvar"; Id name l]
  | NGvasgn name value name_l operator_l _ => [Tag "gvar"; Id name name_l] ++ sign operator_l ++ opt reading value
  | NHash pairs begin_l end_l _ => [Tag "hash"] ++ sign begin_l ++ flat_map reading pairs ++ sign end_l
  | NHashPattern elements begin_l end_l _ => [Tag "hash_pattern"] ++ sign begin_l ++ flat_map reading elements ++ sign end_l
  | NHeredoc parts _ heredoc_end_l l => [Sign l] ++ flat_map reading parts ++ [Sign heredoc_end_l]
  | NIFlipFlop left_ right_ operator_l _ => opt reading left_ ++ [Word ".." operator_l] ++ opt reading right_
  | NIf cond if_true if_false keyword_l begin_l else_l end_l _ =>
      [Sign keyword_l] ++ reading cond ++ [Sign begin_l] ++ branch reading "true" if_true ++ sign else_l ++
      branch reading "false" if_false ++ sign end_l
  | NIfGuard cond keyword_l _ => [Word "if" keyword_l] ++ reading cond
  | NIfMod cond if_true if_false keyword_l _ =>
      branch reading "true" if_true ++ branch reading "false" if_false ++ [Sign keyword_l] ++ reading cond
  | NIfTernary cond if_true if_false question_l colon_l _ =>
      reading cond ++ [Word "?" question_l] ++ reading if_true ++ [Word ":" colon_l] ++ reading if_false
  | NInPattern pattern guard body keyword_l begin_l _ =>
      [Word "in" keyword_l] ++ reading pattern ++ opt reading guard ++ [Sign begin_l] ++ opt reading body
  | NIndex recv indexes begin_l end_l _ => [Tag "index"] ++ reading recv ++ [Sign begin_l] ++ flat_map reading indexes ++ [Sign end_l]
  | NIndexAsgn recv indexes value begin_l end_l operator_l _ =>
      [Tag "index"] ++ reading recv ++ [Sign begin_l] ++ flat_map reading indexes ++ [Sign end_l] ++ sign operator_l ++ opt reading value
  | NInt value operator_l l => [Tag "int"; Id value l] ++ sign operator_l
  | NIrange left_ right_ operator_l _ => opt reading left_ ++ [Word ".." operator_l] ++ opt reading right_
  | NIvar name l => [Tag "ivar"; Id name l]
  | NIvasgn name value name_l operator_l _ => [Tag "ivar"; Id name name_l] ++ sign operator_l ++ opt reading value
  | NKwBegin statements begin_l end_l _ => [Tag "kwbegin"] ++ sign begin_l ++ flat_map reading statements ++ sign end_l
  | NKwarg name name_l _ => [Tag "kwarg"; Id name name_l]
  | NKwargs pairs _ => [Tag "hash"] ++ flat_map reading pairs
  | NKwnilarg name_l _ => [Word "**nil" name_l]
  | NKwoptarg name default name_l _ => [Tag "kwoptarg"; Id name name_l] ++ reading default
  | NKwrestarg name operator_l name_l _ => [Word "**arg" operator_l] ++ id_opt name name_l
  | NKwsplat value operator_l _ => [Word "**" operator_l] ++ reading value
  | NLambda l => [Word "->" l]
  | NLine l => [Word "__LINE__" l]
  | NLvar name l => [Tag "lvar"; Id name l]
  | NLvasgn name value name_l operator_l _ => [Tag "lvar"; Id name name_l] ++ sign operator_l ++ opt reading value
  | NMasgn lhs rhs operator_l _ => reading lhs ++ [Word "=" operator_l] ++ reading rhs
  | NMatchAlt lhs rhs operator_l _ => reading lhs ++ [Word "|" operator_l] ++ reading rhs
  | NMatchAs value as_ operator_l _ => reading value ++ [Word "=> variable" operator_l] ++ reading as_
  | NMatchCurrentLine re _ => reading re
  | NMatchNilPattern operator_l name_l _ => [Word "**" operator_l; Word "nil" name_l]
  | NMatchPattern value pattern operator_l _ => reading value ++ [Word "=>" operator_l] ++ reading pattern
  | NMatchPatternP value pattern operator_l _ => reading value ++ [Word "in" operator_l] ++ reading pattern
  | NMatchRest name operator_l _ => [Word "*" operator_l] ++ opt reading name
  | NMatchVar name name_l _ => [Tag "match_var"; Id name name_l]
  | NMatchWithLvasgn re value operator_l _ => reading re ++ [Word "=~" operator_l] ++ reading value
  | NMlhs l begin_l end_l _ => sign begin_l ++ [Tag "mlhs"] ++ flat_map reading l ++ sign end_l
  | NModule name body keyword_l end_l _ => [Word "module" keyword_l] ++ reading name ++ opt reading body ++ [Sign end_l]
  | NNext args keyword_l _ => [Word "next" keyword_l] ++ flat_map reading args
  | NNil l => [Word "nil" l]
  | NNthRef name l => [Tag "nth_ref"; Id name l]
  | NNumblock call numargs body begin_l end_l _ =>
      reading call ++ [Sign begin_l; Quoted [numargs]] ++ reading body ++ [Sign end_l]
  | NOpAsgn recv operator value operator_l _ => reading recv ++ [Tag "op_asgn"; Id operator operator_l] ++ reading value
  | NOptarg name default name_l operator_l _ => [Tag "arg"; Id name name_l] ++ [Word "=" operator_l] ++ reading default
  | NOr lhs rhs operator_l _ => reading lhs ++ [Word "or" operator_l] ++ reading rhs
  | NOrAsgn recv value operator_l _ => reading recv ++ [Word "||=" operator_l] ++ reading value
  | NPair key value operator_l _ => reading key ++ [Sign operator_l] ++ reading value
  | NPin var selector_l _ => [Word "^" selector_l] ++ reading var
  | NPostexe body keyword_l begin_l end_l _ => [Word "END" keyword_l; Sign begin_l] ++ opt reading body ++ [Sign end_l]
  | NPreexe body keyword_l begin_l end_l _ => [Word "BEGIN" keyword_l; Sign begin_l] ++ opt reading body ++ [Sign end_l]
  | NProcarg0 args begin_l end_l _ => [Tag "procarg0"] ++ sign begin_l ++ flat_map reading args ++ sign end_l
  | NRational value operator_l l => [Tag "rational"; Id value l] ++ sign operator_l
  | NRedo l => [Word "redo" l]
  | NRegOpt _ l => [Tag "regopt"; Sign l]
  | NRegexp parts options begin_l end_l _ => [Tag "regexp"; Sign begin_l] ++ flat_map reading parts ++ [Sign end_l] ++ opt reading options
  | NRescue body rescue_bodies else_ else_l _ =>
      branch reading "body" body ++ flat_map reading rescue_bodies ++ sign else_l ++ branch reading "else" else_
  | NRescueBody exc_list exc_var body keyword_l assoc_l begin_l _ =>
      [Word "rescue" keyword_l] ++ branch reading "classes" exc_list ++ sign assoc_l ++ branch reading "variable" exc_var ++
      sign begin_l ++ branch reading "body" body
  | NRestarg name operator_l name_l _ => [Word "*arg" operator_l] ++ id_opt name name_l
  | NRetry l => [Word "retry" l]
  | NReturn args keyword_l _ => [Word "return" keyword_l] ++ flat_map reading args
  | NSClass expr body keyword_l operator_l end_l _ =>
      [Word "class" keyword_l; Word "<<" operator_l] ++ reading expr ++ branch reading "body" body ++ [Sign end_l]
  | NSelf_ l => [Word "self" l]
  | NSend recv method_name args dot_l selector_l begin_l end_l operator_l _ =>
      [Tag "call"] ++ opt reading recv ++ sign dot_l ++ id_at method_name selector_l ++ sign begin_l ++ sign operator_l ++
      flat_map reading args ++ sign end_l
  | NShadowarg name l => [Tag "shadowarg"; Id name l]
  | NSplat value operator_l _ => [Word "*" operator_l] ++ opt reading value
  | NStr value begin_l end_l _ => sign begin_l ++ quoted value ++ sign end_l
  | NSuper args keyword_l begin_l end_l _ => [Word "super" keyword_l] ++ sign begin_l ++ flat_map reading args ++ sign end_l
  | NSym name begin_l end_l _ => [Tag "sym"] ++ sign begin_l ++ quoted name ++ sign end_l
  | NTrue l => [Word "true" l]
  | NUndef names keyword_l _ => [Word "undef" keyword_l] ++ flat_map reading names
  | NUnlessGuard cond keyword_l _ => [Word "unless" keyword_l] ++ reading cond
  | NUntil cond body keyword_l begin_l end_l _ =>
      match end_l with
      | Some end_l => [Word "until" keyword_l] ++ reading cond ++ sign begin_l ++ opt reading body ++ [Sign end_l]
      | None => opt reading body ++ [Word "until" keyword_l] ++ reading cond
      end
  | NUntilPost cond body keyword_l _ => reading body ++ [Word "end until" keyword_l] ++ reading cond
  | NWhen patterns body keyword_l begin_l _ =>
      [Word "when" keyword_l] ++ flat_map reading patterns ++ [Sign begin_l] ++ opt reading body
  | NWhile cond body keyword_l begin_l end_l _ =>
      match end_l with
      | Some end_l => [Word "while" keyword_l] ++ reading cond ++ sign begin_l ++ opt reading body ++ [Sign end_l]
      | None => opt reading body ++ [Word "while" keyword_l] ++ reading cond
      end
  | NWhilePost cond body keyword_l _ => reading body ++ [Word "end while" keyword_l] ++ reading cond
  | NXHeredoc parts _ heredoc_end_l l => [Tag "xstr"; Sign l] ++ flat_map reading parts ++ [Sign heredoc_end_l]
  | NXstr parts begin_l end_l _ => [Tag "xstr"; Sign begin_l] ++ flat_map reading parts ++ [Sign end_l]
  | NYield args keyword_l begin_l end_l _ => [Word "yield" keyword_l] ++ sign begin_l ++ flat_map reading args ++ sign end_l
  | NZSuper l => [Word "zsuper" l]
  end.

(** ** What the functions of the builder are called for *)

(** A piece, or a node that was made before *)
Inductive Part : Type := P (p : Piece) | C (n : Node).
Definition w_ (w : string) (t : Token) : list Part := [P (Word w (token_loc t))].
Arguments w_ w%string t.
Definition sg (t : Token) : list Part := [P (Sign (token_loc t))].
Definition sg_opt (t : option Token) : list Part := match t with Some t => sg t | None => [] end.
Definition tag (k : string) : list Part := [P (Tag k)].
Arguments tag k%string.
Definition id (t : Token) : list Part := [P (Id (token_value t) (token_loc t))].
Definition id_of (t : option Token) : list Part := match t with Some t => id t | None => [] end.
Definition q (v : list N) : list Part := match v with [] => [] | _ => [P (Quoted v)] end.
Definition cs (l : list Node) : list Part := List.map C l.
Definition co (o : option Node) : list Part := match o with Some n => [C n] | None => [] end.
Definition role (k : string) (o : option Node) : list Part := match o with Some n => [P (Tag k); C n] | None => [] end.
Arguments role k%string o.
(** A label token ends with a colon *)
Definition key (t : Token) : list Part := [P (Id (token_value t) (key_of (token_loc t)))].
Definition clause_sign (c : option (Token * option Node)) : list Part := match c with Some (t, _) => sg t | None => [] end.
Definition clause_role (k : string) (c : option (Token * option Node)) : list Part :=
  match c with Some (_, b) => role k b | None => [] end.
Arguments clause_role k%string c.
Definition symbol_part (n : Node) : list Part :=
  match n with NStr _ _ _ _ | NDstr _ _ _ _ => [P (Tag "sym"); C n] | _ => [C n] end.
Definition number_tag (n : Node) : string :=
  match n with NInt _ _ _ => "int" | NFloat _ _ _ => "float" | NRational _ _ _ => "rational" | _ => "complex" end.
Definition loop_word (k : LoopType) : string := match k with LWhile => "while" | LUntil => "until" end.
(** [begin ... end while] runs its body first *)
Definition post_word (k : LoopType) (body : Node) : string :=
  match body, k with
  | NKwBegin _ _ _ _, LWhile => "end while" | NKwBegin _ _ _ _, LUntil => "end until"
  | _, LWhile => "while" | _, LUntil => "until"
  end.
Definition command_word (k : KeywordCmd) : string :=
  match k with
  | KBreak => "break" | KDefined => "defined?" | KNext => "next" | KRedo => "redo" | KRetry => "retry"
  | KReturn => "return" | KSuper => "super" | KYield => "yield" | KZsuper => "zsuper"
  end.
Definition dot_part (dot : option Token) : list Part :=
  match dot with
  | Some t => match token_type t with tANDDOT => w_ "&." t | _ => sg t end
  | None => []
  end.
(** What gets the block *)
Definition is_lambda (m : Node) : bool :=
  match m with NLambda _ | NReturn [NLambda _] _ _ | NBreak [NLambda _] _ _ | NNext [NLambda _] _ _ => true | _ => false end.
(** What can be assigned to is not yet, and a call on the left has no arguments *)
Definition open_target (n : Node) : Prop :=
  no_value n /\ match n with NSend _ _ l _ _ b z _ _ | NCSend _ _ l _ _ b z _ _ => l = [] /\ b = None /\ z = None | _ => True end.
Definition operator_part (o : list N) (l : Loc) : list Part :=
  if bytes_eqb o (bs "&&") then [P (Word "&&=" l)]
  else if bytes_eqb o (bs "||") then [P (Word "||=" l)]
  else [P (Tag "op_asgn"); P (Id o l)].
Definition variable_tag (n : Node) : string := match n with NLvar _ _ => "lvar" | NConst _ _ _ _ _ => "const" | _ => "call" end.

(** [Spells ps n]: a function of builder.rs, called in any state for the text [ps], returns [n] *)
Inductive Spells : list Part -> Node -> Prop :=
(* literals *)
| r_nil t : Spells (w_ "nil" t) (nil_ t)
| r_true t : Spells (w_ "true" t) (true_ t)
| r_false t : Spells (w_ "false" t) (false_ t)
| r_integer t e s n s' : integer t e s = Ok n s' -> Spells (tag "int" ++ id t) n
| r_float t e s n s' : float t e s = Ok n s' -> Spells (tag "float" ++ id t) n
| r_rational t e s n s' : rational t e s = Ok n s' -> Spells (tag "rational" ++ id t) n
| r_complex t e s n s' : complex t e s = Ok n s' -> Spells (tag "complex" ++ id t) n
| r_unary_num t m v x e s n s' : numeric m v x -> unary_num t m e s = Ok n s' ->
    Spells (tag (number_tag m) ++ [P (Id (token_value t ++ v) (loc_join (token_loc t) x))] ++ sg t) n
| r_line t : Spells (w_ "__LINE__" t) (line_ t)
| r_string_internal t : Spells (q (token_value t)) (string_internal t)
| r_string_compose b l z e s n s' : (b = None /\ z = None) \/ plain_part l -> string_compose b l z e s = Ok n s' ->
    Spells (sg_opt b ++ cs l ++ sg_opt z) n
| r_character t : Spells (P (Sign (mkLoc (loc_begin (token_loc t)) (loc_begin (token_loc t) + 1))) :: q (token_value t)) (character t)
| r_file t : Spells (w_ "__FILE__" t) (file_ t)
| r_symbol t v e s n s' : symbol t v e s = Ok n s' -> Spells (tag "sym" ++ sg t ++ q (token_value v)) n
| r_symbol_internal t e s n s' : symbol_internal t e s = Ok n s' -> Spells (tag "sym" ++ q (token_value t)) n
| r_symbol_compose b l z e s n s' : plain_part l -> symbol_compose b l z e s = Ok n s' ->
    Spells (tag "sym" ++ sg b ++ cs l ++ sg z) n
| r_xstring b l z : Spells (tag "xstr" ++ sg b ++ cs l ++ sg z) (xstring_compose b l z)
| r_regexp_options t e s n s' : regexp_options t e s = Ok (Some n) s' ->
    Spells (tag "regopt" ++ [P (Sign (mkLoc (loc_begin (token_loc t) + 1) (loc_end (token_loc t))))]) n
| r_regexp_compose b l z o e s n s' : regexp_compose b l z o e s = Ok n s' ->
    Spells (tag "regexp" ++ sg b ++ cs l ++ [P (Sign (mkLoc (loc_begin (token_loc z)) (loc_begin (token_loc z) + 1)))] ++ co o) n
| r_array b l z e s n s' : array b l z e s = Ok n s' -> Spells (tag "array" ++ sg_opt b ++ cs l ++ sg_opt z) n
| r_splat t v : Spells (w_ "*" t ++ co v) (splat t v)
| r_word l e s n s' : word l e s = Ok n s' -> Spells (cs l) n
| r_words_compose b l z : Spells (tag "array" ++ sg b ++ cs l ++ sg z) (words_compose b l z)
| r_symbols_compose b l z e s n s' : symbols_compose b l z e s = Ok n s' ->
    Spells (tag "array" ++ sg b ++ flat_map symbol_part l ++ sg z) n
(* hashes *)
| r_pair k t v : Spells ([C k] ++ sg t ++ [C v]) (pair k t v)
| r_pair_keyword t v e s n s' : pair_keyword t v e s = Ok n s' ->
    Spells (tag "sym" ++ q (token_value t) ++ [P (Sign (colon_of (token_loc t))); C v]) n
| r_pair_quoted b l z v e s n s' : plain_part l -> pair_quoted b l z v e s = Ok n s' ->
    Spells (tag "sym" ++ sg b ++ cs l ++ [P (Sign (mkLoc (loc_end (token_loc z) - 2) (loc_end (token_loc z) - 1)));
            P (Sign (colon_of (token_loc z))); C v]) n
    (* a key without a value stands for the variable, constant or method of that name too *)
| r_pair_label t v e s n s' k o l : pair_label t e s = Ok n s' -> n = NPair k v o l ->
    Spells (tag "sym" ++ q (token_value t) ++ [P (Sign (colon_of (token_loc t)))] ++ tag (variable_tag v) ++ key t) n
| r_kwsplat t v : Spells (w_ "**" t ++ [C v]) (kwsplat t v)
| r_associate b l z e s n s' : associate b l z e s = Ok n s' -> Spells (tag "hash" ++ sg_opt b ++ cs l ++ sg_opt z) n
(* ranges *)
| r_range_inclusive l t r : Spells (co l ++ w_ ".." t ++ co r) (range_inclusive l t r)
| r_range_exclusive l t r : Spells (co l ++ w_ "..." t ++ co r) (range_exclusive l t r)
(* access *)
| r_self t : Spells (w_ "self" t) (self_ t)
| r_lvar t e s n s' : lvar t e s = Ok n s' -> Spells (tag "lvar" ++ id t) n
| r_ivar t e s n s' : ivar t e s = Ok n s' -> Spells (tag "ivar" ++ id t) n
| r_gvar t e s n s' : gvar t e s = Ok n s' -> Spells (tag "gvar" ++ id t) n
| r_cvar t e s n s' : cvar t e s = Ok n s' -> Spells (tag "cvar" ++ id t) n
| r_back_ref t e s n s' : back_ref t e s = Ok n s' -> Spells (tag "back_ref" ++ id t) n
| r_nth_ref t e s n s' : nth_ref t e s = Ok n s' -> Spells (tag "nth_ref" ++ [P (Id (tl (token_value t)) (token_loc t))]) n
    (* which of the two it is: C54 *)
| r_accessible_name x l e s n s' : accessible (NLvar x l) e s = Ok n s' -> Spells (tag (variable_tag n) ++ [P (Id x l)]) n
| r_accessible m e s n s' : (forall x l, m <> NLvar x l) -> accessible m e s = Ok n s' -> Spells [C m] n
| r_const t e s n s' : const_ t e s = Ok n s' -> Spells (tag "const" ++ id t) n
| r_const_global t v e s n s' : const_global t v e s = Ok n s' -> Spells (tag "const" ++ w_ "::" t ++ sg t ++ id v) n
| r_const_fetch m t v e s n s' : const_fetch m t v e s = Ok n s' -> Spells (tag "const" ++ [C m] ++ sg t ++ id v) n
| r_encoding t : Spells (w_ "__ENCODING__" t) (encoding_ t)
(* assignments *)
| r_assignable m e s n s' : assignable m e s = Ok (Some n) s' -> Spells [C m] n
| r_const_op_assignable m e s n s' : const_op_assignable m e s = Ok n s' -> Spells [C m] n
| r_assign l t r e s n s' : open_target l -> assign l t r e s = Ok n s' -> Spells ([C l] ++ sg t ++ [C r]) n
| r_op_assign l t o r e s n s' : token_value t = o ++ [61%N] -> forallb (fun c => (c <? 128)%N) o = true ->
    op_assign l t r e s = Ok (Some n) s' -> Spells ([C l] ++ operator_part o (token_loc t) ++ [C r]) n
| r_multi_lhs b l z e s n s' : multi_lhs b l z e s = Ok n s' -> Spells (sg_opt b ++ tag "mlhs" ++ cs l ++ sg_opt z) n
| r_multi_assign l t r : Spells ([C l] ++ w_ "=" t ++ [C r]) (multi_assign l t r)
(* definitions *)
| r_def_class kw m lt sup body z :
    Spells (w_ "class" kw ++ [C m] ++ sg_opt lt ++ role "superclass" sup ++ role "body" body ++ sg z) (def_class kw m lt sup body z)
| r_def_sclass kw lt x body z : Spells (w_ "class" kw ++ w_ "<<" lt ++ [C x] ++ role "body" body ++ sg z) (def_sclass kw lt x body z)
| r_def_module kw m body z : Spells (w_ "module" kw ++ [C m] ++ co body ++ sg z) (def_module kw m body z)
| r_def_method kw t args body z e s n s' : def_method kw t args body z e s = Ok (Some n) s' ->
    Spells (w_ "def" kw ++ id t ++ co args ++ role "body" body ++ sg z) n
| r_def_endless_method kw t args a body e s n s' : def_endless_method kw t args a body e s = Ok (Some n) s' ->
    Spells (w_ "def" kw ++ id t ++ co args ++ sg a ++ role "body" body) n
| r_def_singleton kw d dot t args body z e s n s' : def_singleton kw d dot t args body z e s = Ok (Some n) s' ->
    Spells (w_ "def" kw ++ [C d] ++ sg dot ++ id t ++ co args ++ role "body" body ++ sg z) n
| r_def_endless_singleton kw d dot t args a body e s n s' :
    def_endless_singleton kw d dot t args a body e s = Ok (Some n) s' ->
    Spells (w_ "def" kw ++ [C d] ++ sg dot ++ id t ++ co args ++ sg a ++ role "body" body) n
| r_undef_method kw l : Spells (w_ "undef" kw ++ cs l) (undef_method kw l)
| r_alias kw a b : Spells (w_ "alias" kw ++ [C a; C b]) (alias kw a b)
(* formal arguments *)
| r_args b l z e s n s' : args_ b l z e s = Ok (Some n) s' -> Spells (tag "args" ++ sg_opt b ++ cs l ++ sg_opt z) n
| r_forward_arg t : Spells (w_ "(...)" t) (forward_arg t)
| r_arg t e s n s' : arg t e s = Ok (Some n) s' -> Spells (tag "arg" ++ id t) n
| r_optarg t a d e s n s' : optarg t a d e s = Ok (Some n) s' -> Spells (tag "arg" ++ id t ++ w_ "=" a ++ [C d]) n
| r_restarg t v e s n s' : restarg t v e s = Ok (Some n) s' -> Spells (w_ "*arg" t ++ id_of v) n
| r_kwarg t e s n s' : kwarg t e s = Ok (Some n) s' -> Spells (tag "kwarg" ++ key t) n
| r_kwoptarg t d e s n s' : kwoptarg t d e s = Ok (Some n) s' -> Spells (tag "kwoptarg" ++ key t ++ [C d]) n
| r_kwrestarg t v e s n s' : kwrestarg t v e s = Ok (Some n) s' -> Spells (w_ "**arg" t ++ id_of v) n
| r_kwnilarg t v : Spells (w_ "**nil" v) (kwnilarg t v)
| r_shadowarg t e s n s' : shadowarg t e s = Ok (Some n) s' -> Spells (tag "shadowarg" ++ id t) n
| r_blockarg t v e s n s' : blockarg t v e s = Ok (Some n) s' -> Spells (w_ "&arg" t ++ id_of v) n
| r_procarg0 x l e s n s' : procarg0 (NArg x l) e s = Ok n s' -> Spells (tag "procarg0" ++ [C (NArg x l)]) n
| r_procarg0_list l b z r e s n s' : procarg0 (NMlhs l b z r) e s = Ok n s' ->
    Spells (tag "procarg0" ++ List.map P (sign b) ++ cs l ++ List.map P (sign z)) n
(* calls *)
| r_forwarded_args t : Spells (w_ "f(...)" t) (forwarded_args t)
| r_call_method recv dot sel b args z e s n s' : call_method recv dot sel b args z e s = Ok n s' ->
    Spells (tag "call" ++ co recv ++ dot_part dot ++ match sel with Some sel => id sel | None => [P (Quoted (bs "call"))] end ++
            sg_opt b ++ cs args ++ sg_opt z) n
| r_call_lambda t : Spells (w_ "->" t) (call_lambda t)
| r_block m b args body z e s n s' : takes_block m -> block m b (ArgsT args) body z e s = Ok (Some n) s' ->
    Spells ([C m] ++ (if is_lambda m then co args ++ sg b else sg b ++ co args) ++ role "body" body ++ sg z) n
| r_numblock m b k body z e s n s' : takes_block m -> block m b (Numargs k) (Some body) z e s = Ok (Some n) s' ->
    Spells ([C m] ++ sg b ++ [P (Quoted [k]); C body] ++ sg z) n
| r_block_pass t v : Spells (w_ "&" t ++ co v) (block_pass t v)
| r_attr_asgn m dot t e s n s' : attr_asgn m dot t e s = Ok n s' ->
    Spells (tag "call" ++ [C m] ++ dot_part (Some dot) ++ [P (Id (token_value t ++ [61%N]) (token_loc t))]) n
| r_index m b l z : Spells (tag "index" ++ [C m] ++ sg b ++ cs l ++ sg z) (index m b l z)
| r_index_asgn m b l z : Spells (tag "index" ++ [C m] ++ sg b ++ cs l ++ sg z) (index_asgn m b l z)
| r_binary_op l t r e s n s' : binary_op l t r e s = Ok (Some n) s' -> Spells (tag "call" ++ [C l] ++ id t ++ [C r]) n
    (* a call, or a match that declares variables *)
| r_match_op l t r e s n s' : match_op l t r e s = Ok (Some n) s' ->
    Spells (match n with
            | NMatchWithLvasgn _ _ _ _ => [C l] ++ w_ "=~" t ++ [C r]
            | _ => tag "call" ++ [C l] ++ [P (Id (bs "=~") (token_loc t))] ++ [C r]
            end) n
| r_unary_op t m e s n s' : unary_op t m e s = Ok (Some n) s' ->
    Spells (tag "call" ++ [C m] ++
            [P (Id (token_value t ++ match token_value t with [43%N] | [45%N] => [64%N] | _ => [] end) (token_loc t))]) n
| r_not_op t b m z e s n s' : not_op t b (Some m) z e s = Ok (Some n) s' ->
    Spells (tag "call" ++ [C m] ++ [P (Id (bs "!") (token_loc t))] ++ sg_opt b ++ sg_opt z) n
| r_not_nothing t b z e s n s' : not_op t b None z e s = Ok (Some n) s' ->
    Spells (tag "call" ++ sg_opt b ++ sg_opt z ++ [P (Id (bs "!") (token_loc t))]) n
(* control flow *)
| r_logical_op k l t r e s n s' : logical_op k l t r e s = Ok (Some n) s' ->
    Spells ([C l] ++ w_ (match k with LAnd => "and" | LOr => "or" end) t ++ [C r]) n
| r_condition kw c th t el f z :
    Spells (sg kw ++ [C c] ++ sg th ++ role "true" t ++ sg_opt el ++ role "false" f ++ sg_opt z) (condition kw c th t el f z)
| r_condition_mod t f kw c e s n s' : condition_mod t f kw c e s = Ok n s' ->
    Spells (role "true" t ++ role "false" f ++ sg kw ++ [C c]) n
| r_ternary c a t k f : Spells ([C c] ++ w_ "?" a ++ [C t] ++ w_ ":" k ++ [C f]) (ternary c a t k f)
| r_when kw l th body : Spells (w_ "when" kw ++ cs l ++ sg th ++ co body) (when_ kw l th body)
| r_case kw x l el body z :
    Spells (w_ "case" kw ++ role "subject" x ++ cs l ++ sg_opt el ++ role "else" body ++ sg z) (case kw x l el body z)
| r_loop k kw c d body z : Spells (w_ (loop_word k) kw ++ [C c] ++ sg d ++ co body ++ sg z) (loop_ k kw c d body z)
| r_loop_mod k body kw c : Spells ([C body] ++ w_ (post_word k body) kw ++ [C c]) (loop_mod k body kw c)
| r_for kw it i x d body z :
    Spells (w_ "for" kw ++ [C it] ++ w_ "in" i ++ [C x] ++ sg d ++ co body ++ sg z) (for_ kw it i x d body z)
| r_keyword_cmd k kw b l z e s n s' : keyword_shape k b l z -> keyword_cmd k kw b l z e s = Ok (Some n) s' ->
    Spells (w_ (command_word k) kw ++ sg_opt b ++ cs l ++ sg_opt z) n
| r_preexe kw b body z : Spells (w_ "BEGIN" kw ++ sg b ++ co body ++ sg z) (preexe kw b body z)
| r_postexe kw b body z : Spells (w_ "END" kw ++ sg b ++ co body ++ sg z) (postexe kw b body z)
(* exceptions *)
| r_rescue_body kw x a v th body :
    Spells (w_ "rescue" kw ++ role "classes" x ++ sg_opt a ++ role "variable" v ++ sg_opt th ++ role "body" body)
           (rescue_body kw x a v th body)
| r_begin_body c l el e s n s' : l <> [] -> begin_body c l el None e s = Ok (Some n) s' ->
    Spells (role "body" c ++ cs l ++ clause_sign el ++ clause_role "else" el) n
    (* an [else] without [rescue] joins the statements *)
| r_begin_else c t b e s n s' : undelimited_opt c -> begin_body c [] (Some (t, b)) None e s = Ok (Some n) s' ->
    Spells (co c ++ sg t ++ co b) n
| r_begin_plain c e s n s' : begin_body c [] None None e s = Ok (Some n) s' -> Spells (co c) n
    (* the body is what the clauses before [ensure] make, and it is the same as without [ensure] *)
| r_ensure c l el t b m e s n s' r s1 : begin_body c l el None e s = Ok m s1 ->
    begin_body c l el (Some (t, b)) e s = Ok (Some n) s' -> r = m -> Spells (co r ++ w_ "ensure" t ++ co b) n
(* groups *)
| r_compstmt l e s n s' : compstmt l e s = Ok (Some n) s' -> Spells (cs l) n
| r_begin b body z : (forall l x y r, body = Some (NMlhs l x y r) -> x = None /\ y = None) ->
    Spells (sg b ++ co body ++ sg z) (begin b body z)
| r_begin_keyword b body z : undelimited_opt body ->
    Spells (tag "kwbegin" ++ sg b ++ co body ++ sg z) (begin_keyword b body z)
(* pattern matching; an [else] without a body is recorded as an empty one too *)
| r_case_match kw x l el body z :
    Spells (w_ "case/in" kw ++ [C x] ++ cs l ++ sg_opt el ++
            match body, el with
            | None, Some t => tag "else" ++ w_ "else" t
            | _, _ => role "else" body
            end ++ sg z) (case_match kw x l el body z)
| r_match_pattern l t r : Spells ([C l] ++ w_ "=>" t ++ [C r]) (match_pattern l t r)
| r_match_pattern_p l t r : Spells ([C l] ++ w_ "in" t ++ [C r]) (match_pattern_p l t r)
| r_in_pattern kw p g th body : Spells (w_ "in" kw ++ [C p] ++ co g ++ sg th ++ co body) (in_pattern kw p g th body)
| r_if_guard kw c : Spells (w_ "if" kw ++ [C c]) (if_guard kw c)
| r_unless_guard kw c : Spells (w_ "unless" kw ++ [C c]) (unless_guard kw c)
| r_match_var t e s n s' : match_var t e s = Ok (Some n) s' -> Spells (tag "match_var" ++ id t) n
| r_match_hash_var t e s n s' : match_hash_var t e s = Ok (Some n) s' -> Spells (tag "match_var" ++ key t) n
| r_match_hash_var_from_str b t z e s n s' : utf8_lossy (token_value t) = token_value t ->
    match_hash_var_from_str b [string_internal t] z e s = Ok (Some n) s' -> Spells (tag "match_var" ++ id t) n
| r_match_rest t v e s n s' : match_rest t (Some v) e s = Ok (Some n) s' -> Spells (w_ "*" t ++ tag "match_var" ++ id v) n
| r_match_rest_only t e s n s' : match_rest t None e s = Ok (Some n) s' -> Spells (w_ "*" t) n
| r_hash_pattern b l z e s n s' : hash_pattern b l z e s = Ok n s' -> Spells (tag "hash_pattern" ++ sg_opt b ++ cs l ++ sg_opt z) n
    (* a comma behind the last element *)
| r_array_pattern b l comma z e s n s' : array_pattern b l comma z e s = Ok n s' ->
    Spells (tag (match l, comma with _ :: _, Some _ => "array_pattern_with_tail" | _, _ => "array_pattern" end) ++
            sg_opt b ++ cs l ++ sg_opt z) n
| r_find_pattern b l z e s n s' : find_pattern b l z e s = Ok n s' -> Spells (tag "find_pattern" ++ sg_opt b ++ cs l ++ sg_opt z) n
| r_const_pattern c b p z : Spells ([C c] ++ sg b ++ [C p] ++ sg z) (const_pattern c b p z)
| r_pin t v : Spells (w_ "^" t ++ [C v]) (pin t v)
| r_match_alt l t r : Spells ([C l] ++ w_ "|" t ++ [C r]) (match_alt l t r)
| r_match_as l t r : Spells ([C l] ++ w_ "=> variable" t ++ [C r]) (match_as l t r)
| r_match_nil_pattern t v : Spells (w_ "**" t ++ w_ "nil" v) (match_nil_pattern t v)
| r_match_pair_plain t v e s n s' : match_pair (PlainLabel t) v e s = Ok (Some n) s' ->
    Spells (tag "sym" ++ q (token_value t) ++ [P (Sign (colon_of (token_loc t))); C v]) n
| r_match_pair_quoted b l z v e s n s' : plain_part l -> match_pair (QuotedLabel b l z) v e s = Ok (Some n) s' ->
    Spells (tag "sym" ++ sg b ++ cs l ++ [P (Sign (mkLoc (loc_end (token_loc z) - 2) (loc_end (token_loc z) - 1)));
            P (Sign (colon_of (token_loc z))); C v]) n.

(** The text of a call, with the nodes read *)
Definition part_text (p : Part) : list Piece := match p with P p => [p] | C n => reading n end.
Definition text_of (ps : list Part) : list Piece := flat_map part_text ps.

(** A tree and the text that all the calls that made it stand for *)
Inductive Written : list Piece -> Node -> Prop :=
| written ps n ts : Spells ps n -> Texts ps ts -> Written ts n
with Texts : list Part -> list Piece -> Prop :=
| texts_nil : Texts [] []
| texts_piece p ps ts : Texts ps ts -> Texts (P p :: ps) (p :: ts)
| texts_node n ps ts ts' : Written ts n -> Texts ps ts' -> Texts (C n :: ps) (ts ++ ts').
Scheme Written_rec := Minimality for Written Sort Prop
with Texts_rec := Minimality for Texts Sort Prop.
