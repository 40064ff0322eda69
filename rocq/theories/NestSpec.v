(** * Where the pieces of a syntax tree stand (specification for C48)

    Independent of how src/builder.rs computes ranges: for every node type the order in which its sub-nodes and
    its own marks (keywords, operators, delimiters, names) stand in the source, and for every function of
    builder.rs the order in which src/parser/parse.y hands the tokens and nodes of a rule over. *)
Require Import Verif.Base Verif.InputM Verif.TokensM Verif.NodeM.
Require Import Verif.LexerM Verif.BuilderM Verif.BuilderNodesM.

(** ** Pieces one after the other *)

(** Proper ranges that follow each other without overlap between the positions [b] and [e] *)
Fixpoint inside (b : nat) (ls : list Loc) (e : nat) : Prop :=
  match ls with
  | [] => b <= e
  | l :: ls => b <= loc_begin l /\ loc_begin l <= loc_end l /\ inside (loc_end l) ls e
  end.
(** Somewhere in the source *)
Definition in_sequence (ls : list Loc) : Prop := exists b e, inside b ls e.
(** The range runs from the beginning of the first piece to the end of the last one *)
Definition spans (r : Loc) (ls : list Loc) : Prop :=
  exists a z, first_opt ls = Some a /\ last_opt ls = Some z /\ r = mkLoc (loc_begin a) (loc_end z).

(** Ranges of tokens and nodes, as lists *)
Definition tk (t : Token) : list Loc := [token_loc t].
Definition tko (t : option Token) : list Loc := match t with Some t => [token_loc t] | None => [] end.
Definition nd (n : Node) : list Loc := [expression n].
Definition ndo (n : option Node) : list Loc := match n with Some n => [expression n] | None => [] end.
Definition nds (ns : list Node) : list Loc := List.map expression ns.

(** ** The order of the pieces within a node *)

Definition same_loc (a b : Loc) : bool :=
  Nat.eqb (loc_begin a) (loc_begin b) && Nat.eqb (loc_end a) (loc_end b).
(** A list with delimiters around it *)
Definition around (l : list Node) (begin_l end_l : option Loc) : list (list Loc) :=
  [olist begin_l ++ nds l ++ olist end_l].
(** The ways in which the pieces of a node may follow each other.  More than one for: calls (prefix operators,
    assignments), [if] (and [unless], [elsif]), loops (and modifiers), blocks (and lambdas), pairs (and
    shorthand pairs), and where two fields share one token.  The mark that closes the head of a [when] or [in]
    clause without a body is left out, as are all marks of a heredoc (see [heredoc_parts]). *)
Definition layouts (n : Node) : list (list Loc) :=
  match n with
  | NAlias to from kw _ => [[kw; expression to; expression from]]
  | NAnd l r op _ | NOr l r op _ | NMasgn l r op _ | NMatchAlt l r op _ | NMatchAs l r op _
  | NMatchPattern l r op _ | NMatchPatternP l r op _ | NMatchWithLvasgn l r op _
  | NAndAsgn l r op _ | NOrAsgn l r op _ | NOpAsgn l _ r op _ => [[expression l; op; expression r]]
  | NArgs l b e _ | NArray l b e _ | NArrayPattern l b e _ | NArrayPatternWithTail l b e _ | NBegin l b e _
  | NDstr l b e _ | NDsym l b e _ | NFindPattern l b e _ | NHash l b e _ | NHashPattern l b e _
  | NKwBegin l b e _ | NMlhs l b e _ | NProcarg0 l b e _ => around l b e
  | NKwargs l _ => around l None None
  | NStr _ b e _ | NSym _ b e _ => around [] b e
  | NXstr l b e _ => around l (Some b) (Some e)
  | NRegexp l o b e _ => [b :: nds l ++ e :: ndo o]
  | NBlock c a body b e _ =>
      [expression c :: b :: ndo a ++ ndo body ++ [e]; expression c :: ndo a ++ b :: ndo body ++ [e]]
  | NNumblock c _ body b e _ => [[expression c; b; expression body; e]]
  | NBlockPass v op _ | NSplat v op _ | NMatchRest v op _ => [op :: ndo v]
  | NKwsplat v op _ | NPin v op _ | NIfGuard v op _ | NUnlessGuard v op _ => [[op; expression v]]
  | NBlockarg _ op name_l _ | NKwrestarg _ op name_l _ | NRestarg _ op name_l _ => [op :: olist name_l]
  | NBreak l kw _ | NNext l kw _ | NReturn l kw _ | NUndef l kw _ => [kw :: nds l]
  | NSuper l kw b e _ | NYield l kw b e _ => [kw :: olist b ++ nds l ++ olist e]
  | NDefined v kw b e _ => [kw :: olist b ++ expression v :: olist e]
  | NSend recv _ args dot sel b e op _ =>
      match op with
      | None => [ndo recv ++ olist dot ++ olist sel ++ olist b ++ nds args ++ olist e;
                 olist dot ++ olist sel ++ olist b ++ ndo recv ++ olist e ++ nds args]
      | Some op => [ndo recv ++ olist dot ++ olist sel ++ olist b ++ olist e ++ op :: nds args;
                    olist dot ++ olist sel ++ olist b ++ ndo recv ++ olist e ++ op :: nds args]
      end
  | NCSend recv _ args dot sel b e op _ =>
      match op with
      | None => [expression recv :: dot :: olist sel ++ olist b ++ nds args ++ olist e]
      | Some op => [expression recv :: dot :: olist sel ++ olist b ++ olist e ++ op :: nds args]
      end
  | NCase x l el kw else_l e _ => [kw :: ndo x ++ nds l ++ olist else_l ++ ndo el ++ [e]]
  | NCaseMatch x l el kw else_l e _ =>
      (kw :: expression x :: nds l ++ olist else_l ++ ndo el ++ [e]) ::
      match el, else_l with
      | Some (NEmptyElse m), Some k => if same_loc k m then [kw :: expression x :: nds l ++ [k; e]] else []
      | _, _ => []
      end
  | NCasgn scope _ v dc name op _ =>
      (ndo scope ++ olist dc ++ name :: olist op ++ ndo v) ::
      match scope, dc with
      | Some (NCbase m), Some k => if same_loc k m then [k :: name :: olist op ++ ndo v] else []
      | _, _ => []
      end
  | NConst scope _ dc name _ =>
      (ndo scope ++ olist dc ++ [name]) ::
      match scope, dc with
      | Some (NCbase m), Some k => if same_loc k m then [[k; name]] else []
      | _, _ => []
      end
  | NConstPattern c p b e _ =>
      [expression c; b; expression p; e] ::
      (if same_loc (expression p) (mkLoc (loc_begin b) (loc_end e)) then [[expression c; b; e]] else [])
  | NClass name sup body kw op e _ => [kw :: expression name :: olist op ++ ndo sup ++ ndo body ++ [e]]
  | NSClass x body kw op e _ => [kw :: op :: expression x :: ndo body ++ [e]]
  | NModule name body kw e _ => [kw :: expression name :: ndo body ++ [e]]
  | NComplex _ op _ | NFloat _ op _ | NInt _ op _ | NRational _ op _ => [olist op]
  | NCvasgn _ v name op _ | NGvasgn _ v name op _ | NIvasgn _ v name op _ | NLvasgn _ v name op _ =>
      [name :: olist op ++ ndo v]
  | NDef _ args body kw name e asgn _ => [kw :: name :: ndo args ++ olist asgn ++ ndo body ++ olist e]
  | NDefs d _ args body kw op name asgn e _ =>
      [kw :: expression d :: op :: name :: ndo args ++ olist asgn ++ ndo body ++ olist e]
  | NEFlipFlop l r op _ | NErange l r op _ | NIFlipFlop l r op _ | NIrange l r op _ => [ndo l ++ op :: ndo r]
  | NEnsure body ens kw _ => [ndo body ++ kw :: ndo ens]
  | NFor it x body kw op b e _ => [kw :: expression it :: op :: expression x :: b :: ndo body ++ [e]]
  | NHeredoc _ _ _ _ | NXHeredoc _ _ _ _ => [[]]
  | NIf c t f kw b else_l e _ =>
      (kw :: expression c :: b :: ndo t ++ olist else_l ++ ndo f ++ olist e) ::
      (kw :: expression c :: b :: ndo f ++ olist else_l ++ ndo t ++ olist e) ::
      match f, else_l with
      | Some (NIf _ _ _ elsif _ _ _ _ as f), Some k =>
          if same_loc k elsif then [kw :: expression c :: b :: ndo t ++ expression f :: olist e] else []
      | _, _ => []
      end
  | NIfMod c t f kw _ => [ndo t ++ ndo f ++ [kw; expression c]]
  | NIfTernary c t f q k _ => [[expression c; q; expression t; k; expression f]]
  | NInPattern p g body kw b _ =>
      [kw :: expression p :: ndo g ++ match body with Some body => [b; expression body] | None => [] end]
  | NWhen l body kw b _ => [kw :: nds l ++ match body with Some body => [b; expression body] | None => [] end]
  | NIndex recv l b e _ => [expression recv :: b :: nds l ++ [e]]
  | NIndexAsgn recv l v b e op _ => [expression recv :: b :: nds l ++ e :: olist op ++ ndo v]
  | NKwarg _ name _ | NMatchVar _ name _ | NKwnilarg name _ => [[name]]
  | NKwoptarg _ d name _ => [[name; expression d]]
  | NMatchCurrentLine re _ => [[expression re]]
  | NMatchNilPattern op name _ => [[op; name]]
  | NOptarg _ d name op _ => [[name; op; expression d]]
  | NPair k v op _ =>
      [expression k; op; expression v] ::
      (if same_loc (expression k) (expression v) then [[expression k; op]] else [])
  | NPostexe body kw b e _ | NPreexe body kw b e _ => [kw :: b :: ndo body ++ [e]]
  | NRescue body l el else_l _ => [ndo body ++ nds l ++ olist else_l ++ ndo el]
  | NRescueBody x v body kw assoc b _ => [kw :: ndo x ++ olist assoc ++ ndo v ++ olist b ++ ndo body]
  | NUntil c body kw b e _ | NWhile c body kw b e _ =>
      [kw :: expression c :: olist b ++ ndo body ++ olist e; ndo body ++ [kw; expression c] ++ olist b ++ olist e]
  | NUntilPost c body kw _ | NWhilePost c body kw _ => [[expression body; kw; expression c]]
  | _ => [[]]
  end.
(** The contents of a heredoc stand elsewhere: within the range recorded for its body *)
Definition heredoc_parts (n : Node) : Prop :=
  match n with
  | NHeredoc l body _ _ | NXHeredoc l body _ _ => inside (loc_begin body) (nds l) (loc_end body)
  | _ => True
  end.
(** The pieces of a node follow each other within its range *)
Definition laid_out (n : Node) : Prop :=
  (exists ls, In ls (layouts n) /\ inside (loc_begin (expression n)) ls (loc_end (expression n))) /\ heredoc_parts n.
(** So do those of all nodes below it *)
Inductive Nested : Node -> Prop :=
| nested : forall n, laid_out n -> (forall c, In c (children n) -> Nested c) -> Nested n.

(** ** Calls of the builder *)

(** The pieces of an [else] or [ensure] clause: keyword and body *)
Definition clause (c : option (Token * option Node)) : list Loc :=
  match c with Some (t, body) => token_loc t :: ndo body | None => [] end.
Definition clause_nodes (c : option (Token * option Node)) : list Node :=
  match c with Some (_, body) => olist body | None => [] end.

(** [Call ns ps h n]: a function of builder.rs, called with the nodes [ns] among its arguments, in any state of
    the builder, returns the node [n]; its arguments stand in the source in the order [ps], and the range of [n]
    should run over [h] (the same, but for the listed exceptions).  One constructor for each function, more than
    one where parse.y uses it for constructs with different orders. *)
Inductive Call : list Node -> list Loc -> list Loc -> Node -> Prop :=
(* literals *)
| c_nil t : Call [] (tk t) (tk t) (nil_ t)
| c_true t : Call [] (tk t) (tk t) (true_ t)
| c_false t : Call [] (tk t) (tk t) (false_ t)
| c_integer t e s n s' : integer t e s = Ok n s' -> Call [] (tk t) (tk t) n
| c_float t e s n s' : float t e s = Ok n s' -> Call [] (tk t) (tk t) n
| c_rational t e s n s' : rational t e s = Ok n s' -> Call [] (tk t) (tk t) n
| c_complex t e s n s' : complex t e s = Ok n s' -> Call [] (tk t) (tk t) n
| c_unary_num t v e s n s' : unary_num t v e s = Ok n s' -> Call [v] (tk t ++ nd v) (tk t ++ nd v) n
| c_line t : Call [] (tk t) (tk t) (line_ t)
| c_string_internal t : Call [] (tk t) (tk t) (string_internal t)
| c_string_compose b l z e s n s' : is_heredoc b = false -> string_compose b l z e s = Ok n s' ->
    Call l (tko b ++ nds l ++ tko z) (tko b ++ nds l ++ tko z) n
    (* of a heredoc only the opening counts, its contents are elsewhere *)
| c_heredoc b l z e s n s' : is_heredoc (Some b) = true -> in_sequence (nds l) -> in_sequence (tko z) ->
    string_compose (Some b) l z e s = Ok n s' -> Call l (tk b) (tk b) n
| c_character t : loc_begin (token_loc t) < loc_end (token_loc t) -> Call [] (tk t) (tk t) (character t)
| c_file t : Call [] (tk t) (tk t) (file_ t)
| c_symbol t v e s n s' : symbol t v e s = Ok n s' -> Call [] (tk t ++ tk v) (tk t ++ tk v) n
| c_symbol_internal t e s n s' : symbol_internal t e s = Ok n s' -> Call [] (tk t) (tk t) n
| c_symbol_compose b l z e s n s' : symbol_compose b l z e s = Ok n s' ->
    Call l (tk b ++ nds l ++ tk z) (tk b ++ nds l ++ tk z) n
| c_xstring b l z : heredoc_mark (token_value b) = false ->
    Call l (tk b ++ nds l ++ tk z) (tk b ++ nds l ++ tk z) (xstring_compose b l z)
| c_xheredoc b l z : heredoc_mark (token_value b) = true -> in_sequence (nds l) -> in_sequence (tk z) ->
    Call l (tk b) (tk b) (xstring_compose b l z)
| c_heredoc_dedent h d e s n s' : heredoc_dedent h d e s = Ok n s' -> Call [h] (nd h) (nd h) n
    (* the options stand in the token that ends the regexp *)
| c_regexp_compose b l z o e s s1 s2 n s' : loc_begin (token_loc z) < loc_end (token_loc z) ->
    regexp_options z e s = Ok o s1 -> regexp_compose b l z o e s2 = Ok n s' ->
    Call l (tk b ++ nds l ++ tk z) (tk b ++ nds l ++ tk z) n
| c_array b l z e s n s' : array b l z e s = Ok n s' ->
    Call l (tko b ++ nds l ++ tko z) (tko b ++ nds l ++ tko z) n
| c_splat t v : Call (olist v) (tk t ++ ndo v) (tk t ++ ndo v) (splat t v)
| c_word l e s n s' : word l e s = Ok n s' -> Call l (nds l) (nds l) n
| c_words_compose b l z : Call l (tk b ++ nds l ++ tk z) (tk b ++ nds l ++ tk z) (words_compose b l z)
| c_symbols_compose b l z e s n s' : symbols_compose b l z e s = Ok n s' ->
    Call l (tk b ++ nds l ++ tk z) (tk b ++ nds l ++ tk z) n
(* hashes; a label token includes its colon *)
| c_pair k t v : Call [k; v] (nd k ++ tk t ++ nd v) (nd k ++ tk t ++ nd v) (pair k t v)
| c_pair_keyword t v e s n s' : loc_begin (token_loc t) < loc_end (token_loc t) ->
    pair_keyword t v e s = Ok n s' -> Call [v] (tk t ++ nd v) (tk t ++ nd v) n
| c_pair_quoted b l z v e s n s' : loc_begin (token_loc z) + 2 = loc_end (token_loc z) ->
    pair_quoted b l z v e s = Ok n s' ->
    Call (l ++ [v]) (tk b ++ nds l ++ tk z ++ nd v) (tk b ++ nds l ++ tk z ++ nd v) n
| c_pair_label t e s n s' : loc_begin (token_loc t) < loc_end (token_loc t) ->
    pair_label t e s = Ok n s' -> Call [] (tk t) (tk t) n
| c_kwsplat t v : Call [v] (tk t ++ nd v) (tk t ++ nd v) (kwsplat t v)
| c_associate b l z e s n s' : associate b l z e s = Ok n s' ->
    Call l (tko b ++ nds l ++ tko z) (tko b ++ nds l ++ tko z) n
(* ranges *)
| c_range_inclusive l t r :
    Call (olist l ++ olist r) (ndo l ++ tk t ++ ndo r) (ndo l ++ tk t ++ ndo r) (range_inclusive l t r)
| c_range_exclusive l t r :
    Call (olist l ++ olist r) (ndo l ++ tk t ++ ndo r) (ndo l ++ tk t ++ ndo r) (range_exclusive l t r)
(* access *)
| c_self t : Call [] (tk t) (tk t) (self_ t)
| c_lvar t e s n s' : lvar t e s = Ok n s' -> Call [] (tk t) (tk t) n
| c_ivar t e s n s' : ivar t e s = Ok n s' -> Call [] (tk t) (tk t) n
| c_gvar t e s n s' : gvar t e s = Ok n s' -> Call [] (tk t) (tk t) n
| c_cvar t e s n s' : cvar t e s = Ok n s' -> Call [] (tk t) (tk t) n
| c_back_ref t e s n s' : back_ref t e s = Ok n s' -> Call [] (tk t) (tk t) n
| c_nth_ref t e s n s' : nth_ref t e s = Ok n s' -> Call [] (tk t) (tk t) n
| c_accessible m e s n s' : accessible m e s = Ok n s' -> Call [m] (nd m) (nd m) n
| c_const t e s n s' : const_ t e s = Ok n s' -> Call [] (tk t) (tk t) n
| c_const_global t v e s n s' : const_global t v e s = Ok n s' -> Call [] (tk t ++ tk v) (tk t ++ tk v) n
| c_const_fetch m t v e s n s' : const_fetch m t v e s = Ok n s' ->
    Call [m] (nd m ++ tk t ++ tk v) (nd m ++ tk t ++ tk v) n
| c_encoding t : Call [] (tk t) (tk t) (encoding_ t)
(* assignments *)
| c_assignable m e s n s' : assignable m e s = Ok (Some n) s' -> Call [m] (nd m) (nd m) n
| c_const_op_assignable m e s n s' : const_op_assignable m e s = Ok n s' -> Call [m] (nd m) (nd m) n
| c_assign l t r e s n s' : assign l t r e s = Ok n s' ->
    Call [l; r] (nd l ++ tk t ++ nd r) (nd l ++ tk t ++ nd r) n
| c_op_assign l t r e s n s' : op_assign l t r e s = Ok (Some n) s' ->
    Call [l; r] (nd l ++ tk t ++ nd r) (nd l ++ tk t ++ nd r) n
| c_multi_lhs b l z e s n s' : multi_lhs b l z e s = Ok n s' ->
    Call l (tko b ++ nds l ++ tko z) (tko b ++ nds l ++ tko z) n
| c_multi_assign l t r : Call [l; r] (nd l ++ tk t ++ nd r) (nd l ++ tk t ++ nd r) (multi_assign l t r)
(* definitions *)
| c_def_class kw m lt sup body z :
    Call (m :: olist sup ++ olist body) (tk kw ++ nd m ++ tko lt ++ ndo sup ++ ndo body ++ tk z)
         (tk kw ++ nd m ++ tko lt ++ ndo sup ++ ndo body ++ tk z) (def_class kw m lt sup body z)
| c_def_sclass kw lt x body z :
    Call (x :: olist body) (tk kw ++ tk lt ++ nd x ++ ndo body ++ tk z)
         (tk kw ++ tk lt ++ nd x ++ ndo body ++ tk z) (def_sclass kw lt x body z)
| c_def_module kw m body z :
    Call (m :: olist body) (tk kw ++ nd m ++ ndo body ++ tk z) (tk kw ++ nd m ++ ndo body ++ tk z)
         (def_module kw m body z)
| c_def_method kw t args body z e s n s' : def_method kw t args body z e s = Ok (Some n) s' ->
    Call (olist args ++ olist body) (tk kw ++ tk t ++ ndo args ++ ndo body ++ tk z)
         (tk kw ++ tk t ++ ndo args ++ ndo body ++ tk z) n
| c_def_endless_method kw t args a body e s n s' : def_endless_method kw t args a body e s = Ok (Some n) s' ->
    Call (olist args ++ olist body) (tk kw ++ tk t ++ ndo args ++ tk a ++ ndo body)
         (tk kw ++ tk t ++ ndo args ++ tk a ++ ndo body) n
| c_def_singleton kw d dot t args body z e s n s' : def_singleton kw d dot t args body z e s = Ok (Some n) s' ->
    Call (d :: olist args ++ olist body) (tk kw ++ nd d ++ tk dot ++ tk t ++ ndo args ++ ndo body ++ tk z)
         (tk kw ++ nd d ++ tk dot ++ tk t ++ ndo args ++ ndo body ++ tk z) n
| c_def_endless_singleton kw d dot t args a body e s n s' :
    def_endless_singleton kw d dot t args a body e s = Ok (Some n) s' ->
    Call (d :: olist args ++ olist body) (tk kw ++ nd d ++ tk dot ++ tk t ++ ndo args ++ tk a ++ ndo body)
         (tk kw ++ nd d ++ tk dot ++ tk t ++ ndo args ++ tk a ++ ndo body) n
| c_undef_method kw l : Call l (tk kw ++ nds l) (tk kw ++ nds l) (undef_method kw l)
| c_alias kw a b : Call [a; b] (tk kw ++ nd a ++ nd b) (tk kw ++ nd a ++ nd b) (alias kw a b)
(* formal arguments *)
| c_args b l z e s n s' : args_ b l z e s = Ok (Some n) s' ->
    Call l (tko b ++ nds l ++ tko z) (tko b ++ nds l ++ tko z) n
| c_forward_arg t : Call [] (tk t) (tk t) (forward_arg t)
| c_arg t e s n s' : arg t e s = Ok (Some n) s' -> Call [] (tk t) (tk t) n
| c_optarg t q d e s n s' : optarg t q d e s = Ok (Some n) s' ->
    Call [d] (tk t ++ tk q ++ nd d) (tk t ++ tk q ++ nd d) n
| c_restarg t v e s n s' : restarg t v e s = Ok (Some n) s' -> Call [] (tk t ++ tko v) (tk t ++ tko v) n
| c_kwarg t e s n s' : loc_begin (token_loc t) < loc_end (token_loc t) ->
    kwarg t e s = Ok (Some n) s' -> Call [] (tk t) (tk t) n
| c_kwoptarg t d e s n s' : loc_begin (token_loc t) < loc_end (token_loc t) ->
    kwoptarg t d e s = Ok (Some n) s' -> Call [d] (tk t ++ nd d) (tk t ++ nd d) n
| c_kwrestarg t v e s n s' : kwrestarg t v e s = Ok (Some n) s' -> Call [] (tk t ++ tko v) (tk t ++ tko v) n
| c_kwnilarg t v : Call [] (tk t ++ tk v) (tk t ++ tk v) (kwnilarg t v)
| c_shadowarg t e s n s' : shadowarg t e s = Ok (Some n) s' -> Call [] (tk t) (tk t) n
| c_blockarg t v e s n s' : blockarg t v e s = Ok (Some n) s' -> Call [] (tk t ++ tko v) (tk t ++ tko v) n
| c_procarg0 m e s n s' : procarg0 m e s = Ok n s' -> Call [m] (nd m) (nd m) n
(* calls *)
| c_forwarded_args t : Call [] (tk t) (tk t) (forwarded_args t)
    (* parentheses come in pairs, a dot follows a receiver, and without a dot there is a name *)
| c_call_method recv dot sel b args z e s n s' :
    (b = None <-> z = None) -> (recv = None -> dot = None) -> (recv = None \/ dot = None -> sel <> None) ->
    call_method recv dot sel b args z e s = Ok n s' ->
    Call (olist recv ++ args) (ndo recv ++ tko dot ++ tko sel ++ tko b ++ nds args ++ tko z)
         (ndo recv ++ tko dot ++ tko sel ++ tko b ++ nds args ++ tko z) n
| c_call_lambda t : Call [] (tk t) (tk t) (call_lambda t)
| c_block m b args body z e s n s' : block m b (ArgsT args) body z e s = Ok (Some n) s' ->
    Call (m :: olist args ++ olist body) (nd m ++ tk b ++ ndo args ++ ndo body ++ tk z)
         (nd m ++ tk b ++ ndo args ++ ndo body ++ tk z) n
    (* the arguments of a lambda stand before its block *)
| c_lambda_block m b args body z e s n s' : block m b (ArgsT args) body z e s = Ok (Some n) s' ->
    Call (m :: olist args ++ olist body) (nd m ++ ndo args ++ tk b ++ ndo body ++ tk z)
         (nd m ++ ndo args ++ tk b ++ ndo body ++ tk z) n
    (* a block with numbered parameters has a body, which mentions them *)
| c_numblock m b k body z e s n s' : block m b (Numargs k) (Some body) z e s = Ok (Some n) s' ->
    Call [m; body] (nd m ++ tk b ++ nd body ++ tk z) (nd m ++ tk b ++ nd body ++ tk z) n
| c_block_pass t v : Call (olist v) (tk t ++ ndo v) (tk t ++ ndo v) (block_pass t v)
| c_attr_asgn m dot t e s n s' : attr_asgn m dot t e s = Ok n s' ->
    Call [m] (nd m ++ tk dot ++ tk t) (nd m ++ tk dot ++ tk t) n
| c_index m b l z : Call (m :: l) (nd m ++ tk b ++ nds l ++ tk z) (nd m ++ tk b ++ nds l ++ tk z) (index m b l z)
| c_index_asgn m b l z :
    Call (m :: l) (nd m ++ tk b ++ nds l ++ tk z) (nd m ++ tk b ++ nds l ++ tk z) (index_asgn m b l z)
| c_binary_op l t r e s n s' : binary_op l t r e s = Ok (Some n) s' ->
    Call [l; r] (nd l ++ tk t ++ nd r) (nd l ++ tk t ++ nd r) n
| c_match_op l t r e s n s' : match_op l t r e s = Ok (Some n) s' ->
    Call [l; r] (nd l ++ tk t ++ nd r) (nd l ++ tk t ++ nd r) n
| c_unary_op t m e s n s' : unary_op t m e s = Ok (Some n) s' -> Call [m] (tk t ++ nd m) (tk t ++ nd m) n
| c_not_op t b m z e s n s' : (b = None <-> z = None) -> not_op t b m z e s = Ok (Some n) s' ->
    Call (olist m) (tk t ++ tko b ++ ndo m ++ tko z) (tk t ++ tko b ++ ndo m ++ tko z) n
(* control flow *)
| c_logical_op k l t r e s n s' : logical_op k l t r e s = Ok (Some n) s' ->
    Call [l; r] (nd l ++ tk t ++ nd r) (nd l ++ tk t ++ nd r) n
| c_if kw c th t el f z : (el = None -> f = None) ->
    Call (c :: olist t ++ olist f) (tk kw ++ nd c ++ tk th ++ ndo t ++ tko el ++ ndo f ++ tko z)
         (tk kw ++ nd c ++ tk th ++ ndo t ++ tko el ++ ndo f ++ tko z) (condition kw c th t el f z)
    (* the keyword of an elsif is that of the nested conditional *)
| c_elsif kw c th t el c' t' f' b' else' e' x z :
    Call (c :: olist t ++ [NIf c' t' f' (token_loc el) b' else' e' x])
         (tk kw ++ nd c ++ tk th ++ ndo t ++ [x] ++ tko z) (tk kw ++ nd c ++ tk th ++ ndo t ++ [x] ++ tko z)
         (condition kw c th t (Some el) (Some (NIf c' t' f' (token_loc el) b' else' e' x)) z)
| c_unless kw c th t el f z : (el = None -> t = None) ->
    Call (c :: olist t ++ olist f) (tk kw ++ nd c ++ tk th ++ ndo f ++ tko el ++ ndo t ++ tk z)
         (tk kw ++ nd c ++ tk th ++ ndo f ++ tko el ++ ndo t ++ tk z) (condition kw c th t el f (Some z))
| c_condition_mod t f kw c e s n s' : condition_mod t f kw c e s = Ok n s' ->
    Call (olist t ++ olist f ++ [c]) (ndo t ++ ndo f ++ tk kw ++ nd c) (ndo t ++ ndo f ++ tk kw ++ nd c) n
| c_ternary c q t k f :
    Call [c; t; f] (nd c ++ tk q ++ nd t ++ tk k ++ nd f) (nd c ++ tk q ++ nd t ++ tk k ++ nd f) (ternary c q t k f)
| c_when kw l th body : Call (l ++ [body]) (tk kw ++ nds l ++ tk th ++ nd body) (tk kw ++ nds l ++ tk th ++ nd body)
    (when_ kw l th (Some body))
    (* without a body the range stops before [then] or the newline *)
| c_when_empty kw l th : Call l (tk kw ++ nds l ++ tk th) (tk kw ++ nds l) (when_ kw l th None)
| c_case kw x l el body z :
    Call (olist x ++ l ++ olist body) (tk kw ++ ndo x ++ nds l ++ tko el ++ ndo body ++ tk z)
         (tk kw ++ ndo x ++ nds l ++ tko el ++ ndo body ++ tk z) (case kw x l el body z)
| c_loop k kw c d body z :
    Call (c :: olist body) (tk kw ++ nd c ++ tk d ++ ndo body ++ tk z) (tk kw ++ nd c ++ tk d ++ ndo body ++ tk z)
         (loop_ k kw c d body z)
| c_loop_mod k body kw c :
    Call [body; c] (nd body ++ tk kw ++ nd c) (nd body ++ tk kw ++ nd c) (loop_mod k body kw c)
| c_for kw it i x d body z :
    Call (it :: x :: olist body) (tk kw ++ nd it ++ tk i ++ nd x ++ tk d ++ ndo body ++ tk z)
         (tk kw ++ nd it ++ tk i ++ nd x ++ tk d ++ ndo body ++ tk z) (for_ kw it i x d body z)
    (* [defined?] has one operand, [redo], [retry] and a bare [super] have none *)
| c_keyword_cmd k kw b l z e s n s' : (b = None <-> z = None) -> (k = KDefined -> List.length l = 1) ->
    keyword_cmd k kw b l z e s = Ok (Some n) s' ->
    Call l (tk kw ++ tko b ++ nds l ++ tko z) (tk kw ++ tko b ++ nds l ++ tko z) n
| c_preexe kw b body z :
    Call (olist body) (tk kw ++ tk b ++ ndo body ++ tk z) (tk kw ++ tk b ++ ndo body ++ tk z) (preexe kw b body z)
| c_postexe kw b body z :
    Call (olist body) (tk kw ++ tk b ++ ndo body ++ tk z) (tk kw ++ tk b ++ ndo body ++ tk z) (postexe kw b body z)
(* exceptions *)
| c_rescue_body kw x a v th body : (a = None <-> v = None) ->
    Call (olist x ++ olist v ++ olist body) (tk kw ++ ndo x ++ tko a ++ ndo v ++ tko th ++ ndo body)
         (tk kw ++ ndo x ++ tko a ++ ndo v ++ tko th ++ ndo body) (rescue_body kw x a v th body)
| c_begin_body_rescue c r l el ens e s n s' :
    begin_body c (r :: l) el ens e s = Ok (Some n) s' ->
    Call (olist c ++ r :: l ++ clause_nodes el ++ clause_nodes ens)
         (ndo c ++ nds (r :: l) ++ clause el ++ clause ens) (ndo c ++ nds (r :: l) ++ clause el ++ clause ens) n
    (* an [else] without [rescue] takes the statements out of a group, with whatever surrounds them *)
| c_begin_body_else c el ens e s n s' :
    begin_body c [] el ens e s = Ok (Some n) s' ->
    Call (olist c ++ clause_nodes el ++ clause_nodes ens)
         (ndo c ++ clause el ++ clause ens)
         (match el, c with
          | Some _, Some (NBegin l _ _ _) => nds l
          | _, _ => ndo c
          end ++ clause el ++ clause ens) n
(* groups *)
| c_compstmt l e s n s' : compstmt l e s = Ok (Some n) s' -> Call l (nds l) (nds l) n
| c_begin b body z : Call (olist body) (tk b ++ ndo body ++ tk z) (tk b ++ ndo body ++ tk z) (begin b body z)
| c_begin_keyword b body z :
    Call (olist body) (tk b ++ ndo body ++ tk z) (tk b ++ ndo body ++ tk z) (begin_keyword b body z)
(* pattern matching *)
| c_case_match kw x l el body z : (el = None -> body = None) ->
    Call (x :: l ++ olist body) (tk kw ++ nd x ++ nds l ++ tko el ++ ndo body ++ tk z)
         (tk kw ++ nd x ++ nds l ++ tko el ++ ndo body ++ tk z) (case_match kw x l el body z)
| c_match_pattern l t r : Call [l; r] (nd l ++ tk t ++ nd r) (nd l ++ tk t ++ nd r) (match_pattern l t r)
| c_match_pattern_p l t r : Call [l; r] (nd l ++ tk t ++ nd r) (nd l ++ tk t ++ nd r) (match_pattern_p l t r)
| c_in_pattern kw p g th body :
    Call (p :: olist g ++ [body]) (tk kw ++ nd p ++ ndo g ++ tk th ++ nd body)
         (tk kw ++ nd p ++ ndo g ++ tk th ++ nd body) (in_pattern kw p g th (Some body))
| c_in_pattern_empty kw p g th :
    Call (p :: olist g) (tk kw ++ nd p ++ ndo g ++ tk th) (tk kw ++ nd p ++ ndo g) (in_pattern kw p g th None)
| c_if_guard kw c : Call [c] (tk kw ++ nd c) (tk kw ++ nd c) (if_guard kw c)
| c_unless_guard kw c : Call [c] (tk kw ++ nd c) (tk kw ++ nd c) (unless_guard kw c)
| c_match_var t e s n s' : match_var t e s = Ok (Some n) s' -> Call [] (tk t) (tk t) n
| c_match_hash_var t e s n s' : loc_begin (token_loc t) < loc_end (token_loc t) ->
    match_hash_var t e s = Ok (Some n) s' -> Call [] (tk t) (tk t) n
    (* the text between the quotes of a label *)
| c_match_hash_var_from_str b t z e s n s' :
    match_hash_var_from_str b [string_internal t] z e s = Ok (Some n) s' ->
    Call [] (tk b ++ tk t ++ tk z) (tk b ++ tk t ++ tk z) n
| c_match_rest t v e s n s' : match_rest t v e s = Ok (Some n) s' -> Call [] (tk t ++ tko v) (tk t ++ tko v) n
| c_hash_pattern b l z e s n s' : hash_pattern b l z e s = Ok n s' ->
    Call l (tko b ++ nds l ++ tko z) (tko b ++ nds l ++ tko z) n
| c_array_pattern b l comma z e s n s' : array_pattern b l comma z e s = Ok n s' ->
    Call l (tko b ++ nds l ++ tko comma ++ tko z) (tko b ++ nds l ++ tko comma ++ tko z) n
| c_find_pattern b l z e s n s' : find_pattern b l z e s = Ok n s' ->
    Call l (tko b ++ nds l ++ tko z) (tko b ++ nds l ++ tko z) n
| c_const_pattern c b p z :
    Call [c; p] (nd c ++ tk b ++ nd p ++ tk z) (nd c ++ tk b ++ nd p ++ tk z) (const_pattern c b p z)
    (* the pattern for empty parentheses has the parentheses itself *)
| c_const_pattern_empty c b p z :
    expression p = mkLoc (loc_begin (token_loc b)) (loc_end (token_loc z)) ->
    Call [c; p] (nd c ++ tk b ++ tk z) (nd c ++ tk b ++ tk z) (const_pattern c b p z)
| c_pin t v : Call [v] (tk t ++ nd v) (tk t ++ nd v) (pin t v)
| c_match_alt l t r : Call [l; r] (nd l ++ tk t ++ nd r) (nd l ++ tk t ++ nd r) (match_alt l t r)
| c_match_as l t r : Call [l; r] (nd l ++ tk t ++ nd r) (nd l ++ tk t ++ nd r) (match_as l t r)
| c_match_nil_pattern t v : Call [] (tk t ++ tk v) (tk t ++ tk v) (match_nil_pattern t v)
| c_match_pair_plain t v e s n s' : loc_begin (token_loc t) < loc_end (token_loc t) ->
    match_pair (PlainLabel t) v e s = Ok (Some n) s' -> Call [v] (tk t ++ nd v) (tk t ++ nd v) n
| c_match_pair_quoted b l z v e s n s' : loc_begin (token_loc z) + 2 = loc_end (token_loc z) ->
    match_pair (QuotedLabel b l z) v e s = Ok (Some n) s' ->
    Call (l ++ [v]) (tk b ++ nds l ++ tk z ++ nd v) (tk b ++ nds l ++ tk z ++ nd v) n.

(** Trees made by calls of the builder whose arguments were made so and stand in the source in their order *)
Inductive Built : Node -> Prop :=
| built : forall ns ps h n, Call ns ps h n -> in_sequence ps -> (forall m, In m ns -> Built m) -> Built n.
