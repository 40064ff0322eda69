(** * Brackets: their kinds, and the nesting they keep track of *)
Require Import Verif.Base Verif.InputM Verif.DiagnosticM Verif.TokensM Verif.BufferM Verif.LexStateM Verif.LexerM Verif.LexSpec Verif.IdentSpec Verif.YylexSpec Verif.OpSpec Verif.OpMore.

(** The body or the parameters of a lambda are about to begin *)
Definition lambda_next (s : Lexer) : Prop := lpar_beg s = paren_nest s.

(** What a bracket does to the nesting: change of the depth of brackets, change of the depth of braces, change of the
    stacks that say whether [do] belongs to a loop and to a command *)
Inductive Stacks : Type := Pushed | Popped | Kept.
Record Nesting : Type := mkNesting { ns_paren : Z; ns_brace : Z; ns_stacks : Stacks }.
Definition opened : Nesting := mkNesting 1 0 Pushed.
Definition opened_brace : Nesting := mkNesting 1 1 Pushed.
Definition closed : Nesting := mkNesting (-1) 0 Popped.
Definition closed_brace : Nesting := mkNesting (-1) (-1) Popped.

(** A pushed level is inactive; a stack has 64 levels *)
Definition stack_after (m : Stacks) (x : N) : N :=
  match m with Pushed => ((2 * x) mod 2 ^ 64)%N | Popped => (x / 2)%N | Kept => x end.

(** [s] the lexer, [sp] whether white space precedes, [q] the place: text, kind, state behind, whether a statement can
    begin behind, nesting, warnings *)
Inductive bracket (B : list N) (s : Lexer) (sp : bool) (q : nat) : string -> Tok -> N -> bool -> Nesting -> list Diagnostic -> Prop :=
(** An opening parenthesis: of an expression, of arguments, or of the first argument of a command *)
| bk_lparen_value : value_place (lex_state s) -> bracket B s sp q "(" tLPAREN label_beg false opened []
| bk_lparen_call : ~ value_place (lex_state s) -> sp = false -> bracket B s sp q "(" tLPAREN2 label_beg false opened []
| bk_lparen_arg : ~ value_place (lex_state s) -> sp = true ->
    argument_place (lex_state s) \/ (in_state (lex_state s) b_end /\ in_state (lex_state s) b_label) ->
    bracket B s sp q "(" tLPAREN_ARG label_beg false opened []
| bk_lparen_def : forall ds, ~ value_place (lex_state s) -> sp = true -> ~ argument_place (lex_state s) ->
    ~ (in_state (lex_state s) b_end /\ in_state (lex_state s) b_label) ->
    (in_state (lex_state s) b_endfn /\ ~ lambda_next s /\ ds = [mkDiag Warning ParenthesesIterpretedAsArglist (mkLoc q (q + 1))] \/
     ~ (in_state (lex_state s) b_endfn /\ ~ lambda_next s) /\ ds = []) ->
    bracket B s sp q "(" tLPAREN2 label_beg false opened ds
(** A square bracket: a method name, an array or an index *)
| bk_aset : name_place (lex_state s) -> bracket B s sp q "[]=" tASET EXPR_ARG false (mkNesting 0 0 Kept) []
| bk_aref : name_place (lex_state s) -> nth_error B (q + 2) <> Some 61%N -> bracket B s sp q "[]" tAREF EXPR_ARG false (mkNesting 0 0 Kept) []
| bk_lbrack_name : name_place (lex_state s) -> nth_error B (q + 1) <> Some 93%N ->
    bracket B s sp q "[" tLBRACK2 (EXPR_ARG + EXPR_LABEL) false (mkNesting 1 0 Kept) []
| bk_lbrack_value : ~ name_place (lex_state s) ->
    value_place (lex_state s) \/ (argument_place (lex_state s) /\ (sp = true \/ in_state (lex_state s) b_labeled)) ->
    bracket B s sp q "[" tLBRACK label_beg false opened []
| bk_lbrack_index : ~ name_place (lex_state s) -> ~ value_place (lex_state s) ->
    ~ (argument_place (lex_state s) /\ (sp = true \/ in_state (lex_state s) b_labeled)) ->
    bracket B s sp q "[" tLBRACK2 label_beg false opened []
(** A brace: the body of a lambda, a hash, a block, a block behind a command with arguments *)
| bk_lambda : lambda_next s -> bracket B s sp q "{" tLAMBEG EXPR_BEG true opened_brace []
| bk_hash_label : ~ lambda_next s -> in_state (lex_state s) b_labeled -> bracket B s sp q "{" tLBRACE label_beg false opened_brace []
| bk_block : ~ lambda_next s -> ~ in_state (lex_state s) b_labeled ->
    argument_place (lex_state s) \/ in_state (lex_state s) b_end \/ in_state (lex_state s) b_endfn ->
    bracket B s sp q "{" tLCURLY EXPR_BEG true opened_brace []
| bk_command_block : ~ lambda_next s -> ~ in_state (lex_state s) b_labeled ->
    ~ (argument_place (lex_state s) \/ in_state (lex_state s) b_end \/ in_state (lex_state s) b_endfn) -> in_state (lex_state s) b_endarg ->
    bracket B s sp q "{" tLBRACE_ARG EXPR_BEG true opened_brace []
| bk_hash : ~ lambda_next s -> ~ in_state (lex_state s) b_labeled ->
    ~ (argument_place (lex_state s) \/ end_place (lex_state s)) ->
    bracket B s sp q "{" tLBRACE label_beg false opened_brace []
(** Closing *)
| bk_rparen : bracket B s sp q ")" tRPAREN EXPR_ENDFN false closed []
| bk_rbrack : bracket B s sp q "]" tRBRACK EXPR_END false closed []
| bk_rcurly : brace_nest s <> 0%Z -> bracket B s sp q "}" tRCURLY EXPR_END false closed_brace []
(** The end of an interpolation *)
| bk_dend : brace_nest s = 0%Z -> bracket B s sp q "}" tSTRING_DEND (lex_state s) false (mkNesting 0 (-1) Kept) [].

Record Nested (B : list N) (s s' : Lexer) (z : nat) (st : N) (cmd : bool) (ns : Nesting) (ds : list Diagnostic) : Prop := mkNested {
  nd_pos : pcur (buffer s') = z;
  nd_next : z < List.length B -> upcoming (buffer s') z;
  nd_term : strterm s' = None;
  nd_state : lex_state s' = st;
  nd_cmd : command_start s' = cmd;
  nd_diags : diagnostics s' = diagnostics s ++ ds;
  nd_comments : comments s' = comments s;
  nd_order : in_order (buffer s) -> in_order (buffer s');
  nd_paren : paren_nest s' = (paren_nest s + ns_paren ns)%Z;
  nd_brace : brace_nest s' = (brace_nest s + ns_brace ns)%Z;
  nd_lpar : lpar_beg s' = lpar_beg s;
  nd_cond : cond s' = stack_after (ns_stacks ns) (cond s);
  nd_cmdarg : cmdarg s' = stack_after (ns_stacks ns) (cmdarg s);
  nd_scope : context s' = context s /\ static_env s' = static_env s
}.
