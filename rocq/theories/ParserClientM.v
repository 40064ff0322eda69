(** * The parser as a client of the lexer, src/parser/parse.y

    The LALR automaton (generated by bison) is not modelled.  A parser is an arbitrary sequence of the actions
    by which grammar rules touch the lexer.  Every action is at least as general as its uses in parse.y: values
    that parse.y computes or restores are arbitrary here. *)
Require Import Verif.Base Verif.InputM Verif.DiagnosticM Verif.LexStateM Verif.StackStateM Verif.ScopesM Verif.TokensM
  Verif.BufferM Verif.LexerM Verif.LexMainM.

Inductive Action : Type :=
| PNext                                  (* next_token, parse.y 7015-7026 *)
| PLexState (v : LexState)               (* self.yylexer.lex_state.set(..) *)
| PCommandStart (v : bool)               (* self.yylexer.command_start = .. *)
| PCondPush (v : bool) | PCondPop        (* self.yylexer.cond.push/pop *)
| PCmdargPush (v : bool) | PCmdargPop    (* self.yylexer.cmdarg.push/pop *)
| PLparBeg (v : Z)                       (* self.yylexer.lpar_beg = .. *)
| PBraceNest (v : Z)                     (* self.yylexer.brace_nest = .., parse.y 5772-5785 *)
| PHeredocIndent (v : Z)                 (* self.yylexer.buffer.heredoc_indent = .., parse.y 5554, 5568, 5777, 5786 *)
| PHeredocLineIndent (v : Z)             (* self.yylexer.buffer.heredoc_line_indent = -1, parse.y 5787 *)
| PTakeStrterm                           (* std::mem::take(&mut self.yylexer.strterm), parse.y 5750, 5765 *)
| PRestoreStrterm (i : nat)              (* self.yylexer.strterm = $<MaybeStrTerm>n, parse.y 5755, 5783: any earlier taken one *)
| PStaticEnv (v : StaticEnv)             (* declarations and scopes: static_env is shared with the lexer *)
| PContext (v : Context)                 (* context flags: shared with the lexer *)
| PEmit (d : Diagnostic).                (* diagnostics.emit: shared with the lexer *)

(** The lexer, the string terminators taken so far, and the fields [record_tokens], [tokens] and [last_token_type] of
    Parser.  [c_done] is set once end of input has been delivered; after that the parser asks for no more tokens. *)
Record Client : Type := mkClient {
  c_lexer : Lexer; c_saved : list (option StrTerm);
  c_record : bool; c_tokens : list Token; c_last : option Tok; c_done : bool }.

Definition set_c_lexer (l : Lexer) (c : Client) : Client :=
  mkClient l (c_saved c) (c_record c) (c_tokens c) (c_last c) (c_done c).

Definition on_lexer (f : Lexer -> Lexer) : M Client (option Token) :=
  modify (fun c => set_c_lexer (f (c_lexer c)) c) ;;; ret None.

(** next_token, parse.y 7015-7026: the token delivered to the parser *)
Definition next_token : M Client Token :=
  token <- zoom c_lexer set_c_lexer yylex ;;
  modify (fun c => mkClient (c_lexer c) (c_saved c) (c_record c)
                     (if c_record c then c_tokens c ++ [token] else c_tokens c)
                     (Some (token_type token))
                     (c_done c || tok_eqb (token_type token) END_OF_INPUT)) ;;;
  ret token.

Definition act (a : Action) : M Client (option Token) :=
  match a with
  | PNext =>
      c <- get ;;
      if c_done c then ret None else t <- next_token ;; ret (Some t)
  | PLexState v => on_lexer (set_lex_state v)
  | PCommandStart v => on_lexer (set_command_start v)
  | PCondPush v => on_lexer (fun s => set_cond (ss_push v (cond s)) s)
  | PCondPop => on_lexer (fun s => set_cond (ss_pop (cond s)) s)
  | PCmdargPush v => on_lexer (fun s => set_cmdarg (ss_push v (cmdarg s)) s)
  | PCmdargPop => on_lexer (fun s => set_cmdarg (ss_pop (cmdarg s)) s)
  | PLparBeg v => on_lexer (set_lpar_beg v)
  | PBraceNest v => on_lexer (set_brace_nest v)
  | PHeredocIndent v => on_lexer (fun s => set_buffer (set_heredoc_indent v (buffer s)) s)
  | PHeredocLineIndent v => on_lexer (fun s => set_buffer (set_heredoc_line_indent v (buffer s)) s)
  | PTakeStrterm =>
      modify (fun c => mkClient (set_strterm None (c_lexer c)) (c_saved c ++ [strterm (c_lexer c)])
                         (c_record c) (c_tokens c) (c_last c) (c_done c)) ;;; ret None
  | PRestoreStrterm i =>
      modify (fun c => match nth_error (c_saved c) i with
                       | Some v => set_c_lexer (set_strterm v (c_lexer c)) c
                       | None => c
                       end) ;;; ret None
  | PStaticEnv v => on_lexer (set_static_env v)
  | PContext v => on_lexer (set_context v)
  | PEmit d => on_lexer (fun s => set_diagnostics (diagnostics s ++ [d]) s)
  end.

(** A sequence of actions; returns the tokens delivered, in order *)
Fixpoint acts (l : list Action) : M Client (list Token) :=
  match l with
  | [] => ret []
  | a :: l =>
      o <- act a ;;
      ts <- acts l ;;
      ret (match o with Some t => t :: ts | None => ts end)
  end.

(** Parser::new, parse.y 6914-6963, then the actions *)
Definition run_client (bytes name : list N) (record : bool) (l : list Action) (e : Env) : res Client (list Token) :=
  match lexer_new bytes name e with
  | Ok _ s => acts l e (mkClient s [] record [] None false)
  | Panic w => Panic w
  | OutOfFuel => OutOfFuel
  end.
