(** * The lexer state and the small helpers of src/lexer/{main,tokadd,yylval}.rs, src/str_term.rs,
      src/token.rs, src/source/magic_comment.rs *)
Require Import Verif.Base Verif.MaybeByteM Verif.Utf8M Verif.InputM Verif.DiagnosticM Verif.LexStateM
  Verif.StackStateM Verif.ScopesM Verif.TokensM Verif.BufferM.

(** ** src/str_term.rs *)

(** str_term.rs 2-29 *)
Definition STR_FUNC_ESCAPE : N := 1.
Definition STR_FUNC_EXPAND : N := 2.
Definition STR_FUNC_REGEXP : N := 4.
Definition STR_FUNC_QWORDS : N := 8.
Definition STR_FUNC_SYMBOL : N := 16.
Definition STR_FUNC_INDENT : N := 32.
Definition STR_FUNC_LABEL : N := 64.
Definition STR_FUNC_LIST : N := 16384.
Definition STR_FUNC_TERM : N := 32768.
Definition str_label : N := STR_FUNC_LABEL.
Definition str_squote : N := 0.
Definition str_dquote : N := STR_FUNC_EXPAND.
Definition str_xquote : N := STR_FUNC_EXPAND.
Definition str_regexp : N := N.lor (N.lor STR_FUNC_REGEXP STR_FUNC_ESCAPE) STR_FUNC_EXPAND.
Definition str_sword : N := N.lor STR_FUNC_QWORDS STR_FUNC_LIST.
Definition str_dword : N := N.lor (N.lor STR_FUNC_QWORDS STR_FUNC_EXPAND) STR_FUNC_LIST.
Definition str_ssym : N := STR_FUNC_SYMBOL.
Definition str_dsym : N := N.lor STR_FUNC_SYMBOL STR_FUNC_EXPAND.

(** [(func & flag) != 0] *)
Definition has (func flag : N) : bool := negb (N.eqb (N.land func flag) 0).

(** str_term.rs 33-37 *)
Record HeredocEnd : Type := mkHeredocEnd { he_start : nat; he_end : nat; he_value : list N }.

(** str_term.rs 40-65 *)
Record StringLiteral : Type := mkStringLiteral {
  sl_nest : nat;
  sl_func : N;
  sl_paren : option N;
  sl_term : N;
  sl_heredoc_end : option HeredocEnd
}.

(** str_term.rs 68-96 *)
Record HeredocLiteral : Type := mkHeredocLiteral {
  hl_lastline : nat;
  hl_offset : nat;
  hl_sourceline : nat;
  hl_length : nat;
  hl_quote : nat;
  hl_func : N
}.

(** str_term.rs 99-103 *)
Inductive StrTerm : Type :=
| StringLit (s : StringLiteral)
| HeredocLit (h : HeredocLiteral).

(** ** src/token.rs 7-18 *)
Record Token : Type := mkToken { token_type : Tok; token_value : list N; token_loc : Loc }.

(** ** src/source/magic_comment.rs 6-42 *)
Inductive MagicCommentKind : Type := MC_Encoding | MC_FrozenStringLiteral | MC_WarnIndent | MC_ShareableConstantValue.
Record MagicComment : Type := mkMagic { mc_kind : MagicCommentKind; mc_key_l : Loc; mc_value_l : Loc }.

(** lexer/main.rs 23-85.  [tokens_factory] (a memory pool) is left out; [diagnostics] is the list of emitted
    diagnostics, oldest first. *)
Record Lexer : Type := mkLexer {
  buffer : Buffer;
  lval : option (list N);
  lval_start : option nat;
  lval_end : option nat;
  strterm : option StrTerm;
  lex_state : LexState;
  paren_nest : Z;
  lpar_beg : Z;
  brace_nest : Z;
  cond : StackState;
  cmdarg : StackState;
  tokenbuf : list N;
  context : Context;
  command_start : bool;
  token_seen : bool;
  static_env : StaticEnv;
  diagnostics : list Diagnostic;
  comments : list Comment;
  magic_comments : list MagicComment
}.

(** Field updates ([self.f = v]) *)
Definition set_buffer (v : Buffer) (s : Lexer) : Lexer :=
  mkLexer v (lval s) (lval_start s) (lval_end s) (strterm s) (lex_state s) (paren_nest s) (lpar_beg s) (brace_nest s) (cond s) (cmdarg s) (tokenbuf s) (context s) (command_start s) (token_seen s) (static_env s) (diagnostics s) (comments s) (magic_comments s).
Definition set_lval (v : option (list N)) (s : Lexer) : Lexer :=
  mkLexer (buffer s) v (lval_start s) (lval_end s) (strterm s) (lex_state s) (paren_nest s) (lpar_beg s) (brace_nest s) (cond s) (cmdarg s) (tokenbuf s) (context s) (command_start s) (token_seen s) (static_env s) (diagnostics s) (comments s) (magic_comments s).
Definition set_lval_start (v : option nat) (s : Lexer) : Lexer :=
  mkLexer (buffer s) (lval s) v (lval_end s) (strterm s) (lex_state s) (paren_nest s) (lpar_beg s) (brace_nest s) (cond s) (cmdarg s) (tokenbuf s) (context s) (command_start s) (token_seen s) (static_env s) (diagnostics s) (comments s) (magic_comments s).
Definition set_lval_end (v : option nat) (s : Lexer) : Lexer :=
  mkLexer (buffer s) (lval s) (lval_start s) v (strterm s) (lex_state s) (paren_nest s) (lpar_beg s) (brace_nest s) (cond s) (cmdarg s) (tokenbuf s) (context s) (command_start s) (token_seen s) (static_env s) (diagnostics s) (comments s) (magic_comments s).
Definition set_strterm (v : option StrTerm) (s : Lexer) : Lexer :=
  mkLexer (buffer s) (lval s) (lval_start s) (lval_end s) v (lex_state s) (paren_nest s) (lpar_beg s) (brace_nest s) (cond s) (cmdarg s) (tokenbuf s) (context s) (command_start s) (token_seen s) (static_env s) (diagnostics s) (comments s) (magic_comments s).
Definition set_lex_state (v : LexState) (s : Lexer) : Lexer :=
  mkLexer (buffer s) (lval s) (lval_start s) (lval_end s) (strterm s) v (paren_nest s) (lpar_beg s) (brace_nest s) (cond s) (cmdarg s) (tokenbuf s) (context s) (command_start s) (token_seen s) (static_env s) (diagnostics s) (comments s) (magic_comments s).
Definition set_paren_nest (v : Z) (s : Lexer) : Lexer :=
  mkLexer (buffer s) (lval s) (lval_start s) (lval_end s) (strterm s) (lex_state s) v (lpar_beg s) (brace_nest s) (cond s) (cmdarg s) (tokenbuf s) (context s) (command_start s) (token_seen s) (static_env s) (diagnostics s) (comments s) (magic_comments s).
Definition set_lpar_beg (v : Z) (s : Lexer) : Lexer :=
  mkLexer (buffer s) (lval s) (lval_start s) (lval_end s) (strterm s) (lex_state s) (paren_nest s) v (brace_nest s) (cond s) (cmdarg s) (tokenbuf s) (context s) (command_start s) (token_seen s) (static_env s) (diagnostics s) (comments s) (magic_comments s).
Definition set_brace_nest (v : Z) (s : Lexer) : Lexer :=
  mkLexer (buffer s) (lval s) (lval_start s) (lval_end s) (strterm s) (lex_state s) (paren_nest s) (lpar_beg s) v (cond s) (cmdarg s) (tokenbuf s) (context s) (command_start s) (token_seen s) (static_env s) (diagnostics s) (comments s) (magic_comments s).
Definition set_cond (v : StackState) (s : Lexer) : Lexer :=
  mkLexer (buffer s) (lval s) (lval_start s) (lval_end s) (strterm s) (lex_state s) (paren_nest s) (lpar_beg s) (brace_nest s) v (cmdarg s) (tokenbuf s) (context s) (command_start s) (token_seen s) (static_env s) (diagnostics s) (comments s) (magic_comments s).
Definition set_cmdarg (v : StackState) (s : Lexer) : Lexer :=
  mkLexer (buffer s) (lval s) (lval_start s) (lval_end s) (strterm s) (lex_state s) (paren_nest s) (lpar_beg s) (brace_nest s) (cond s) v (tokenbuf s) (context s) (command_start s) (token_seen s) (static_env s) (diagnostics s) (comments s) (magic_comments s).
Definition set_tokenbuf (v : list N) (s : Lexer) : Lexer :=
  mkLexer (buffer s) (lval s) (lval_start s) (lval_end s) (strterm s) (lex_state s) (paren_nest s) (lpar_beg s) (brace_nest s) (cond s) (cmdarg s) v (context s) (command_start s) (token_seen s) (static_env s) (diagnostics s) (comments s) (magic_comments s).
Definition set_context (v : Context) (s : Lexer) : Lexer :=
  mkLexer (buffer s) (lval s) (lval_start s) (lval_end s) (strterm s) (lex_state s) (paren_nest s) (lpar_beg s) (brace_nest s) (cond s) (cmdarg s) (tokenbuf s) v (command_start s) (token_seen s) (static_env s) (diagnostics s) (comments s) (magic_comments s).
Definition set_command_start (v : bool) (s : Lexer) : Lexer :=
  mkLexer (buffer s) (lval s) (lval_start s) (lval_end s) (strterm s) (lex_state s) (paren_nest s) (lpar_beg s) (brace_nest s) (cond s) (cmdarg s) (tokenbuf s) (context s) v (token_seen s) (static_env s) (diagnostics s) (comments s) (magic_comments s).
Definition set_token_seen (v : bool) (s : Lexer) : Lexer :=
  mkLexer (buffer s) (lval s) (lval_start s) (lval_end s) (strterm s) (lex_state s) (paren_nest s) (lpar_beg s) (brace_nest s) (cond s) (cmdarg s) (tokenbuf s) (context s) (command_start s) v (static_env s) (diagnostics s) (comments s) (magic_comments s).
Definition set_static_env (v : StaticEnv) (s : Lexer) : Lexer :=
  mkLexer (buffer s) (lval s) (lval_start s) (lval_end s) (strterm s) (lex_state s) (paren_nest s) (lpar_beg s) (brace_nest s) (cond s) (cmdarg s) (tokenbuf s) (context s) (command_start s) (token_seen s) v (diagnostics s) (comments s) (magic_comments s).
Definition set_diagnostics (v : list Diagnostic) (s : Lexer) : Lexer :=
  mkLexer (buffer s) (lval s) (lval_start s) (lval_end s) (strterm s) (lex_state s) (paren_nest s) (lpar_beg s) (brace_nest s) (cond s) (cmdarg s) (tokenbuf s) (context s) (command_start s) (token_seen s) (static_env s) v (comments s) (magic_comments s).
Definition set_comments (v : list Comment) (s : Lexer) : Lexer :=
  mkLexer (buffer s) (lval s) (lval_start s) (lval_end s) (strterm s) (lex_state s) (paren_nest s) (lpar_beg s) (brace_nest s) (cond s) (cmdarg s) (tokenbuf s) (context s) (command_start s) (token_seen s) (static_env s) (diagnostics s) v (magic_comments s).
Definition set_magic_comments (v : list MagicComment) (s : Lexer) : Lexer :=
  mkLexer (buffer s) (lval s) (lval_start s) (lval_end s) (strterm s) (lex_state s) (paren_nest s) (lpar_beg s) (brace_nest s) (cond s) (cmdarg s) (tokenbuf s) (context s) (command_start s) (token_seen s) (static_env s) (diagnostics s) (comments s) v.

(** ** Access to the buffer *)

(** [self.buffer.f(...)] for a method that changes the buffer *)
Definition inb {A} (m : M Buffer A) : M Lexer A := zoom buffer set_buffer m.
Definition modb (f : Buffer -> Buffer) : M Lexer unit := modify (fun s => set_buffer (f (buffer s)) s).
Definition getb : M Lexer Buffer := gets buffer.

(** main.rs 168-176 *)
Definition nextc : M Lexer MaybeByte := inb b_nextc.
Definition char_at (s : Lexer) (idx : nat) : MaybeByte := byte_at (buffer s) idx.
Definition token_flush : M Lexer unit := modb b_token_flush.

Definition pushback (c : MaybeByte) : M Lexer unit := inb (b_pushback c).
Definition peek (c : N) : M Lexer bool := inb (b_peek c).
Definition peek_n (c : N) (n : nat) : M Lexer bool := inb (b_peek_n c n).
Arguments peek c%bn.
Arguments peek_n c%bn n.

(** [self.lex_state.set(v)] *)
Definition lex_state_set (v : LexState) : M Lexer unit := modify (set_lex_state v).

(** ** src/lexer/yylval.rs *)

(** yylval.rs 6-34 *)
Definition set_yylval (v : list N) : M Lexer unit := modify (set_lval (Some v)).
Definition set_yylval_id (id : string) : M Lexer unit := set_yylval (bs id).
Arguments set_yylval_id id%string.
Definition set_yylval_name : M Lexer unit := modify (fun s => set_lval (Some (tokenbuf s)) s).

(** ** src/lexer/tokadd.rs *)

(** tokadd.rs 17-21 *)
Definition tokadd (c : N) : M Lexer unit := modify (fun s => set_tokenbuf (tokenbuf s ++ [c]) s).
Arguments tokadd c%bn.
(** tokadd.rs 8-15 *)
Definition tokadd_mb (c : MaybeByte) : M Lexer unit :=
  match c with Some c => tokadd c | None => panic "can't emit EOF" end.
(** [TokenBuf::append], token_buf.rs 23-27 *)
Definition tok_append (l : list N) : M Lexer unit := modify (fun s => set_tokenbuf (tokenbuf s ++ l) s).

(** [self.tokenbuf.take()], token_buf.rs 15-17 *)
Definition tokenbuf_take : M Lexer (list N) :=
  t <- gets tokenbuf ;; modify (set_tokenbuf []) ;;; ret t.

(** ** Helpers of src/lexer/main.rs *)

(** main.rs 1090-1094 *)
Definition normal_newline_leaf_label : M Lexer Tok :=
  modify (set_command_start true) ;;;
  lex_state_set EXPR_BEG ;;;
  ret tNL.

(** [self.diagnostics.emit(..)], diagnostic.rs 91-93 *)
Definition emit (level : ErrorLevel) (m : Msg) (l : Loc) : M Lexer unit :=
  modify (fun s => set_diagnostics (diagnostics s ++ [mkDiag level m l]) s).

(** main.rs 1096-1104, 1129-1137, 1190-1198 *)
Definition warn : Msg -> Loc -> M Lexer unit := emit Warning.
Definition compile_error : Msg -> Loc -> M Lexer unit := emit Error.
Definition yyerror1 : Msg -> Loc -> M Lexer unit := emit Error.

(** main.rs 1162-1164 *)
Definition current_loc (s : Lexer) : Loc := mkLoc (ptok (buffer s)) (pcur (buffer s)).

(** [warn]/[compile_error] at [self.current_loc()] *)
Definition warn0 (m : Msg) : M Lexer unit := l <- gets current_loc ;; warn m l.
Definition compile_error0 (m : Msg) : M Lexer unit := l <- gets current_loc ;; compile_error m l.
(** main.rs 1186-1188 *)
Definition yyerror0 (m : Msg) : M Lexer unit := l <- gets current_loc ;; yyerror1 m l.

(** main.rs 1106-1127 *)
Definition warn_balanced (token_type : Tok) (op syn : string) (c : MaybeByte) (space_seen : bool)
    (last_state : LexState) : M Lexer Tok :=
  when (negb (ls_is_some last_state
                (N.lor (N.lor (N.lor EXPR_CLASS EXPR_DOT) EXPR_FNAME) EXPR_ENDFN))
        && (space_seen && negb (is_space c)))
    (warn0 (AmbiguousOperator (bs op) (bs syn))) ;;;
  ret token_type.
Arguments warn_balanced token_type op%string syn%string c space_seen last_state.

(** main.rs 1139-1153 and the assignment [self.strterm = self.new_strterm(..)] *)
Definition new_strterm (func term : N) (paren : option N) (heredoc_end : option HeredocEnd) : option StrTerm :=
  Some (StringLit (mkStringLiteral 0 func paren term heredoc_end)).
Definition start_strterm (func term : N) (paren : option N) : M Lexer unit :=
  modify (set_strterm (new_strterm func term paren None)).
Arguments start_strterm func term%bn paren.

(** main.rs 1166-1176; always returns [true] *)
Definition arg_ambiguous (c : N) (l : Loc) : M Lexer bool :=
  (if N.eqb c 47 then warn AmbiguousRegexp l else warn (AmbiguousFirstArgument c) l) ;;;
  ret true.
Arguments arg_ambiguous c%bn l.

(** main.rs 1178-1180 *)
Definition toklen (s : Lexer) : nat := List.length (tokenbuf s).

(** main.rs 1200-1202 *)
Definition is_lambda_beginning (s : Lexer) : bool := Z.eqb (lpar_beg s) (paren_nest s).

(** main.rs 1220-1224 (without [tokidx], [tokline]) *)
Definition newtok : M Lexer unit := modify (set_tokenbuf []).

(** main.rs 1226-1228 *)
Definition literal_flush (p : nat) : M Lexer unit := modb (set_ptok p).

(** main.rs 1247-1266 *)
Definition multibyte_char_len_pure (b : Buffer) (ptr : nat) : option nat :=
  match byte_at b ptr with
  | None => None
  | Some c1 =>
      let len :=
        if N.eqb (N.land c1 128) 0 then Some 1
        else if N.eqb (N.land c1 224) 192 then Some 2
        else if N.eqb (N.land c1 240) 224 then Some 3
        else if N.eqb (N.land c1 248) 240 then Some 4
        else None in
      match len with
      | None => None
      | Some len =>
          match b_substr_at b ptr (ptr + len) with
          | None => None
          | Some l => if utf8_valid l then Some len else None
          end
      end
  end.

(** main.rs 1268-1274 *)
Definition multibyte_char_len (ptr : nat) : M Lexer (option nat) :=
  b <- getb ;;
  match multibyte_char_len_pure b ptr with
  | Some n => ret (Some n)
  | None => yyerror0 InvalidMultibyteChar ;;; ret None
  end.

(** parse_string.rs 428-434 *)
Definition tokcopy (n : nat) : M Lexer unit :=
  b <- getb ;;
  start <- sub_ck (pcur b) n ;;
  l <- expect (b_substr_at b start (pcur b)) "no substr" ;;
  tok_append l.

(** main.rs 1230-1245; [true] is [Ok(())], [false] is [Err(())] *)
Definition tokadd_mbchar (c : MaybeByte) : M Lexer bool :=
  b <- getb ;;
  p <- sub_ck (pcur b) 1 ;;
  r <- multibyte_char_len p ;;
  match r with
  | None => ret false
  | Some len =>
      match c with
      | None => ret false
      | Some c =>
          tokadd c ;;;
          len <- sub_ck len 1 ;;
          modb (fun b => set_pcur (pcur b + len) b) ;;;
          tokcopy len ;;;
          ret true
      end
  end.

(** parse_ident.rs 16-21 *)
Definition is_identchar : M Lexer bool :=
  b <- getb ;;
  if eofp b then ret false
  else p <- sub_ck (pcur b) 1 ;; ret (b_is_identchar b p).

(** main.rs 1204-1218 *)
Definition tokadd_ident (c : MaybeByte) : M Lexer bool :=
  r <- loop (fun c =>
         ok <- tokadd_mbchar c ;;
         if negb ok then ret (inr None)
         else
           c <- nextc ;;
           i <- is_identchar ;;
           if i : bool then ret (inl c) else ret (inr (Some c))) c ;;
  match r with
  | None => ret true
  | Some c => pushback c ;;; ret false
  end.

(** main.rs 1276-1278 *)
Definition is_label_suffix (n : nat) : M Lexer bool :=
  p <- peek_n ":" n ;;
  if p : bool then q <- peek_n ":" (n + 1) ;; ret (negb q) else ret false.

(** main.rs 1280-1282 *)
Definition is_lvar_defined (s : Lexer) (name : list N) : bool := is_declared name (static_env s).

(** parse_string.rs 768-770 *)
Definition is_ascii_cur : M Lexer bool :=
  b <- getb ;; p <- sub_ck (pcur b) 1 ;; ret (is_ascii (byte_at b p)).

(** parse_string.rs 772-779: the suggestion prints the byte as a decimal number *)
Definition warn_space_char (c : N) (prefix : string) : M Lexer unit :=
  warn0 (InvalidCharacterSyntax (bs prefix ++ [92%N] ++ show_N c)).
Arguments warn_space_char c prefix%string.

(** [if self.lex_state.is_after_operator() { EXPR_ARG } else { EXPR_BEG }] *)
Definition set_arg_or_beg : M Lexer unit :=
  modify (fun s => set_lex_state (if ls_is_after_operator (lex_state s) then EXPR_ARG else EXPR_BEG) s).
