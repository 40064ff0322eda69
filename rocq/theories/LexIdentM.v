(** * Model of src/lexer/parse_{ident,gvar,atmark,qmark,percent}.rs *)
Require Import Verif.Base Verif.MaybeByteM Verif.Utf8M Verif.InputM Verif.DiagnosticM Verif.LexStateM
  Verif.StackStateM Verif.ScopesM Verif.TokensM Verif.ReservedM Verif.BufferM Verif.LexerM Verif.LexStringM.

(** ** parse_ident.rs *)

(** [char::is_uppercase]: ASCII exactly, other code points by the oracle of the environment *)
Definition char_is_uppercase (e : Env) (cp : N) : bool :=
  if (cp <? 128)%N then b_is_upper cp else upper_oracle e cp.

(** parse_ident.rs 8-13 *)
Definition is_var_name (e : Env) (ident : list N) : bool :=
  match first_char ident with
  | Some ch => negb (char_is_uppercase e ch)
  | None => false
  end.

(** parse_ident.rs 23-26: [None] when the token is not valid UTF-8 *)
Definition tokenize_ident : M Lexer (option (list N)) :=
  set_yylval_name ;;;
  t <- gets tokenbuf ;;
  ret (if utf8_valid t then Some t else None).

(** The keyword part, parse_ident.rs 68-100 *)
Definition ident_keyword (kw : ReservedWord) : M Lexer Tok :=
  state <- gets lex_state ;;
  if ls_is_some state EXPR_FNAME then
    lex_state_set EXPR_ENDFN ;;;
    set_yylval_name ;;;
    ret (rw_id kw)
  else
    lex_state_set (rw_state kw) ;;;
    when (ls_is_some (rw_state kw) EXPR_BEG) (modify (set_command_start true)) ;;;
    if tok_eqb (rw_id kw) kDO then
      s <- get ;;
      if is_lambda_beginning s then
        modify (set_lpar_beg (-1)%Z) ;;; ret kDO_LAMBDA
      else if ss_is_active (cond s) then ret kDO_COND
      else if ss_is_active (cmdarg s) && negb (ls_is_some state EXPR_CMDARG) then ret kDO_BLOCK
      else ret kDO
    else if ls_is_some state (N.lor EXPR_BEG EXPR_LABELED) then ret (rw_id kw)
    else
      when (negb (tok_eqb (rw_id kw) (rw_modifier_id kw))) (lex_state_set (N.lor EXPR_BEG EXPR_LABEL)) ;;;
      ret (rw_modifier_id kw).

(** The identifier part, parse_ident.rs 103-135 *)
Definition ident_plain (result : Tok) (last_state : LexState) (cmd_state : bool) : M Lexer Tok :=
  modify (fun s => set_lex_state
    (if ls_is_some (lex_state s) (N.lor (N.lor EXPR_BEG_ANY EXPR_ARG_ANY) EXPR_DOT) then
       if cmd_state then EXPR_CMDARG else EXPR_ARG
     else if ls_is (lex_state s) EXPR_FNAME then EXPR_ENDFN
     else EXPR_END) s) ;;;
  ident <- tokenize_ident ;;
  match ident with
  | None => yyerror0 InvalidMultibyteChar ;;; ret END_OF_INPUT
  | Some ident =>
      e <- ask ;;
      let result := if tok_eqb result tCONSTANT && is_var_name e ident then tIDENTIFIER else result in
      s <- get ;;
      when (negb (ls_is_some last_state (N.lor EXPR_DOT EXPR_FNAME))
            && tok_eqb result tIDENTIFIER && is_lvar_defined s ident)
        (lex_state_set (N.lor EXPR_END EXPR_LABEL)) ;;;
      ret result
  end.

(** The suffix of an identifier, parse_ident.rs 44-58 *)
Definition ident_suffix (c : MaybeByte) : M Lexer Tok :=
  bang <- (if mbeq c "!" || mbeq c "?" then p <- peek "=" ;; ret (negb p) else ret false) ;;
  if bang : bool then tokadd_mb c ;;; ret tFID
  else
    s <- get ;;
    setter <- (if mbeq c "=" && ls_is_some (lex_state s) EXPR_FNAME then
                 p1 <- peek "~" ;;
                 if p1 : bool then ret false
                 else
                   p2 <- peek ">" ;;
                   if p2 : bool then ret false
                   else
                     p3 <- peek "=" ;;
                     if negb p3 then ret true else peek_n ">" 1
               else ret false) ;;
    if setter : bool then tokadd_mb c ;;; ret tIDENTIFIER
    else pushback c ;;; ret tCONSTANT.

(** parse_ident.rs 28-136 *)
Definition parse_ident (c : MaybeByte) (cmd_state : bool) : M Lexer Tok :=
  last_state <- gets lex_state ;;
  r <- loop (fun c =>
         ok <- tokadd_mbchar c ;;
         if negb ok then ret (inr None)
         else
           c <- nextc ;;
           i <- is_identchar ;;
           if i : bool then ret (inl c) else ret (inr (Some c))) c ;;
  match r with
  | None => ret END_OF_INPUT
  | Some c =>
      result <- ident_suffix c ;;
      s <- get ;;
      label <- (if ls_is_label_possible (lex_state s) cmd_state then is_label_suffix 0 else ret false) ;;
      if label : bool then
        lex_state_set (N.lor EXPR_ARG EXPR_LABELED) ;;;
        nextc ;;;
        set_yylval_name ;;;
        ret tLABEL
      else
        match (if negb (ls_is_some (lex_state s) EXPR_DOT) then reserved_word (tokenbuf s) else None) with
        | Some kw => ident_keyword kw
        | None => ident_plain result last_state cmd_state
        end
  end.

(** ** parse_gvar.rs *)

(** parse_gvar.rs 29-44 and 62-65 *)
Definition gvar_special : list N := bs "~*$?!@/\;,.=:<>""".
Definition gvar_backref : list N := bs "&`'+".

(** parse_gvar.rs 115-120 *)
Definition gvar_ident (c : MaybeByte) : M Lexer Tok :=
  t <- tokadd_ident c ;;
  if t : bool then ret END_OF_INPUT
  else
    lex_state_set EXPR_END ;;;
    tokenize_ident ;;;
    ret tGVAR.

(** parse_gvar.rs 8-121 *)
Definition parse_gvar (last_state : LexState) : M Lexer Tok :=
  b <- getb ;;
  lex_state_set EXPR_END ;;;
  p <- sub_ck (pcur b) 1 ;;
  modb (set_ptok p) ;;;
  newtok ;;;
  c <- nextc ;;
  if mbeq c "_" then
    c <- nextc ;;
    i <- is_identchar ;;
    if i : bool then
      tokadd "$" ;;; tokadd "_" ;;;
      gvar_ident c
    else
      pushback c ;;;
      tokadd "$" ;;; tokadd "_" ;;;
      ret tGVAR
  else if mb_test (fun x => existsb (N.eqb x) gvar_special) c then
    tokadd "$" ;;; tokadd_mb c ;;; ret tGVAR
  else if mbeq c "-" then
    tokadd "$" ;;; tokadd_mb c ;;;
    c <- nextc ;;
    i <- is_identchar ;;
    if i : bool then
      ok <- tokadd_mbchar c ;;
      if negb ok then ret END_OF_INPUT else ret tGVAR
    else
      pushback c ;;;
      pushback (Some "-"%bn) ;;;
      ret tCHAR
  else if mb_test (fun x => existsb (N.eqb x) gvar_backref) c then
    if ls_is_some last_state EXPR_FNAME then
      tokadd "$" ;;; tokadd_mb c ;;; ret tGVAR
    else ret tBACK_REF
  else if mb_ge c "1" && mb_le c "9" then
    tokadd "$" ;;;
    c <- loop (fun c =>
           tokadd_mb c ;;;
           c <- nextc ;;
           if is_eof c || negb (is_digit c) then ret (inr c) else ret (inl c)) c ;;
    pushback c ;;;
    if ls_is_some last_state EXPR_FNAME then ret tGVAR else ret tNTH_REF
  else
    i <- is_identchar ;;
    if negb i then
      match c with
      | None => compile_error0 GvarWithoutId
      | Some name =>
          if N.eqb name 32 then compile_error0 GvarWithoutId else compile_error0 (InvalidGvarName name)
      end ;;;
      ret tGVAR
    else
      tokadd "$" ;;;
      gvar_ident c.

(** ** parse_atmark.rs 7-61 *)
Definition parse_atmark (last_state : LexState) : M Lexer Tok :=
  b <- getb ;;
  c <- nextc ;;
  p <- sub_ck (pcur b) 1 ;;
  modb (set_ptok p) ;;;
  newtok ;;;
  tokadd "@" ;;;
  '(c, result) <- (if mbeq c "@" then tokadd "@" ;;; c <- nextc ;; ret (c, tCVAR)
                   else ret (c, tIVAR)) ;;
  lex_state_set (if ls_is_some last_state EXPR_FNAME then EXPR_ENDFN else EXPR_END) ;;;
  i <- (if is_eof c then ret false else is_identchar) ;;
  if negb i then
    pushback c ;;;
    compile_error0 (if tok_eqb result tIVAR then IvarWithoutId else CvarWithoutId) ;;;
    lex_state_set EXPR_END ;;;
    ret result
  else if is_digit c then
    ch <- expect c "c is a digit" ;;
    compile_error0 (if tok_eqb result tIVAR then InvalidIvarName ch else InvalidCvarName ch) ;;;
    lex_state_set EXPR_END ;;;
    ret result
  else
    t <- tokadd_ident c ;;
    if t : bool then ret END_OF_INPUT
    else tokenize_ident ;;; ret result.

(** ** parse_qmark.rs *)

(** parse_qmark.rs 8-12 *)
Definition parse_qmark_ternary (c : MaybeByte) : M Lexer Tok :=
  pushback c ;;;
  lex_state_set EXPR_VALUE ;;;
  ret tEH.

(** parse_qmark.rs 88-92 *)
Definition qmark_char : M Lexer Tok :=
  t <- tokenbuf_take ;;
  set_yylval t ;;;
  lex_state_set EXPR_END ;;;
  ret tCHAR.

(** The ambiguity warning, parse_qmark.rs 45-69; [false] is the early return of END_OF_INPUT *)
Definition qmark_warn_ternary : M Lexer bool :=
  b <- getb ;;
  start <- sub_ck (pcur b) 1 ;;
  r <- loop (fun ptr =>
         n <- multibyte_char_len ptr ;;
         match n with
         | None => ret (inr None)
         | Some n =>
             let ptr := ptr + n in
             if negb ((ptr <? pend b) && b_is_identchar b ptr) then ret (inr (Some ptr))
             else ret (inl ptr)
         end) start ;;
  match r with
  | None => ret false
  | Some ptr =>
      cnd <- expect (b_substr_at b start ptr) "called `Option::unwrap()` on a `None` value" ;;
      s1 <- sub_ck start 1 ;;
      warn (AmbiguousTernaryOperator cnd) (mkLoc s1 start) ;;;
      ret true
  end.

(** parse_qmark.rs 14-93.  It never returns [Err], so the result is the token. *)
Definition parse_qmark (space_seen : bool) : M Lexer Tok :=
  s <- get ;;
  if ls_is_end (lex_state s) then
    lex_state_set EXPR_VALUE ;;; ret tEH
  else
    c <- nextc ;;
    if is_eof c then compile_error0 IncompleteCharacterSyntax ;;; ret END_OF_INPUT
    else if is_space c then
      s <- get ;;
      when (negb (ls_is_arg (lex_state s)))
        (match escaped_control_code c with
         | Some c2 => warn_space_char c2 "?"
         | None => ret tt
         end) ;;;
      parse_qmark_ternary c
    else
      newtok ;;;
      a <- is_ascii_cur ;;
      b <- getb ;;
      if negb a then
        ok <- tokadd_mbchar c ;;
        if negb ok then ret END_OF_INPUT else qmark_char
      else if (is_alnum c || mbeq c "_") && (pcur b <? pend b) && b_is_identchar b (pcur b) then
        if space_seen then
          ok <- qmark_warn_ternary ;;
          if negb ok then ret END_OF_INPUT else parse_qmark_ternary c
        else parse_qmark_ternary c
      else if mbeq c "\" then
        p <- peek "u" ;;
        if p : bool then
          nextc ;;;
          tokadd_utf8 None false ;;;
          qmark_char
        else if negb (is_eol b) && negb (is_ascii (byte_at b (pcur b))) then
          let c := byte_at b (pcur b) in
          nextc ;;;
          ok <- tokadd_mbchar c ;;
          if negb ok then ret END_OF_INPUT else qmark_char
        else
          byte <- read_escape 0 ;;
          tokadd_mb byte ;;;
          qmark_char
      else
        tokadd_mb c ;;;
        qmark_char.

(** ** parse_percent.rs *)

(** [self.yyerror1(UnknownTypeOfPercentString, self.current_loc().adjust_end(-1)); END_OF_INPUT] *)
Definition percent_unknown_error : M Lexer Tok :=
  l <- gets current_loc ;;
  l <- adjust_end_m1 l ;;
  yyerror1 UnknownTypeOfPercentString l ;;;
  ret END_OF_INPUT.

(** parse_percent.rs 9-21 *)
Definition percent_unknown (term : MaybeByte) : M Lexer Tok :=
  pushback term ;;;
  b <- getb ;;
  len <- multibyte_char_len (pcur b) ;;
  match len with
  | None => ret END_OF_INPUT
  | Some len =>
      modb (fun b => set_pcur (pcur b + len) b) ;;;
      percent_unknown_error
  end.

(** parse_percent.rs 112-118 *)
Definition percent_unterminated : M Lexer Tok :=
  compile_error0 UnterminatedQuotedString ;;; ret END_OF_INPUT.

(** parse_percent.rs 50-61 *)
Definition percent_parens (term : N) : N * option N :=
  if N.eqb term "("%bn then (")"%bn, Some term)
  else if N.eqb term "["%bn then ("]"%bn, Some term)
  else if N.eqb term "{"%bn then ("}"%bn, Some term)
  else if N.eqb term "<"%bn then (">"%bn, Some term)
  else (term, None).

(** parse_percent.rs 63-109; [c] is the type letter *)
Definition percent_begin (c : MaybeByte) (term : N) (p : nat) : M Lexer Tok :=
  let '(term, paren) := percent_parens term in
  p1 <- sub_ck p 1 ;;
  modb (set_ptok p1) ;;;
  if mbeq c "Q" then start_strterm str_dquote term paren ;;; ret tSTRING_BEG
  else if mbeq c "q" then start_strterm str_squote term paren ;;; ret tSTRING_BEG
  else if mbeq c "W" then start_strterm str_dword term paren ;;; ret tWORDS_BEG
  else if mbeq c "w" then start_strterm str_sword term paren ;;; ret tQWORDS_BEG
  else if mbeq c "I" then start_strterm str_dword term paren ;;; ret tSYMBOLS_BEG
  else if mbeq c "i" then start_strterm str_sword term paren ;;; ret tQSYMBOLS_BEG
  else if mbeq c "x" then start_strterm str_xquote term paren ;;; ret tXSTRING_BEG
  else if mbeq c "r" then start_strterm str_regexp term paren ;;; ret tREGEXP_BEG
  else if mbeq c "s" then
    start_strterm str_ssym term paren ;;;
    lex_state_set (N.lor EXPR_FNAME EXPR_FITEM) ;;;
    ret tSYMBEG
  else percent_unknown_error.

(** parse_percent.rs 23-62 *)
Definition percent_quotation (c : MaybeByte) (p : nat) : M Lexer Tok :=
  if is_eof c then percent_unterminated
  else if negb (is_alnum c) then
    if negb (is_ascii c) then percent_unknown c
    else
      match c with
      | None => percent_unterminated
      | Some term => percent_begin (Some "Q"%bn) term p
      end
  else
    term <- nextc ;;
    if is_alnum term then percent_unknown term
    else
      match term with
      | None => percent_unterminated
      | Some term => percent_begin c term p
      end.

(** parse_percent.rs 120-154 *)
Definition parse_percent (space_seen : bool) (last_state : LexState) : M Lexer Tok :=
  s <- get ;;
  let p := pcur (buffer s) in
  c <- nextc ;;
  if ls_is_beg (lex_state s) then percent_quotation c p
  else if mbeq c "=" then
    set_yylval_id "%=" ;;;
    lex_state_set EXPR_BEG ;;;
    ret tOP_ASGN
  else if ls_is_spacearg (lex_state s) c space_seen || (ls_is_some (lex_state s) EXPR_FITEM && mbeq c "s")
  then percent_quotation c p
  else
    set_arg_or_beg ;;;
    pushback c ;;;
    warn_balanced tPERCENT "%%" "string literal" c space_seen last_state.
