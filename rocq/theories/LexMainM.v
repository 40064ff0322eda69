(** * Model of parser_yylex, yylex and tokenize_until_eof, src/lexer/main.rs *)
Require Import Verif.Base Verif.MaybeByteM Verif.Utf8M Verif.InputM Verif.DiagnosticM Verif.LexStateM
  Verif.StackStateM Verif.ScopesM Verif.TokensM Verif.ReservedM Verif.BufferM Verif.LexerM
  Verif.LexNumericM Verif.LexStringM Verif.LexHeredocM Verif.LexMagicM Verif.LexIdentM.

(** How one pass through the ['retrying] loop ends *)
Inductive Step : Type :=
| Retry (space_seen : bool)   (* continue 'retrying *)
| Tk (t : Tok)                (* return t *)
| Ident (c : MaybeByte).      (* break, on to parse_ident (main.rs 1084-1087) *)

Definition tk {S} (t : Tok) : M S Step := ret (Tk t).
Definition as_tk {S} (m : M S Tok) : M S Step := t <- m ;; ret (Tk t).

(** [self.set_yylval_id(op); self.lex_state.set(EXPR_BEG); return tOP_ASGN] *)
Definition op_asgn (op : string) : M Lexer Step :=
  set_yylval_id op ;;; lex_state_set EXPR_BEG ;;; tk tOP_ASGN.
Arguments op_asgn op%string.

(** main.rs 220-228: falls out of the match *)
Definition lex_cr (c : MaybeByte) : M Lexer Step :=
  b <- getb ;;
  when (negb (cr_seen b)) (modb (set_cr_seen true) ;;; warn0 SlashRAtMiddleOfLine) ;;;
  ret (Ident c).

(** A comment, main.rs 236-253: [false] is [return END_OF_INPUT] *)
Definition lex_comment (seen : bool) : M Lexer bool :=
  modify (set_token_seen seen) ;;;
  b <- getb ;;
  len <- sub_ck (pend b) (pcur b) ;;
  r <- magic_comment (pcur b) len ;;
  match r with
  | MagicErr => ret false
  | MagicOk found =>
      (if negb found then
         top <- comment_at_top ;;
         b <- getb ;;
         when top (set_file_encoding (pcur b) (pend b))
       else ret tt) ;;;
      modb goto_eol ;;;
      modify (fun s => set_comments (comments s ++ [comment_new (current_loc s) (input (buffer s))]) s) ;;;
      ret true
  end.

(** The [while(1)] loop after a newline, main.rs 266-308 *)
Definition lex_newline_loop (space_seen : bool) : M Lexer Step :=
  loop (fun space_seen =>
    c <- nextc ;;
    if mbeq c 32%N || mbeq c 9%N || mbeq c 12%N || mbeq c 13%N || mbeq c 11%N then ret (inl true)
    else if mbeq c "#" then
      pushback c ;;; ret (inr (Retry space_seen))
    else
      lead <- (if mbeq c "&" || mbeq c "." then
                 p <- peek "." ;; ret (Bool.eqb p (mbeq c "&"))
               else ret false) ;;
      if lead : bool then pushback c ;;; ret (inr (Retry space_seen))
      else if is_eof c then
        inb eof_no_decrement ;;;
        t <- normal_newline_leaf_label ;;
        ret (inr (Tk t))
      else
        b <- getb ;;
        l <- sub_ck (ruby_sourceline b) 1 ;;
        modb (set_ruby_sourceline l) ;;;
        modb (fun b => set_nextline (lastline b) b) ;;;
        inb eof_no_decrement ;;;
        t <- normal_newline_leaf_label ;;
        ret (inr (Tk t))) space_seen.

(** '#' and '\n', main.rs 235-309 *)
Definition lex_newline (c : MaybeByte) (space_seen : bool) (seen : bool) : M Lexer Step :=
  ok <- (if mbeq c "#" then lex_comment seen else ret true) ;;
  if negb ok then tk END_OF_INPUT
  else
    modify (set_token_seen seen) ;;;
    s <- get ;;
    let cc := ls_is_some (lex_state s) (N.lor (N.lor (N.lor EXPR_BEG EXPR_CLASS) EXPR_FNAME) EXPR_DOT)
              && negb (ls_is_some (lex_state s) EXPR_LABELED) in
    if cc || ls_is_all (lex_state s) (N.lor EXPR_ARG EXPR_LABELED) then
      if negb cc && ctx_get IN_KWARG (context s) then as_tk normal_newline_leaf_label
      else ret (Retry space_seen)
    else lex_newline_loop space_seen.

(** main.rs 311-375 *)
Definition lex_star (space_seen : bool) (last_state : LexState) : M Lexer Step :=
  c <- nextc ;;
  if mbeq c "*" then
    c <- nextc ;;
    if mbeq c "=" then op_asgn "**="
    else
      pushback c ;;;
      s <- get ;;
      result <- (if ls_is_spacearg (lex_state s) c space_seen then
                   warn0 DStarInterpretedAsArgPrefix ;;; ret tDSTAR
                 else if ls_is_beg (lex_state s) then ret tDSTAR
                 else warn_balanced tPOW "**" "argument prefix" c space_seen last_state) ;;
      set_arg_or_beg ;;;
      tk result
  else if mbeq c "=" then op_asgn "*="
  else
    pushback c ;;;
    s <- get ;;
    result <- (if ls_is_spacearg (lex_state s) c space_seen then
                 warn0 StarInterpretedAsArgPrefix ;;; ret tSTAR
               else if ls_is_beg (lex_state s) then ret tSTAR
               else warn_balanced tSTAR2 "*" "argument prefix" c space_seen last_state) ;;
    set_arg_or_beg ;;;
    tk result.

(** main.rs 377-395 *)
Definition lex_bang : M Lexer Step :=
  c <- nextc ;;
  s <- get ;;
  let after := ls_is_after_operator (lex_state s) in
  lex_state_set (if after then EXPR_ARG else EXPR_BEG) ;;;
  if after && mbeq c "@" then tk tBANG
  else if mbeq c "=" then tk tNEQ
  else if mbeq c "~" then tk tNMATCH
  else pushback c ;;; tk tBANG.

(** The embedded document, main.rs 401-423 *)
Definition lex_embdoc (space_seen : bool) : M Lexer Step :=
  b <- getb ;;
  p <- sub_ck (pcur b) 1 ;;
  let begin_loc := mkLoc p (pcur b + 5) in
  modb goto_eol ;;;
  closed <- loop (fun _ : unit =>
      modb goto_eol ;;;
      c <- nextc ;;
      if is_eof c then
        compile_error EmbeddedDocumentMeetsEof begin_loc ;;; ret (inr false)
      else
        b <- getb ;;
        if mbeq c "=" && is_word_match b (bs "end") then ret (inr true)
        else pushback c ;;; ret (inl tt)) tt ;;
  if negb closed then tk END_OF_INPUT
  else
    modb goto_eol ;;;
    modify (fun s => set_comments
      (comments s ++ [comment_new (with_end begin_loc (pcur (buffer s))) (input (buffer s))]) s) ;;;
    ret (Retry space_seen).

(** main.rs 397-448 *)
Definition lex_eq (space_seen : bool) : M Lexer Step :=
  b <- getb ;;
  if was_bol b && is_word_match b (bs "begin") then lex_embdoc space_seen
  else
    set_arg_or_beg ;;;
    c <- nextc ;;
    if mbeq c "=" then
      c <- nextc ;;
      if mbeq c "=" then tk tEQQ
      else pushback c ;;; tk tEQ
    else if mbeq c "~" then tk tMATCH
    else if mbeq c ">" then tk tASSOC
    else pushback c ;;; tk tEQL.

(** main.rs 450-498 *)
Definition lex_lt (space_seen : bool) (last_state : LexState) : M Lexer Step :=
  c <- nextc ;;
  s <- get ;;
  let st := lex_state s in
  h <- (if mbeq c "<" && negb (ls_is_some st (N.lor EXPR_DOT EXPR_CLASS)) && negb (ls_is_end st)
           && (negb (ls_is_arg st) || ls_is_some st EXPR_LABELED || space_seen)
        then heredoc_identifier else ret None) ;;
  match h with
  | Some token => tk token
  | None =>
      s <- get ;;
      (if ls_is_after_operator (lex_state s) then lex_state_set EXPR_ARG
       else
         when (ls_is_some (lex_state s) EXPR_CLASS) (modify (set_command_start true)) ;;;
         lex_state_set EXPR_BEG) ;;;
      if mbeq c "=" then
        c <- nextc ;;
        if mbeq c ">" then tk tCMP
        else pushback c ;;; tk tLEQ
      else if mbeq c "<" then
        c <- nextc ;;
        if mbeq c "=" then op_asgn "<<="
        else
          pushback c ;;;
          as_tk (warn_balanced tLSHFT "<<" "here document" c space_seen last_state)
      else pushback c ;;; tk tLT
  end.

(** main.rs 500-524 *)
Definition lex_gt : M Lexer Step :=
  set_arg_or_beg ;;;
  c <- nextc ;;
  if mbeq c "=" then tk tGEQ
  else if mbeq c ">" then
    c <- nextc ;;
    if mbeq c "=" then op_asgn ">>="
    else pushback c ;;; tk tRSHFT
  else pushback c ;;; tk tGT.

(** main.rs 526-535, 554-563 *)
Definition lex_quote (func quote : N) (cmd_state : bool) : M Lexer Step :=
  s <- get ;;
  let label := if ls_is_label_possible (lex_state s) cmd_state then str_label else 0%N in
  start_strterm (N.lor func label) quote None ;;;
  b <- getb ;;
  p <- sub_ck (pcur b) 1 ;;
  modb (set_ptok p) ;;;
  tk tSTRING_BEG.
Arguments lex_quote func quote%bn cmd_state.

(** main.rs 537-552 *)
Definition lex_backtick (cmd_state : bool) : M Lexer Step :=
  s <- get ;;
  if ls_is_some (lex_state s) EXPR_FNAME then
    lex_state_set EXPR_ENDFN ;;; tk tBACK_REF2
  else if ls_is_some (lex_state s) EXPR_DOT then
    lex_state_set (if cmd_state then EXPR_CMDARG else EXPR_ARG) ;;; tk tBACK_REF2
  else
    start_strterm str_xquote "`" None ;;; tk tXSTRING_BEG.

(** main.rs 569-629 *)
Definition lex_amp (space_seen : bool) (last_state : LexState) : M Lexer Step :=
  c <- nextc ;;
  if mbeq c "&" then
    lex_state_set EXPR_BEG ;;;
    c <- nextc ;;
    if mbeq c "=" then op_asgn "&&="
    else pushback c ;;; tk tANDOP
  else if mbeq c "=" then op_asgn "&="
  else if mbeq c "." then
    set_yylval_id "&." ;;; lex_state_set EXPR_DOT ;;; tk tANDDOT
  else
    pushback c ;;;
    s <- get ;;
    let b := buffer s in
    result <- (if ls_is_spacearg (lex_state s) c space_seen then
                 let c1 := peekc_n b 1 in
                 when (negb (mbeq c ":") || negb (is_eof c1)
                       || negb (mbeq c1 "'" || mbeq c1 """" || b_is_identchar b (pcur b + 1)))
                   (warn0 AmpersandInterpretedAsArgPrefix) ;;;
                 ret tAMPER
               else if ls_is_beg (lex_state s) then ret tAMPER
               else warn_balanced tAMPER2 "&" "argument prefix" c space_seen last_state) ;;
    set_arg_or_beg ;;;
    tk result.

(** main.rs 631-660 *)
Definition lex_pipe (last_state : LexState) : M Lexer Step :=
  c <- nextc ;;
  if mbeq c "|" then
    lex_state_set EXPR_BEG ;;;
    c <- nextc ;;
    if mbeq c "=" then op_asgn "||="
    else
      pushback c ;;;
      if ls_is_some last_state EXPR_BEG then
        pushback (Some "|"%bn) ;;; tk tPIPE
      else tk tOROP
  else if mbeq c "=" then op_asgn "|="
  else
    modify (fun s => set_lex_state
      (if ls_is_after_operator (lex_state s) then EXPR_ARG else N.lor EXPR_BEG EXPR_LABEL) s) ;;;
    pushback c ;;;
    tk tPIPE.

(** The condition shared by the unary signs, main.rs 677-679, 719-721.  [adjust_end(-1)] is evaluated before
    the warning is emitted. *)
Definition unary_sign (sign : N) (c : MaybeByte) (space_seen : bool) : M Lexer bool :=
  s <- get ;;
  if ls_is_beg (lex_state s) then ret true
  else if ls_is_spacearg (lex_state s) c space_seen then
    l <- adjust_end_m1 (current_loc s) ;;
    arg_ambiguous sign l
  else ret false.
Arguments unary_sign sign%bn c space_seen.

(** main.rs 662-698 *)
Definition lex_plus (space_seen : bool) (last_state : LexState) : M Lexer Step :=
  c <- nextc ;;
  s <- get ;;
  if ls_is_after_operator (lex_state s) then
    lex_state_set EXPR_ARG ;;;
    if mbeq c "@" then tk tUPLUS
    else pushback c ;;; tk tPLUS
  else if mbeq c "=" then op_asgn "+="
  else
    u <- unary_sign "+" c space_seen ;;
    if u : bool then
      lex_state_set EXPR_BEG ;;;
      pushback c ;;;
      if negb (is_eof c) && is_digit c then as_tk (parse_numeric "+"%bn)
      else tk tUPLUS
    else
      lex_state_set EXPR_BEG ;;;
      pushback c ;;;
      as_tk (warn_balanced tPLUS "+" "unary operator" c space_seen last_state).

(** main.rs 700-740 *)
Definition lex_minus (space_seen : bool) (last_state : LexState) : M Lexer Step :=
  c <- nextc ;;
  s <- get ;;
  if ls_is_after_operator (lex_state s) then
    lex_state_set EXPR_ARG ;;;
    if mbeq c "@" then tk tUMINUS
    else pushback c ;;; tk tMINUS
  else if mbeq c "=" then op_asgn "-="
  else if mbeq c ">" then
    lex_state_set EXPR_ENDFN ;;; tk tLAMBDA
  else
    u <- unary_sign "-" c space_seen ;;
    if u : bool then
      lex_state_set EXPR_BEG ;;;
      pushback c ;;;
      if negb (is_eof c) && is_digit c then tk tUMINUS_NUM
      else tk tUMINUS
    else
      lex_state_set EXPR_BEG ;;;
      pushback c ;;;
      as_tk (warn_balanced tMINUS "-" "unary operator" c space_seen last_state).

(** main.rs 742-786 *)
Definition lex_dot (space_seen : bool) (last_state : LexState) : M Lexer Step :=
  s <- get ;;
  let is_beg := ls_is_beg (lex_state s) in
  lex_state_set EXPR_BEG ;;;
  c <- nextc ;;
  if mbeq c "." then
    c <- nextc ;;
    if mbeq c "." then
      s <- get ;;
      if ctx_get IN_ARGDEF (context s) then
        lex_state_set EXPR_ENDARG ;;; tk tBDOT3
      else if Z.eqb (paren_nest s) 0 && is_looking_at_eol (buffer s) then
        warn0 TripleDotAtEol ;;;
        tk (if is_beg then tBDOT3 else tDOT3)
      else if Z.leb 0 (lpar_beg s) && Z.eqb (lpar_beg s + 1) (paren_nest s)
              && ls_is_some last_state EXPR_LABEL then tk tDOT3
      else tk (if is_beg then tBDOT3 else tDOT3)
    else
      pushback c ;;;
      tk (if is_beg then tBDOT2 else tDOT2)
  else
    pushback c ;;;
    if negb (is_eof c) && is_digit c then
      b <- getb ;;
      p1 <- sub_ck (pcur b) 1 ;;
      prev <- (if pbeg b <? p1 then p2 <- sub_ck (pcur b) 2 ;; ret (byte_at b p2) else ret None) ;;
      parse_numeric "."%bn ;;;
      yyerror0 (if is_digit prev then FractionAfterNumeric else NoDigitsAfterDot) ;;;
      lex_state_set EXPR_END ;;;
      modb (fun b => set_ptok (pcur b) b) ;;;
      ret (Retry space_seen)
    else
      set_yylval_id "." ;;;
      lex_state_set EXPR_DOT ;;;
      tk tDOT.

(** [self.cond.pop(); self.cmdarg.pop()] and [self.cond.push(false); self.cmdarg.push(false)] *)
Definition pop_both : M Lexer unit :=
  modify (fun s => set_cmdarg (ss_pop (cmdarg s)) (set_cond (ss_pop (cond s)) s)).
Definition push_both : M Lexer unit :=
  modify (fun s => set_cmdarg (ss_push false (cmdarg s)) (set_cond (ss_push false (cond s)) s)).
Definition add_paren_nest (d : Z) : M Lexer unit :=
  modify (fun s => set_paren_nest (paren_nest s + d)%Z s).
Definition add_brace_nest (d : Z) : M Lexer unit :=
  modify (fun s => set_brace_nest (brace_nest s + d)%Z s).

(** main.rs 792-799, 801-808 *)
Definition lex_close (state : LexState) (t : Tok) : M Lexer Step :=
  pop_both ;;;
  lex_state_set state ;;;
  add_paren_nest (-1) ;;;
  tk t.

(** main.rs 810-823 *)
Definition lex_rcurly : M Lexer Step :=
  s <- get ;;
  if Z.eqb (brace_nest s) 0 then
    add_brace_nest (-1) ;;; tk tSTRING_DEND
  else
    add_brace_nest (-1) ;;;
    pop_both ;;;
    lex_state_set EXPR_END ;;;
    add_paren_nest (-1) ;;;
    tk tRCURLY.

(** main.rs 825-865 *)
Definition lex_colon (space_seen : bool) (last_state : LexState) : M Lexer Step :=
  c <- nextc ;;
  s <- get ;;
  let st := lex_state s in
  if mbeq c ":" then
    if ls_is_beg st || ls_is_some st EXPR_CLASS || ls_is_spacearg st None space_seen then
      lex_state_set EXPR_BEG ;;; tk tCOLON3
    else
      set_yylval_id "::" ;;; lex_state_set EXPR_DOT ;;; tk tCOLON2
  else if ls_is_end st || is_space c || mbeq c "#" then
    pushback c ;;;
    result <- warn_balanced tCOLON ":" "symbol literal" c space_seen last_state ;;
    lex_state_set EXPR_BEG ;;;
    tk result
  else
    (if mbeq c "'" then start_strterm str_ssym "'" None
     else if mbeq c """" then start_strterm str_dsym """" None
     else pushback c) ;;;
    lex_state_set EXPR_FNAME ;;;
    tk tSYMBEG.

(** main.rs 867-897 *)
Definition lex_slash (space_seen : bool) (last_state : LexState) : M Lexer Step :=
  s <- get ;;
  if ls_is_beg (lex_state s) then
    start_strterm str_regexp "/" None ;;; tk tREGEXP_BEG
  else
    c <- nextc ;;
    if mbeq c "=" then op_asgn "/="
    else
      pushback c ;;;
      s <- get ;;
      if ls_is_spacearg (lex_state s) c space_seen then
        arg_ambiguous "/" (current_loc s) ;;;
        start_strterm str_regexp "/" None ;;;
        tk tREGEXP_BEG
      else
        set_arg_or_beg ;;;
        as_tk (warn_balanced tDIVIDE "/" "regexp literal" c space_seen last_state).

(** main.rs 899-913 *)
Definition lex_caret : M Lexer Step :=
  c <- nextc ;;
  if mbeq c "=" then op_asgn "^="
  else
    set_arg_or_beg ;;;
    pushback c ;;;
    tk tCARET.

(** main.rs 915-919 *)
Definition lex_semi : M Lexer Step :=
  lex_state_set EXPR_BEG ;;;
  modify (set_command_start true) ;;;
  tk tSEMI.

(** main.rs 921-924 *)
Definition lex_comma : M Lexer Step :=
  lex_state_set (N.lor EXPR_BEG EXPR_LABEL) ;;; tk tCOMMA.

(** main.rs 926-938 *)
Definition lex_tilde : M Lexer Step :=
  s <- get ;;
  (if ls_is_after_operator (lex_state s) then
     c <- nextc ;;
     (if negb (mbeq c "@") then pushback c else ret tt) ;;;
     lex_state_set EXPR_ARG
   else lex_state_set EXPR_BEG) ;;;
  tk tTILDE.

(** main.rs 940-964 *)
Definition lex_lparen (space_seen : bool) : M Lexer Step :=
  s <- get ;;
  let st := lex_state s in
  result <- (if ls_is_beg st then ret tLPAREN
             else if negb space_seen then ret tLPAREN2
             else if ls_is_arg st || ls_is_all st (N.lor EXPR_END EXPR_LABEL) then ret tLPAREN_ARG
             else if ls_is_some st EXPR_ENDFN && negb (is_lambda_beginning s) then
               warn0 ParenthesesIterpretedAsArglist ;;; ret tLPAREN2
             else ret tLPAREN2) ;;
  add_paren_nest 1 ;;;
  push_both ;;;
  lex_state_set (N.lor EXPR_BEG EXPR_LABEL) ;;;
  tk result.

(** main.rs 966-995 *)
Definition lex_lbrack (space_seen : bool) : M Lexer Step :=
  add_paren_nest 1 ;;;
  s <- get ;;
  let st := lex_state s in
  if ls_is_after_operator st then
    c <- nextc ;;
    if mbeq c "]" then
      add_paren_nest (-1) ;;;
      lex_state_set EXPR_ARG ;;;
      c <- nextc ;;
      if mbeq c "=" then tk tASET
      else pushback c ;;; tk tAREF
    else
      pushback c ;;;
      lex_state_set (N.lor EXPR_ARG EXPR_LABEL) ;;;
      tk tLBRACK2
  else
    let result :=
      if ls_is_beg st || (ls_is_arg st && (space_seen || ls_is_some st EXPR_LABELED))
      then tLBRACK else tLBRACK2 in
    lex_state_set (N.lor EXPR_BEG EXPR_LABEL) ;;;
    push_both ;;;
    tk result.

(** main.rs 997-1025 *)
Definition lex_lcurly : M Lexer Step :=
  add_brace_nest 1 ;;;
  s <- get ;;
  let st := lex_state s in
  let result :=
    if is_lambda_beginning s then tLAMBEG
    else if ls_is_some st EXPR_LABELED then tLBRACE
    else if ls_is_some st (N.lor (N.lor EXPR_ARG_ANY EXPR_END) EXPR_ENDFN) then tLCURLY
    else if ls_is_some st EXPR_ENDARG then tLBRACE_ARG
    else tLBRACE in
  (if negb (tok_eqb result tLBRACE) then
     modify (set_command_start true) ;;; lex_state_set EXPR_BEG
   else lex_state_set (N.lor EXPR_BEG EXPR_LABEL)) ;;;
  add_paren_nest 1 ;;;
  push_both ;;;
  tk result.

(** main.rs 1027-1048 *)
Definition lex_backslash : M Lexer Step :=
  c <- nextc ;;
  if mbeq c 10%N then ret (Retry true)
  else if mbeq c 32%N then tk tSP
  else if is_space c then
    if mbeq c 9%N then tk tSLASH_T
    else if mbeq c 12%N then tk tSLASH_F
    else if mbeq c 13%N then tk tSLASH_R
    else if mbeq c 11%N then tk tVTAB
    else panic "unsupported space char"
  else pushback c ;;; tk tBACKSLASH.

(** main.rs 1062-1068 *)
Definition lex_underscore (c : MaybeByte) : M Lexer Step :=
  b <- getb ;;
  if was_bol b && is_whole_match b (bs "__END__") false then
    modb (set_eofp true) ;;; tk END_OF_INPUT
  else newtok ;;; ret (Ident c).

(** main.rs 1070-1081 *)
Definition lex_other (c : N) (space_seen : bool) : M Lexer Step :=
  i <- is_identchar ;;
  if negb i then
    compile_error0 (InvalidChar c) ;;;
    token_flush ;;;
    ret (Retry space_seen)
  else newtok ;;; ret (Ident (Some c)).

(** The match on the character, main.rs 213-1082 *)
Definition lex_char (c : MaybeByte) (cmd_state space_seen seen : bool) (last_state : LexState)
  : M Lexer Step :=
  match c with
  | None => tk END_OF_INPUT
  | Some ch =>
      if N.eqb ch 0 || N.eqb ch 4 || N.eqb ch 26 then tk END_OF_INPUT
      else if N.eqb ch 13 then lex_cr c
      else if N.eqb ch 32 || N.eqb ch 9 || N.eqb ch 12 || N.eqb ch 11 then ret (Retry true)
      else if mbeq c "#" || N.eqb ch 10 then lex_newline c space_seen seen
      else if mbeq c "*" then lex_star space_seen last_state
      else if mbeq c "!" then lex_bang
      else if mbeq c "=" then lex_eq space_seen
      else if mbeq c "<" then lex_lt space_seen last_state
      else if mbeq c ">" then lex_gt
      else if mbeq c """" then lex_quote str_dquote """" cmd_state
      else if mbeq c "`" then lex_backtick cmd_state
      else if mbeq c "'" then lex_quote str_squote "'" cmd_state
      else if mbeq c "?" then as_tk (parse_qmark space_seen)
      else if mbeq c "&" then lex_amp space_seen last_state
      else if mbeq c "|" then lex_pipe last_state
      else if mbeq c "+" then lex_plus space_seen last_state
      else if mbeq c "-" then lex_minus space_seen last_state
      else if mbeq c "." then lex_dot space_seen last_state
      else if b_is_digit ch then as_tk (parse_numeric ch)
      else if mbeq c ")" then lex_close EXPR_ENDFN tRPAREN
      else if mbeq c "]" then lex_close EXPR_END tRBRACK
      else if mbeq c "}" then lex_rcurly
      else if mbeq c ":" then lex_colon space_seen last_state
      else if mbeq c "/" then lex_slash space_seen last_state
      else if mbeq c "^" then lex_caret
      else if mbeq c ";" then lex_semi
      else if mbeq c "," then lex_comma
      else if mbeq c "~" then lex_tilde
      else if mbeq c "(" then lex_lparen space_seen
      else if mbeq c "[" then lex_lbrack space_seen
      else if mbeq c "{" then lex_lcurly
      else if mbeq c "\" then lex_backslash
      else if mbeq c "%" then as_tk (parse_percent space_seen last_state)
      else if mbeq c "$" then as_tk (parse_gvar last_state)
      else if mbeq c "@" then as_tk (parse_atmark last_state)
      else if mbeq c "_" then lex_underscore c
      else lex_other ch space_seen
  end.

(** One pass of the ['retrying] loop, main.rs 202-1085 *)
Definition lex_step (cmd_state seen : bool) (space_seen : bool) : M Lexer (bool + (Tok + MaybeByte)) :=
  last_state <- gets lex_state ;;
  token_flush ;;;
  c <- nextc ;;
  r <- lex_char c cmd_state space_seen seen last_state ;;
  match r with
  | Retry space_seen => ret (inl space_seen)
  | Tk t => ret (inr (inl t))
  | Ident c => ret (inr (inr c))
  end.

(** main.rs 178-1088 *)
Definition parser_yylex : M Lexer Tok :=
  s <- get ;;
  match strterm s with
  | Some (HeredocLit _) => here_document
  | Some (StringLit _) => token_flush ;;; parse_string
  | None =>
      let seen := token_seen s in
      let cmd_state := command_start s in
      modify (set_command_start false) ;;;
      modify (set_token_seen true) ;;;
      r <- loop (lex_step cmd_state seen) false ;;
      match r with
      | inl t => ret t
      | inr c => parse_ident c cmd_state
      end
  end.

(** main.rs 130-166 *)
Definition yylex : M Lexer Token :=
  modify (set_lval None) ;;;
  token_type <- parser_yylex ;;
  s <- get ;;
  let begin := match lval_start s with Some p => p | None => ptok (buffer s) end in
  let stop := match lval_end s with Some p => p | None => pcur (buffer s) end in
  let value := match lval s with
               | Some v => v
               | None => match b_substr_at (buffer s) begin stop with Some v => v | None => [] end
               end in
  modify (fun s => set_lval None (set_lval_end None (set_lval_start None s))) ;;;
  if tok_eqb token_type tNL then ret (mkToken token_type [10%N] (mkLoc begin (begin + 1)))
  else ret (mkToken token_type value (mkLoc begin stop)).

(** The fields of [Lexer::default()], main.rs 27-85, with [lpar_beg] of Lexer::new *)
Definition lexer_init (b : Buffer) : Lexer :=
  mkLexer b None None None None EXPR_BEG 0%Z (-1)%Z 0%Z ss_new ss_new [] ctx_new false false se_new [] [] [].

(** Lexer::new, main.rs 95-107 *)
Definition lexer_new (bytes name : list N) (e : Env) : res Lexer unit :=
  match buffer_new name bytes e (buffer_default (named name)) with
  | Ok _ b => Ok tt (lexer_init b)
  | Panic w => Panic w
  | OutOfFuel => OutOfFuel
  end.

(** tokenize_until_eof, main.rs 116-128 *)
Definition tokenize_until_eof : M Lexer (list Token) :=
  loop (fun tokens =>
    t <- yylex ;;
    if tok_eqb (token_type t) END_OF_INPUT then ret (inr tokens)
    else ret (inl (tokens ++ [t]))) [].

(** [Lexer::new(bytes, name, decoder).tokenize_until_eof()] *)
Definition run_lexer (bytes name : list N) (e : Env) : res Lexer (list Token) :=
  match lexer_new bytes name e with
  | Ok _ l => tokenize_until_eof e l
  | Panic w => Panic w
  | OutOfFuel => OutOfFuel
  end.
