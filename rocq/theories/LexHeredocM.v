(** * Model of src/lexer/parse_heredoc.rs *)
Require Import Verif.Base Verif.MaybeByteM Verif.Utf8M Verif.InputM Verif.DiagnosticM Verif.LexStateM
  Verif.TokensM Verif.BufferM Verif.LexerM Verif.LexStringM.

(** [i32::MAX] *)
Definition i32_max : Z := 2147483647%Z.

(** The identifier part of heredoc_identifier, parse_heredoc.rs 36-84.  [inr r] is an early [return r];
    [inl (quote, offset, func, token)] continues. *)
Definition heredoc_id_scan (c : MaybeByte) (offset : nat) (func : N) (indent : Z)
  : M Lexer ((nat * nat * N * Tok) + option Tok) :=
  if mbeq c "'" || mbeq c """" || mbeq c "`" then
    let func := if mbeq c "'" then N.lor func str_squote else func in
    let func := if mbeq c """" then N.lor func str_dquote else func in
    let func := if mbeq c "`" then N.lor func str_xquote else func in
    let token := if mbeq c "`" then tXSTRING_BEG else tSTRING_BEG in
    let term := c in
    closed <- loop (fun _ : unit =>
        c <- nextc ;;
        if mbeq_opt c term then ret (inr true)
        else if is_eof c || mbeq c 13%N || mbeq c 10%N then
          yyerror0 UnterminatedHeredocId ;;; ret (inr false)
        else ret (inl tt)) tt ;;
    if closed : bool then ret (inl (1, offset + 1, func, token))
    else ret (inr (Some END_OF_INPUT))
  else
    i <- is_identchar ;;
    if negb i then
      pushback c ;;;
      when (has func STR_FUNC_INDENT)
        (pushback (if Z.ltb 0 indent then Some "~"%bn else Some "-"%bn)) ;;;
      ret (inr None)
    else
      let func := N.lor func str_dquote in
      r <- loop (fun _ : unit =>
        b <- getb ;;
        p <- sub_ck (pcur b) 1 ;;
        n <- multibyte_char_len p ;;
        match n with
        | None => ret (inr None)
        | Some n =>
            n1 <- sub_ck n 1 ;;
            modb (fun b => set_pcur (pcur b + n1) b) ;;;
            c <- nextc ;;
            i <- (if is_eof c then ret false else is_identchar) ;;
            if negb i then ret (inr (Some c)) else ret (inl tt)
        end) tt ;;
      match r with
      | None => ret (inr (Some END_OF_INPUT))
      | Some c => pushback c ;;; ret (inl (0, offset, func, tSTRING_BEG))
      end.

(** parse_heredoc.rs 12-112 *)
Definition heredoc_identifier : M Lexer (option Tok) :=
  b <- getb ;;
  offset <- sub_ck (pcur b) (pbeg b) ;;
  c <- nextc ;;
  '(c, func, offset, indent) <-
    (if mbeq c "-" then c <- nextc ;; ret (c, STR_FUNC_INDENT, offset + 1, 0%Z)
     else if mbeq c "~" then c <- nextc ;; ret (c, STR_FUNC_INDENT, offset + 1, i32_max)
     else ret (c, 0%N, offset, 0%Z)) ;;
  r <- heredoc_id_scan c offset func indent ;;
  match r with
  | inr t => ret t
  | inl (quote, offset, func, token) =>
      b <- getb ;;
      len <- sub_ck (pcur b) (pbeg b + offset) ;;
      len <- sub_ck len quote ;;
      id <- expect (b_substr_at b (ptok b) (pcur b)) "failed to get heredoc id" ;;
      set_yylval id ;;;
      modify (set_lval_start (Some (ptok b))) ;;;
      modify (set_lval_end (Some (pcur b))) ;;;
      modb goto_eol ;;;
      modify (set_strterm (Some (HeredocLit
        (mkHeredocLiteral (lastline b) offset (ruby_sourceline b) len quote func)))) ;;;
      token_flush ;;;
      modb (set_heredoc_indent indent) ;;;
      modb (set_heredoc_line_indent 0%Z) ;;;
      ret (Some token)
  end.

(** The two loops of compute_heredoc_end, parse_heredoc.rs 285-295, on the rest of the input *)
Fixpoint count_spaces (l : list N) : nat :=
  match l with
  | c :: r => if N.eqb c 32 then S (count_spaces r) else 0
  | [] => 0
  end.
Fixpoint count_to_newline (l : list N) : nat :=
  match l with
  | c :: r => if N.eqb c 10 then 0 else S (count_to_newline r)
  | [] => 0
  end.

(** parse_heredoc.rs 282-306 *)
Definition compute_heredoc_end : M Lexer HeredocEnd :=
  b <- getb ;;
  let start := pbeg b in
  let end_starts_at := start + count_spaces (skipn start (bytes b)) in
  let stop := end_starts_at + count_to_newline (skipn end_starts_at (bytes b)) in
  value <- expect (b_substr_at b end_starts_at stop) "failed to get heredoc end" ;;
  ret (mkHeredocEnd start stop value).

(** parse_heredoc.rs 352-366 *)
Definition heredoc_restore (here : HeredocLiteral) : M Lexer unit :=
  modify (set_strterm None) ;;;
  modb (set_lastline (hl_lastline here)) ;;;
  b <- getb ;;
  line <- expect (line_at (input b) (hl_lastline here)) "index out of bounds" ;;
  modb (set_pbeg (l_start line)) ;;;
  modb (fun b => set_pend (pbeg b + line_len line) b) ;;;
  modb (fun b => set_pcur (pbeg b + hl_offset here + hl_length here + hl_quote here) b) ;;;
  b <- getb ;;
  p <- sub_ck (pbeg b + hl_offset here) (hl_quote here) ;;
  modb (set_ptok p) ;;;
  modb (fun b => set_heredoc_end (ruby_sourceline b) b) ;;;
  modb (set_ruby_sourceline (hl_sourceline here)) ;;;
  modb (fun b => if eofp b then set_nextline 0 b else b) ;;;
  modb (set_eofp false).

(** parse_heredoc.rs 308-325 *)
Definition here_document_error (here : HeredocLiteral) (eos len : nat) : M Lexer Tok :=
  heredoc_restore here ;;;
  b <- getb ;;
  id <- expect (b_substr_at b eos (eos + len)) "failed to get heredoc id for comparison" ;;
  compile_error0 (UnterminatedHeredoc id) ;;;
  token_flush ;;;
  modify (set_strterm None) ;;;
  lex_state_set EXPR_END ;;;
  ret tSTRING_END.

(** parse_heredoc.rs 327-339 *)
Definition here_document_restore (here : HeredocLiteral) : M Lexer Tok :=
  he <- compute_heredoc_end ;;
  modify (set_lval_start (Some (he_start he))) ;;;
  modify (set_lval_end (Some (he_end he))) ;;;
  set_yylval (he_value he) ;;;
  heredoc_restore here ;;;
  token_flush ;;;
  modify (set_strterm None) ;;;
  lex_state_set EXPR_END ;;;
  ret tSTRING_END.

(** parse_heredoc.rs 341-345 *)
Definition heredoc_flush_str (str : list N) : M Lexer Tok :=
  set_yylval str ;;; ret tSTRING_CONTENT.

(** parse_heredoc.rs 347-350 *)
Definition heredoc_flush : M Lexer Tok := t <- tokenbuf_take ;; heredoc_flush_str t.

(** parse_heredoc.rs 275-279 *)
Definition here_document_finish (here : HeredocLiteral) (str : list N) (he : HeredocEnd) : M Lexer Tok :=
  heredoc_restore here ;;;
  token_flush ;;;
  modify (set_strterm (new_strterm (N.lor (hl_func here) STR_FUNC_TERM) 0 (Some 0%N) (Some he))) ;;;
  set_yylval str ;;;
  ret tSTRING_CONTENT.

(** [self.buffer.is_whole_match(substr_at(eos, eos + len).expect(..), indent)] *)
Definition at_terminator (here : HeredocLiteral) (eos : nat) : M Lexer bool :=
  b <- getb ;;
  id <- expect (b_substr_at b eos (eos + hl_length here)) "failed to get heredoc id for comparison" ;;
  ret (is_whole_match b id (has (hl_func here) STR_FUNC_INDENT)).

(** The end of the text of a line, without CRLF, parse_heredoc.rs 156-173 *)
Definition raw_line_end (b : Buffer) (ptr : nat) : M Lexer nat :=
  let ptr_end := pend b in
  if ptr <? ptr_end then
    x <- expect (byte_at b (ptr_end - 1)) "index out of bounds" ;;
    if N.eqb x 10 then
      if ptr_end - 1 =? ptr then ret ptr_end
      else
        y <- expect (byte_at b (ptr_end - 1 - 1)) "index out of bounds" ;;
        ret (if N.eqb y 13 then ptr_end - 1 else ptr_end)
    else if N.eqb x 13 then ret (ptr_end - 1)
    else ret ptr_end
  else ret ptr_end.

(** The [while] loop at parse_heredoc.rs 176-179: [update_heredoc_indent] always returns [true], so it visits
    every byte of [ptr .. ptr_end] *)
Fixpoint update_indent_range (n ptr : nat) (b : Buffer) : Buffer :=
  match n with
  | O => b
  | S n => update_indent_range n (ptr + 1) (b_update_heredoc_indent (byte_at b ptr) b)
  end.

(** The branch without interpolation, parse_heredoc.rs 155-214 *)
Definition here_document_raw (here : HeredocLiteral) (eos : nat) : M Lexer Tok :=
  loop (fun str =>
    b <- getb ;;
    line <- expect (line_at (input b) (lastline b)) "index out of bounds" ;;
    let ptr := l_start line in
    ptr_end <- raw_line_end b ptr ;;
    when (Z.ltb 0 (heredoc_indent b))
      (modb (fun b => set_heredoc_line_indent 0%Z (update_indent_range (ptr_end - ptr) ptr b))) ;;;
    s <- expect (b_substr_at b ptr ptr_end) "no substr" ;;
    let str := str ++ s ++ (if ptr_end <? pend b then [10%N] else []) in
    modb goto_eol ;;;
    b <- getb ;;
    if Z.ltb 0 (heredoc_indent b) then
      t <- heredoc_flush_str str ;; ret (inr t)
    else
      c <- nextc ;;
      if is_eof c then
        t <- here_document_error here eos (hl_length here) ;; ret (inr t)
      else
        m <- at_terminator here eos ;;
        if m : bool then
          b <- getb ;;
          e <- sub_ck (pend b) 1 ;;
          modify (set_lval_end (Some e)) ;;;
          he <- compute_heredoc_end ;;
          t <- here_document_finish here str he ;;
          ret (inr t)
        else ret (inl str))
    [].

(** The loop of the interpolating branch, parse_heredoc.rs 231-272 *)
Definition here_document_expand (here : HeredocLiteral) (eos : nat) (c : MaybeByte) : M Lexer Tok :=
  let func := hl_func here in
  loop (fun c =>
    pushback c ;;;
    '(r, _) <- tokadd_string func 10 None 0 ;;
    match r with
    | None =>
        b <- getb ;;
        t <- (if eofp b then here_document_error here eos (hl_length here)
              else here_document_restore here) ;;
        ret (inr t)
    | Some c =>
        modify (fun s => set_lval_end (Some (pcur (buffer s) + 1)) s) ;;;
        if negb (mbeq c 10%N) then
          when (mbeq c "\") (modb (set_heredoc_line_indent (-1)%Z)) ;;;
          t <- heredoc_flush ;; ret (inr t)
        else
          cc <- nextc ;;
          tokadd_mb cc ;;;
          b <- getb ;;
          if Z.ltb 0 (heredoc_indent b) then
            modb goto_eol ;;;
            t <- heredoc_flush ;; ret (inr t)
          else
            c <- nextc ;;
            if is_eof c then
              t <- here_document_error here eos (hl_length here) ;; ret (inr t)
            else
              m <- at_terminator here eos ;;
              if m : bool then
                he <- compute_heredoc_end ;;
                str <- gets tokenbuf ;;
                t <- here_document_finish here str he ;;
                ret (inr t)
              else ret (inl c)
    end) c.

(** parse_heredoc.rs 114-280 *)
Definition here_document : M Lexer Tok :=
  t <- gets strterm ;;
  here <- match t with
          | Some (HeredocLit h) => ret h
          | _ => panic "strterm must be heredoc"
          end ;;
  modify (fun s => set_lval_start (Some (pcur (buffer s))) s) ;;;
  b <- getb ;;
  line <- expect (line_at (input b) (hl_lastline here)) "index out of bounds" ;;
  let eos := l_start line + hl_offset here in
  c <- nextc ;;
  if is_eof c then here_document_error here eos (hl_length here)
  else
    b <- getb ;;
    stop <- (if negb (was_bol b) then ret false
             else if Z.eqb (heredoc_line_indent b) (-1) then
               modb (set_heredoc_line_indent 0%Z) ;;; ret false
             else at_terminator here eos) ;;
    if stop : bool then here_document_restore here
    else if negb (has (hl_func here) STR_FUNC_EXPAND) then here_document_raw here eos
    else
      newtok ;;;
      if mbeq c "#" then
        t <- peek_variable_name ;;
        modb (fun b =>
          if negb (Z.eqb (heredoc_line_indent b) (-1)) then
            set_heredoc_line_indent (-1)%Z
              (if Z.ltb (heredoc_line_indent b) (heredoc_indent b)
               then set_heredoc_indent (heredoc_line_indent b) b else b)
          else b) ;;;
        match t with
        | Some t => ret t
        | None => tokadd "#" ;;; c <- nextc ;; here_document_expand here eos c
        end
      else here_document_expand here eos c.
