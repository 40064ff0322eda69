(** * Model of src/lexer/parse_string.rs (and update_heredoc_indent of parse_heredoc.rs) *)
Require Import Verif.Base Verif.MaybeByteM Verif.Utf8M Verif.InputM Verif.DiagnosticM Verif.LexStateM
  Verif.TokensM Verif.BufferM Verif.LexerM.

(** parse_string.rs 11-12 *)
Definition ESCAPE_CONTROL : N := 1.
Definition ESCAPE_META : N := 2.

(** parse_heredoc.rs 9 *)
Definition TAB_WIDTH : Z := 8%Z.

(** parse_heredoc.rs 368-387, on the buffer; it always returns [true].  [/] on [i32] truncates. *)
Definition b_update_heredoc_indent (c : MaybeByte) (b : Buffer) : Buffer :=
  if Z.eqb (heredoc_line_indent b) (-1) then
    if mbeq c 10%N then set_heredoc_line_indent 0%Z b else b
  else if mbeq c 32%N then
    set_heredoc_line_indent (heredoc_line_indent b + 1)%Z b
  else if mbeq c 9%N then
    let w := (Z.quot (heredoc_line_indent b) TAB_WIDTH + 1)%Z in
    set_heredoc_line_indent (w * TAB_WIDTH)%Z b
  else if negb (mbeq c 10%N) then
    let b := if Z.ltb (heredoc_line_indent b) (heredoc_indent b)
             then set_heredoc_indent (heredoc_line_indent b) b else b in
    set_heredoc_line_indent (-1)%Z b
  else b.
Definition update_heredoc_indent (c : MaybeByte) : M Lexer unit := modb (b_update_heredoc_indent c).

(** parse_string.rs 15-20 *)
Definition take_strterm : M Lexer StringLiteral :=
  t <- gets strterm ;;
  modify (set_strterm None) ;;;
  match t with
  | Some (StringLit s) => ret s
  | _ => panic "strterm must be string"
  end.

(** parse_string.rs 21-23 *)
Definition restore_strterm (s : StringLiteral) : M Lexer unit := modify (set_strterm (Some (StringLit s))).

(** parse_string.rs 379-385 *)
Definition tokadd_utf8_unterminated : M Lexer unit :=
  token_flush ;;;
  b <- getb ;;
  yyerror1 UnterminatedUnicodeEscape (mkLoc (ptok b) (pcur b + 1)).

(** [usize::from_str_radix(&(c as char).to_string(), 16)]: for a byte it succeeds exactly on a hexadecimal
    digit ("+" alone is an error) *)
Definition hex_value (c : N) : option N :=
  if b_is_digit c then Some (c - 48)%N
  else if in_range "a" "f" c then Some (c - 87)%N
  else if in_range "A" "F" c then Some (c - 55)%N
  else None.

Definition wrap64 (n : N) : N := N.modulo n (2 ^ 64).

(** The loop of scan_hex, parse_string.rs 391-402: [len] more iterations; returns (result, s).
    [result <<= 4] drops the bits shifted out of the 64-bit word. *)
Fixpoint scan_hex_loop (b : Buffer) (len s : nat) (result : N) : N * nat :=
  match len with
  | O => (result, s)
  | S len =>
      match byte_at b s with
      | None => (result, s)
      | Some c =>
          match hex_value c with
          | Some hex => scan_hex_loop b len (s + 1) (N.lor (wrap64 (N.shiftl result 4)) hex)
          | None => (result, s)
          end
      end
  end.
(** parse_string.rs 387-407: (result, numlen) *)
Definition scan_hex (b : Buffer) (start len : nat) : N * nat :=
  let '(result, s) := scan_hex_loop b len start 0%N in (result, s - start).

(** parse_string.rs 409-426; at most 3 digits are scanned by the callers, so no bits are lost *)
Fixpoint scan_oct_loop (b : Buffer) (len s : nat) (result : N) : N * nat :=
  match len with
  | O => (result, s)
  | S len =>
      match byte_at b s with
      | None => (result, s)
      | Some c =>
          if in_range "0" "7" c
          then scan_oct_loop b len (s + 1) (N.lor (wrap64 (N.shiftl result 3)) (c - 48)%N)
          else (result, s)
      end
  end.
Definition scan_oct (b : Buffer) (start len : nat) : N * nat :=
  let '(result, s) := scan_oct_loop b len start 0%N in (result, s - start).

(** parse_string.rs 436-444 *)
Definition tokaddmbc (codepoint : N) : M Lexer unit :=
  if (codepoint <? 2 ^ 32)%N then
    ch <- expect (from_u32 codepoint) "expected codepoint to have digits" ;;
    tok_append (utf8_encode ch)
  else panic "expected codepoint to be u32".

(** [x as u8] *)
Definition as_u8 (n : N) : N := N.modulo n 256.

(** parse_string.rs 446-490; [regexp_literal] is only compared with 0 *)
Definition tokadd_codepoint (regexp_literal wide : bool) : M Lexer bool :=
  b <- getb ;;
  len <- (if wide then sub_ck (pend b) (pcur b) else ret 4) ;;
  let '(codepoint, numlen) := scan_hex b (pcur b) len in
  literal_flush (pcur b) ;;;
  modb (fun b => set_pcur (pcur b + numlen) b) ;;;
  if (if wide then (numlen =? 0) || (6 <? numlen) else (numlen <? 4)) then
    b <- getb ;;
    yyerror1 InvalidUnicodeEscape (mkLoc (pcur b) (pcur b + 1)) ;;;
    ret (wide && (0 <? numlen))
  else if (1114111 <? codepoint)%N then
    yyerror0 TooLargeUnicodeCodepoint ;;; ret wide
  else if N.eqb (N.land codepoint 4294965248) 55296 then
    yyerror0 InvalidUnicodeCodepoint ;;; ret wide
  else
    (if regexp_literal then tokcopy numlen
     else if (128 <=? codepoint)%N then tokaddmbc codepoint
     else tokadd (as_u8 codepoint)) ;;;
    ret true.

(** The loops of tokadd_utf8 over white space, parse_string.rs 515-524: returns [c] *)
Definition utf8_skip_spaces1 : M Lexer MaybeByte :=
  loop (fun _ : unit =>
    b <- getb ;;
    let c := byte_at b (pcur b) in
    if negb (is_space c) then ret (inr c)
    else
      modb (fun b => set_pcur (pcur b + 1) b) ;;;
      b <- getb ;;
      if pend b <=? pcur b then ret (inr c) else ret (inl tt)) tt.

(** parse_string.rs 538-548: [None] is the early return, otherwise [c] and [last] *)
Definition utf8_skip_spaces2 (last : MaybeByte) : M Lexer (option (MaybeByte * MaybeByte)) :=
  loop (fun last =>
    b <- getb ;;
    let c := byte_at b (pcur b) in
    if negb (is_space c) then ret (inr (Some (c, last)))
    else
      modb (fun b => set_pcur (pcur b + 1) b) ;;;
      b <- getb ;;
      if pend b <=? pcur b then ret (inr None) else ret (inl c)) last.

(** The [while] loop of tokadd_utf8, parse_string.rs 525-552.  Returns [None] for the early returns (the
    diagnostic already emitted), otherwise the final [c], [second] and [err_multiple_codepoints]. *)
Definition utf8_codepoints (term : option N) (regexp_literal : bool) (c last : MaybeByte)
  : M Lexer (option (MaybeByte * option nat * bool)) :=
  loop (fun '(c, last, second, err) =>
    if mbeq c "}" then ret (inr (Some (c, second, err)))
    else if mbeq_opt c term then tokadd_utf8_unterminated ;;; ret (inr None)
    else
      b <- getb ;;
      let second := if err : bool then Some (pcur b) else second in
      when regexp_literal (tokadd_mb last) ;;;
      ok <- tokadd_codepoint regexp_literal true ;;
      if negb ok then ret (inr (Some (c, second, err)))
      else
        r <- utf8_skip_spaces2 last ;;
        match r with
        | None => tokadd_utf8_unterminated ;;; ret (inr None)
        | Some (c, last) =>
            let err := match term, second with None, None => true | _, _ => err end in
            ret (inl (c, last, second, err))
        end)
    (c, last, @None nat, false).

(** parse_string.rs 492-574 *)
Definition tokadd_utf8 (term : option N) (regexp_literal : bool) : M Lexer unit :=
  when regexp_literal (tokadd "\" ;;; tokadd "u") ;;;
  p <- peek "{" ;;
  if p : bool then
    last <- nextc ;;
    b <- getb ;;
    if pend b <=? pcur b then tokadd_utf8_unterminated
    else
      c <- utf8_skip_spaces1 ;;
      r <- utf8_codepoints term regexp_literal c last ;;
      match r with
      | None => ret tt
      | Some (c, second, err) =>
          if negb (mbeq c "}") then tokadd_utf8_unterminated
          else
            match second with
            | Some second =>
                if err : bool then
                  b <- getb ;;
                  let p := pcur b in
                  modb (set_pcur second) ;;;
                  token_flush ;;;
                  modb (set_pcur p) ;;;
                  yyerror0 MultipleCodepointAtSingleChar ;;;
                  token_flush
                else ret tt
            | None => ret tt
            end ;;;
            when regexp_literal (tokadd "}") ;;;
            nextc ;;;
            ret tt
      end
  else
    ok <- tokadd_codepoint regexp_literal false ;;
    if negb ok then token_flush else ret tt.

(** parse_string.rs 576-591 *)
Definition simple_re_meta (c : MaybeByte) : bool :=
  mb_test (fun x => existsb (N.eqb x) (bs "$*+.?^|)]}>")) c.

(** parse_string.rs 640-649: (value, numlen) *)
Definition tok_hex : M Lexer (N * nat) :=
  b <- getb ;;
  let '(c, numlen) := scan_hex b (pcur b) 2 in
  if numlen =? 0 then
    l <- gets current_loc ;;
    yyerror1 InvalidHexEscape l ;;;
    token_flush ;;;
    ret (0%N, numlen)
  else
    modb (fun b => set_pcur (pcur b + numlen) b) ;;;
    ret (as_u8 c, numlen).

(** parse_string.rs 593-632: [true] is [Ok(())] *)
Definition tokadd_escape : M Lexer bool :=
  c <- nextc ;;
  match c with
  | None => yyerror0 InvalidEscapeCharacter ;;; token_flush ;;; ret false
  | Some ch =>
      if N.eqb ch 10 then ret true
      else if in_range "0" "7" ch then
        b <- getb ;;
        p <- sub_ck (pcur b) 1 ;;
        modb (set_pcur p) ;;;
        b <- getb ;;
        let '(_, numlen) := scan_oct b (pcur b) 3 in
        modb (fun b => set_pcur (pcur b + numlen) b) ;;;
        tokcopy (numlen + 1) ;;;
        ret true
      else if mbeq c "x" then
        '(_, numlen) <- tok_hex ;;
        if numlen =? 0 then ret false
        else tokcopy (numlen + 2) ;;; ret true
      else
        tokadd "\" ;;; tokadd ch ;;; ret true
  end.

(** parse_string.rs 634-638 *)
Definition read_escape_eof : M Lexer MaybeByte :=
  yyerror0 InvalidEscapeCharacter ;;;
  token_flush ;;;
  ret (Some 0%N).

(** parse_string.rs 651-766.  The recursion adds a flag each time and stops on a flag that is already set, so
    its depth is at most 3 (proved with the termination of the lexer).  LF_CHAR = 0x0c, VTAB_CHAR = 0x0b
    (main.rs 135-136). *)
Fixpoint read_escape_n (depth : nat) (flags : N) : M Lexer MaybeByte :=
  match depth with
  | O => fun _ _ => OutOfFuel
  | S depth =>
      c <- nextc ;;
      if mbeq c "\" then ret c
      else if mbeq c "n" then ret (Some 10%N)
      else if mbeq c "t" then ret (Some 9%N)
      else if mbeq c "r" then ret (Some 13%N)
      else if mbeq c "f" then ret (Some 12%N)
      else if mbeq c "v" then ret (Some 11%N)
      else if mbeq c "a" then ret (Some 7%N)
      else if mbeq c "e" then ret (Some 27%N)
      else if is_digit c then
        pushback c ;;;
        b <- getb ;;
        let '(v, numlen) := scan_oct b (pcur b) 3 in
        modb (fun b => set_pcur (pcur b + numlen) b) ;;;
        ret (Some (as_u8 v))
      else if mbeq c "x" then
        '(v, numlen) <- tok_hex ;;
        if numlen =? 0 then ret (Some 0%N) else ret (Some v)
      else if mbeq c "b" then ret (Some 8%N)
      else if mbeq c "s" then ret (Some 32%N)
      else if mbeq c "M" then
        if has flags ESCAPE_META then read_escape_eof
        else
          c <- nextc ;;
          if negb (mbeq c "-") then read_escape_eof
          else
            c <- nextc ;;
            if mbeq c "\" then
              p <- gets (fun s => peekc (buffer s)) ;;
              if mbeq p "u" || mbeq p "U" then
                nextc ;;; read_escape_eof
              else
                r <- read_escape_n depth (N.lor flags ESCAPE_META) ;;
                ret (mb_map r (fun byte => Some (N.lor byte 128)))
            else if is_eof c || negb (is_ascii c) then read_escape_eof
            else
              match escaped_control_code c with
              | Some c2 =>
                  (if is_control c || negb (has flags ESCAPE_CONTROL)
                   then warn_space_char c2 "\M-"
                   else warn_space_char c2 "\C-\M-") ;;;
                  ret (mb_map c (fun c => Some (N.lor c 128)))
              | None =>
                  if is_control c then read_escape_eof
                  else ret (mb_map c (fun c => Some (N.lor c 128)))
              end
      else if mbeq c "C" || mbeq c "c" then
        go <- (if mbeq c "C" then c <- nextc ;; ret (mbeq c "-") else ret true) ;;
        if negb go then read_escape_eof
        else if has flags ESCAPE_CONTROL then read_escape_eof
        else
          c <- nextc ;;
          let finish c := ret (mb_map c (fun c => Some (N.land c 159))) in
          if mbeq c "\" then
            p <- gets (fun s => peekc (buffer s)) ;;
            if mbeq p "u" || mbeq p "U" then
              nextc ;;; read_escape_eof
            else
              c <- read_escape_n depth (N.lor flags ESCAPE_CONTROL) ;;
              finish c
          else if mbeq c "?" then ret (Some 127%N)
          else if is_eof c || negb (is_ascii c) then read_escape_eof
          else
            match escaped_control_code c with
            | Some c2 =>
                (if is_control c then
                   if has flags ESCAPE_META then warn_space_char c2 "\M-" else warn_space_char c2 ""
                 else if has flags ESCAPE_META then warn_space_char c2 "\M-\C-"
                 else warn_space_char c2 "\C-") ;;;
                finish c
            | None => if is_control c then read_escape_eof else finish c
            end
      else if is_eof c then read_escape_eof
      else ret c
  end.
Definition read_escape (flags : N) : M Lexer MaybeByte := read_escape_n 3 flags.

(** [{:X}] of a byte *)
Definition hex_digit_upper (n : N) : N := if (n <? 10)%N then (48 + n)%N else (55 + n)%N.
Definition show_hex_upper (n : N) : list N :=
  if (n <? 16)%N then [hex_digit_upper n] else [hex_digit_upper (n / 16); hex_digit_upper (n mod 16)]%N.
(** The first four bytes of [escbuf], parse_string.rs 330-333: the unused bytes of the buffer are NUL *)
Definition escbuf (c : N) : list N := firstn 4 (bs "\x" ++ show_hex_upper c ++ [0; 0; 0]%N).

(** Outcome of the backslash branch of tokadd_string *)
Inductive EscRes : Type :=
| EscContinue                        (* continue *)
| EscReturn (r : option MaybeByte)   (* return r *)
| EscAdd (c : MaybeByte).            (* fall out of the match, on to [self.tokadd(c)] *)

(** The default arm, parse_string.rs 316-361; [c] is not end of input *)
Definition tokadd_string_other (func term : N) (paren : option N) (c : MaybeByte) : M Lexer EscRes :=
  when (negb (is_ascii c) && negb (has func STR_FUNC_EXPAND)) (tokadd "\" ;;; tokadd_mb c) ;;;
  if has func STR_FUNC_REGEXP then
    if mbeq c "c" || mbeq c "C" || mbeq c "M" then
      pushback c ;;;
      c <- read_escape 0 ;;
      v <- expect c "bug" ;;
      tok_append (escbuf v) ;;;
      ret EscContinue
    else if mbeq c term && negb (simple_re_meta c) then
      tokadd_mb c ;;; ret EscContinue
    else
      pushback c ;;;
      ok <- tokadd_escape ;;
      if negb ok then ret (EscReturn None) else ret EscContinue
  else if has func STR_FUNC_EXPAND then
    pushback c ;;;
    when (has func STR_FUNC_ESCAPE) (tokadd "\") ;;;
    c <- read_escape 0 ;;
    if is_eof c then ret (EscReturn None) else ret (EscAdd c)
  else if has func STR_FUNC_QWORDS && is_space c then ret (EscAdd c)
  else if negb (mbeq c term) && negb (mbeq_opt c paren) then
    tokadd "\" ;;;
    pushback c ;;;
    ret EscContinue
  else ret (EscAdd c).

(** The backslash branch, parse_string.rs 276-363 *)
Definition tokadd_string_escape (func term : N) (paren : option N) : M Lexer EscRes :=
  b <- getb ;;
  p <- sub_ck (pcur b) 1 ;;
  literal_flush p ;;;
  c <- nextc ;;
  if mbeq c 10%N then
    if has func STR_FUNC_QWORDS then ret (EscAdd c)
    else if has func STR_FUNC_EXPAND then
      b <- getb ;;
      if negb (has func STR_FUNC_INDENT) || Z.ltb (heredoc_indent b) 0 then ret EscContinue
      else if mbeq c term then ret (EscReturn (Some (Some "\"%bn)))
      else tokadd "\" ;;; ret (EscAdd c)
    else tokadd "\" ;;; ret (EscAdd c)
  else if mbeq c "\" then
    when (has func STR_FUNC_ESCAPE) (tokadd_mb c) ;;; ret (EscAdd c)
  else if mbeq c "u" then
    if negb (has func STR_FUNC_EXPAND) then tokadd "\" ;;; ret (EscAdd c)
    else tokadd_utf8 (Some term) (has func STR_FUNC_REGEXP) ;;; ret EscContinue
  else if is_eof c then ret (EscReturn None)
  else tokadd_string_other func term paren c.

(** parse_string.rs 237-373: the returned option and the final [*nest] *)
Definition tokadd_string (func term : N) (paren : option N) (nest : nat)
  : M Lexer (option MaybeByte * nat) :=
  loop (fun nest =>
    c <- nextc ;;
    if is_eof c then ret (inr (Some c, nest))
    else
      b <- getb ;;
      when (Z.ltb 0 (heredoc_indent b)) (update_heredoc_indent c) ;;;
      b <- getb ;;
      if mbeq_opt c paren then
        tokadd_mb c ;;; ret (inl (nest + 1))
      else if mbeq c term then
        if nest =? 0 then pushback c ;;; ret (inr (Some c, nest))
        else
          nest <- sub_ck nest 1 ;;
          tokadd_mb c ;;; ret (inl nest)
      else if has func STR_FUNC_EXPAND && mbeq c "#" && (pcur b <? pend b) then
        c2 <- gets (fun s => char_at s (pcur (buffer s))) ;;
        if mbeq c2 "$" || mbeq c2 "@" || mbeq c2 "{" then
          pushback c ;;; ret (inr (Some c, nest))
        else tokadd_mb c ;;; ret (inl nest)
      else if mbeq c "\" then
        r <- tokadd_string_escape func term paren ;;
        match r with
        | EscContinue => ret (inl nest)
        | EscReturn x => ret (inr (x, nest))
        | EscAdd c => tokadd_mb c ;;; ret (inl nest)
        end
      else
        a <- is_ascii_cur ;;
        if negb a then tokadd_mb c ;;; ret (inl nest)
        else if has func STR_FUNC_QWORDS && is_space c then
          pushback c ;;; ret (inr (Some c, nest))
        else tokadd_mb c ;;; ret (inl nest))
    nest.

(** parse_string.rs 187-235 *)
Definition peek_variable_name : M Lexer (option Tok) :=
  b <- getb ;;
  let ptr := pcur b in
  if pend b <=? ptr + 1 then ret None
  else
    let c := byte_at b ptr in
    let ptr := ptr + 1 in
    let finish c := if negb (is_ascii c) || mbeq c "_" || is_alpha c then Some tSTRING_DVAR else None in
    if mbeq c "$" then
      let c := byte_at b ptr in
      if mbeq c "-" then
        let ptr := ptr + 1 in
        if pend b <=? ptr then ret None else ret (finish (byte_at b ptr))
      else if is_global_name_punct c || is_digit c then ret (Some tSTRING_DVAR)
      else ret (finish c)
    else if mbeq c "@" then
      let c := byte_at b ptr in
      if mbeq c "@" then
        let ptr := ptr + 1 in
        if pend b <=? ptr then ret None else ret (finish (byte_at b ptr))
      else ret (finish c)
    else if mbeq c "{" then
      modb (set_pcur ptr) ;;;
      modify (set_command_start true) ;;;
      ret (Some tSTRING_DBEG)
    else ret None.

(** parse_string.rs 145-185 *)
Definition regx_options : M Lexer (list N) :=
  newtok ;;;
  '(c, result) <- loop (fun result =>
       c <- nextc ;;
       match c with
       | None => ret (inr (c, result))
       | Some ch =>
           if negb (is_alpha c) then ret (inr (c, result))
           else if existsb (N.eqb ch) (bs "onesuixm") then ret (inl (result ++ [ch]))
           else tokadd ch ;;; ret (inl result)
       end) [] ;;
  pushback c ;;;
  len <- gets toklen ;;
  when (0 <? len)
    (t <- gets tokenbuf ;;
     opts <- expect (if utf8_valid t then Some t else None) "expected buffer to have only utf-8 chars" ;;
     compile_error0 (UnknownRegexOptions opts)) ;;;
  ret result.

(** parse_string.rs 128-143; [term as char] is a Latin-1 character, so it is UTF-8 encoded by [format!] *)
Definition string_term (term func : N) : M Lexer Tok :=
  modify (set_strterm None) ;;;
  if has func STR_FUNC_REGEXP then
    flags <- regx_options ;;
    set_yylval (utf8_encode term ++ flags) ;;;
    lex_state_set EXPR_END ;;;
    ret tREGEXP_END
  else
    label <- (if has func STR_FUNC_LABEL then is_label_suffix 0 else ret false) ;;
    if label : bool then
      nextc ;;;
      lex_state_set (N.lor EXPR_BEG EXPR_LABEL) ;;;
      ret tLABEL_END
    else
      lex_state_set EXPR_END ;;;
      ret tSTRING_END.

(** [quote.func = f], [quote.nest = n] *)
Definition sl_set_func (f : N) (q : StringLiteral) : StringLiteral :=
  mkStringLiteral (sl_nest q) f (sl_paren q) (sl_term q) (sl_heredoc_end q).
Definition sl_set_nest (n : nat) (q : StringLiteral) : StringLiteral :=
  mkStringLiteral n (sl_func q) (sl_paren q) (sl_term q) (sl_heredoc_end q).

(** The delayed terminator, parse_string.rs 42-57 *)
Definition parse_string_term (quote : StringLiteral) : M Lexer Tok :=
  let func := sl_func quote in
  when (has func STR_FUNC_QWORDS) (nextc ;;; ret tt) ;;;
  lex_state_set EXPR_END ;;;
  modify (set_strterm None) ;;;
  if has func STR_FUNC_REGEXP then ret tREGEXP_END
  else
    match sl_heredoc_end quote with
    | Some he =>
        modify (set_lval_start (Some (he_start he))) ;;;
        modify (set_lval_end (Some (he_end he))) ;;;
        set_yylval (he_value he)
    | None => ret tt
    end ;;;
    ret tSTRING_END.

(** The content of a string, parse_string.rs 95-125, from line 95 on ([newtok] included) *)
Definition parse_string_content (quote : StringLiteral) (func : N) (c : MaybeByte) : M Lexer Tok :=
  let term := sl_term quote in
  let paren := sl_paren quote in
  newtok ;;;
  r <- (if has func STR_FUNC_EXPAND && mbeq c "#" then
          t <- peek_variable_name ;;
          match t with
          | Some t => ret (inr t)
          | None => tokadd "#" ;;; c <- nextc ;; ret (inl c)
          end
        else ret (inl c)) ;;
  match r with
  | inr t => restore_strterm quote ;;; ret t
  | inl c =>
      pushback c ;;;
      '(added, nest) <- tokadd_string func term paren (sl_nest quote) ;;
      let quote := sl_set_nest nest quote in
      b <- getb ;;
      let content quote :=
        t <- gets tokenbuf ;;
        set_yylval t ;;;
        restore_strterm quote ;;;
        ret tSTRING_CONTENT in
      if (match added with Some _ => true | None => false end) && eofp b then
        literal_flush (pcur b) ;;;
        if has func STR_FUNC_QWORDS then
          yyerror0 UnterminatedList ;;;
          modify (set_strterm None) ;;;
          ret tSTRING_END
        else
          (if has func STR_FUNC_REGEXP then yyerror0 UnterminatedRegexp
           else yyerror0 UnterminatedString) ;;;
          content (sl_set_func (N.lor (sl_func quote) STR_FUNC_TERM) quote)
      else content quote
  end.

(** parse_string.rs 25-126 *)
Definition parse_string : M Lexer Tok :=
  quote <- take_strterm ;;
  let func := sl_func quote in
  let term := sl_term quote in
  modify (fun s => set_lval_start (Some (pcur (buffer s))) s) ;;;
  if has func STR_FUNC_TERM then parse_string_term quote
  else
    c <- nextc ;;
    '(c, space) <- (if has func STR_FUNC_QWORDS && is_space c then
        c <- loop (fun _ : unit =>
               c <- nextc ;;
               if negb (is_space c) then ret (inr c) else ret (inl tt)) tt ;;
        ret (c, true)
      else ret (c, false)) ;;
    let quote := if has func STR_FUNC_LIST then sl_set_func (N.ldiff (sl_func quote) STR_FUNC_LIST) quote
                 else quote in
    let space := space || has func STR_FUNC_LIST in
    if mbeq c term && (sl_nest quote =? 0) then
      if has func STR_FUNC_QWORDS then
        pushback c ;;;
        restore_strterm (sl_set_func (N.lor (sl_func quote) STR_FUNC_TERM) quote) ;;;
        ret tSPACE
      else
        restore_strterm quote ;;;
        string_term term func
    else if space then
      pushback c ;;;
      restore_strterm quote ;;;
      ret tSPACE
    else parse_string_content quote func c.
