(** * Model of src/lexer/parse_numeric.rs *)
Require Import Verif.Base Verif.MaybeByteM Verif.InputM Verif.DiagnosticM Verif.LexStateM Verif.TokensM
  Verif.BufferM Verif.LexerM.

(** parse_numeric.rs 8-10 *)
Definition NUM_SUFFIX_R : N := 1.
Definition NUM_SUFFIX_I : N := 2.
Definition NUM_SUFFIX_ALL : N := 3.

(** parse_numeric.rs 318-321; the returned END_OF_INPUT is ignored by all callers *)
Definition invalid_octal : M Lexer unit := yyerror0 InvalidOctalDigit.

(** parse_numeric.rs 323-327 *)
Definition trailing_uc (nondigit : N) : M Lexer Tok :=
  b <- getb ;;
  p <- sub_ck (pcur b) 1 ;;
  literal_flush p ;;;
  yyerror0 (TrailingCharInNumber nondigit) ;;;
  ret END_OF_INPUT.

(** parse_numeric.rs 366-375.  [value] is not used by the callers afterwards, so the bytes drained by
    [set_yylval_literal] (yylval.rs 10-13) need no model. *)
Definition set_number_literal (value : list N) (token_type : Tok) (suffix : N) : M Lexer Tok :=
  let imaginary := has suffix NUM_SUFFIX_I in
  set_yylval (if imaginary then value ++ bs "i" else value) ;;;
  lex_state_set EXPR_END ;;;
  ret (if imaginary then tIMAGINARY else token_type).

(** parse_numeric.rs 421-428 *)
Definition set_integer_literal (value : list N) (suffix : N) : M Lexer Tok :=
  if has suffix NUM_SUFFIX_R then set_number_literal (value ++ bs "r") tRATIONAL suffix
  else set_number_literal value tINTEGER suffix.

(** parse_numeric.rs 377-383 *)
Definition no_digits : M Lexer Tok :=
  yyerror0 NumericLiteralWithoutDigits ;;;
  p <- peek "_" ;;
  when p (nextc ;;; ret tt) ;;;
  set_integer_literal (bs "0") 0.

(** parse_numeric.rs 385-419 *)
Definition number_literal_suffix (mask : N) : M Lexer N :=
  b <- getb ;;
  let lastp := pcur b in
  loop (fun '(mask, result) =>
    c <- nextc ;;
    if is_eof c then ret (inr result)
    else if has mask NUM_SUFFIX_I && mbeq c "i" then
      ret (inl (N.ldiff (N.ldiff mask NUM_SUFFIX_I) NUM_SUFFIX_R, N.lor result (N.land mask NUM_SUFFIX_I)))
    else if has mask NUM_SUFFIX_R && mbeq c "r" then
      ret (inl (N.ldiff mask NUM_SUFFIX_R, N.lor result (N.land mask NUM_SUFFIX_R)))
    else if negb (is_ascii c) || is_alpha c || mbeq c "_" then
      modb (set_pcur lastp) ;;; ret (inr 0%N)
    else
      pushback c ;;; ret (inr result))
    (mask, 0%N).

(** parse_numeric.rs 343-364 *)
Definition parse_numeric_footer (is_float seen_e : bool) : M Lexer Tok :=
  if is_float then
    suffix <- number_literal_suffix (if seen_e then NUM_SUFFIX_I else NUM_SUFFIX_ALL) ;;
    t <- tokenbuf_take ;;
    if has suffix NUM_SUFFIX_R then set_number_literal (t ++ bs "r") tRATIONAL suffix
    else set_number_literal t tFLOAT suffix
  else
    suffix <- number_literal_suffix NUM_SUFFIX_ALL ;;
    t <- tokenbuf_take ;;
    set_integer_literal t suffix.

(** parse_numeric.rs 329-341.  [nondigit : Option<MaybeByte>] never holds [Some(EndOfInput)] (it is only
    assigned a [c] that was just compared with a byte), so it is [option N]. *)
Definition decode_num (c : MaybeByte) (nondigit : option N) (is_float seen_e : bool) : M Lexer Tok :=
  pushback c ;;;
  match nondigit with
  | Some byte => trailing_uc byte ;;; ret tt
  | None => ret tt
  end ;;;
  parse_numeric_footer is_float seen_e.

(** The tail shared by the based literals, parse_numeric.rs 68-71, 110-113, 152-155, 305-308 *)
Definition finish_based : M Lexer Tok :=
  suffix <- number_literal_suffix NUM_SUFFIX_ALL ;;
  t <- tokenbuf_take ;;
  set_integer_literal (bs "0" ++ t) suffix.

(** The digit loops, parse_numeric.rs 36-59, 78-101, 120-143: three copies that differ in the digit test *)
Definition digits_loop (digit : MaybeByte -> bool) (c : MaybeByte) (nondigit : option N)
  : M Lexer (MaybeByte * option N) :=
  loop (fun '(c, nondigit) =>
    if mbeq c "_" then
      match nondigit with
      | Some _ => ret (inr (c, nondigit))
      | None =>
          tokadd_mb c ;;;
          let nondigit := c in
          c <- nextc ;;
          if is_eof c then ret (inr (c, nondigit)) else ret (inl (c, nondigit))
      end
    else if negb (digit c) then ret (inr (c, nondigit))
    else
      tokadd_mb c ;;;
      c <- nextc ;;
      if is_eof c then ret (inr (c, None)) else ret (inl (c, None)))
    (c, nondigit).

(** Hexadecimal, binary and 0d literals, parse_numeric.rs 31-72, 73-114, 115-156.  [c] is the prefix letter. *)
Definition based_number (digit : MaybeByte -> bool) (c : MaybeByte) (start : nat) : M Lexer Tok :=
  tokadd_mb c ;;;
  c <- nextc ;;
  '(c, nondigit) <- (if digit c then digits_loop digit c None else ret (c, None)) ;;
  pushback c ;;;
  len <- gets toklen ;;
  if len =? start + 1 then no_digits
  else
    match nondigit with
    | Some byte => trailing_uc byte
    | None => finish_based
    end.

(** parse_numeric.rs 264-316.  [inr t] is [Some(t)]; [inl (c, nondigit)] is [None] with the final values of
    the two [&mut] arguments. *)
Definition parse_octal (c : MaybeByte) (nondigit : option N) (start : nat)
  : M Lexer ((MaybeByte * option N) + Tok) :=
  r <- loop (fun '(c, nondigit) =>
         if mbeq c "_" then
           match nondigit with
           | Some _ => ret (inr (true, (c, nondigit)))
           | None =>
               tokadd_mb c ;;;
               let nondigit := c in
               c <- nextc ;;
               if is_eof c then ret (inr (true, (c, nondigit))) else ret (inl (c, nondigit))
           end
         else if mb_lt c "0" || mb_gt c "9" then ret (inr (true, (c, nondigit)))
         else if mb_gt c "7" then
           invalid_octal ;;; ret (inr (false, (c, nondigit)))
         else
           tokadd_mb c ;;;
           c <- nextc ;;
           if is_eof c then ret (inr (true, (c, None))) else ret (inl (c, None)))
         (c, nondigit) ;;
  match r with
  | (false, cn) => ret (inl cn)
  | (true, (c, nondigit)) =>
      len <- gets toklen ;;
      if start <? len then
        pushback c ;;;
        match nondigit with
        | Some byte => t <- trailing_uc byte ;; ret (inr t)
        | None => t <- finish_based ;; ret (inr t)
        end
      else
        match nondigit with
        | Some byte => pushback c ;;; t <- trailing_uc byte ;; ret (inr t)
        | None => ret (inl (c, nondigit))
        end
  end.

(** The variables of the main loop, parse_numeric.rs 193-261 ([seen_point] is only tested with [is_some]) *)
Record NumSt : Type := mkNum {
  nm_c : MaybeByte; nm_nondigit : option N; nm_seen_point : bool; nm_is_float : bool; nm_seen_e : bool
}.

(** One pass of the main loop, parse_numeric.rs 193-261 *)
Definition decimal_body (v : NumSt) : M Lexer (NumSt + Tok) :=
    let 'mkNum c nondigit seen_point is_float seen_e := v in
    let leave c nondigit := t <- decode_num c nondigit is_float seen_e ;; ret (inr t) in
    if is_digit c then
      tokadd_mb c ;;;
      c <- nextc ;;
      ret (inl (mkNum c None seen_point is_float seen_e))
    else if mbeq c "." then
      match nondigit with
      | Some byte => t <- trailing_uc byte ;; ret (inr t)
      | None =>
          if seen_point || seen_e then leave c nondigit
          else
            c0 <- nextc ;;
            if is_eof c || negb (is_digit c0) then
              pushback c0 ;;; leave c nondigit
            else
              tokadd "." ;;;
              tokadd_mb c0 ;;;
              c <- nextc ;;
              ret (inl (mkNum c None true true seen_e))
      end
    else if mbeq c "e" || mbeq c "E" then
      match nondigit with
      | Some v => pushback c ;;; leave (Some v) nondigit
      | None =>
          if seen_e then leave c nondigit
          else
            let nondigit := c in
            c <- nextc ;;
            if negb (mbeq c "-") && negb (mbeq c "+") && negb (is_digit c) then
              pushback c ;;; leave c None
            else
              nd <- expect nondigit "nondigit must be set" ;;
              tokadd nd ;;;
              tokadd_mb c ;;;
              let nondigit := if mbeq c "-" || mbeq c "+" then c else None in
              c <- nextc ;;
              ret (inl (mkNum c nondigit seen_point true true))
      end
    else if mbeq c "_" then
      tokadd_mb c ;;;
      match nondigit with
      | Some _ => leave c nondigit
      | None =>
          let nondigit := c in
          c <- nextc ;;
          ret (inl (mkNum c nondigit seen_point is_float seen_e))
      end
    else leave c nondigit.

(** parse_numeric.rs 193-261 *)
Definition decimal_loop (c : MaybeByte) (nondigit : option N) : M Lexer Tok :=
  loop decimal_body (mkNum c nondigit false false false).

(** A leading zero without x/b/d, parse_numeric.rs 157-190; [inl (c, nondigit)] continues with the main loop *)
Definition leading_zero (c : MaybeByte) (start : nat) : M Lexer ((MaybeByte * option N) + Tok) :=
  r <- (if mbeq c "_" then parse_octal c None start else ret (inl (c, None))) ;;
  match r with
  | inr t => ret (inr t)
  | inl (c, nondigit) =>
      r <- (if mbeq c "o" || mbeq c "O" then
              tokadd_mb c ;;;
              c <- nextc ;;
              if is_eof c || mbeq c "_" || negb (is_digit c) then
                t <- no_digits ;; ret (inr t)
              else ret (inl c)
            else ret (inl c)) ;;
      match r with
      | inr t => ret (inr t)
      | inl c =>
          r <- (if mb_ge c "0" && mb_le c "7" then parse_octal c nondigit start
                else ret (inl (c, nondigit))) ;;
          match r with
          | inr t => ret (inr t)
          | inl (c, nondigit) =>
              if mb_gt c "7" && mb_le c "9" then
                invalid_octal ;;; ret (inl (c, nondigit))
              else if mbeq c "." || mbeq c "e" || mbeq c "E" then
                tokadd "0" ;;; ret (inl (c, nondigit))
              else
                pushback c ;;;
                suffix <- number_literal_suffix NUM_SUFFIX_ALL ;;
                t <- tokenbuf_take ;;
                t <- set_integer_literal (t ++ bs "0") suffix ;;
                ret (inr t)
          end
      end
  end.

(** parse_numeric.rs 13-262 *)
Definition parse_numeric (prefix : N) : M Lexer Tok :=
  lex_state_set EXPR_END ;;;
  newtok ;;;
  c <- (if N.eqb prefix 45 || N.eqb prefix 43 then tokadd prefix ;;; nextc
        else ret (Some prefix)) ;;
  if mbeq c "0" then
    start <- gets toklen ;;
    c <- nextc ;;
    if mbeq c "x" || mbeq c "X" then based_number is_hexdigit c start
    else if mbeq c "b" || mbeq c "B" then based_number (fun c => mbeq c "0" || mbeq c "1") c start
    else if mbeq c "d" || mbeq c "D" then based_number is_digit c start
    else
      r <- leading_zero c start ;;
      match r with
      | inr t => ret t
      | inl (c, nondigit) => decimal_loop c nondigit
      end
  else decimal_loop c None.
