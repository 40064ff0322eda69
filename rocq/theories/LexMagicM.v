(** * Model of src/lexer/parse_magic_comment.rs *)
Require Import Verif.Base Verif.MaybeByteM Verif.Utf8M Verif.InputM Verif.DiagnosticM Verif.LexStateM
  Verif.TokensM Verif.BufferM Verif.LexerM.

(** parse_magic_comment.rs 9-21 *)
Definition MAGIC_COMMENTS : list (list N * MagicCommentKind) := [
  (bs "coding", MC_Encoding);
  (bs "encoding", MC_Encoding);
  (bs "frozen_string_literal", MC_FrozenStringLiteral);
  (bs "shareable_constant_value", MC_ShareableConstantValue);
  (bs "warn_indent", MC_WarnIndent)].

(** The loop of comment_at_top, parse_magic_comment.rs 30-35; [n] is [ptr_end - ptr] *)
Fixpoint all_space (b : Buffer) (n ptr : nat) : bool :=
  match n with
  | O => true
  | S n => if negb (is_space (byte_at b ptr)) then false else all_space b n (ptr + 1)
  end.

(** parse_magic_comment.rs 24-37 *)
Definition comment_at_top : M Lexer bool :=
  b <- getb ;;
  ptr_end <- sub_ck (pcur b) 1 ;;
  if negb (line_count b =? (if has_shebang b then 2 else 1)) then ret false
  else ret (all_space b (ptr_end - pbeg b) (pbeg b)).

(** The first loop of set_file_encoding, parse_magic_comment.rs 42-88: [None] is the early return *)
Definition file_encoding_search (str_ send : nat) : M Lexer (option (nat * bool)) :=
  b <- getb ;;
  loop (fun '(str_, sep) =>
    rest <- sub_ck send str_ ;;
    if rest <=? 6 then ret (inr None)
    else
      let c := byte_at b (str_ + 6) in
      let found str_ (sep : bool) :=
        s6 <- sub_ck str_ 6 ;;
        if opt_bytes_eqb (b_substr_at b s6 str_) (bs "coding") then ret (inr (Some (str_, sep)))
        else ret (inl (str_, false)) in
      if mbeq c "C" || mbeq c "c" then ret (inl (str_ + 6, sep))
      else if mbeq c "O" || mbeq c "o" then ret (inl (str_ + 5, sep))
      else if mbeq c "D" || mbeq c "d" then ret (inl (str_ + 4, sep))
      else if mbeq c "I" || mbeq c "i" then ret (inl (str_ + 3, sep))
      else if mbeq c "N" || mbeq c "n" then ret (inl (str_ + 2, sep))
      else if mbeq c "G" || mbeq c "g" then ret (inl (str_ + 1, sep))
      else if mbeq c "=" || mbeq c ":" then found (str_ + 6) true
      else if is_space (byte_at b (str_ + 6)) then found (str_ + 6) sep
      else ret (inl (str_ + 6, sep)))
    (str_, false).

(** parse_magic_comment.rs 90-98: [None] is the early return *)
Definition file_encoding_spaces (str_ send : nat) : M Lexer (option nat) :=
  b <- getb ;;
  loop (fun str_ =>
    let str_ := str_ + 1 in
    if send <=? str_ then ret (inr None)
    else if negb (is_space (byte_at b str_)) then ret (inr (Some str_))
    else ret (inl str_)) str_.

(** parse_magic_comment.rs 39-122.  It has no effect except that it may panic. *)
Definition set_file_encoding (str_ send : nat) : M Lexer unit :=
  r <- file_encoding_search str_ send ;;
  match r with
  | None => ret tt
  | Some (str_, sep) =>
      r <- loop (fun '(str_, sep) =>
             r <- file_encoding_spaces str_ send ;;
             match r with
             | None => ret (inr None)
             | Some str_ =>
                 if sep : bool then ret (inr (Some str_))
                 else
                   c <- gets (fun s => char_at s str_) ;;
                   if negb (mbeq c "=") && negb (mbeq c ":") then ret (inr None)
                   else ret (inl (str_ + 1, true))
             end) (str_, sep) ;;
      match r with
      | None => ret tt
      | Some beg =>
          b <- getb ;;
          stop <- loop (fun str_ =>
                    let c := byte_at b str_ in
                    if mbeq c "-" || mbeq c "_" || (is_alnum c && (str_ + 1 <? send))
                    then ret (inl (str_ + 1)) else ret (inr str_)) beg ;;
          expect (b_substr_at b beg stop) "failed to get encoding comment value" ;;;
          ret tt
      end
  end.

(** parse_magic_comment.rs 124-151; [str_ + i - 1] and [str_ + i - 2] do not underflow because [i >= 2] *)
Definition magic_comment_marker (str_ len : nat) : M Lexer nat :=
  b <- getb ;;
  loop (fun i =>
    if len <=? i then ret (inr 0)
    else
      let c := byte_at b (str_ + i) in
      if mbeq c "-" then
        if mbeq (byte_at b (str_ + i - 1)) "*" && mbeq (byte_at b (str_ + i - 2)) "-"
        then ret (inr (str_ + i + 1)) else ret (inl (i + 2))
      else if mbeq c "*" then
        if len <=? i + 1 then ret (inr 0)
        else if negb (mbeq (byte_at b (str_ + i + 1)) "-") then ret (inl (i + 4))
        else if negb (mbeq (byte_at b (str_ + i - 1)) "-") then ret (inl (i + 2))
        else ret (inr (str_ + i + 2))
      else ret (inl (i + 3))) 2.

(** quote, colon or semicolon *)
Definition mc_special (c : MaybeByte) : bool :=
  mbeq c "'" || mbeq c """" || mbeq c ":" || mbeq c ";".

(** The scanning loops of magic_comment; each returns the new [str_] and [len].
    parse_magic_comment.rs 177-196 *)
Definition mc_skip_junk (b : Buffer) (str_ : nat) (len : Z) : M Lexer (nat * Z) :=
  loop (fun '(str_, len) =>
    let c := byte_at b str_ in
    if negb (Z.ltb 0 len && negb (is_eof c)) then ret (inr (str_, len))
    else if mc_special c || is_space c then ret (inl (str_ + 1, (len - 1)%Z))
    else ret (inr (str_, len))) (str_, len).

(** parse_magic_comment.rs 199-218 *)
Definition mc_scan_name (b : Buffer) (str_ : nat) (len : Z) : M Lexer (nat * Z) :=
  loop (fun '(str_, len) =>
    if Z.leb len 0 then ret (inr (str_, len))
    else
      let c := byte_at b str_ in
      if mc_special c || is_space c then ret (inr (str_, len))
      else ret (inl (str_ + 1, (len - 1)%Z))) (str_, len).

(** parse_magic_comment.rs 221-231, 299-302 *)
Definition mc_skip_space (b : Buffer) (str_ : nat) (len : Z) : M Lexer (nat * Z) :=
  loop (fun '(str_, len) =>
    if Z.ltb 0 len && is_space (byte_at b str_) then ret (inl (str_ + 1, (len - 1)%Z))
    else ret (inr (str_, len))) (str_, len).

(** parse_magic_comment.rs 243-250 *)
Definition mc_after_colon (b : Buffer) (str_ : nat) (len : Z) : M Lexer (nat * Z) :=
  loop (fun '(str_, len) =>
    let str_ := str_ + 1 in
    let len := (len - 1)%Z in
    if Z.ltb 0 len && is_space (byte_at b str_) then ret (inl (str_, len))
    else ret (inr (str_, len))) (str_, len).

(** parse_magic_comment.rs 258-271 *)
Definition mc_quoted (b : Buffer) (str_ : nat) (len : Z) : M Lexer (nat * Z) :=
  loop (fun '(str_, len) =>
    let c := byte_at b str_ in
    let len := (len - 1)%Z in
    if negb (Z.ltb 0 len && negb (mbeq c """")) then ret (inr (str_, len))
    else if mbeq c "\" then ret (inl (str_ + 2, (len - 1)%Z))
    else ret (inl (str_ + 1, len))) (str_, len).

(** parse_magic_comment.rs 280-290 *)
Definition mc_bare (b : Buffer) (str_ : nat) (len : Z) : M Lexer (nat * Z) :=
  loop (fun '(str_, len) =>
    let c := byte_at b str_ in
    if negb (Z.ltb 0 len && negb (mbeq c """") && negb (mbeq c ";") && negb (is_space c))
    then ret (inr (str_, len))
    else ret (inl (str_ + 1, (len - 1)%Z))) (str_, len).

(** parse_magic_comment.rs 294-297 *)
Definition mc_skip_semi (b : Buffer) (str_ : nat) (len : Z) : M Lexer (nat * Z) :=
  loop (fun '(str_, len) =>
    if Z.ltb 0 len && (mbeq (byte_at b str_) ";" || is_space (byte_at b str_))
    then ret (inl (str_ + 1, (len - 1)%Z))
    else ret (inr (str_, len))) (str_, len).

(** [name.replace('-', "_")] *)
Definition dash_to_underscore (l : list N) : list N := map (fun c => if N.eqb c 45 then 95%N else c) l.

(** The value part, parse_magic_comment.rs 254-292: (vbeg, vend, str_, len) *)
Definition mc_value (b : Buffer) (str_ : nat) (len : Z) : M Lexer (nat * nat * nat * Z) :=
  if mbeq (byte_at b str_) """" then
    let vbeg := str_ + 1 in
    '(str_, len) <- mc_quoted b vbeg len ;;
    let vend := str_ in
    if negb (Z.eqb len 0) then ret (vbeg, vend, str_ + 1, (len - 1)%Z)
    else ret (vbeg, vend, str_, len)
  else
    let vbeg := str_ in
    '(str_, len) <- mc_bare b vbeg len ;;
    ret (vbeg, str_, str_, len).

(** The encoding change, parse_magic_comment.rs 320-354: [false] is [return Err(())] *)
Definition mc_set_encoding (vbeg vend : nat) : M Lexer bool :=
  b <- getb ;;
  enc <- expect (b_substr_at b vbeg vend) "bug: Can't be None" ;;
  if utf8_valid enc then
    r <- inb (b_set_encoding enc) ;;
    match r with
    | None => ret true
    | Some err => yyerror1 (EncodingErrorInput err) (mkLoc vbeg vend) ;;; ret false
    end
  else yyerror1 (EncodingErrorUnknownName enc) (mkLoc vbeg vend) ;;; ret false.

(** The [for] loop over MAGIC_COMMENTS, parse_magic_comment.rs 318-366: [false] is [return Err(())] *)
Fixpoint mc_register (table : list (list N * MagicCommentKind)) (name : list N)
    (beg n vbeg vend : nat) : M Lexer bool :=
  match table with
  | [] => ret true
  | (key, kind) :: rest =>
      if bytes_eqb name key then
        top <- (match kind with MC_Encoding => comment_at_top | _ => ret false end) ;;
        ok <- (if top : bool then mc_set_encoding vbeg vend else ret true) ;;
        if negb ok then ret false
        else
          modify (fun s => set_magic_comments
            (magic_comments s ++ [mkMagic kind (mkLoc beg (beg + n)) (mkLoc vbeg vend)]) s) ;;;
          mc_register rest name beg n vbeg vend
      else mc_register rest name beg n vbeg vend
  end.

(** Results of [Result<bool, ()>] *)
Inductive MagicRes : Type := MagicOk (found : bool) | MagicErr.

(** One iteration of the main loop, parse_magic_comment.rs 176-367 *)
Definition magic_comment_body (indicator : bool) (st : nat * Z) : M Lexer ((nat * Z) + MagicRes) :=
  let '(str_, len) := st in
  if Z.leb len 0 then ret (inr (MagicOk true))
  else
    b <- getb ;;
    '(str_, len) <- mc_skip_junk b str_ len ;;
    let beg := str_ in
    '(str_, len) <- mc_scan_name b str_ len ;;
    let stop := str_ in
    '(str_, len) <- mc_skip_space b str_ len ;;
    if Z.eqb len 0 then ret (inr (MagicOk true))
    else if negb (mbeq (byte_at b str_) ":") then
      if negb indicator then ret (inr (MagicOk false)) else ret (inl (str_, len))
    else
      '(str_, len) <- mc_after_colon b str_ len ;;
      if Z.eqb len 0 then ret (inr (MagicOk true))
      else
        '(vbeg, vend, str_, len) <- mc_value b str_ len ;;
        '(str_, len) <- (if indicator then mc_skip_semi b str_ len else mc_skip_space b str_ len) ;;
        if negb indicator && negb (Z.eqb len 0) then ret (inr (MagicOk false))
        else
          n <- sub_ck stop beg ;;
          name <- expect (b_substr_at b beg (beg + n)) "failed to get magic comment name" ;;
          if negb (utf8_valid name) then ret (inr MagicErr)
          else
            ok <- mc_register MAGIC_COMMENTS (dash_to_underscore name) beg n vbeg vend ;;
            if ok : bool then ret (inl (str_, len)) else ret (inr MagicErr).

(** parse_magic_comment.rs 153-370.  [len.try_into().unwrap()] to [i32] is the identity (inputs below 2^31
    bytes). *)
Definition magic_comment (str_ len : nat) : M Lexer MagicRes :=
  if len <=? 7 then ret (MagicOk false)
  else
    beg <- magic_comment_marker str_ len ;;
    if beg =? 0 then loop (magic_comment_body false) (str_, Z.of_nat len)
    else
      room <- sub_ck (str_ + len) beg ;;
      stop <- magic_comment_marker beg room ;;
      if stop =? 0 then ret (MagicOk false)
      else
        len <- sub_ck stop beg ;;
        len <- sub_ck len 3 ;;
        loop (magic_comment_body true) (beg, Z.of_nat len).
