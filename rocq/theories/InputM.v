(** * Model of src/source/{source_line,decoded_input,input,decoder,comment}.rs and src/loc_ext.rs *)
Require Import Verif.Base Verif.MaybeByteM Verif.Utf8M.

(** source_line.rs 4-13 *)
Record SourceLine : Type := mkLine {
  l_start : nat;
  l_end : nat;
  l_ends_with_eof : bool
}.

(** source_line.rs 17-19.  [end - start] cannot underflow for the lines built by [update_bytes]
    (theorem C01); users could mutate the public fields, which is not modelled. *)
Definition line_len (l : SourceLine) : nat := l_end l - l_start l.

(** source_line.rs 27-33.  [result -= 1] cannot underflow either (same theorem). *)
Definition line_end (l : SourceLine) : nat :=
  if negb (l_ends_with_eof l) then l_end l - 1 else l_end l.

(** decoded_input.rs 6-15 *)
Record DecodedInput : Type := mkInput {
  d_name : list N;
  d_lines : list SourceLine;
  d_bytes : list N
}.

(** decoded_input.rs 19-27 *)
Definition named (name : list N) : DecodedInput := mkInput name [] [].

(** The [for] loop of update_bytes, decoded_input.rs 47-58; [lines] is kept in order. *)
Fixpoint update_loop (bytes : list N) (idx : nat) (line : SourceLine) (lines : list SourceLine)
  : SourceLine * list SourceLine :=
  match bytes with
  | [] => (line, lines)
  | c :: rest =>
      let line := mkLine (l_start line) (idx + 1) (l_ends_with_eof line) in
      if N.eqb c 10 then
        update_loop rest (idx + 1) (mkLine (idx + 1) 0 true)
          (lines ++ [mkLine (l_start line) (l_end line) false])
      else update_loop rest (idx + 1) line lines
  end.

(** decoded_input.rs 39-65 *)
Definition update_bytes (bytes : list N) (d : DecodedInput) : DecodedInput :=
  let '(line, lines) := update_loop bytes 0 (mkLine 0 0 true) [] in
  let line := mkLine (l_start line) (List.length bytes) true in
  mkInput (d_name d) (lines ++ [line]) bytes.

(** The [for] loop of line_col_for_pos, decoded_input.rs 77-83. *)
Fixpoint line_col_loop (lines : list SourceLine) (lineno pos : nat) : option (nat * nat) :=
  match lines with
  | [] => None
  | line :: rest =>
      if pos <? line_len line then Some (lineno, pos)
      else line_col_loop rest (lineno + 1) (pos - line_len line)
  end.

(** decoded_input.rs 70-86 *)
Definition line_col_for_pos (d : DecodedInput) (pos : nat) : option (nat * nat) :=
  if pos =? List.length (d_bytes d) then
    match rev (d_lines d) with
    | last_line :: _ => Some (List.length (d_lines d) - 1, line_len last_line)
    | [] => None
    end
  else line_col_loop (d_lines d) 0 pos.

(** decoded_input.rs 88-90: [&self.lines[idx]] *)
Definition line_at (d : DecodedInput) (idx : nat) : option SourceLine := nth_error (d_lines d) idx.

(** decoded_input.rs 92-98 *)
Definition substr_at (d : DecodedInput) (start stop : nat) : option (list N) :=
  if (start <=? stop) && (stop <=? List.length (d_bytes d))
  then Some (firstn (stop - start) (skipn start (d_bytes d)))
  else None.

(** input.rs 30-36: [bytes.get(idx)] and [bytes[idx]] (the caller turns [None] into a panic) *)
Definition in_byte_at (d : DecodedInput) (idx : nat) : option N := nth_error (d_bytes d) idx.

(** ** Locations: src/loc_ext.rs *)
Record Loc : Type := mkLoc { loc_begin : nat; loc_end : nat }.

(** loc_ext.rs 15-17 *)
Definition begin_line_col (l : Loc) (d : DecodedInput) : option (nat * nat) :=
  line_col_for_pos d (loc_begin l).

(** loc_ext.rs 19-30; [line_at] panics on a bad index *)
Definition expand_to_line (l : Loc) : M DecodedInput (option (nat * Loc)) :=
  d <- get ;;
  match begin_line_col l d with
  | None => ret None
  | Some (line_no, _) =>
      line <- expect (line_at d line_no) "index out of bounds" ;;
      ret (Some (line_no, mkLoc (l_start line) (line_end line)))
  end.

(** loc_ext.rs 33-36, without the lossy UTF-8 conversion *)
Definition loc_source (l : Loc) (d : DecodedInput) : option (list N) :=
  substr_at d (loc_begin l) (loc_end l).

(** [Loc::size], [with_end], [join] of the external crate lib_ruby_parser_ast; the repository keeps their
    text in comments, loc_ext.rs 46-48, 59-64, 103-115. *)
Definition loc_size (l : Loc) : option nat :=
  if loc_begin l <=? loc_end l then Some (loc_end l - loc_begin l) else None.
Definition with_end (l : Loc) (e : nat) : Loc := mkLoc (loc_begin l) e.
Definition with_begin (l : Loc) (b : nat) : Loc := mkLoc b (loc_end l).
Definition loc_join (a b : Loc) : Loc :=
  mkLoc (Nat.min (loc_begin a) (loc_begin b)) (Nat.max (loc_end a) (loc_end b)).
Definition maybe_join (a : Loc) (b : option Loc) : Loc :=
  match b with Some b => loc_join a b | None => a end.

(** [adjust_end(-1)], loc_ext.rs 82-94: panics if the result is negative (inputs of 2^31 bytes or more,
    where the conversion to i32 also panics, are outside the model). *)
Definition adjust_end_m1 {S} (l : Loc) : M S Loc :=
  e <- sub_ck (loc_end l) 1 ;; ret (mkLoc (loc_begin l) e).

(** ** Comments: src/source/comment.rs *)
Inductive CommentType : Type := Inline | Document | Unknown.
Record Comment : Type := mkComment { cm_location : Loc; cm_kind : CommentType }.

Fixpoint starts_with (prefix l : list N) : bool :=
  match prefix, l with
  | [], _ => true
  | x :: p, y :: l' => N.eqb x y && starts_with p l'
  | _, [] => false
  end.

(** comment.rs 43-57 *)
Definition comment_new (location : Loc) (d : DecodedInput) : Comment :=
  let kind :=
    match loc_source location d with
    | Some source =>
        if starts_with (bs "#") source then Inline
        else if starts_with (bs "=begin") source then Document
        else Unknown
    | None => Unknown
    end in
  mkComment location kind.

(** ** Encodings: src/source/decoder.rs, src/source/input.rs *)

(** [str::to_uppercase] as far as it matters for the comparison with "UTF-8", "ASCII-8BIT" and "BINARY":
    ASCII letters, and the two non-ASCII letters whose uppercase form is a single ASCII letter:
    U+0131 (dotless i, bytes C4 B1) -> I and U+017F (long s, bytes C5 BF) -> S.  Every other non-ASCII
    character has an uppercase form that occurs in none of the three names. *)
Fixpoint to_uppercase (l : list N) : list N :=
  match l with
  | [] => []
  | c :: r =>
      if N.eqb c 196 then
        match r with
        | d :: r' => if N.eqb d 177 then "I"%bn :: to_uppercase r' else c :: to_uppercase r
        | [] => [c]
        end
      else if N.eqb c 197 then
        match r with
        | d :: r' => if N.eqb d 191 then "S"%bn :: to_uppercase r' else c :: to_uppercase r
        | [] => [c]
        end
      else (if b_is_lower c then (c - 32)%N else c) :: to_uppercase r
  end.

(** decoder.rs 90-101 *)
Definition decode_input (e : Env) (input enc : list N) : DecoderResult :=
  let up := to_uppercase enc in
  if bytes_eqb up (bs "UTF-8") || bytes_eqb up (bs "ASCII-8BIT") || bytes_eqb up (bs "BINARY")
  then DecOk input
  else match decoder e with
       | Some f => f enc input
       | None => DecErr (UnsupportedEncoding enc)
       end.

(** input.rs 65-74: [take_bytes] empties the bytes before decoding; the lines stay *)
Definition set_encoding (enc : list N) : M DecodedInput (option InputError) :=
  d <- get ;;
  e <- ask ;;
  let taken := d_bytes d in
  modify (fun d => mkInput (d_name d) (d_lines d) []) ;;;
  match decode_input e taken enc with
  | DecOk new_input => modify (update_bytes new_input) ;;; ret None
  | DecErr err => ret (Some err)
  end.
