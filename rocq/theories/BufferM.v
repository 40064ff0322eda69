(** * Model of src/source/buffer.rs: the character reader *)
Require Import Verif.Base Verif.MaybeByteM Verif.InputM.

(** buffer.rs 9-38.  [tokidx] and [tokline] are written but never read and are left out; the [decoder] of
    [Input] (input.rs 8-12) is in the environment. *)
Record Buffer : Type := mkBuffer {
  input : DecodedInput;
  line_count : nat;
  prevline : option nat;
  lastline : nat;
  nextline : nat;
  pbeg : nat;
  pcur : nat;
  pend : nat;
  ptok : nat;
  eofp : bool;
  cr_seen : bool;
  heredoc_end : nat;
  heredoc_indent : Z;
  heredoc_line_indent : Z;
  has_shebang : bool;
  ruby_sourceline : nat
}.

(** Field updates ([self.f = v]) *)
Definition set_input (v : DecodedInput) (s : Buffer) : Buffer :=
  mkBuffer v (line_count s) (prevline s) (lastline s) (nextline s) (pbeg s) (pcur s) (pend s) (ptok s) (eofp s) (cr_seen s) (heredoc_end s) (heredoc_indent s) (heredoc_line_indent s) (has_shebang s) (ruby_sourceline s).
Definition set_line_count (v : nat) (s : Buffer) : Buffer :=
  mkBuffer (input s) v (prevline s) (lastline s) (nextline s) (pbeg s) (pcur s) (pend s) (ptok s) (eofp s) (cr_seen s) (heredoc_end s) (heredoc_indent s) (heredoc_line_indent s) (has_shebang s) (ruby_sourceline s).
Definition set_prevline (v : option nat) (s : Buffer) : Buffer :=
  mkBuffer (input s) (line_count s) v (lastline s) (nextline s) (pbeg s) (pcur s) (pend s) (ptok s) (eofp s) (cr_seen s) (heredoc_end s) (heredoc_indent s) (heredoc_line_indent s) (has_shebang s) (ruby_sourceline s).
Definition set_lastline (v : nat) (s : Buffer) : Buffer :=
  mkBuffer (input s) (line_count s) (prevline s) v (nextline s) (pbeg s) (pcur s) (pend s) (ptok s) (eofp s) (cr_seen s) (heredoc_end s) (heredoc_indent s) (heredoc_line_indent s) (has_shebang s) (ruby_sourceline s).
Definition set_nextline (v : nat) (s : Buffer) : Buffer :=
  mkBuffer (input s) (line_count s) (prevline s) (lastline s) v (pbeg s) (pcur s) (pend s) (ptok s) (eofp s) (cr_seen s) (heredoc_end s) (heredoc_indent s) (heredoc_line_indent s) (has_shebang s) (ruby_sourceline s).
Definition set_pbeg (v : nat) (s : Buffer) : Buffer :=
  mkBuffer (input s) (line_count s) (prevline s) (lastline s) (nextline s) v (pcur s) (pend s) (ptok s) (eofp s) (cr_seen s) (heredoc_end s) (heredoc_indent s) (heredoc_line_indent s) (has_shebang s) (ruby_sourceline s).
Definition set_pcur (v : nat) (s : Buffer) : Buffer :=
  mkBuffer (input s) (line_count s) (prevline s) (lastline s) (nextline s) (pbeg s) v (pend s) (ptok s) (eofp s) (cr_seen s) (heredoc_end s) (heredoc_indent s) (heredoc_line_indent s) (has_shebang s) (ruby_sourceline s).
Definition set_pend (v : nat) (s : Buffer) : Buffer :=
  mkBuffer (input s) (line_count s) (prevline s) (lastline s) (nextline s) (pbeg s) (pcur s) v (ptok s) (eofp s) (cr_seen s) (heredoc_end s) (heredoc_indent s) (heredoc_line_indent s) (has_shebang s) (ruby_sourceline s).
Definition set_ptok (v : nat) (s : Buffer) : Buffer :=
  mkBuffer (input s) (line_count s) (prevline s) (lastline s) (nextline s) (pbeg s) (pcur s) (pend s) v (eofp s) (cr_seen s) (heredoc_end s) (heredoc_indent s) (heredoc_line_indent s) (has_shebang s) (ruby_sourceline s).
Definition set_eofp (v : bool) (s : Buffer) : Buffer :=
  mkBuffer (input s) (line_count s) (prevline s) (lastline s) (nextline s) (pbeg s) (pcur s) (pend s) (ptok s) v (cr_seen s) (heredoc_end s) (heredoc_indent s) (heredoc_line_indent s) (has_shebang s) (ruby_sourceline s).
Definition set_cr_seen (v : bool) (s : Buffer) : Buffer :=
  mkBuffer (input s) (line_count s) (prevline s) (lastline s) (nextline s) (pbeg s) (pcur s) (pend s) (ptok s) (eofp s) v (heredoc_end s) (heredoc_indent s) (heredoc_line_indent s) (has_shebang s) (ruby_sourceline s).
Definition set_heredoc_end (v : nat) (s : Buffer) : Buffer :=
  mkBuffer (input s) (line_count s) (prevline s) (lastline s) (nextline s) (pbeg s) (pcur s) (pend s) (ptok s) (eofp s) (cr_seen s) v (heredoc_indent s) (heredoc_line_indent s) (has_shebang s) (ruby_sourceline s).
Definition set_heredoc_indent (v : Z) (s : Buffer) : Buffer :=
  mkBuffer (input s) (line_count s) (prevline s) (lastline s) (nextline s) (pbeg s) (pcur s) (pend s) (ptok s) (eofp s) (cr_seen s) (heredoc_end s) v (heredoc_line_indent s) (has_shebang s) (ruby_sourceline s).
Definition set_heredoc_line_indent (v : Z) (s : Buffer) : Buffer :=
  mkBuffer (input s) (line_count s) (prevline s) (lastline s) (nextline s) (pbeg s) (pcur s) (pend s) (ptok s) (eofp s) (cr_seen s) (heredoc_end s) (heredoc_indent s) v (has_shebang s) (ruby_sourceline s).
Definition set_has_shebang (v : bool) (s : Buffer) : Buffer :=
  mkBuffer (input s) (line_count s) (prevline s) (lastline s) (nextline s) (pbeg s) (pcur s) (pend s) (ptok s) (eofp s) (cr_seen s) (heredoc_end s) (heredoc_indent s) (heredoc_line_indent s) v (ruby_sourceline s).
Definition set_ruby_sourceline (v : nat) (s : Buffer) : Buffer :=
  mkBuffer (input s) (line_count s) (prevline s) (lastline s) (nextline s) (pbeg s) (pcur s) (pend s) (ptok s) (eofp s) (cr_seen s) (heredoc_end s) (heredoc_indent s) (heredoc_line_indent s) (has_shebang s) v.

(** [Buffer::default()] with the given input *)
Definition buffer_default (d : DecodedInput) : Buffer :=
  mkBuffer d 0 None 0 0 0 0 0 0 false false 0 0%Z 0%Z false 0.

Definition bytes (b : Buffer) : list N := d_bytes (input b).

(** buffer.rs 214-219 *)
Definition byte_at (b : Buffer) (idx : nat) : MaybeByte := in_byte_at (input b) idx.

(** buffer.rs 221-223 *)
Definition b_substr_at (b : Buffer) (start stop : nat) : option (list N) :=
  substr_at (input b) start stop.

(** buffer.rs 113-115 *)
Definition goto_eol (b : Buffer) : Buffer := set_pcur (pend b) b.

(** buffer.rs 117-123 *)
Definition is_eol (b : Buffer) : bool := pend b <=? pcur b.
Definition is_eol_n (b : Buffer) (n : nat) : bool := pend b <=? pcur b + n.

(** buffer.rs 125-130; [unchecked_byte_at] panics out of range *)
Definition b_peek_n (c : N) (n : nat) : M Buffer bool :=
  b <- get ;;
  if is_eol_n b n then ret false
  else x <- expect (in_byte_at (input b) (pcur b + n)) "index out of bounds" ;; ret (N.eqb c x).
Definition b_peek (c : N) : M Buffer bool := b_peek_n c 0.
Arguments b_peek_n c%bn n.
Arguments b_peek c%bn.

(** buffer.rs 131-140 *)
Definition peekc_n (b : Buffer) (n : nat) : MaybeByte :=
  if is_eol_n b n then None else byte_at b (pcur b + n).
Definition peekc (b : Buffer) : MaybeByte := peekc_n b 0.

(** buffer.rs 197-204 *)
Definition b_token_flush (b : Buffer) : Buffer := set_ptok (pcur b) b.

(** buffer.rs 187-195: [inl line] is [Ok(line)], [inr tt] is [Err(())] *)
Definition getline : M Buffer (nat + unit) :=
  b <- get ;;
  if line_count b <? List.length (d_lines (input b)) then
    modify (set_line_count (line_count b + 1)) ;;;
    ret (inl (line_count b))
  else ret (inr tt).

(** The tail of nextline, buffer.rs 170-184: load line [v] *)
Definition load_line (v : nat) : M Buffer bool :=
  b <- get ;;
  line <- expect (line_at (input b) v) "index out of bounds" ;;
  when (0 <? heredoc_end b)
    (modify (fun b => set_heredoc_end 0 (set_ruby_sourceline (heredoc_end b) b))) ;;;
  modify (fun b => set_ruby_sourceline (ruby_sourceline b + 1) b) ;;;
  modify (fun b => set_pend (l_end line) (set_pcur (l_start line) (set_pbeg (l_start line) b))) ;;;
  modify b_token_flush ;;;
  modify (fun b => set_lastline v (set_prevline (Some (lastline b)) b)) ;;;
  ret true.

(** buffer.rs 142-185: [true] is [Ok(())], [false] is [Err(())] *)
Definition b_nextline : M Buffer bool :=
  b <- get ;;
  let v := nextline b in
  modify (set_nextline 0) ;;;
  if v =? 0 then
    if eofp b then ret false
    else
      no_newline <-
        (if pbeg b <? pend b then
           x <- expect (in_byte_at (input b) (pend b - 1)) "index out of bounds" ;;
           ret (negb (N.eqb x 10))
         else ret false) ;;
      if no_newline : bool then
        modify (fun b => goto_eol (set_eofp true b)) ;;; ret false
      else
        r <- getline ;;
        match r with
        | inl line => modify (set_cr_seen false) ;;; load_line line
        | inr _ => modify (fun b => goto_eol (set_eofp true b)) ;;; ret false
        end
  else load_line v.

(** buffer.rs 206-212 *)
Definition parser_cr (c : N) : M Buffer N :=
  p <- b_peek 10%N ;;
  if p : bool then modify (fun b => set_pcur (pcur b + 1) b) ;;; ret 10%N
  else ret c.

(** buffer.rs 93-111 *)
Definition b_nextc : M Buffer MaybeByte :=
  b <- get ;;
  go <- (if (pcur b =? pend b) || eofp b || negb (nextline b =? 0) then b_nextline else ret true) ;;
  if negb go then ret None
  else
    b <- get ;;
    match in_byte_at (input b) (pcur b) with
    | None => ret None
    | Some c =>
        modify (fun b => set_pcur (pcur b + 1) b) ;;;
        c <- (if N.eqb c 13 then parser_cr c else ret c) ;;
        ret (Some c)
    end.

(** [Pushback<u8>], buffer.rs 334-345 (the byte itself is only printed in debug builds) *)
Definition pushback_byte : M Buffer unit :=
  b <- get ;;
  p <- sub_ck (pcur b) 1 ;;
  modify (set_pcur p) ;;;
  b <- get ;;
  if (pbeg b <? pcur b) && mbeq (byte_at b (pcur b)) 10%N then
    q <- sub_ck (pcur b) 1 ;;
    if mbeq (byte_at b q) 13%N then modify (set_pcur q) else ret tt
  else ret tt.

(** [Pushback<MaybeByte>], buffer.rs 347-365 *)
Definition b_pushback (c : MaybeByte) : M Buffer unit :=
  match c with Some _ => pushback_byte | None => ret tt end.

(** buffer.rs 225-227 *)
Definition was_bol (b : Buffer) : bool := pcur b =? pbeg b + 1.

Definition opt_bytes_eqb (o : option (list N)) (w : list N) : bool :=
  match o with Some x => bytes_eqb x w | None => false end.

(** buffer.rs 229-246; CTRL_Z_CHAR = 0x1a, CTRL_D_CHAR = 0x04 *)
Definition is_word_match (b : Buffer) (word : list N) : bool :=
  let len := List.length word in
  if negb (opt_bytes_eqb (b_substr_at b (pcur b) (pcur b + len)) word) then false
  else if pcur b + len =? pend b then true
  else
    let c := byte_at b (pcur b + len) in
    is_space c || mbeq c 0%N || mbeq c 26%N || mbeq c 4%N.

(** buffer.rs 248-261.  The loop runs over [ptr = pcur .. pend]; [n] is [pend - ptr]. *)
Fixpoint looking_at_eol_from (b : Buffer) (n ptr : nat) : bool :=
  match n with
  | O => true
  | S n' =>
      match in_byte_at (input b) ptr with
      | Some c =>
          let eol := N.eqb c 10 || N.eqb c 35 in
          if eol || negb (b_is_ascii_whitespace c) then eol
          else looking_at_eol_from b n' (ptr + 1)
      | None => looking_at_eol_from b n' (ptr + 1)
      end
  end.
Definition is_looking_at_eol (b : Buffer) : bool :=
  looking_at_eol_from b (pend b - pcur b) (pcur b).

(** The [while let] loop of is_whole_match, buffer.rs 268-273: number of leading whitespace bytes of
    [rest = bytes[ptr..]] (it does not stop at [pend]). *)
Fixpoint skip_ws (rest : list N) : nat :=
  match rest with
  | c :: r => if b_is_ascii_whitespace c then S (skip_ws r) else 0
  | [] => 0
  end.

(** buffer.rs 263-301.  [isize::try_from] cannot fail for [pend < 2^63], and [n] is not negative. *)
Definition is_whole_match (b : Buffer) (eos : list N) (indent : bool) : bool :=
  let ptr := if indent then pbeg b + skip_ws (skipn (pbeg b) (bytes b)) else pbeg b in
  let len := List.length eos in
  if pend b <? ptr + len then false
  else
    let n := pend b - (ptr + len) in
    let last_char := byte_at b (ptr + len) in
    let char_after_last_char := byte_at b (ptr + len + 1) in
    if (0 <? n) && negb (mbeq last_char 10%N)
       && (negb (mbeq last_char 13%N) || (n <=? 1) || negb (mbeq char_after_last_char 10%N))
    then false
    else opt_bytes_eqb (b_substr_at b ptr (ptr + len)) eos.

(** buffer.rs 303-314 *)
Definition eof_no_decrement : M Buffer unit :=
  b <- get ;;
  match prevline b with
  | Some prevline => when (negb (eofp b)) (modify (set_lastline prevline))
  | None => ret tt
  end ;;;
  b <- get ;;
  line <- expect (line_at (input b) (lastline b)) "index out of bounds" ;;
  modify (set_pbeg (l_start line)) ;;;
  modify (fun b => set_pend (pbeg b + line_len line) b) ;;;
  modify (fun b => set_pcur (pend b) b) ;;;
  pushback_byte ;;;
  modify (fun b => set_ptok (pcur b) b).

(** buffer.rs 316-323 *)
Definition b_is_identchar (b : Buffer) (begin : nat) : bool :=
  match in_byte_at (input b) begin with
  | Some byte => b_is_alnum byte || N.eqb byte 95 || negb (b_is_ascii byte)
  | None => false
  end.

(** buffer.rs 325-327 *)
Definition b_set_encoding (enc : list N) : M Buffer (option InputError) :=
  zoom input set_input (set_encoding enc).

(** prepare, buffer.rs 67-91 *)
Definition prepare : M Buffer unit :=
  c <- b_nextc ;;
  if is_eof c then ret tt
  else if mbeq c "#" then
    p <- b_peek "!" ;;
    when p (modify (set_has_shebang true)) ;;;
    b_pushback c
  else if mbeq c 239%N then
    b <- get ;;
    room <- sub_ck (pend b) (pcur b) ;;
    if (2 <=? room) && mbeq (byte_at b (pcur b)) 187%N && mbeq (byte_at b (pcur b + 1)) 191%N then
      modify (fun b => set_pcur (pcur b + 2) b) ;;;
      modify (fun b => set_pbeg (pcur b) b)
    else b_pushback c
  else b_pushback c.

(** buffer.rs 52-65 *)
Definition buffer_new (name bytes : list N) : M Buffer unit :=
  modify (fun _ => buffer_default (update_bytes bytes (named name))) ;;;
  prepare.
