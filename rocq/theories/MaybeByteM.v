(** * Model of src/maybe_byte.rs

    [MaybeByte] is [option N]: [None] is [EndOfInput]. *)
Require Import Verif.Base.
Local Open Scope N_scope.

Definition MaybeByte := option N.

(** [PartialEq<u8> for MaybeByte], maybe_byte.rs 136-143. *)
Definition mbeq (c : MaybeByte) (b : N) : bool :=
  match c with Some x => N.eqb x b | None => false end.
Arguments mbeq c b%bn.

(** [PartialEq<Option<u8>> for MaybeByte], maybe_byte.rs 145-149 (both absent: equal). *)
Definition mbeq_opt (c : MaybeByte) (o : option N) : bool :=
  match c, o with
  | Some x, Some y => N.eqb x y
  | None, None => true
  | _, _ => false
  end.

(** maybe_byte.rs 13-15 *)
Definition is_eof (c : MaybeByte) : bool := match c with None => true | Some _ => false end.

(** Byte classes of [u8] in std. *)
Definition in_range (lo hi c : N) : bool := (lo <=? c) && (c <=? hi).
Arguments in_range lo%bn hi%bn c.
Definition b_is_ascii (c : N) : bool := c <? 128.
Definition b_is_digit (c : N) : bool := in_range "0" "9" c.
Definition b_is_upper (c : N) : bool := in_range "A" "Z" c.
Definition b_is_lower (c : N) : bool := in_range "a" "z" c.
Definition b_is_alpha (c : N) : bool := b_is_upper c || b_is_lower c.
Definition b_is_alnum (c : N) : bool := b_is_alpha c || b_is_digit c.
Definition b_is_hexdigit (c : N) : bool :=
  b_is_digit c || in_range "a" "f" c || in_range "A" "F" c.
(** [u8::is_ascii_whitespace]: space, \t, \n, \x0C, \r (not \x0B). *)
Definition b_is_ascii_whitespace (c : N) : bool :=
  N.eqb c 32 || N.eqb c 9 || N.eqb c 10 || N.eqb c 12 || N.eqb c 13.
(** maybe_byte.rs 74: space or \t..=\r *)
Definition b_is_space (c : N) : bool := N.eqb c 32 || in_range 9 13 c.
(** [char::is_control] on Latin-1: U+0000-001F, U+007F-009F. *)
Definition b_is_control (c : N) : bool := (c <? 32) || in_range 127 159 c.

Definition mb_test (p : N -> bool) (c : MaybeByte) : bool :=
  match c with Some x => p x | None => false end.
(** maybe_byte.rs 32-94 *)
Definition is_ascii (c : MaybeByte) : bool := mb_test b_is_ascii c.
Definition is_alpha (c : MaybeByte) : bool := mb_test b_is_alpha c.
Definition is_digit (c : MaybeByte) : bool := mb_test b_is_digit c.
Definition is_alnum (c : MaybeByte) : bool := mb_test b_is_alnum c.
Definition is_hexdigit (c : MaybeByte) : bool := mb_test b_is_hexdigit c.
Definition is_space (c : MaybeByte) : bool := mb_test b_is_space c.
Definition is_control (c : MaybeByte) : bool := mb_test b_is_control c.

(** maybe_byte.rs 7-10, 80-86 *)
Definition PUNCT : list N := bs "!""$&'*+,./0:;<=>?@\`~".
Definition is_global_name_punct (c : MaybeByte) : bool :=
  mb_test (fun x => existsb (N.eqb x) PUNCT) c.

(** maybe_byte.rs 96-101 *)
Definition mb_map (c : MaybeByte) (f : N -> MaybeByte) : MaybeByte :=
  match c with Some x => f x | None => None end.

(** maybe_byte.rs 103-123 *)
Definition escaped_control_code (c : MaybeByte) : option N :=
  if mbeq c 32 then Some "s"%bn
  else if mbeq c 10 then Some "n"%bn
  else if mbeq c 9 then Some "t"%bn
  else if mbeq c 11 then Some "v"%bn
  else if mbeq c 13 then Some "r"%bn
  else if mbeq c 12 then Some "f"%bn
  else None.

(** [PartialOrd<u8> for MaybeByte], maybe_byte.rs 157-164: end of input is less than every byte. *)
Definition mb_lt (c : MaybeByte) (b : N) : bool := match c with Some x => x <? b | None => true end.
Definition mb_le (c : MaybeByte) (b : N) : bool := match c with Some x => x <=? b | None => true end.
Definition mb_gt (c : MaybeByte) (b : N) : bool := match c with Some x => b <? x | None => false end.
Definition mb_ge (c : MaybeByte) (b : N) : bool := match c with Some x => b <=? x | None => false end.
Arguments mb_lt c b%bn.
Arguments mb_le c b%bn.
Arguments mb_gt c b%bn.
Arguments mb_ge c b%bn.
