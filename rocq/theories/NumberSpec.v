(** * Specification of number literals, as regular sets of byte strings *)
Require Import Verif.Base Verif.TokensM.

(** Digits of class [P], single underscores allowed between two digits: what may follow a first digit *)
Inductive more (P : N -> Prop) : list N -> Prop :=
| more_nil : more P []
| more_digit : forall d w, P d -> more P w -> more P (d :: w)
| more_score : forall d w, P d -> more P w -> more P (95%N :: d :: w).

Definition digit_run (P : N -> Prop) (w : list N) : Prop := exists d r, w = d :: r /\ P d /\ more P r.

Definition dec (c : N) : Prop := (48 <= c <= 57)%N.
Definition oct (c : N) : Prop := (48 <= c <= 55)%N.
Definition bin (c : N) : Prop := (48 <= c <= 49)%N.
Definition hex (c : N) : Prop := dec c \/ (97 <= c <= 102)%N \/ (65 <= c <= 70)%N.

(** The integer part of a decimal literal: 0, or a digit run that does not start with 0 *)
Inductive int_part : list N -> Prop :=
| ip_zero : int_part (bs "0")
| ip_run : forall d r, (49 <= d <= 57)%N -> more dec r -> int_part (d :: r).

(** A fraction, possibly absent *)
Definition opt_fraction (w : list N) : Prop := w = [] \/ exists f, w = 46%N :: f /\ digit_run dec f.
Definition exponent (w : list N) : Prop :=
  exists m sg x, w = m :: sg ++ x /\ (m = 101 \/ m = 69)%N /\ (sg = [] \/ sg = bs "+" \/ sg = bs "-") /\ digit_run dec x.

(** The kind of a literal with a suffix, where [k] is the kind without suffix *)
Inductive suffix_kind (k : Tok) : list N -> Tok -> Prop :=
| sk_none : suffix_kind k [] k
| sk_r : suffix_kind k (bs "r") tRATIONAL
| sk_i : suffix_kind k (bs "i") tIMAGINARY
| sk_ri : suffix_kind k (bs "ri") tIMAGINARY.
Inductive imaginary_kind (k : Tok) : list N -> Tok -> Prop :=
| ik_none : imaginary_kind k [] k
| ik_i : imaginary_kind k (bs "i") tIMAGINARY.

Inductive decimal_literal : list N -> Tok -> Prop :=
| dl_int : forall i suf k, int_part i -> suffix_kind tINTEGER suf k -> decimal_literal (i ++ suf) k
| dl_frac : forall i f suf k, int_part i -> digit_run dec f -> suffix_kind tFLOAT suf k ->
    decimal_literal (i ++ bs "." ++ f ++ suf) k
| dl_exp : forall i fr x suf k, int_part i -> opt_fraction fr -> exponent x -> imaginary_kind tFLOAT suf k ->
    decimal_literal (i ++ fr ++ x ++ suf) k.

(** Prefixed literals.  An octal literal may have an underscore after its 0. *)
Inductive prefixed_literal : list N -> Tok -> Prop :=
| pl_hex : forall m w suf k, (m = 120 \/ m = 88)%N -> digit_run hex w -> suffix_kind tINTEGER suf k ->
    prefixed_literal (48%N :: m :: w ++ suf) k
| pl_bin : forall m w suf k, (m = 98 \/ m = 66)%N -> digit_run bin w -> suffix_kind tINTEGER suf k ->
    prefixed_literal (48%N :: m :: w ++ suf) k
| pl_dec : forall m w suf k, (m = 100 \/ m = 68)%N -> digit_run dec w -> suffix_kind tINTEGER suf k ->
    prefixed_literal (48%N :: m :: w ++ suf) k
| pl_oct : forall m w suf k, (m = 111 \/ m = 79)%N -> digit_run oct w -> suffix_kind tINTEGER suf k ->
    prefixed_literal (48%N :: m :: w ++ suf) k
| pl_oct0 : forall w suf k, w <> [] -> more oct w -> suffix_kind tINTEGER suf k ->
    prefixed_literal (48%N :: w ++ suf) k.

(** What may stand after a number, at position [q] of source [B]: not a letter, digit, underscore or non-ASCII
    byte, and a dot only if no digit follows it *)
Definition name_byte (c : N) : Prop :=
  (48 <= c <= 57 \/ 65 <= c <= 90 \/ 97 <= c <= 122 \/ c = 95 \/ 128 <= c)%N.
Definition number_ends (B : list N) (q : nat) : Prop :=
  forall c, nth_error B q = Some c -> ~ name_byte c /\
    (c = 46%N -> forall d, nth_error B (q + 1) = Some d -> ~ dec d).
