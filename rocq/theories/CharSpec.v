(** * Character literals: the text behind a question mark, and the byte or character it denotes *)
Require Import Verif.Base Verif.InputM Verif.DiagnosticM Verif.IdentSpec Verif.StringSpec.
Require Verif.LexSpec.

(** [txt] stands behind a question mark and ends before position [z] of the program [B]; it denotes the bytes [v] *)
Inductive character (B : list N) (z : nat) : list N -> list N -> Prop :=
| ch_plain : forall c, (c < 128)%N -> ~ white_byte c -> c <> 92%N -> (letter c \/ digit c -> name_ends B z) -> character B z [c] [c]
| ch_wide : forall u, wide_char u -> character B z u u
| ch_escape : forall w v nxt, nth_error B z = Some nxt -> escaped_byte nxt false false w v -> character B z (92%N :: w) [v]
| ch_escaped_wide : forall u, wide_char u -> character B z (92%N :: u) u.

(** Escapes that name a code point: the text behind the question mark, and the code point *)
Inductive code_escape : list N -> N -> Prop :=
| ce_four : forall ds, Forall hexadecimal ds -> List.length ds = 4 -> code_escape (92 :: 117 :: ds)%N (hex_number ds)
| ce_braces : forall gap ds gap', Forall gap_byte gap -> Forall hexadecimal ds -> 1 <= List.length ds <= 6 -> Forall gap_byte gap' ->
    code_escape ([92; 117; 123]%N ++ gap ++ ds ++ gap' ++ [125%N]) (hex_number ds).

(** What the warning about a white space character shows: the number of the letter that escapes it (not the letter, see C56 in DESIGN.md) *)
Inductive space_letter : N -> list N -> Prop :=
| sl_space : space_letter 32 (bs "115")
| sl_tab : space_letter 9 (bs "116")
| sl_vertical : space_letter 11 (bs "118")
| sl_feed : space_letter 12 (bs "102").

(** A question mark at [q] outside an end of an expression that starts no character literal, and what is reported.  [spaced] tells whether
    white space stands before it, and [argument] whether an argument can start here. *)
Inductive conditional (B : list N) (q : nat) (spaced argument : Prop) : list Diagnostic -> Prop :=
| co_name : forall c x, nth_error B (q + 1) = Some c -> letter c \/ digit c -> nth_error B (q + 2) = Some x -> letter x \/ digit x \/ (128 <= x)%N ->
    ~ spaced -> conditional B q spaced argument []
| co_spaced_name : forall c w, letter c \/ digit c -> name_tail w -> w <> [] -> LexSpec.text_at B (q + 1) (c :: w) -> name_ends B (q + 2 + List.length w) ->
    spaced -> conditional B q spaced argument [mkDiag Warning (AmbiguousTernaryOperator (c :: w)) (mkLoc q (q + 1))]
| co_space : forall c l, nth_error B (q + 1) = Some c -> space_letter c l -> argument -> conditional B q spaced argument []
| co_odd_space : forall c l, nth_error B (q + 1) = Some c -> space_letter c l -> ~ argument ->
    conditional B q spaced argument [mkDiag Warning (InvalidCharacterSyntax (63 :: 92 :: l)%N) (mkLoc q (q + 2))].
