(** * The text of regular expressions, and what the tokens hold of it

    A specification of its own: the pieces the source of a regular expression is made of, and the text each piece stands for.  The escapes
    of a regular expression are not interpreted by the lexer (they belong to the language of regular expressions); with few exceptions they
    are kept as they are written. *)
Require Import Verif.Base Verif.InputM Verif.DiagnosticM Verif.TokensM Verif.LexerM.
Require Import Verif.StringSpec.

(** Characters with a meaning in regular expressions, that keep their backslash even when they are the closing delimiter:
    dollar sign, star, plus, dot, question mark, caret, bar, and the closing brackets *)
Definition re_special : list N := [36; 42; 43; 46; 63; 94; 124; 41; 93; 125; 62]%N.

(** A byte written with two upper case hexadecimal digits *)
Definition upper_hex (k : N) : N := if (k <? 10)%N then (48 + k)%N else (55 + k)%N.
Definition two_digits (v : N) : list N := [92; 120; upper_hex (v / 16); upper_hex (v mod 16)]%N.

(** The digits of a code point between braces: kept, if nothing is reported for it *)
Definition kept_digits (ds : list N) (d : list Diagnostic) : list N := match d with [] => ds | _ => [] end.

(** Code points between braces, from the first digit: each is kept behind the byte before it ([pre]: the opening brace, then the last byte of
    the white space) *)
Inductive re_points : nat -> N -> list N -> list N -> list Diagnostic -> Prop :=
| rps_last : forall p pre ds gap v d, code_point p ds v d -> Forall gap_byte gap -> re_points p pre (ds ++ gap) (pre :: kept_digits ds d) d
| rps_more : forall p pre ds gap g rest v d v' d', code_point p ds v d -> Forall gap_byte (gap ++ [g]) ->
    re_points (p + List.length ds + List.length (gap ++ [g])) g rest v' d' ->
    re_points p pre (ds ++ (gap ++ [g]) ++ rest) (pre :: kept_digits ds d ++ v') (d ++ d').

Section Pieces.
  (** The delimiters *)
  Variables (opn : option N) (cls : N).
  Local Notation delim := (delim opn cls).

  (** The piece [txt] at position [p], followed by the byte [nxt], inside [n] open brackets: the text it stands for, what is reported, and the
      number of open brackets behind it *)
  Inductive re_piece (nxt : N) (p : nat) : nat -> list N -> list N -> list Diagnostic -> nat -> Prop :=
  | rp_char : forall n c, c <> 13%N -> c <> 92%N -> ~ delim c -> (c = 35%N -> nxt <> 36 /\ nxt <> 64 /\ nxt <> 123)%N -> re_piece nxt p n [c] [c] [] n
  | rp_open : forall n c, opn = Some c -> c <> 13%N -> re_piece nxt p n [c] [c] [] (S n)
  | rp_close : forall n, opn <> Some cls -> cls <> 13%N -> re_piece nxt p (S n) [cls] [cls] [] n
  (* a backslash before the closing delimiter is dropped, unless that is a special character *)
  | rp_delim : forall n, ~ delim 92%N -> cls <> 10%N -> ~ In cls re_special -> re_piece nxt p n [92%N; cls] [cls] [] n
  (* a line that goes on in the next one *)
  | rp_line : forall n, ~ delim 92%N -> re_piece nxt p n [92; 10]%N [] [] n
  (* all other escapes of one character, a backslash among them *)
  | rp_pair : forall n c, ~ delim 92%N -> c <> 10%N -> c <> 13%N -> ~ octal c -> ~ In c [117; 120; 77; 67; 99]%N -> (c = cls -> In c re_special) ->
      re_piece nxt p n [92%N; c] [92%N; c] [] n
  | rp_octal : forall n ds, ~ delim 92%N -> Forall octal ds -> 1 <= List.length ds <= 3 -> (List.length ds < 3 -> ~ octal nxt) ->
      re_piece nxt p n (92%N :: ds) (92%N :: ds) [] n
  | rp_hex : forall n ds, ~ delim 92%N -> Forall hexadecimal ds -> 1 <= List.length ds <= 2 -> (List.length ds < 2 -> ~ hexadecimal nxt) ->
      re_piece nxt p n (92 :: 120 :: ds)%N (92 :: 120 :: ds)%N [] n
  | rp_unicode : forall n ds, ~ delim 92%N -> Forall hexadecimal ds -> List.length ds = 4 -> scalar (hex_number ds) ->
      re_piece nxt p n (92 :: 117 :: ds)%N (92 :: 117 :: ds)%N [] n
  | rp_surrogate : forall n ds, ~ delim 92%N -> Forall hexadecimal ds -> List.length ds = 4 -> surrogate (hex_number ds) ->
      re_piece nxt p n (92 :: 117 :: ds)%N [92; 117]%N [mkDiag Error InvalidUnicodeCodepoint (mkLoc (p + 2) (p + 6))] n
  | rp_braces : forall n gap us v d, ~ delim 92%N -> Forall gap_byte gap -> re_points (p + 3 + List.length gap) 123 us v d ->
      re_piece nxt p n ([92; 117; 123]%N ++ gap ++ us ++ [125%N]) ([92; 117]%N ++ v ++ [125%N]) d n
  (* control and meta escapes become a byte with two digits *)
  | rp_modified : forall n w v, ~ delim 92%N -> escaped_byte nxt false false w v -> In (hd 0%N w) [77; 67; 99]%N -> (16 <= v)%N ->
      re_piece nxt p n (92%N :: w) (two_digits v) [] n.

  (** A sequence of pieces, followed by the byte [fin] *)
  Inductive re_body (fin : N) : nat -> nat -> list N -> list N -> list Diagnostic -> nat -> Prop :=
  | rb_nil : forall p n, re_body fin p n [] [] [] n
  | rb_cons : forall p n txt v d n1 rest v' d' n2,
      re_piece (hd fin rest) p n txt v d n1 -> re_body fin (p + List.length txt) n1 rest v' d' n2 ->
      re_body fin p n (txt ++ rest) (v ++ v') (d ++ d') n2.

  (** The text [txt] of one content token at [p] (compare [content]) *)
  Inductive re_content (B : list N) (fin : N) (p n : nat) : list N -> list N -> list Diagnostic -> nat -> Prop :=
  | rc_text : forall txt v d n', txt <> [] -> re_body fin p n txt v d n' -> re_content B fin p n txt v d n'
  | rc_hash : forall txt v d n', nth_error B (p + 1) = Some 36%N \/ nth_error B (p + 1) = Some 64%N -> ~ variable_at B (p + 1) ->
      re_body fin (p + 1) n txt v d n' -> re_content B fin p n (35%N :: txt) (35%N :: v) d n'.
End Pieces.

(** ** The end: the closing delimiter and the options behind it *)
Definition option_letter (c : N) : Prop := (65 <= c <= 90 \/ 97 <= c <= 122)%N.
(** The options there are: the letters of the word onesuixm *)
Definition known_option (c : N) : bool := existsb (N.eqb c) [111; 110; 101; 115; 117; 105; 120; 109]%N.
Definition known_options (w : list N) : list N := filter known_option w.
Definition unknown_options (w : list N) : list N := filter (fun c => negb (known_option c)) w.
Definition options_report (p : nat) (w : list N) : list Diagnostic :=
  match unknown_options w with [] => [] | u => [mkDiag Error (UnknownRegexOptions u) (mkLoc p (p + 1 + List.length w))] end.
