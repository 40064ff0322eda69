(** * The text of string literals, and what it denotes

    A specification of its own: the pieces a string body is made of (characters, brackets, escapes), the bytes each piece
    stands for, and what is reported for it.  It refers to nothing of the lexer but its tokens. *)
Require Import Verif.Base Verif.InputM Verif.DiagnosticM Verif.TokensM Verif.LexerM.
Require Verif.IdentSpec.

(** ** Digits *)
Definition octal (c : N) : Prop := (48 <= c <= 55)%N.
Definition hexadecimal (c : N) : Prop := (48 <= c <= 57 \/ 65 <= c <= 70 \/ 97 <= c <= 102)%N.
Definition hex_digit (c : N) : N := if (c <? 58)%N then (c - 48)%N else if (c <? 71)%N then (c - 55)%N else (c - 87)%N.
Definition number (base : N) (val : N -> N) (ds : list N) : N := fold_left (fun a c => (a * base + val c)%N) ds 0%N.
Definition octal_value (ds : list N) : N := number 8 (fun c => c - 48)%N ds.
Definition hex_number (ds : list N) : N := number 16 hex_digit ds.

(** ** Code points *)
Definition scalar (u : N) : Prop := (u < 55296 \/ 57344 <= u <= 1114111)%N.
Definition surrogate (u : N) : Prop := (55296 <= u <= 57343)%N.
Definition utf8 (u : N) : list N :=
  if (u <? 128)%N then [u]
  else if (u <? 2048)%N then [192 + u / 64; 128 + u mod 64]%N
  else if (u <? 65536)%N then [224 + u / 4096; 128 + u / 64 mod 64; 128 + u mod 64]%N
  else [240 + u / 262144; 128 + u / 4096 mod 64; 128 + u / 64 mod 64; 128 + u mod 64]%N.

(** White space that separates the words of a list, and the code points between braces *)
Definition white_byte (c : N) : Prop := (c = 32 \/ 9 <= c <= 13)%N.
Definition gap_byte (c : N) : Prop := (c = 32 \/ c = 9 \/ 11 <= c <= 12)%N.

(** One code point between braces at position [p]: the bytes it stands for, and what is reported *)
Inductive code_point (p : nat) : list N -> list N -> list Diagnostic -> Prop :=
| cp_ok : forall ds, Forall hexadecimal ds -> 1 <= List.length ds <= 6 -> scalar (hex_number ds) ->
    code_point p ds (utf8 (hex_number ds)) []
| cp_surrogate : forall ds, Forall hexadecimal ds -> 1 <= List.length ds <= 6 -> surrogate (hex_number ds) ->
    code_point p ds [] [mkDiag Error InvalidUnicodeCodepoint (mkLoc p (p + List.length ds))]
| cp_large : forall ds, Forall hexadecimal ds -> 1 <= List.length ds <= 6 -> (1114111 < hex_number ds)%N ->
    code_point p ds [] [mkDiag Error TooLargeUnicodeCodepoint (mkLoc p (p + List.length ds))]
| cp_long : forall ds, Forall hexadecimal ds -> 6 < List.length ds ->
    code_point p ds [] [mkDiag Error InvalidUnicodeEscape (mkLoc (p + List.length ds) (p + List.length ds + 1))].

Inductive code_points : nat -> list N -> list N -> list Diagnostic -> Prop :=
| cps_last : forall p ds gap v d, code_point p ds v d -> Forall gap_byte gap -> code_points p (ds ++ gap) v d
| cps_more : forall p ds gap rest v d v' d', code_point p ds v d -> Forall gap_byte gap -> gap <> [] ->
    code_points (p + List.length ds + List.length gap) rest v' d' ->
    code_points p (ds ++ gap ++ rest) (v ++ v') (d ++ d').

(** ** Escapes *)

(** [\n], [\t] and so on *)
Inductive letter_escape : N -> N -> Prop :=
| le_n : letter_escape 110 10
| le_t : letter_escape 116 9
| le_r : letter_escape 114 13
| le_f : letter_escape 102 12
| le_v : letter_escape 118 11
| le_a : letter_escape 97 7
| le_e : letter_escape 101 27
| le_b : letter_escape 98 8
| le_s : letter_escape 115 32.

(** Characters that a backslash does not change (where escapes are interpreted): all but line ends, the backslash, digits, and
    the letters that start or are an escape *)
Definition self_escape (c : N) : Prop :=
  (c <> 10 /\ c <> 13 /\ c <> 92 /\ ~ (48 <= c <= 57) /\ c <> 117 /\ c <> 120 /\ c <> 77 /\ c <> 67 /\ c <> 99)%N /\ forall v, ~ letter_escape c v.

(** Escapes that stand for one byte, as they stand behind the backslash and before the byte [nxt].  [m] and [k] tell whether the escape is
    already inside [\M-] and inside [\C-], each of which can be used once.  The letter U cannot follow a backslash inside them. *)
Definition visible (c : N) : Prop := (33 <= c <= 126)%N.
Definition with_meta (v : N) : N := (v mod 128 + 128)%N.
Definition with_control (v : N) : N := (v mod 32 + v / 128 * 128)%N.
Inductive control_prefix : list N -> Prop :=
| ctl_C : control_prefix [67; 45]%N
| ctl_c : control_prefix [99]%N.
Inductive escaped_byte (nxt : N) : bool -> bool -> list N -> N -> Prop :=
| eb_backslash : forall m k, escaped_byte nxt m k [92%N] 92
| eb_letter : forall m k c v, letter_escape c v -> escaped_byte nxt m k [c] v
| eb_self : forall m k c, self_escape c -> (c < 128)%N -> escaped_byte nxt m k [c] c
| eb_octal : forall m k ds, Forall octal ds -> 1 <= List.length ds <= 3 -> (List.length ds < 3 -> ~ octal nxt) ->
    escaped_byte nxt m k ds (octal_value ds mod 256)
| eb_hex : forall m k ds, Forall hexadecimal ds -> 1 <= List.length ds <= 2 -> (List.length ds < 2 -> ~ hexadecimal nxt) ->
    escaped_byte nxt m k (120%N :: ds) (hex_number ds)
| eb_meta : forall k c, visible c -> c <> 92%N -> escaped_byte nxt false k [77; 45; c]%N (with_meta c)
| eb_meta_more : forall k w v, escaped_byte nxt true k w v -> hd 0%N w <> 85%N -> escaped_byte nxt false k (77 :: 45 :: 92 :: w)%N (with_meta v)
| eb_delete : forall m pre, control_prefix pre -> escaped_byte nxt m false (pre ++ [63%N]) 127
| eb_control : forall m pre c, control_prefix pre -> visible c -> c <> 92%N -> c <> 63%N -> escaped_byte nxt m false (pre ++ [c]) (with_control c)
| eb_control_more : forall m pre w v, control_prefix pre -> escaped_byte nxt m true w v -> hd 0%N w <> 85%N ->
    escaped_byte nxt m false (pre ++ 92%N :: w) (with_control v).

Section Pieces.
  (** Are escapes interpreted (as between double quotes); is this a list of words; the brackets *)
  Variables (interp words : bool) (opn : option N) (cls : N).

  Definition delim (c : N) : Prop := c = cls \/ opn = Some c.

  (** The piece [txt] at position [p], followed by the byte [nxt], inside [n] open brackets: its bytes, what is reported, and
      the number of open brackets behind it *)
  Inductive piece (nxt : N) (p : nat) : nat -> list N -> list N -> list Diagnostic -> nat -> Prop :=
  | pc_char : forall n c, c <> 13%N -> c <> 92%N -> ~ delim c ->
      (interp = true -> c = 35%N -> nxt <> 36 /\ nxt <> 64 /\ nxt <> 123)%N ->
      (words = true -> ~ white_byte c) -> piece nxt p n [c] [c] [] n
  | pc_open : forall n c, opn = Some c -> c <> 13%N -> piece nxt p n [c] [c] [] (S n)
  | pc_close : forall n, opn <> Some cls -> cls <> 13%N -> piece nxt p (S n) [cls] [cls] [] n
  | pc_backslash : forall n, ~ delim 92%N -> piece nxt p n [92; 92]%N [92%N] [] n
  (* escapes are not interpreted *)
  | pc_quoted : forall n c, interp = false -> ~ delim 92%N -> delim c \/ (words = true /\ white_byte c) ->
      c <> 13%N -> c <> 92%N -> c <> 117%N -> (c < 128)%N -> (c = 10%N -> words = true) ->
      piece nxt p n [92; c]%N [c] [] n
  | pc_kept : forall n c, interp = false -> ~ delim 92%N -> ~ delim c -> (words = true -> ~ white_byte c) ->
      c <> 13%N -> c <> 92%N -> (c < 128)%N -> piece nxt p n [92; c]%N [92; c]%N [] n
  (* escapes are interpreted *)
  | pc_line : forall n, interp = true -> ~ delim 92%N -> piece nxt p n [92; 10]%N (if words then [10%N] else []) [] n
  | pc_letter : forall n c v, interp = true -> ~ delim 92%N -> letter_escape c v -> piece nxt p n [92; c]%N [v] [] n
  | pc_self : forall n c, interp = true -> ~ delim 92%N -> self_escape c -> piece nxt p n [92; c]%N [c] [] n
  | pc_octal : forall n ds, interp = true -> ~ delim 92%N -> Forall octal ds -> 1 <= List.length ds <= 3 ->
      (List.length ds < 3 -> ~ octal nxt) -> piece nxt p n (92%N :: ds) [octal_value ds mod 256]%N [] n
  | pc_hex : forall n ds, interp = true -> ~ delim 92%N -> Forall hexadecimal ds -> 1 <= List.length ds <= 2 ->
      (List.length ds < 2 -> ~ hexadecimal nxt) -> piece nxt p n (92 :: 120 :: ds)%N [hex_number ds] [] n
  | pc_unicode : forall n ds, interp = true -> ~ delim 92%N -> Forall hexadecimal ds -> List.length ds = 4 ->
      scalar (hex_number ds) -> piece nxt p n (92 :: 117 :: ds)%N (utf8 (hex_number ds)) [] n
  | pc_surrogate : forall n ds, interp = true -> ~ delim 92%N -> Forall hexadecimal ds -> List.length ds = 4 ->
      surrogate (hex_number ds) -> piece nxt p n (92 :: 117 :: ds)%N [] [mkDiag Error InvalidUnicodeCodepoint (mkLoc (p + 2) (p + 6))] n
  | pc_braces : forall n gap us v d, interp = true -> ~ delim 92%N -> ~ hexadecimal cls -> Forall gap_byte gap ->
      code_points (p + 3 + List.length gap) us v d -> piece nxt p n ([92; 117; 123]%N ++ gap ++ us ++ [125%N]) v d n
  | pc_modified : forall n w v, interp = true -> ~ delim 92%N -> escaped_byte nxt false false w v -> In (hd 0%N w) [77; 67; 99]%N ->
      piece nxt p n (92%N :: w) [v] [] n.

  (** A sequence of pieces, followed by the byte [fin] *)
  Inductive body (fin : N) : nat -> nat -> list N -> list N -> list Diagnostic -> nat -> Prop :=
  | bd_nil : forall p n, body fin p n [] [] [] n
  | bd_cons : forall p n txt v d n1 rest v' d' n2,
      piece (hd fin rest) p n txt v d n1 -> body fin (p + List.length txt) n1 rest v' d' n2 ->
      body fin p n (txt ++ rest) (v ++ v') (d ++ d') n2.
End Pieces.

(** ** Literals *)

(** The delimiters that a character opens *)
Inductive bracket : N -> option N -> N -> Prop :=
| br_round : bracket 40 (Some 40%N) 41
| br_square : bracket 91 (Some 91%N) 93
| br_curly : bracket 123 (Some 123%N) 125
| br_angle : bracket 60 (Some 60%N) 62
| br_same : forall c, (c <> 40 /\ c <> 91 /\ c <> 123 /\ c <> 60)%N -> bracket c None c.

(** A character that can delimit a percent literal *)
Definition delimiter (c : N) : Prop := (c < 128)%N /\ c <> 13%N /\ ~ (48 <= c <= 57 \/ 65 <= c <= 90 \/ 97 <= c <= 122)%N.

(** What follows the percent sign: the token, whether escapes are interpreted, whether it is a list *)
Inductive percent_kind : list N -> Tok -> bool -> bool -> Prop :=
| pk_none : percent_kind [] tSTRING_BEG true false
| pk_Q : percent_kind [81%N] tSTRING_BEG true false
| pk_q : percent_kind [113%N] tSTRING_BEG false false
| pk_W : percent_kind [87%N] tWORDS_BEG true true
| pk_w : percent_kind [119%N] tQWORDS_BEG false true
| pk_I : percent_kind [73%N] tSYMBOLS_BEG true true
| pk_i : percent_kind [105%N] tQSYMBOLS_BEG false true
| pk_x : percent_kind [120%N] tXSTRING_BEG true false.

(** The opening of a literal *)
Inductive opening : list N -> Tok -> bool -> bool -> option N -> N -> Prop :=
| on_single : opening [39%N] tSTRING_BEG false false None 39
| on_double : opening [34%N] tSTRING_BEG true false None 34
| on_percent : forall l k interp words c opn cls, percent_kind l k interp words -> delimiter c -> bracket c opn cls ->
    opening (37%N :: l ++ [c]) k interp words opn cls.

(** A percent sign starts a literal: where a value is expected, or as the first argument of a call, behind white space *)
Definition value_expected (st : N) : Prop :=
  IdentSpec.in_state st IdentSpec.b_beg \/ IdentSpec.in_state st IdentSpec.b_mid \/ IdentSpec.in_state st IdentSpec.b_class \/
  (IdentSpec.in_state st IdentSpec.b_arg /\ IdentSpec.in_state st IdentSpec.b_labeled).
Definition argument_possible (st : N) : Prop := IdentSpec.in_state st IdentSpec.b_arg \/ IdentSpec.in_state st IdentSpec.b_cmdarg.
Definition percent_starts (st : N) (sp : list N) (next : N) : Prop :=
  value_expected st \/ (argument_possible st /\ sp <> [] /\ ~ white_byte next /\ next <> 61%N).

Definition tok_at (k : Tok) (v : list N) (p n : nat) : Token := mkToken k v (mkLoc p (p + n)).

(** The words of a list, from the first word at [p] inside [n] brackets up to the closing delimiter: the tokens, and what is reported.
    A word is followed by white space, except before the closing delimiter; the lexer makes a space token there, too. *)
Inductive word_items (interp : bool) (opn : option N) (cls : N) : nat -> nat -> list N -> list Token -> list Diagnostic -> Prop :=
| wl_end : forall p, word_items interp opn cls p 0 [] [] []
| wl_word : forall p n txt v d n' gap rest toks d', txt <> [] ->
    body interp true opn cls (hd cls (gap ++ rest)) p n txt v d n' ->
    Forall (fun c => white_byte c /\ c <> 13%N) gap -> (gap = [] -> rest = [] /\ n' = 0) ->
    word_items interp opn cls (p + List.length txt + List.length gap) n' rest toks d' ->
    word_items interp opn cls p n (txt ++ gap ++ rest)
      (tok_at tSTRING_CONTENT v p (List.length txt) :: tok_at tSPACE gap (p + List.length txt) (List.length gap) :: toks) (d ++ d').

(** ** Interpolation *)

(** A byte that starts the name of a variable *)
Definition name_byte (c : N) : Prop := IdentSpec.letter c \/ (128 <= c)%N.

(** A variable whose sigil stands at [q], as it is embedded in a string behind a number sign.  Only the first bytes of its name count. *)
Inductive variable_at (B : list N) (q : nat) : Prop :=
| va_mark : forall c, nth_error B q = Some 36%N -> nth_error B (q + 1) = Some c ->
    In c IdentSpec.global_marks \/ In c IdentSpec.match_marks \/ IdentSpec.digit c -> variable_at B q
| va_global : forall c, nth_error B q = Some 36%N -> nth_error B (q + 1) = Some c -> name_byte c -> variable_at B q
| va_option : forall c, nth_error B q = Some 36%N -> nth_error B (q + 1) = Some 45%N -> nth_error B (q + 2) = Some c -> name_byte c ->
    variable_at B q
| va_instance : forall c, nth_error B q = Some 64%N -> nth_error B (q + 1) = Some c -> name_byte c -> variable_at B q
| va_class : forall c, nth_error B q = Some 64%N -> nth_error B (q + 1) = Some 64%N -> nth_error B (q + 2) = Some c -> name_byte c ->
    variable_at B q.

(** A number sign at [q] before which the text of a token ends, when escapes are interpreted *)
Definition hash_at (B : list N) (q : nat) : Prop :=
  nth_error B q = Some 35%N /\
  (nth_error B (q + 1) = Some 36%N \/ nth_error B (q + 1) = Some 64%N \/ nth_error B (q + 1) = Some 123%N).

(** The text of a token ends at [q], inside [n] open brackets: before the closing delimiter, before white space in a list, or before an
    interpolation *)
Inductive text_ends (B : list N) (interp words : bool) (opn : option N) (cls : N) (q : nat) (n : nat) (fin : N) : Prop :=
| te_close : fin = cls -> n = 0 -> text_ends B interp words opn cls q n fin
| te_white : words = true -> white_byte fin -> ~ delim opn cls fin -> text_ends B interp words opn cls q n fin
| te_hash : interp = true -> fin = 35%N -> hash_at B q -> text_ends B interp words opn cls q n fin.

(** The text [txt] of one content token at [p]: its bytes, what is reported, the brackets open behind it.  A number sign before a
    dollar sign or an at sign that is not followed by a variable is text; the token before it ends there all the same. *)
Inductive content (B : list N) (interp words : bool) (opn : option N) (cls fin : N) (p n : nat) : list N -> list N -> list Diagnostic -> nat -> Prop :=
| ct_text : forall txt v d n', txt <> [] -> body interp words opn cls fin p n txt v d n' -> content B interp words opn cls fin p n txt v d n'
| ct_hash : forall txt v d n', interp = true -> nth_error B (p + 1) = Some 36%N \/ nth_error B (p + 1) = Some 64%N -> ~ variable_at B (p + 1) ->
    body interp words opn cls fin (p + 1) n txt v d n' -> content B interp words opn cls fin p n (35%N :: txt) (35%N :: v) d n'.

(** ** The openings of all literals but heredocs *)

(** The kind of a literal: are escapes interpreted, is it a list, is it a regular expression, can it be a label *)
Record Kind : Set := mkKind { k_interp : bool; k_words : bool; k_regexp : bool; k_label : bool }.

(** A literal opens with [op], behind white space [sp], in state [st]; [cmd] tells that a command can start here.  The kind of the literal,
    its delimiters, and the state behind the opening. *)
Inductive opens (st : N) (cmd : bool) (sp : list N) : list N -> Tok -> Kind -> option N -> N -> N -> Prop :=
| op_single : forall label, (label = true <-> IdentSpec.label_allowed st cmd) ->
    opens st cmd sp [39%N] tSTRING_BEG (mkKind false false false label) None 39 st
| op_double : forall label, (label = true <-> IdentSpec.label_allowed st cmd) ->
    opens st cmd sp [34%N] tSTRING_BEG (mkKind true false false label) None 34 st
| op_back : ~ IdentSpec.after_def st -> ~ IdentSpec.after_dot st ->
    opens st cmd sp [96%N] tXSTRING_BEG (mkKind true false false false) None 96 st
| op_symbol : forall c, (c = 39 \/ c = 34)%N ->
    ~ IdentSpec.in_state st 1 -> ~ IdentSpec.in_state st 2 -> ~ IdentSpec.in_state st 3 ->
    opens st cmd sp [58%N; c] tSYMBEG (mkKind (N.eqb c 34) false false false) None c (2 ^ IdentSpec.b_fname)
| op_slash : value_expected st ->
    opens st cmd sp [47%N] tREGEXP_BEG (mkKind true false true false) None 47 st
| op_percent : forall l k interp words c opn cls, percent_kind l k interp words -> delimiter c -> bracket c opn cls -> percent_starts st sp (hd c l) ->
    opens st cmd sp (37%N :: l ++ [c]) k (mkKind interp words false false) opn cls st
| op_percent_s : forall c opn cls, delimiter c -> bracket c opn cls -> percent_starts st sp 115 ->
    opens st cmd sp [37; 115; c]%N tSYMBEG (mkKind false false false false) opn cls (2 ^ IdentSpec.b_fname + 2 ^ 12)
| op_percent_r : forall c opn cls, delimiter c -> bracket c opn cls -> percent_starts st sp 114 ->
    opens st cmd sp [37; 114; c]%N tREGEXP_BEG (mkKind true false true false) opn cls st.
