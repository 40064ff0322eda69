(** * Magic comments: what a reader of Ruby expects

    The specification speaks of the text of a comment only, from the byte behind its hash to the end of its line. *)
Require Import Verif.Base Verif.InputM Verif.LexerM Verif.Prop_Encoding.

Definition sp_char (c : N) : Prop := (9 <= c <= 13 \/ c = 32)%N.
(** Quotes, colon, semicolon *)
Definition mark (c : N) : Prop := (c = 34 \/ c = 39 \/ c = 58 \/ c = 59)%N.
Definition junk (c : N) : Prop := sp_char c \/ mark c.
Definition plain_char (c : N) : Prop := ~ sp_char c /\ ~ mark c.

(** ** Keys *)
(** The keys that mean something; a dash may be written for an underscore *)
Definition meanings : list (list N * MagicCommentKind) := [
  (bs "coding", MC_Encoding); (bs "encoding", MC_Encoding); (bs "frozen_string_literal", MC_FrozenStringLiteral);
  (bs "shareable_constant_value", MC_ShareableConstantValue); (bs "warn_indent", MC_WarnIndent)].
Definition spells (c d : N) : Prop := c = d \/ (c = 45 /\ d = 95)%N.
Definition means (key : list N) (kind : MagicCommentKind) : Prop := exists name, In (name, kind) meanings /\ Forall2 spells key name.

(** An encoding must be one of those known without a decoder ([known_encoding], C39).
    [recorded key kp val vp ms]: what a key at [kp] with a value at [vp] adds *)
Inductive recorded (key : list N) (kp : nat) (val : list N) (vp : nat) : list MagicComment -> Prop :=
| rc_known : forall kind, means key kind -> (kind = MC_Encoding -> known_encoding val) ->
    recorded key kp val vp [mkMagic kind (mkLoc kp (kp + List.length key)) (mkLoc vp (vp + List.length val))]
| rc_unknown : (forall kind, ~ means key kind) -> Forall (fun c => c < 128)%N key -> recorded key kp val vp [].

(** ** Values: a word, a text in double quotes, or nothing in front of a semicolon *)
Definition bare_value (v : list N) : Prop := v <> [] /\ Forall (fun c => ~ sp_char c /\ c <> 34 /\ c <> 59)%N v.
(** The text between double quotes; a backslash keeps the byte behind it from closing the text *)
Inductive quoted : list N -> Prop :=
| qu_none : quoted []
| qu_byte : forall c v, c <> 34%N -> c <> 92%N -> quoted v -> quoted (c :: v)
| qu_escape : forall c v, quoted v -> quoted (92%N :: c :: v).
(** [value text off v]: [text] is the value as written, [v] the value, which starts at [off] *)
Inductive value : list N -> nat -> list N -> Prop :=
| vl_bare : forall v, bare_value v -> value v 0 v
| vl_quoted : forall v, quoted v -> value (34%N :: v ++ [34%N]) 1 v
| vl_none : value [] 0 [].

(** ** A comment that is one [key: value] *)
Inductive plain_note (p : nat) : list N -> list MagicComment -> Prop :=
| pn_one : forall s1 key s2 s3 text off val s4 ms,
    Forall junk s1 -> key <> [] -> Forall plain_char key -> Forall sp_char s2 -> Forall sp_char s3 -> value text off val -> text <> [] -> Forall sp_char s4 ->
    recorded key (p + List.length s1) val (p + List.length s1 + List.length key + List.length s2 + 1 + List.length s3 + off) ms ->
    plain_note p (s1 ++ key ++ s2 ++ 58%N :: s3 ++ text ++ s4) ms.

(** ** Several of them between two markers *)
(** [w] does not contain the marker *)
Definition marker : list N := bs "-*-".
Definition no_marker (w : list N) : Prop := forall u v, w <> u ++ marker ++ v.

(** What may follow a value: nothing, white space and semicolons, or (behind a word) a double quote *)
Definition sep (c : N) : Prop := sp_char c \/ c = 59%N.
Definition starts_with (P : N -> Prop) (w : list N) : Prop := exists c r, w = c :: r /\ P c.
Inductive entries : nat -> list N -> list MagicComment -> Prop :=
| en_none : forall p j, Forall junk j -> entries p j []
| en_word : forall p j word s rest ms, Forall junk j -> word <> [] -> Forall plain_char word -> Forall sp_char s ->
    rest = [] \/ starts_with (fun c => ~ sp_char c /\ c <> 58%N) rest -> (s = [] -> rest = [] \/ starts_with mark rest) ->
    entries (p + List.length j + List.length word + List.length s) rest ms -> entries p (j ++ word ++ s ++ rest) ms
| en_novalue : forall p j key s2 s3, Forall junk j -> key <> [] -> Forall plain_char key -> Forall sp_char s2 -> Forall sp_char s3 ->
    entries p (j ++ key ++ s2 ++ 58%N :: s3) []
| en_entry : forall p j key s2 s3 text off val s4 rest ms ms',
    Forall junk j -> key <> [] -> Forall plain_char key -> Forall sp_char s2 -> Forall sp_char s3 -> value text off val -> Forall sep s4 ->
    (text = [] -> starts_with (fun c => c = 59%N) s4) ->
    rest = [] \/ starts_with (fun c => ~ sep c) rest -> (off = 0 -> s4 = [] -> rest = [] \/ starts_with (fun c => c = 34%N) rest) ->
    recorded key (p + List.length j) val (p + List.length j + List.length key + List.length s2 + 1 + List.length s3 + off) ms ->
    entries (p + List.length j + List.length key + List.length s2 + 1 + List.length s3 + List.length text + List.length s4) rest ms' ->
    entries p (j ++ key ++ s2 ++ 58%N :: s3 ++ text ++ s4 ++ rest) (ms ++ ms').

(** ** Comments without markers that are not a [key: value] *)
Inductive prose : list N -> Prop :=
| pr_junk : forall j, Forall junk j -> prose j
| pr_end : forall j word s, Forall junk j -> word <> [] -> Forall plain_char word -> Forall sp_char s -> prose (j ++ word ++ s)
| pr_word : forall j word s c rest, Forall junk j -> word <> [] -> Forall plain_char word -> Forall sp_char s ->
    ~ sp_char c -> c <> 58%N -> (s = [] -> mark c) -> prose (j ++ word ++ s ++ c :: rest)
| pr_novalue : forall j key s2 s3, Forall junk j -> key <> [] -> Forall plain_char key -> Forall sp_char s2 -> Forall sp_char s3 ->
    prose (j ++ key ++ s2 ++ 58%N :: s3)
| pr_more : forall j key s2 s3 text off val s4 c rest, Forall junk j -> key <> [] -> Forall plain_char key -> Forall sp_char s2 -> Forall sp_char s3 ->
    value text off val -> (text = [] -> s4 = [] /\ c = 59%N) -> Forall sp_char s4 -> ~ sp_char c -> (off = 0 -> s4 = [] -> c = 34%N \/ c = 59%N) ->
    prose (j ++ key ++ s2 ++ 58%N :: s3 ++ text ++ s4 ++ c :: rest).

(** [magic_note p w ms]: the comment text [w] at [p] records [ms] *)
Inductive magic_note (p : nat) : list N -> list MagicComment -> Prop :=
| mn_plain : forall w ms, no_marker w -> plain_note p w ms -> magic_note p w ms
| mn_marked : forall pre body post ms, no_marker (pre ++ bs "-*") -> no_marker (body ++ bs "-*") ->
    entries (p + List.length pre + 3) body ms -> magic_note p (pre ++ marker ++ body ++ marker ++ post) ms
| mn_prose : forall w, no_marker w -> prose w -> magic_note p w []
| mn_open : forall pre rest, no_marker (pre ++ bs "-*") -> no_marker rest -> magic_note p (pre ++ marker ++ rest) [].
