(** * Model of src/lex_state.rs

    The [i32] value only ever holds the bits below; it is a bit set of type [N]. *)
Require Import Verif.Base Verif.MaybeByteM.
Local Open Scope N_scope.

(** lex_state.rs 6-8 *)
Definition LexState := N.

(** lex_state.rs 61-112 *)
Definition EXPR_BEG : LexState := 1.
Definition EXPR_END : LexState := 2.
Definition EXPR_ENDARG : LexState := 4.
Definition EXPR_ENDFN : LexState := 8.
Definition EXPR_ARG : LexState := 16.
Definition EXPR_CMDARG : LexState := 32.
Definition EXPR_MID : LexState := 64.
Definition EXPR_FNAME : LexState := 128.
Definition EXPR_DOT : LexState := 256.
Definition EXPR_CLASS : LexState := 512.
Definition EXPR_LABEL : LexState := 1024.
Definition EXPR_LABELED : LexState := 2048.
Definition EXPR_FITEM : LexState := 4096.
Definition EXPR_VALUE : LexState := EXPR_BEG.
Definition EXPR_BEG_ANY : LexState := N.lor EXPR_BEG (N.lor EXPR_MID EXPR_CLASS).
Definition EXPR_ARG_ANY : LexState := N.lor EXPR_ARG EXPR_CMDARG.
Definition EXPR_END_ANY : LexState := N.lor EXPR_END (N.lor EXPR_ENDARG EXPR_ENDFN).

(** lex_state.rs 11-21 *)
Definition ls_is (s v : LexState) : bool := N.eqb s v.
Definition ls_is_some (s states : LexState) : bool := negb (N.eqb (N.land s states) 0).
Definition ls_is_all (s states : LexState) : bool := N.eqb (N.land s states) states.

(** lex_state.rs 32-49 *)
Definition ls_is_after_operator (s : LexState) : bool := ls_is_some s (N.lor EXPR_FNAME EXPR_DOT).
Definition ls_is_end (s : LexState) : bool := ls_is_some s EXPR_END_ANY.
Definition ls_is_arg (s : LexState) : bool := ls_is_some s EXPR_ARG_ANY.
Definition ls_is_label_possible (s : LexState) (cmd_state : bool) : bool :=
  (ls_is_some s (N.lor EXPR_LABEL EXPR_ENDFN) && negb cmd_state) || ls_is_arg s.
Definition ls_is_spacearg (s : LexState) (c : MaybeByte) (space_seen : bool) : bool :=
  ls_is_arg s && space_seen && negb (is_space c).
Definition ls_is_beg (s : LexState) : bool :=
  ls_is_some s EXPR_BEG_ANY || ls_is_all s (N.lor EXPR_ARG EXPR_LABELED).
