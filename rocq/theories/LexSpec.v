(** * Specification vocabulary for what the lexer reports: places in the source, comments, magic comments *)
Require Import Verif.Base Verif.InputM Verif.DiagnosticM Verif.LexerM.

Section Spec.
  Variable B : list N.   (* the source *)

  (** The text [w] stands at position [p] *)
  Definition text_at (p : nat) (w : list N) : Prop := firstn (List.length w) (skipn p B) = w.

  (** Position [p] begins a line; a byte order mark at the start of the source is not part of the first line *)
  Definition begins_line (p : nat) : Prop :=
    p = 0 \/ nth_error B (p - 1) = Some 10%N \/ (p = 3 /\ text_at 0 [239; 187; 191]%N).

  (** [p, q) has no newline except possibly as its last byte, and stops at the end of a line *)
  Definition to_line_end (p q : nat) : Prop :=
    p < q /\ q <= List.length B /\
    (forall i, p <= i -> i + 1 < q -> nth_error B i <> Some 10%N) /\
    (q = List.length B \/ nth_error B (q - 1) = Some 10%N).

  Definition inline_comment (l : Loc) : Prop :=
    to_line_end (loc_begin l) (loc_end l) /\ nth_error B (loc_begin l) = Some 35%N.

  Definition document_comment (l : Loc) : Prop :=
    begins_line (loc_begin l) /\ text_at (loc_begin l) (bs "=begin") /\
    exists q, loc_begin l + 6 <= q /\ nth_error B (q - 1) = Some 10%N /\ text_at q (bs "=end") /\
      to_line_end q (loc_end l).

  (** A recorded comment is real, and its kind says what it is *)
  Definition comment_ok (c : Comment) : Prop :=
    match cm_kind c with
    | Inline => inline_comment (cm_location c)
    | Document => document_comment (cm_location c)
    | Unknown => False
    end.

  (** The names of magic comments, with '-' read as '_' *)
  Definition known_magic (k : MagicCommentKind) (w : list N) : Prop :=
    match k with
    | MC_Encoding => w = bs "coding" \/ w = bs "encoding"
    | MC_FrozenStringLiteral => w = bs "frozen_string_literal"
    | MC_ShareableConstantValue => w = bs "shareable_constant_value"
    | MC_WarnIndent => w = bs "warn_indent"
    end.
  Definition slice (l : Loc) : list N := firstn (loc_end l - loc_begin l) (skipn (loc_begin l) B).
  Definition underscored (w : list N) : list N := map (fun c => if N.eqb c 45 then 95%N else c) w.

  Definition magic_ok (m : MagicComment) : Prop :=
    exists l, inline_comment l /\
      loc_begin l < loc_begin (mc_key_l m) /\ loc_begin (mc_key_l m) <= loc_end (mc_key_l m) /\
      loc_end (mc_key_l m) <= loc_begin (mc_value_l m) /\ loc_begin (mc_value_l m) <= loc_end (mc_value_l m) /\
      loc_end (mc_value_l m) <= loc_end l /\
      known_magic (mc_kind m) (underscored (slice (mc_key_l m))).
End Spec.
