(** * Line ends and comments: what a reader of Ruby expects

    The specification speaks of the text only: line terminators, comments, and which line ends finish a statement. *)
Require Import Verif.Base Verif.InputM Verif.LexSpec Verif.IdentSpec Verif.YylexSpec Verif.MagicSpec.

(** A line terminator *)
Inductive eol : list N -> Prop :=
| eol_lf : eol [10%N]
| eol_crlf : eol [13; 10]%N.

(** Nothing, or a comment that is not a magic comment: it has no colon, or it records nothing wherever it stands (C59) *)
Inductive remark : list N -> Prop :=
| rk_none : remark []
| rk_some : forall w, ~ In 10%N w -> ~ In 13%N w -> ~ In 58%N w -> remark (35%N :: w)
| rk_silent : forall w, ~ In 10%N w -> ~ In 13%N w -> (forall p, magic_note p w []) -> remark (35%N :: w).

(** The comment as it is recorded: from its hash to the end of its line, terminator included *)
Definition noted (q : nat) (rem el : list N) : list Comment :=
  match rem with
  | [] => []
  | _ => [mkComment (mkLoc q (q + List.length rem + List.length el)) Inline]
  end.

(** [ends_line p text cs t]: [text] at [p] is the end of a line and all directly following lines that hold nothing but a
    comment.  [cs] are the comments, [t] is the start of the last terminator. *)
Inductive ends_line : nat -> list N -> list Comment -> nat -> Prop :=
| el_one : forall p rem el, remark rem -> eol el -> ends_line p (rem ++ el) (noted p rem el) (p + List.length rem)
| el_more : forall p rem el bl rest cs t, remark rem -> eol el -> Forall blank bl ->
    ends_line (p + List.length rem + List.length el + List.length bl) (35%N :: rest) cs t ->
    ends_line p (rem ++ el ++ bl ++ 35%N :: rest) (noted p rem el ++ cs) t.

(** ** Embedded documents *)
(** One line with its line feed *)
Inductive full_line : list N -> Prop :=
| fl_line : forall u, ~ In 10%N u -> full_line (u ++ [10%N]).
(** Where a word like [=begin] ends *)
Definition word_end (r : list N) : Prop := exists c v, r = c :: v /\ (9 <= c <= 13 \/ c = 32 \/ c = 0 \/ c = 4 \/ c = 26)%N.
Definition closing (w : list N) : Prop := exists r, w = bs "=end" ++ r /\ word_end r.
Definition body_line (w : list N) : Prop := full_line w /\ ~ closing w.
(** From the line that starts with [=begin] to the first line that starts with [=end], to its end *)
Inductive document : list N -> Prop :=
| dc_lines : forall r0 ls r1, word_end r0 -> full_line r0 -> Forall body_line ls -> word_end r1 -> full_line r1 ->
    document (bs "=begin" ++ r0 ++ List.concat ls ++ bs "=end" ++ r1).
(** The same up to the end of the source, where the last line feed may be missing *)
Inductive last_document : list N -> Prop :=
| ld_full : forall doc, document doc -> last_document doc
| ld_tail : forall r0 ls r1, word_end r0 -> full_line r0 -> Forall body_line ls -> r1 = [] \/ word_end r1 -> ~ In 10%N r1 ->
    last_document (bs "=begin" ++ r0 ++ List.concat ls ++ bs "=end" ++ r1).
(** A document that no line closes *)
Definition closes (w : list N) : Prop := closing w \/ w = bs "=end".
Inductive unclosed : list N -> Prop :=
| uc_lines : forall r0 ls v, word_end r0 -> full_line r0 -> Forall body_line ls -> ~ In 10%N v -> ~ closes v ->
    unclosed (bs "=begin" ++ r0 ++ List.concat ls ++ v)
| uc_first : forall r0, r0 = [] \/ word_end r0 -> ~ In 10%N r0 -> unclosed (bs "=begin" ++ r0).
(** The first byte of a line *)
Definition line_start (B : list N) (p : nat) : Prop := p = 0 \/ nth_error B (p - 1) = Some 10%N.

(** [gap p text cs]: lines at [p] that hold nothing, or white space and a comment, and embedded documents *)
Inductive gap : nat -> list N -> list Comment -> Prop :=
| gp_nil : forall p, gap p [] []
| gp_line : forall p sp rem el rest cs, white sp -> remark rem -> eol el ->
    gap (p + List.length sp + List.length rem + List.length el) rest cs ->
    gap p (sp ++ rem ++ el ++ rest) (noted (p + List.length sp) rem el ++ cs)
| gp_document : forall p doc rest cs, document doc -> gap (p + List.length doc) rest cs ->
    gap p (doc ++ rest) (mkComment (mkLoc p (p + List.length doc)) Document :: cs).

(** The terminator at [t] is whole: a line feed is not the second half of CR LF *)
Definition whole (B : list N) (t : nat) : Prop := t = 0 \/ nth_error B (t - 1) <> Some 13%N.

(** A line that starts at [r] with a dot or with [&.] continues the line before it *)
Definition leading_dot (B : list N) (r : nat) : Prop :=
  (nth_error B r = Some 46%N /\ nth_error B (r + 1) <> Some 46%N) \/
  (nth_error B r = Some 38%N /\ nth_error B (r + 1) = Some 46%N).

(** What stands at [r] is neither white space nor a comment, and does not continue the line before *)
Definition new_line (B : list N) (r : nat) : Prop :=
  exists x, nth_error B r = Some x /\ ~ blank x /\ x <> 35%N /\ (x = 13%N -> nth_error B (r + 1) = Some 10%N) /\ ~ leading_dot B r.

(** ** Where a line end finishes a statement, by the state of the lexer *)
Definition operand_to_come (st : N) : Prop :=
  (in_state st b_beg \/ in_state st b_class \/ in_state st b_fname \/ in_state st b_dot) /\ ~ in_state st b_labeled.
Definition behind_label (st : N) : Prop := in_state st b_arg /\ in_state st b_labeled.
(** [kw]: the parser is inside a parameter list without parentheses *)
Definition line_end_skipped (st : N) (kw : bool) : Prop := operand_to_come st \/ (behind_label st /\ kw = false).
Definition line_end_counts (st : N) : Prop := ~ operand_to_come st /\ ~ behind_label st.

(** First bytes of tokens that are the same with and without white space in front: names, numbers, variables, quotes,
    closing brackets, and the operators that are never a prefix of an argument *)
Definition heedless (x : N) : Prop :=
  (48 <= x <= 57 \/ 65 <= x <= 90 \/ 97 <= x <= 122 \/ x = 95 \/ 128 <= x)%N \/
  In x [33; 34; 36; 39; 41; 44; 59; 62; 64; 93; 94; 96; 123; 124; 125; 126]%N.
