(** * The text of heredocs without interpolation

    A specification of its own: which line ends a heredoc, which indentation is removed, and the tokens of the text.  It refers to
    nothing of the lexer but its tokens. *)
Require Import Verif.Base Verif.InputM Verif.TokensM Verif.LexerM Verif.StringSpec.
Require Verif.IdentSpec.

(** What stands between [<<] and the quoted name: may the last line be indented, and the indentation to start from
    ([~] removes indentation, at most 2^31 - 1 columns) *)
Inductive here_mark : list N -> bool -> Z -> Prop :=
| hm_plain : here_mark [] false 0
| hm_dash : here_mark [45%N] true 0
| hm_tilde : here_mark [126%N] true 2147483647.

(** The lines of the text, each with its line feed *)
Definition lines_text (ls : list (list N)) : list N := flat_map (fun l => l ++ [10%N]) ls.
Definition plain_line (l : list N) : Prop := ~ In 10%N l /\ ~ In 13%N l.

(** A line of a heredoc with interpolation that has neither escapes nor interpolation *)
Definition expand_line (l : list N) : Prop :=
  ~ In 92%N l /\ forall u x v, l = u ++ 35%N :: x :: v -> x <> 36%N /\ x <> 64%N /\ x <> 123%N.

(** The line [l] ends the heredoc [id] *)
Definition indent_byte (c : N) : Prop := (c = 32 \/ c = 9 \/ c = 12)%N.
Definition ends_here (indent : bool) (id l : list N) : Prop :=
  exists ws, l = ws ++ id /\ Forall indent_byte ws /\ (indent = false -> ws = []).

(** The name.  Where the last line may be indented, the name must start with something else. *)
Definition here_name (indent : bool) (id : list N) : Prop :=
  ~ In 10%N id /\ ~ In 13%N id /\ (indent = true -> exists c r, id = c :: r /\ ~ indent_byte c).

(** What stands around the name, the token of the opening, and whether the text is interpolated *)
Inductive here_quote : list N -> Tok -> bool -> Prop :=
| hq_single : here_quote [39%N] tSTRING_BEG false
| hq_double : here_quote [34%N] tSTRING_BEG true
| hq_back : here_quote [96%N] tXSTRING_BEG true
| hq_bare : here_quote [] tSTRING_BEG true.

(** A name between quotes does not contain the quote; a name without quotes is made of name characters and what follows it is none *)
Definition name_fits (ql id rest : list N) : Prop :=
  (forall c, ql = [c] -> ~ In c id) /\
  (ql = [] -> id <> [] /\ IdentSpec.name_tail id /\
    forall c r, rest = c :: r -> ~ IdentSpec.letter c /\ ~ IdentSpec.digit c /\ (c < 128)%N /\ c <> 13%N).

Definition here_opener (pre ql id : list N) : list N := [60; 60]%N ++ pre ++ ql ++ id ++ ql.

(** Two more bits of the lexer state *)
Definition b_end : N := 1.
Definition b_endarg : N := 2.

(** Where [<<] starts a heredoc *)
Definition here_allowed (st : N) (sp : list N) : Prop :=
  ~ IdentSpec.in_state st IdentSpec.b_dot /\ ~ IdentSpec.in_state st IdentSpec.b_class /\
  ~ IdentSpec.in_state st b_end /\ ~ IdentSpec.in_state st b_endarg /\ ~ IdentSpec.in_state st IdentSpec.b_endfn /\
  (argument_possible st -> IdentSpec.in_state st IdentSpec.b_labeled \/ sp <> []).

(** ** Indentation *)

(** The column behind the leading blanks and tabs; a tab goes to the next multiple of eight *)
Fixpoint width_from (n : Z) (l : list N) : Z :=
  match l with
  | 32%N :: r => width_from (n + 1) r
  | 9%N :: r => width_from (8 * (n / 8 + 1)) r
  | _ => n
  end.
Definition width (l : list N) : Z := width_from 0 l.
Definition blank_line (l : list N) : Prop := Forall (fun c => c = 32 \/ c = 9)%N l.
Fixpoint is_blank (l : list N) : bool := match l with [] => true | 32%N :: r => is_blank r | 9%N :: r => is_blank r | _ => false end.

(** [m] is the least width of the lines that are not blank, and at most [top] *)
Definition least (top : Z) (ls : list (list N)) (m : Z) : Prop :=
  (m <= top)%Z /\ (forall l, In l ls -> ~ blank_line l -> (m <= width l)%Z) /\
  (m = top \/ exists l, In l ls /\ ~ blank_line l /\ m = width l).

(** ** Tokens *)

(** The indentation after a line, when it was [m] before *)
Definition less_indent (m : Z) (l : list N) : Z := if is_blank l then m else Z.min m (width l).

(** The text from [p] on: a token for every line as long as some indentation is left to remove, then one for the rest, which ends at [stop] *)
Fixpoint here_tokens (m : Z) (p : nat) (ls : list (list N)) (stop : nat) : list Token :=
  match ls with
  | [] => []
  | l :: r =>
      if (0 <? less_indent m l)%Z then tok_at tSTRING_CONTENT (l ++ [10%N]) p (List.length l + 1) :: here_tokens (less_indent m l) (p + List.length l + 1) r stop
      else [mkToken tSTRING_CONTENT (lines_text ls) (mkLoc p stop)]
  end.

Fixpoint drop_spaces (l : list N) : list N := match l with 32%N :: r => drop_spaces r | _ => l end.
