(** * Independent vocabulary about text, used by the statements on lines, columns and rendering *)
Require Import NArith List.
Import ListNotations.

Definition newline : N := 10%N.

(** Byte at an offset *)
Definition at_ (b : list N) (p : nat) : option N := nth_error b p.

(** No newline byte at the offsets [lo <= p < hi] *)
Definition no_newline_in (b : list N) (lo hi : nat) : Prop :=
  forall p, lo <= p < hi -> at_ b p <> Some newline.

(** Number of newline bytes *)
Fixpoint newlines (b : list N) : nat :=
  match b with
  | [] => 0
  | c :: r => (if N.eqb c newline then 1 else 0) + newlines r
  end.

(** The longest newline-free prefix *)
Fixpoint upto_newline (b : list N) : list N :=
  match b with
  | [] => []
  | c :: r => if N.eqb c newline then [] else c :: upto_newline r
  end.

(** The part of the current line before / after offset [p] *)
Definition line_before (b : list N) (p : nat) : list N := rev (upto_newline (rev (firstn p b))).
Definition line_after (b : list N) (p : nat) : list N := upto_newline (skipn p b).

(** Canonical decimal spelling of a number *)
Fixpoint dec_value (l : list N) (acc : N) : N :=
  match l with
  | [] => acc
  | c :: r => dec_value r (10 * acc + (c - 48))%N
  end.
Definition decimal (l : list N) (n : nat) : Prop :=
  l <> [] /\ Forall (fun c => (48 <= c <= 57)%N) l /\ dec_value l 0 = N.of_nat n /\
  (hd 0%N l = 48%N -> l = [48%N]).
