(** * Independent specifications for the stacks, scopes and reserved words (C21, C27-C29) *)
Require Import NArith List String.
Import ListNotations.

(** ** C27: a stack of booleans *)
Inductive StackOp : Type := SPush (b : bool) | SPop.
Definition stack_step (op : StackOp) (st : list bool) : list bool :=
  match op with SPush b => b :: st | SPop => tl st end.
Definition stack_run (ops : list StackOp) (st : list bool) : list bool :=
  fold_left (fun st op => stack_step op st) ops st.
(** The last pushed, not yet popped bit; false if there is none *)
Definition stack_top (st : list bool) : bool := hd false st.

(** A stack that forgets everything below the newest [n] entries *)
Definition bounded_run (n : nat) (ops : list StackOp) (st : list bool) : list bool :=
  fold_left (fun st op => firstn n (stack_step op st)) ops st.

(** Every intermediate stack has at most [n] entries *)
Fixpoint depth_ok (n : nat) (ops : list StackOp) (st : list bool) : Prop :=
  List.length st <= n /\
  match ops with
  | [] => True
  | op :: ops => depth_ok n ops (stack_step op st)
  end.

(** ** C28: lexical scopes *)
Inductive ScopeOp : Type := Declare (x : list N) | ExtendStatic | ExtendDynamic | Unextend.

(** A scope: entered dynamically or statically, and the names declared in it.  Innermost first. *)
Record Scope : Type := mkScope { sc_dynamic : bool; sc_names : list (list N) }.

Definition scope_step (op : ScopeOp) (l : list Scope) : option (list Scope) :=
  match op, l with
  | Declare x, s :: r => Some (mkScope (sc_dynamic s) (x :: sc_names s) :: r)
  | ExtendStatic, _ => Some (mkScope false [] :: l)
  | ExtendDynamic, _ => Some (mkScope true [] :: l)
  | Unextend, _ :: (_ :: _) as r => Some (tl l)
  | _, _ => None
  end.
Fixpoint scope_run (ops : list ScopeOp) (l : list Scope) : option (list Scope) :=
  match ops with
  | [] => Some l
  | op :: ops => match scope_step op l with Some l => scope_run ops l | None => None end
  end.
Definition outermost : list Scope := [mkScope false []].

(** [x] is visible: declared in the innermost scope, or in the next one if the innermost is dynamic, etc. *)
Fixpoint visible (x : list N) (l : list Scope) : Prop :=
  match l with
  | [] => False
  | s :: r => In x (sc_names s) \/ (sc_dynamic s = true /\ visible x r)
  end.

(** Histories in which every scope that is entered is left again *)
Inductive balanced : list ScopeOp -> Prop :=
| bal_nil : balanced []
| bal_declare : forall x h, balanced h -> balanced (Declare x :: h)
| bal_scope : forall op h h', op = ExtendStatic \/ op = ExtendDynamic ->
    balanced h -> balanced h' -> balanced (op :: h ++ Unextend :: h').

(** ** C29: histories of an arbitrary stack: entering, leaving, and changing the innermost entry *)
Inductive HOp (P C : Type) : Type := HPush (p : P) | HPop | HChange (c : C).
Arguments HPush {P C} p.
Arguments HPop {P C}.
Arguments HChange {P C} c.
Inductive hbalanced {P C : Type} : list (HOp P C) -> Prop :=
| hb_nil : hbalanced []
| hb_change : forall c h, hbalanced h -> hbalanced (HChange c :: h)
| hb_nest : forall p h h', hbalanced h -> hbalanced h' -> hbalanced (HPush p :: h ++ HPop :: h').

(** ** C21: the reserved words of Ruby, as listed in the language documentation *)
Definition ruby_keywords : list string :=
  ["__ENCODING__"; "__LINE__"; "__FILE__"; "BEGIN"; "END"; "alias"; "and"; "begin"; "break"; "case"; "class";
   "def"; "defined?"; "do"; "else"; "elsif"; "end"; "ensure"; "false"; "for"; "if"; "in"; "module"; "next";
   "nil"; "not"; "or"; "redo"; "rescue"; "retry"; "return"; "self"; "super"; "then"; "true"; "undef"; "unless";
   "until"; "when"; "while"; "yield"]%string.
