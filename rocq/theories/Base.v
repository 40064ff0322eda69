(** * Basic vocabulary of the model

    Bytes ([u8]) are natural numbers of type [N]; offsets and lengths ([usize]) are [nat].
    Every function that takes [&mut self] in Rust is a function in the state monad [M] below, whose
    result is [Ok], [Panic] (any Rust panic) or [OutOfFuel] (a loop ran longer than the bound in the
    environment; proved impossible in the termination theorems).  No Rust counterpart. *)
Require Export NArith ZArith List Bool Arith Lia.
Require Import Strings.Byte Strings.Ascii.
Require Export Strings.String.
Export ListNotations.
Open Scope list_scope.
Open Scope nat_scope.

(** ** Byte literals: ["x"%bn] is the byte [b'x'] *)
Definition parse_byteN (l : list Byte.byte) : option N :=
  match l with [b] => Some (Byte.to_N b) | _ => None end.
Definition print_byteN (n : N) : option (list Byte.byte) :=
  match Byte.of_N n with Some b => Some [b] | None => None end.
Declare Scope bn_scope.
Delimit Scope bn_scope with bn.
String Notation N parse_byteN print_byteN : bn_scope.

(** Byte string literal: the bytes of an ASCII string. *)
Definition bs (s : string) : list N :=
  List.map (fun a => Ascii.N_of_ascii a) (list_ascii_of_string s).
Arguments bs s%string.

(** ** Results and the state monad *)
Inductive res (S A : Type) : Type :=
| Ok (a : A) (s : S)
| Panic (msg : string)
| OutOfFuel.
Arguments Ok {S A}.
Arguments Panic {S A}.
Arguments OutOfFuel {S A}.

(** What the decoder supplied by the user may return (src/source/decoder.rs 1-41). *)
Inductive InputError : Type :=
| UnsupportedEncoding (enc : list N)
| DecodingError (msg : list N).
Inductive DecoderResult : Type :=
| DecOk (bytes : list N)
| DecErr (e : InputError).

(** The immutable environment of a run. *)
Record Env : Type := mkEnv {
  fuel : nat;                                               (* loop bound *)
  decoder : option (list N -> list N -> DecoderResult);     (* Option<Decoder>, source/decoder.rs 65-82 *)
  upper_oracle : N -> bool                                  (* char::is_uppercase on code points >= 128 *)
}.

Definition M (S A : Type) : Type := Env -> S -> res S A.

Definition ret {S A} (a : A) : M S A := fun _ s => Ok a s.
Definition bind {S A B} (m : M S A) (k : A -> M S B) : M S B :=
  fun e s => match m e s with
             | Ok a s' => k a e s'
             | Panic w => Panic w
             | OutOfFuel => OutOfFuel
             end.
Definition panic {S A} (w : string) : M S A := fun _ _ => Panic w.
Arguments panic {S A} w%string.
Definition get {S} : M S S := fun _ s => Ok s s.
Definition gets {S A} (f : S -> A) : M S A := fun _ s => Ok (f s) s.
Definition modify {S} (f : S -> S) : M S unit := fun _ s => Ok tt (f s).
Definition ask {S} : M S Env := fun e s => Ok e s.

Declare Scope monad_scope.
Delimit Scope monad_scope with monad.
Notation "x <- m ;; k" := (bind m (fun x => k))
  (at level 61, m at next level, right associativity) : monad_scope.
Notation "m ;;; k" := (bind m (fun _ => k))
  (at level 61, right associativity) : monad_scope.
Notation "' p <- m ;; k" := (bind m (fun p => k))
  (at level 61, p pattern, m at next level, right associativity) : monad_scope.
Open Scope monad_scope.

Definition when {S} (b : bool) (m : M S unit) : M S unit := if b then m else ret tt.

(** [Option::expect] / [unwrap] and checked subtraction on [usize]. *)
Definition expect {S A} (o : option A) (w : string) : M S A :=
  match o with Some a => ret a | None => panic w end.
Arguments expect {S A} o w%string.
Definition sub_ck {S} (a b : nat) : M S nat :=
  if b <=? a then ret (a - b) else panic "attempt to subtract with overflow".

(** ** Loops

    [loop body x]: run [body x]; [inl x'] is Rust's [continue] with the loop variables now [x'];
    [inr r] leaves the loop with [r].  At most [fuel] iterations. *)
Fixpoint loop_n {S X R} (n : nat) (body : X -> M S (X + R)) (x : X) : M S R :=
  match n with
  | O => fun _ _ => OutOfFuel
  | Datatypes.S n' =>
      r <- body x ;;
      match r with
      | inl x' => loop_n n' body x'
      | inr r => ret r
      end
  end.
Definition loop {S X R} (body : X -> M S (X + R)) (x : X) : M S R :=
  fun e s => loop_n (fuel e) body x e s.

(** Running a computation on a component of the state. *)
Definition zoom {S T A} (get : T -> S) (put : S -> T -> T) (m : M S A) : M T A :=
  fun e t => match m e (get t) with
             | Ok a s' => Ok a (put s' t)
             | Panic w => Panic w
             | OutOfFuel => OutOfFuel
             end.

Definition is_ok {S A} (r : res S A) : bool := match r with Ok _ _ => true | _ => false end.

(** List equality of byte strings ([==] on slices). *)
Fixpoint bytes_eqb (a b : list N) : bool :=
  match a, b with
  | [], [] => true
  | x :: a', y :: b' => N.eqb x y && bytes_eqb a' b'
  | _, _ => false
  end.
