(** * Model of src/stack_state.rs

    [usize] is modelled for 64-bit targets: [<<] drops the bits from 2^64 on. *)
Require Import Verif.Base.
Local Open Scope N_scope.

(** stack_state.rs 2-5; the [name] is only used by [Debug]. *)
Definition StackState := N.

Definition usize_bits : N := 64.

(** stack_state.rs 8-10 *)
Definition ss_new : StackState := 0.

(** stack_state.rs 12-14 *)
Definition ss_is_empty (s : StackState) : bool := N.eqb s 0.

(** stack_state.rs 16-19 *)
Definition ss_push (bit : bool) (s : StackState) : StackState :=
  let bit_value := if bit then 1 else 0 in
  N.lor (N.land (N.shiftl s 1) (N.ones usize_bits)) bit_value.

(** stack_state.rs 21-23 *)
Definition ss_pop (s : StackState) : StackState := N.shiftr s 1.

(** stack_state.rs 25-27 *)
Definition ss_is_active (s : StackState) : bool := N.eqb (N.land s 1) 1.
