(** * Facts and values shared by the proofs about the builder *)
Require Import Verif.Base Verif.MaybeByteM Verif.Utf8M Verif.InputM Verif.ScopesM Verif.TokensM
  Verif.DiagnosticM Verif.LexerM Verif.NodeM Verif.BuilderM Verif.BuilderNodesM Verif.BuilderSpec.

(** ** Equality of byte strings *)
Lemma bytes_eqb_eq a b : bytes_eqb a b = true <-> a = b.
Proof.
  revert b; induction a as [|x a IH]; destruct b as [|y b]; cbn; try (split; congruence).
  rewrite andb_true_iff, N.eqb_eq, IH. split; [intros [-> ->]; reflexivity | intros H; injection H; auto].
Qed.
Lemma bytes_eqb_refl a : bytes_eqb a a = true.
Proof. now apply bytes_eqb_eq. Qed.
Lemma bytes_eqb_neq a b : bytes_eqb a b = false <-> a <> b.
Proof. rewrite <- bytes_eqb_eq. now destruct (bytes_eqb a b). Qed.

(** ** Appending diagnostics *)

Definition add_diags (ds : list Diagnostic) (b : Builder) : Builder :=
  mkBuilder (b_static_env b) (b_context b) (b_current_arg_stack b) (b_max_numparam_stack b)
    (b_pattern_variables b) (b_pattern_hash_keys b) (b_diagnostics b ++ ds) (b_chars b) (b_regex b).

Lemma add_diags_nil b : add_diags [] b = b.
Proof. destruct b; unfold add_diags; cbn; now rewrite app_nil_r. Qed.
Lemma add_diags_app d1 d2 b : add_diags d2 (add_diags d1 b) = add_diags (d1 ++ d2) b.
Proof. unfold add_diags; cbn; now rewrite app_assoc. Qed.

(** ** A builder to run examples with *)

Definition some_chars : CharClass := mkCharClass (fun _ => true) (fun _ => true).
Definition empty_builder : Builder :=
  mkBuilder se_new ctx_new ca_new np_new vs_new vs_new [] some_chars None.
Definition no_env : Env := mkEnv 0 None (fun _ => false).
