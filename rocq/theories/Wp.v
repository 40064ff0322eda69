(** * Weakest preconditions for the state monad (total correctness: no panic, no exhausted loop) *)
Require Import Verif.Base.

Definition wp {S A} (e : Env) (m : M S A) (Q : A -> S -> Prop) (s : S) : Prop :=
  match m e s with Ok a s' => Q a s' | _ => False end.

Section Rules.
  Context {S : Type} (e : Env).

  Lemma wp_ret : forall A (a : A) (Q : A -> S -> Prop) s, Q a s -> wp e (ret a) Q s.
  Proof using. unfold wp, ret. auto. Qed.

  Lemma wp_bind : forall A C (m : M S A) (k : A -> M S C) Q s,
    wp e m (fun a s' => wp e (k a) Q s') s -> wp e (bind m k) Q s.
  Proof using. unfold wp, bind. intros. destruct (m e s); auto. Qed.

  Lemma wp_bind_inv : forall A C (m : M S A) (k : A -> M S C) Q s,
    wp e (bind m k) Q s -> wp e m (fun a s' => wp e (k a) Q s') s.
  Proof using. unfold wp, bind. intros. destruct (m e s); auto. Qed.

  Lemma wp_get : forall (Q : S -> S -> Prop) s, Q s s -> wp e get Q s.
  Proof using. unfold wp, get. auto. Qed.

  Lemma wp_gets : forall A (f : S -> A) (Q : A -> S -> Prop) s, Q (f s) s -> wp e (gets f) Q s.
  Proof using. unfold wp, gets. auto. Qed.

  Lemma wp_ask : forall (Q : Env -> S -> Prop) s, Q e s -> wp e ask Q s.
  Proof using. unfold wp, ask. auto. Qed.

  Lemma wp_modify : forall (f : S -> S) (Q : unit -> S -> Prop) s, Q tt (f s) -> wp e (modify f) Q s.
  Proof using. unfold wp, modify. auto. Qed.

  Lemma wp_when : forall b (m : M S unit) (Q : unit -> S -> Prop) s,
    (b = true -> wp e m Q s) -> (b = false -> Q tt s) -> wp e (when b m) Q s.
  Proof using. unfold when. intros [|] m Q s H1 H2; [auto|]. apply wp_ret; auto. Qed.

  Lemma wp_if : forall A (b : bool) (m1 m2 : M S A) (Q : A -> S -> Prop) s,
    (b = true -> wp e m1 Q s) -> (b = false -> wp e m2 Q s) -> wp e (if b then m1 else m2) Q s.
  Proof using. intros A [|]; auto. Qed.

  Lemma wp_expect : forall A (o : option A) w (Q : A -> S -> Prop) s a,
    o = Some a -> Q a s -> wp e (expect o w) Q s.
  Proof using. intros; subst. apply wp_ret. auto. Qed.

  Lemma wp_sub_ck : forall a b (Q : nat -> S -> Prop) s, b <= a -> Q (a - b) s -> wp e (sub_ck a b) Q s.
  Proof using.
    intros a b Q s H HQ. unfold sub_ck. destruct (Nat.leb_spec b a); [apply wp_ret; auto|lia].
  Qed.

  Lemma wp_conseq : forall A (m : M S A) (P Q : A -> S -> Prop) s,
    wp e m P s -> (forall a s', P a s' -> Q a s') -> wp e m Q s.
  Proof using. unfold wp. intros. destruct (m e s); auto. Qed.

  Lemma wp_and : forall A (m : M S A) (P Q : A -> S -> Prop) s,
    wp e m P s -> wp e m Q s -> wp e m (fun a s' => P a s' /\ Q a s') s.
  Proof using. unfold wp. intros. destruct (m e s); auto. Qed.

  Lemma wp_loop_n : forall X R (body : X -> M S (X + R)) (I : X -> S -> Prop) (meas : X -> S -> nat)
      (Q : R -> S -> Prop),
    (forall x s, I x s ->
       wp e (body x) (fun r s' => match r with
                                  | inl x' => I x' s' /\ meas x' s' < meas x s
                                  | inr r => Q r s'
                                  end) s) ->
    forall n x s, I x s -> meas x s < n -> wp e (loop_n n body x) Q s.
  Proof using.
    intros X R body I meas Q Hb. induction n as [|n IH]; intros x s HI Hm; [lia|].
    cbn [loop_n]. apply wp_bind. eapply wp_conseq; [apply Hb; auto|].
    intros [x'|r] s' H; simpl in H.
    - destruct H as (H1 & H2). apply IH; auto. lia.
    - apply wp_ret. exact H.
  Qed.

  Lemma wp_loop : forall X R (body : X -> M S (X + R)) (I : X -> S -> Prop) (meas : X -> S -> nat)
      (Q : R -> S -> Prop) x s,
    I x s -> meas x s < fuel e ->
    (forall x s, I x s ->
       wp e (body x) (fun r s' => match r with
                                  | inl x' => I x' s' /\ meas x' s' < meas x s
                                  | inr r => Q r s'
                                  end) s) ->
    wp e (loop body x) Q s.
  Proof using. intros. unfold loop. unfold wp. apply (wp_loop_n X R body I meas Q); auto. Qed.
End Rules.

Lemma wp_zoom : forall S T A e (g : T -> S) (put : S -> T -> T) (m : M S A) (Q : A -> T -> Prop) t,
  wp e m (fun a s' => Q a (put s' t)) (g t) -> wp e (zoom g put m) Q t.
Proof. unfold wp, zoom. intros. destruct (m e (g t)); auto. Qed.

(** Split conjunctions only *)
Ltac splits := repeat match goal with |- _ /\ _ => split end.

(** [lia] without the boolean tests in the context, which make its preprocessing slow *)
Ltac blia := repeat match goal with H : @eq bool _ _ |- _ => clear H end; lia.
