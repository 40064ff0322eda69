(** * The loop bound of the environment does not influence results *)
Require Import Verif.Base Verif.MaybeByteM Verif.Utf8M Verif.InputM Verif.DiagnosticM Verif.LexStateM
  Verif.StackStateM Verif.ScopesM Verif.TokensM Verif.ReservedM Verif.BufferM Verif.LexerM Verif.LexNumericM Verif.LexStringM
  Verif.LexIdentM Verif.LexHeredocM Verif.LexMagicM Verif.LexMainM.

(** The same environment with a larger loop bound *)
Definition more_fuel (e e' : Env) : Prop :=
  decoder e' = decoder e /\ upper_oracle e' = upper_oracle e /\ fuel e <= fuel e'.

Definition Mono {S A} (m : M S A) : Prop :=
  forall e e' s, more_fuel e e' -> m e s <> OutOfFuel -> m e' s = m e s.

Lemma mono_const : forall S A (m : M S A), (forall e e' s, m e s = m e' s) -> Mono m.
Proof. intros S A m H e e' s _ _. apply H. Qed.
Lemma mono_ret : forall S A (a : A), Mono (S := S) (ret a).
Proof. intros. apply mono_const. reflexivity. Qed.
Lemma mono_bind : forall S A C (m : M S A) (k : A -> M S C), Mono m -> (forall a, Mono (k a)) -> Mono (bind m k).
Proof.
  intros S A C m k Hm Hk e e' s HE H. unfold bind in *.
  rewrite (Hm e e' s HE). 2: { destruct (m e s); congruence. }
  destruct (m e s); auto. apply Hk; auto.
Qed.
Lemma mono_loop_n : forall S X R (body : X -> M S (X + R)), (forall x, Mono (body x)) ->
  forall n n' x e e' s, n <= n' -> more_fuel e e' -> loop_n n body x e s <> OutOfFuel ->
  loop_n n' body x e' s = loop_n n body x e s.
Proof.
  intros S X R body Hb. induction n as [|n IH]; intros [|n'] x e e' s Hn HE H; cbn [loop_n] in *; try congruence; try lia.
  unfold bind in *. rewrite (Hb x e e' s HE). 2: { destruct (body x e s); congruence. }
  destruct (body x e s) as [[y|r] s1| |]; auto. apply IH; auto. lia.
Qed.
Lemma mono_loop : forall S X R (body : X -> M S (X + R)) x, (forall x, Mono (body x)) -> Mono (loop body x).
Proof. intros S X R body x Hb e e' s HE H. unfold loop in *. apply mono_loop_n; auto. apply HE. Qed.
Lemma mono_zoom : forall S T A (g : T -> S) (p : S -> T -> T) (m : M S A), Mono m -> Mono (zoom g p m).
Proof.
  intros S T A g p m Hm e e' s HE H. unfold zoom in *. rewrite (Hm e e' _ HE); auto. destruct (m e (g s)); congruence.
Qed.
(** Reading the environment is fine where only the decoder or the oracle is used *)
Lemma mono_ask : forall S A (k : Env -> M S A),
  (forall e e', more_fuel e e' -> k e' = k e) -> (forall e, Mono (k e)) -> Mono (bind ask k).
Proof.
  intros S A k H1 H2 e e' s HE H. unfold bind, ask in *. rewrite (H1 e e' HE). apply H2; auto.
Qed.

Create HintDb mono.
Ltac mhead f := lazymatch f with ?g _ => mhead g | _ => f end.
Ltac mono :=
  lazymatch goal with
  | |- forall _, _ => intro; mono
  | |- Mono (bind _ _) => apply mono_bind; [mono|mono]
  | |- Mono (ret _) => apply mono_ret
  | |- Mono (panic _) => apply mono_const; reflexivity
  | |- Mono get => apply mono_const; reflexivity
  | |- Mono (gets _) => apply mono_const; reflexivity
  | |- Mono (modify _) => apply mono_const; reflexivity
  | |- Mono (zoom _ _ _) => apply mono_zoom; mono
  | |- Mono (loop _ _) => apply mono_loop; mono
  | |- Mono (if ?x then _ else _) => destruct x; mono
  | |- Mono (match ?x with _ => _ end) => destruct x; mono
  | |- Mono (let _ := _ in _) => cbv zeta; mono
  | |- Mono ?f => first [solve [auto with mono nocore] | match goal with H : _ |- _ => solve [apply H] end | let h := mhead f in unfold h; cbv beta; mono]
  end.

Lemma mono_nextc : Mono nextc. Proof. mono. Qed.
Lemma mono_pushback : forall c, Mono (pushback c). Proof. mono. Qed.
#[export] Hint Resolve mono_nextc mono_pushback : mono.
Lemma mono_read_escape_n : forall n f, Mono (read_escape_n n f).
Proof.
  induction n as [|n IH]; intros f. { apply mono_const. reflexivity. }
  cbn [read_escape_n]. mono.
Qed.
#[export] Hint Resolve mono_read_escape_n : mono.
Lemma mono_set_encoding : forall enc, Mono (set_encoding enc).
Proof.
  intros enc. unfold set_encoding. apply mono_bind; [mono|]. intros d. apply mono_ask; [|mono].
  intros e e' (H1 & _). unfold decode_input. rewrite H1. reflexivity.
Qed.
Lemma mono_ident_plain : forall t l c, Mono (ident_plain t l c).
Proof.
  intros. unfold ident_plain. apply mono_bind; [mono|]. intros _. apply mono_bind; [mono|]. intros [i|]; [|mono].
  apply mono_ask; [|mono]. intros e e' (_ & H2 & _). unfold is_var_name, char_is_uppercase. rewrite H2. reflexivity.
Qed.
#[export] Hint Resolve mono_set_encoding mono_ident_plain : mono.
Lemma mono_mc_register : forall t nm b n vb ve, Mono (mc_register t nm b n vb ve).
Proof.
  induction t as [|[k kd] t IH]; intros; cbn [mc_register]; [mono|].
  mono.
Qed.
#[export] Hint Resolve mono_mc_register : mono.
Lemma mono_parse_numeric : forall p, Mono (parse_numeric p). Proof. mono. Qed.
Lemma mono_parse_string : Mono parse_string. Proof. mono. Qed.
Lemma mono_here_document : Mono here_document. Proof. mono. Qed.
Lemma mono_parse_ident : forall c cs, Mono (parse_ident c cs). Proof. mono. Qed.
#[export] Hint Resolve mono_parse_numeric mono_parse_string mono_here_document mono_parse_ident : mono.
Lemma mono_yylex : Mono yylex. Proof. mono. Qed.
#[export] Hint Resolve mono_yylex : mono.
Lemma mono_tokenize : Mono tokenize_until_eof. Proof. mono. Qed.
Lemma mono_buffer_new : forall n b, Mono (buffer_new n b). Proof. mono. Qed.

Lemma run_lexer_mono : forall B name e e', more_fuel e e' -> run_lexer B name e <> OutOfFuel ->
  run_lexer B name e' = run_lexer B name e.
Proof.
  intros B name e e' HE H. unfold run_lexer, lexer_new in *.
  rewrite (mono_buffer_new name B e e'); auto. 2: { destruct (buffer_new name B e _); congruence. }
  destruct (buffer_new name B e _); auto. apply mono_tokenize; auto.
Qed.
