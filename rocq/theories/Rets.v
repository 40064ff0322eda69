(** * Which functions of the lexer never return the newline token *)
Require Import Verif.Base Verif.MaybeByteM Verif.Utf8M Verif.InputM Verif.DiagnosticM Verif.LexStateM
  Verif.StackStateM Verif.ScopesM Verif.TokensM Verif.ReservedM Verif.BufferM Verif.LexerM Verif.LexNumericM Verif.LexStringM
  Verif.LexIdentM Verif.LexHeredocM Verif.LexMainM Verif.Wp.

(** The tokens inside a result are not [tNL] *)
Class TokIn (A : Type) := nonl_in : A -> Prop.
#[export] Instance tin_any A : TokIn A | 100 := fun _ => True.
#[export] Instance tin_tok : TokIn Tok | 1 := fun t => t <> tNL.
#[export] Instance tin_sum A B (IA : TokIn A) (IB : TokIn B) : TokIn (A + B) | 1 :=
  fun x => match x with inl a => IA a | inr b => IB b end.
#[export] Instance tin_prod A B (IA : TokIn A) (IB : TokIn B) : TokIn (A * B) | 1 := fun x => IA (fst x) /\ IB (snd x).
#[export] Instance tin_option A (IA : TokIn A) : TokIn (option A) | 1 :=
  fun x => match x with Some a => IA a | None => True end.
#[export] Instance tin_step : TokIn Step | 1 := fun r => match r with Tk t => t <> tNL | _ => True end.

Definition Rets {S A} {I : TokIn A} (m : M S A) : Prop := forall e s a s', m e s = Ok a s' -> I a.

Lemma rets_any : forall S A (m : M S A), Rets (I := tin_any A) m.
Proof. intros S A m e s a s' H. exact Logic.I. Qed.
Lemma rets_ret : forall S A (IA : TokIn A) (a : A), IA a -> Rets (S := S) (I := IA) (ret a).
Proof. intros S A IA a Ha e s a' s' H. injection H as <- <-. exact Ha. Qed.
Lemma rets_bind : forall S A C (IA : TokIn A) (IC : TokIn C) (m : M S A) (k : A -> M S C),
  Rets (I := IA) m -> (forall a, IA a -> Rets (I := IC) (k a)) -> Rets (I := IC) (bind m k).
Proof.
  intros S A C IA IC m k Hm Hk e s c s' H. unfold bind in H.
  destruct (m e s) as [a s1| |] eqn:E; try discriminate. eapply Hk; [eapply Hm; exact E|exact H].
Qed.
Lemma rets_panic : forall S A (IA : TokIn A) w, Rets (S := S) (I := IA) (panic w).
Proof. intros S A IA w e s a s' H. discriminate. Qed.
Lemma rets_loop_n : forall S X R (IX : TokIn X) (IR : TokIn R) (body : X -> M S (X + R)),
  (forall x, IX x -> Rets (I := tin_sum _ _ IX IR) (body x)) ->
  forall n x, IX x -> Rets (I := IR) (loop_n n body x).
Proof.
  intros S X R IX IR body Hb. induction n as [|n IH]; intros x Hx; cbn [loop_n].
  - intros e s a s' H. discriminate.
  - eapply rets_bind; [apply Hb; exact Hx|]. intros [y|r] Hy; [apply IH; exact Hy|apply rets_ret; exact Hy].
Qed.
Lemma rets_loop : forall S X R (IX : TokIn X) (IR : TokIn R) (body : X -> M S (X + R)) x,
  (forall x, IX x -> Rets (I := tin_sum _ _ IX IR) (body x)) -> IX x -> Rets (I := IR) (loop body x).
Proof.
  intros S X R IX IR body x Hb Hx e s a s' H. exact (rets_loop_n S X R IX IR body Hb _ x Hx e s a s' H).
Qed.

Lemma wp_rets : forall S A (IA : TokIn A) e (m : M S A) (Q : A -> S -> Prop) s,
  Rets (I := IA) m -> wp e m (fun a s => IA a -> Q a s) s -> wp e m Q s.
Proof.
  intros S A IA e m Q s Hm H. unfold wp in *. specialize (Hm e s). destruct (m e s) as [a s'| |]; auto.
  apply H. eapply Hm. reflexivity.
Qed.

Lemma rets_triv : forall S A (IA : TokIn A) (m : M S A), (forall a, IA a) -> Rets (I := IA) m.
Proof. intros S A IA m H e s a s' _. apply H. Qed.
Ltac allin :=
  let a := fresh "a" in intros a;
  cbv [tin_sum tin_prod tin_option tin_any fst snd]; repeat match goal with |- context [match ?x with _ => _ end] => destruct x end;
  repeat split.

Create HintDb rets.
Ltac rsplit := cbv [tin_sum tin_prod tin_option tin_any tin_tok tin_step fst snd] in *;
  repeat match goal with |- context [match ?x with _ => _ end] => destruct x end; repeat split.
Ltac rtriv := first [exact Logic.I | discriminate | assumption | rsplit; first [exact Logic.I | discriminate | assumption] | solve [rsplit] | solve [rsplit; repeat match goal with H : _ /\ _ |- _ => destruct H end; auto]].
Ltac rhead f := lazymatch f with ?g _ => rhead g | _ => f end.
Ltac rets :=
  first [ apply rets_any
        | apply rets_triv; solve [allin]
        | solve [auto with rets nocore]
        | lazymatch goal with
          | |- Rets (bind _ _) => eapply rets_bind; [rets|let a := fresh "a" in let H := fresh "Ha" in intros a H; cbn in H; rets]
          | |- Rets (ret (if ?x then _ else _)) => destruct x; rets
          | |- Rets (ret (match ?x with _ => _ end)) => destruct x; rets
          | |- Rets (ret (inr (if ?x then _ else _))) => destruct x; rets
          | |- Rets (ret _) => apply rets_ret; cbn; try rtriv
          | |- Rets (panic _) => apply rets_panic
          | |- @Rets _ _ ?IR (@loop _ ?X _ _ _) => let IX := constr:(ltac:(typeclasses eauto) : TokIn X) in apply (rets_loop _ X _ IX IR); [let a := fresh "x" in let H := fresh "Hx" in intros a H; cbn in H; cbv beta; rets|try rtriv]
          | |- Rets (if ?x then _ else _) => destruct x; rets
          | |- Rets (let '(_, _) := ?x in _) => destruct x; rets
          | |- Rets (match ?x with _ => _ end) => destruct x; rets
          | |- Rets (let _ := _ in _) => cbv zeta; rets
          | |- Rets ?f => let h := rhead f in unfold h; rets
          end
        | idtac ].

Lemma rets_set_number : forall v t sf, t <> tNL -> Rets (set_number_literal v t sf).
Proof. intros. unfold set_number_literal. rets. Qed.
#[export] Hint Extern 1 (Rets (set_number_literal _ _ _)) => (apply rets_set_number; discriminate) : rets.
Lemma rets_set_integer : forall v sf, Rets (set_integer_literal v sf).
Proof. intros. rets. Qed.
Lemma rets_trailing_uc : forall n, Rets (trailing_uc n).
Proof. intros. rets. Qed.
#[export] Hint Resolve rets_set_integer rets_trailing_uc : rets.
Lemma rets_based_number : forall d c n, Rets (based_number d c n).
Proof. intros. rets. Qed.
Lemma rets_decode_num : forall c nd f se, Rets (decode_num c nd f se).
Proof. intros. rets. Qed.
#[export] Hint Resolve rets_based_number rets_decode_num : rets.
Lemma rets_parse_octal : forall c nd st, Rets (parse_octal c nd st).
Proof. intros. rets. Qed.
#[export] Hint Resolve rets_parse_octal : rets.
Lemma rets_leading_zero : forall c n, Rets (leading_zero c n).
Proof. intros. rets. Qed.
#[export] Hint Resolve rets_leading_zero : rets.
Lemma rets_decimal_body : forall x, Rets (decimal_body x).
Proof. intros []. cbn [decimal_body]. rets. Qed.
Lemma rets_decimal_loop : forall c nd, Rets (decimal_loop c nd).
Proof. intros. unfold decimal_loop. apply rets_loop with (IX := tin_any _); [intros; apply rets_decimal_body|exact Logic.I]. Qed.
#[export] Hint Resolve rets_decimal_loop : rets.
Lemma rets_parse_numeric : forall p, Rets (parse_numeric p).
Proof. intros. rets. Qed.

Lemma tin_reserved : forall w kw, reserved_word w = Some kw -> rw_id kw <> tNL /\ rw_modifier_id kw <> tNL.
Proof.
  intros w kw H.
  assert (HA : forallb (forallb (fun kw => negb (tok_eqb (rw_id kw) tNL) && negb (tok_eqb (rw_modifier_id kw) tNL))) RESERVED_WORDS = true)
    by (vm_compute; reflexivity).
  unfold reserved_word in H. destruct (nth_error RESERVED_WORDS _) as [bk|] eqn:E1; [|discriminate].
  destruct (binary_search bk w) as [i|]; [|discriminate]. apply nth_error_In in E1, H.
  rewrite forallb_forall in HA. specialize (HA _ E1). rewrite forallb_forall in HA. specialize (HA _ H).
  apply andb_prop in HA. destruct HA as (H1 & H2). split; intros E; [rewrite E in H1|rewrite E in H2]; discriminate.
Qed.
#[export] Hint Resolve rets_parse_numeric : rets.
Lemma rets_ident_suffix : forall c, Rets (ident_suffix c).
Proof. intros. rets. Qed.
Lemma rets_ident_plain : forall t l c, t <> tNL -> Rets (ident_plain t l c).
Proof. intros. unfold ident_plain. rets. Qed.
#[export] Hint Resolve rets_ident_suffix rets_ident_plain : rets.
Lemma rets_ident_keyword : forall kw, rw_id kw <> tNL -> rw_modifier_id kw <> tNL -> Rets (ident_keyword kw).
Proof. intros. unfold ident_keyword. rets. Qed.
Lemma rets_parse_ident : forall c cs, Rets (parse_ident c cs).
Proof.
  intros. unfold parse_ident. eapply rets_bind; [rets|]. intros. eapply rets_bind; [rets|]. intros.
  match goal with |- Rets (match ?x with _ => _ end) => destruct x end; [|rets].
  eapply rets_bind; [rets|]. intros t Ht. eapply rets_bind; [rets|]. intros s _. eapply rets_bind; [rets|]. intros [] _; [rets|].
  destruct (negb _); [|rets]. destruct (reserved_word _) eqn:E; [|rets].
  apply tin_reserved in E. apply rets_ident_keyword; apply E.
Qed.
Lemma rets_parse_gvar : forall l, Rets (parse_gvar l).
Proof. intros. rets. Qed.
Lemma rets_parse_atmark : forall l, Rets (parse_atmark l).
Proof. intros. rets. Qed.
Lemma rets_parse_qmark : forall l, Rets (parse_qmark l).
Proof. intros. rets. Qed.
Lemma rets_warn_balanced : forall t op syn c sp ls, t <> tNL -> Rets (warn_balanced t op syn c sp ls).
Proof. intros. unfold warn_balanced. rets. Qed.
#[export] Hint Extern 1 (Rets (warn_balanced _ _ _ _ _ _)) => (apply rets_warn_balanced; discriminate) : rets.
Lemma rets_parse_percent : forall l ls, Rets (parse_percent l ls).
Proof. intros. rets. Qed.
#[export] Hint Resolve rets_parse_ident rets_parse_gvar rets_parse_atmark rets_parse_qmark rets_parse_percent : rets.
Lemma rets_heredoc_identifier : Rets heredoc_identifier.
Proof. intros. rets. Qed.
#[export] Hint Resolve rets_heredoc_identifier : rets.
Lemma rets_parse_string : Rets parse_string.
Proof. intros. rets. Qed.
Lemma rets_here_document : Rets here_document.
Proof. intros. rets. Qed.

(** Only the newline branch returns [tNL] *)
Lemma rets_lex_char : forall c cs sp seen ls, mbeq c 35%N = false -> mbeq c 10%N = false ->
  Rets (lex_char c cs sp seen ls).
Proof.
  intros c cs sp seen ls H1 H2. unfold lex_char. destruct c as [ch|]; [|rets].
  replace (N.eqb ch 10) with (mbeq (Some ch) 10%N) by reflexivity. rewrite H1, H2. cbn [orb]. rets.
Qed.
