(** * The flag [token_seen] influences nothing but itself *)
Require Import Verif.Base Verif.MaybeByteM Verif.Utf8M Verif.InputM Verif.DiagnosticM Verif.LexStateM
  Verif.StackStateM Verif.ScopesM Verif.TokensM Verif.ReservedM Verif.BufferM Verif.LexerM Verif.LexNumericM Verif.LexStringM
  Verif.LexIdentM Verif.LexHeredocM Verif.LexMagicM Verif.LexMainM.

(** Two states that differ in the flag only *)
Definition alike (s s' : Lexer) : Prop := exists v, s' = set_token_seen v s.

Lemma alike_refl : forall s, alike s s.
Proof. intros s. exists (token_seen s). destruct s; reflexivity. Qed.
Lemma alike_sym : forall s s', alike s s' -> alike s' s.
Proof. intros s s' (v & ->). exists (token_seen s). destruct s; reflexivity. Qed.
Lemma alike_trans : forall a b c, alike a b -> alike b c -> alike a c.
Proof. intros a b c (v & ->) (w & ->). exists w. destruct a; reflexivity. Qed.
#[export] Hint Resolve alike_refl : core.

(** The same result, and final states that differ in the flag only *)
Definition agree {A} (r r' : res Lexer A) : Prop :=
  match r, r' with
  | Ok a s, Ok a' s' => a = a' /\ alike s s'
  | Panic w, Panic w' => w = w'
  | OutOfFuel, OutOfFuel => True
  | _, _ => False
  end.

Lemma agree_refl : forall A (r : res Lexer A), agree r r.
Proof. intros A [a s|w|]; cbn; auto. Qed.
Lemma agree_trans : forall A (a b c : res Lexer A), agree a b -> agree b c -> agree a c.
Proof.
  intros A [x s|w|] [y t|v|] [z u|o|]; cbn; try tauto; try congruence.
  intros (-> & H) (-> & H'). split; auto. eapply alike_trans; eauto.
Qed.
Lemma agree_sym : forall A (a b : res Lexer A), agree a b -> agree b a.
Proof. intros A [x s|w|] [y t|v|]; cbn; try tauto; try congruence. intros (-> & H). split; auto. apply alike_sym; auto. Qed.

Definition Rel {A} (m m' : M Lexer A) : Prop := forall e s s', alike s s' -> agree (m e s) (m' e s').
Notation Blind m := (Rel m m).

Lemma rel_ret : forall A (a : A), Blind (ret a).
Proof. intros A a e s s' H. cbn. auto. Qed.
Lemma rel_panic : forall A w, Rel (A := A) (panic w) (panic w).
Proof. intros A a e s s' H. reflexivity. Qed.
Lemma rel_bind : forall A C (m m' : M Lexer A) (k k' : A -> M Lexer C), Rel m m' -> (forall a, Rel (k a) (k' a)) -> Rel (bind m k) (bind m' k').
Proof.
  intros A C m m' k k' Hm Hk e s s' H. unfold bind. specialize (Hm e s s' H).
  destruct (m e s) as [a t|w|], (m' e s') as [a' t'|w'|]; cbn in Hm; try contradiction; auto.
  destruct Hm as (<- & Hm). apply Hk. exact Hm.
Qed.
Lemma rel_get : forall A (k k' : Lexer -> M Lexer A), (forall s v, k' (set_token_seen v s) = k' s) -> (forall s, Rel (k s) (k' s)) -> Rel (bind get k) (bind get k').
Proof. intros A k k' H1 H2 e s s' HA. pose proof HA as (v & ->). unfold bind, get. rewrite H1. apply H2. exact HA. Qed.
Lemma rel_gets : forall A (f : Lexer -> A), (forall s v, f (set_token_seen v s) = f s) -> Blind (gets f).
Proof. intros A f H e s s' HA. pose proof HA as (v & ->). unfold gets. cbn. rewrite H. auto. Qed.
Lemma rel_modify : forall (f : Lexer -> Lexer), (forall s v, f (set_token_seen v s) = set_token_seen v (f s)) -> Blind (modify f).
Proof. intros f H e s s' HA. pose proof HA as (v & ->). unfold modify. cbn. split; auto. rewrite H. exists v. reflexivity. Qed.
Lemma rel_seen : forall v v', Rel (modify (set_token_seen v)) (modify (set_token_seen v')).
Proof. intros v v' e s s' (w & ->). unfold modify. cbn. split; auto. exists v'. reflexivity. Qed.
Lemma rel_zoom : forall S A (g : Lexer -> S) (p : S -> Lexer -> Lexer) (m : M S A),
  (forall s v, g (set_token_seen v s) = g s) -> (forall x s v, p x (set_token_seen v s) = set_token_seen v (p x s)) -> Blind (zoom g p m).
Proof.
  intros S A g p m Hg Hp e s s' HA. pose proof HA as (v & ->). unfold zoom. rewrite Hg. destruct (m e (g s)); cbn; auto.
  split; auto. exists v. apply Hp.
Qed.
Lemma rel_ask : forall A (k k' : Env -> M Lexer A), (forall e, Rel (k e) (k' e)) -> Rel (bind ask k) (bind ask k').
Proof. intros A k k' H e s s' HA. unfold bind, ask. apply H. exact HA. Qed.
Lemma rel_loop : forall X R (body body' : X -> M Lexer (X + R)) x, (forall x, Rel (body x) (body' x)) -> Rel (loop body x) (loop body' x).
Proof.
  intros X R body body' x Hb e. unfold loop. generalize (fuel e). intros n. revert x. induction n as [|n IH]; intros x s s' HA; [exact I|].
  cbn [loop_n]. unfold bind. specialize (Hb x e s s' HA).
  destruct (body x e s) as [a t|w|], (body' x e s') as [a' t'|w'|]; cbn in Hb; try contradiction; auto.
  destruct Hb as (<- & Hb). destruct a; [apply IH; exact Hb|]. cbn. auto.
Qed.

Create HintDb blind.
Ltac bhead f := lazymatch f with ?g _ => bhead g | _ => f end.
Ltac blind :=
  lazymatch goal with
  | |- forall _, _ => intro; blind
  | |- Rel (bind get _) (bind get _) => apply rel_get; [intros; reflexivity|blind]
  | |- Rel (bind ask _) (bind ask _) => apply rel_ask; blind
  | |- Rel (bind _ _) (bind _ _) => apply rel_bind; [blind|blind]
  | |- Rel (ret _) (ret _) => apply rel_ret
  | |- Rel (panic _) (panic _) => apply rel_panic
  | |- Rel (gets _) _ => apply rel_gets; intros; reflexivity
  | |- Rel (modify (set_token_seen _)) _ => apply rel_seen
  | |- Rel (modify _) _ => apply rel_modify; intros; reflexivity
  | |- Rel (zoom _ _ _) _ => apply rel_zoom; intros; reflexivity
  | |- Rel (loop _ _) _ => apply rel_loop; blind
  | |- Rel (if ?x then _ else _) _ => destruct x; blind
  | |- Rel (match ?x with _ => _ end) _ => destruct x; blind
  | |- Rel (let _ := _ in _) _ => cbv zeta; blind
  | |- Rel ?f ?g => first [solve [auto with blind nocore] | match goal with H : _ |- _ => solve [apply H] end | let h := bhead f in unfold h; cbv beta; blind]
  end.

Lemma blind_nextc : Blind nextc. Proof. blind. Qed.
Lemma blind_pushback : forall c, Blind (pushback c). Proof. blind. Qed.
#[export] Hint Resolve blind_nextc blind_pushback : blind.
Lemma blind_read_escape_n : forall n f, Blind (read_escape_n n f).
Proof. induction n as [|n IH]; intros f. { intros e s s' H. exact I. } cbn [read_escape_n]. blind. Qed.
#[export] Hint Resolve blind_read_escape_n : blind.
Lemma blind_mc_register : forall t nm b n vb ve, Blind (mc_register t nm b n vb ve).
Proof. induction t as [|[k kd] t IH]; intros; cbn [mc_register]; blind. Qed.
#[export] Hint Resolve blind_mc_register : blind.
Lemma blind_parse_numeric : forall p, Blind (parse_numeric p). Proof. blind. Qed.
Lemma blind_parse_string : Blind parse_string. Proof. blind. Qed.
Lemma blind_here_document : Blind here_document. Proof. blind. Qed.
Lemma blind_parse_ident : forall c cs, Blind (parse_ident c cs). Proof. blind. Qed.
#[export] Hint Resolve blind_parse_numeric blind_parse_string blind_here_document blind_parse_ident : blind.

Lemma rel_newline : forall c sp seen seen', Rel (lex_newline c sp seen) (lex_newline c sp seen'). Proof. blind. Qed.
#[export] Hint Resolve rel_newline : blind.
Lemma rel_lex_char : forall c cs sp seen seen' st, Rel (lex_char c cs sp seen st) (lex_char c cs sp seen' st). Proof. blind. Qed.
#[export] Hint Resolve rel_lex_char : blind.
Lemma rel_lex_step : forall cs seen seen' sp, Rel (lex_step cs seen sp) (lex_step cs seen' sp). Proof. blind. Qed.
#[export] Hint Resolve rel_lex_step : blind.

Lemma rel_get2 : forall A (k k' : Lexer -> M Lexer A), (forall s v, Rel (k s) (k' (set_token_seen v s))) -> Rel (bind get k) (bind get k').
Proof. intros A k k' H e s s' HA. pose proof HA as (v & ->). unfold bind, get. apply H. exact HA. Qed.

Lemma blind_parser_yylex : Blind parser_yylex.
Proof.
  unfold parser_yylex. apply rel_get2. intros s v. change (strterm (set_token_seen v s)) with (strterm s).
  change (command_start (set_token_seen v s)) with (command_start s). change (token_seen (set_token_seen v s)) with v. blind.
Qed.
#[export] Hint Resolve blind_parser_yylex : blind.
(** A request from states that differ in the flag gives the same token *)
Lemma blind_yylex : Blind yylex. Proof. blind. Qed.
