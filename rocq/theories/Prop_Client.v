(** * C09, C41: the lexer driven by an arbitrary parser *)
Require Import Verif.Base Verif.Wp Verif.InputM Verif.DiagnosticM Verif.LexStateM Verif.StackStateM Verif.ScopesM Verif.TokensM
  Verif.BufferM Verif.LexerM Verif.LexMainM Verif.ParserClientM
  Verif.BufInv Verif.LexInv Verif.TokInv Verif.HereInv Verif.HereDocInv Verif.MagicInv Verif.LexSpec Verif.NewlineInv Verif.MainInv
  Verif.RunInv Verif.FuelMono Verif.Prop_Lexer.

Section Client.
  Variables (B : list N) (e : Env).
  Hypothesis Hfuel : 4 * List.length B + 20 < fuel e.
  Hypothesis Hdec : safe_decoder e B.

  (** A string terminator that may be (re)installed when [n] lines have been read *)
  Definition term_ok (n : nat) (o : option StrTerm) : Prop :=
    match o with
    | Some (HeredocLit h) => HV B n h
    | Some (StringLit q) =>
        match sl_heredoc_end q with Some he => he_start he <= he_end he /\ he_end he <= List.length B | None => True end
    | None => True
    end.

  Lemma term_ok_mono : forall n m o, n <= m -> term_ok n o -> term_ok m o.
  Proof using. clear. intros n m [[q|h]|] H K; auto. eapply HV_mono; eauto. Qed.

  Definition SafeLexer (l : list Action) (s : Lexer) : Prop :=
    Forall (comment_ok B) (comments s) /\ Forall (magic_ok B) (magic_comments s) /\
    Forall (fun d => diag_ok B d \/ In (PEmit d) l) (diagnostics s).

  Record CInv (l : list Action) (c : Client) : Prop := mkCInv {
    ci_live : c_done c = false -> LInv B (c_lexer c) /\ Forall (term_ok (line_count (buffer (c_lexer c)))) (c_saved c);
    ci_safe : SafeLexer l (c_lexer c)
  }.

  Lemma safe_weaken : forall l a s, SafeLexer l s -> SafeLexer (l ++ [a]) s.
  Proof using.
    clear. intros l a s (H1 & H2 & H3). unfold SafeLexer. splits; auto. eapply Forall_impl; [|exact H3].
    intros d [H|H]; [auto|right]. apply in_or_app. auto.
  Qed.
  Lemma safe_frame : forall l s s', FRx B s s' -> SafeLexer l s -> SafeLexer l s'.
  Proof using.
    clear. intros l s s' ((cs & C1 & C2) & (ms & C3 & C4) & (ds & C5 & C6)) (H1 & H2 & H3).
    unfold SafeLexer. rewrite C1, C3, C5. splits; apply Forall_app; auto. split; auto.
    eapply Forall_impl; [|exact C6]. auto.
  Qed.

  Lemma act_ok : forall l a c (Q : option Token -> Client -> Prop), CInv l c ->
    (forall o c', CInv (l ++ [a]) c' -> Q o c') -> wp e (act a) Q c.
  Proof using All.
    intros l a c Q HC HQ.
    assert (HW : forall c', CInv l c' -> CInv (l ++ [a]) c').
    { intros c' [A1 A2]. constructor; auto. apply safe_weaken; auto. }
    assert (HS : forall f o,
      (forall s, bonus B (buffer (f s)) = bonus B (buffer s) /\
         lastline (buffer (f s)) = lastline (buffer s) /\ line_count (buffer (f s)) = line_count (buffer s) /\
         (BWF B (buffer s) -> BWF B (buffer (f s))) /\ strterm (f s) = strterm s /\ lval_start (f s) = lval_start s /\ lval_end (f s) = lval_end s) ->
      (forall s, SafeLexer l s -> SafeLexer (l ++ [a]) (f s)) ->
      Q o (set_c_lexer (f (c_lexer c)) c)).
    { intros f o H1 H2. apply HQ. destruct HC as [A1 A2]. constructor; [|apply H2; auto].
      intros Hd. destruct (A1 Hd) as ([L1 L2 L3 L4] & A3).
      destruct (H1 (c_lexer c)) as (E1 & E2 & E3 & E4 & E5 & E6 & E7). split.
      - constructor; cbn [c_lexer set_c_lexer]; auto.
        + rewrite E1, E2. auto.
        + unfold StrOk in *. rewrite E5, E3. auto.
        + rewrite E6, E7. auto.
      - cbn [c_lexer set_c_lexer c_saved]. rewrite E3. auto. }
    destruct a; cbn [act].
    2-11,14-16: match goal with |- wp _ (on_lexer ?f) _ _ => apply wp_bind, wp_modify, wp_ret; apply (HS f) end; [intros s; splits; auto | intros s Hs; try exact (safe_weaken _ _ _ Hs)].
    all: try (intros []; constructor; auto; fail).
    - (* next *)
      apply wp_bind, wp_get. destruct (c_done c) eqn:Ed. { apply wp_ret. apply HQ. auto. }
      apply wp_bind. unfold next_token. apply wp_bind. apply wp_zoom.
      destruct HC as [A1 A2]. destruct (A1 Ed) as (HL & HT).
      apply (yylex_ok B e Hfuel Hdec); auto. intros t s' (Y1 & Y2 & _).
      apply wp_bind, wp_modify, wp_ret. apply wp_ret. cbn [c_lexer set_c_lexer c_saved c_record c_tokens c_last c_done].
      apply HQ, HW. constructor; cbn [c_lexer c_done c_saved].
      + rewrite Ed. cbn [orb]. intros Et. destruct Y2 as (Z1 & _ & _ & Z4).
        { intros E. rewrite E in Et. discriminate Et. }
        split; auto. eapply Forall_impl; [|exact HT]. intros o. apply term_ok_mono; auto.
      + eapply safe_frame; eauto.
    - (* emit *)
      destruct Hs as (H1 & H2 & H3). unfold SafeLexer. cbn [comments magic_comments diagnostics set_diagnostics].
      splits; auto. apply Forall_app. split.
      + eapply Forall_impl; [|exact H3]. intros d' [H|H]; [auto|right; apply in_or_app; auto].
      + constructor; auto. right. apply in_or_app. right. left. reflexivity.
    - (* take *)
      apply wp_bind, wp_modify, wp_ret. apply HQ, HW. destruct HC as [A1 A2]. constructor; cbn [c_lexer c_done c_saved]; auto.
      intros Hd. destruct (A1 Hd) as ([L1 L2 L3 L4] & A3). split; [constructor; auto; exact I|].
      apply Forall_app. split; [exact A3|]. constructor; auto.
    - (* restore *)
      apply wp_bind, wp_modify, wp_ret. apply HQ, HW. destruct HC as [A1 A2].
      destruct (nth_error (c_saved c) i) as [v|] eqn:Ei; [|constructor; auto].
      constructor; cbn [c_lexer c_done c_saved set_c_lexer]; auto.
      intros Hd. destruct (A1 Hd) as ([L1 L2 L3 L4] & A3). split; [|exact A3]. constructor; auto.
      rewrite Forall_forall in A3. apply nth_error_In in Ei. exact (A3 v Ei).
  Qed.

  Lemma acts_ok : forall l l0 c (Q : list Token -> Client -> Prop), CInv l0 c ->
    (forall o c', CInv (l0 ++ l) c' -> Q o c') -> wp e (acts l) Q c.
  Proof using All.
    induction l as [|a l IH]; intros l0 c Q HC HQ; cbn [acts].
    - apply wp_ret. apply HQ. rewrite app_nil_r. exact HC.
    - apply wp_bind. eapply act_ok; [exact HC|]. intros o c' HC'. apply wp_bind.
      eapply IH; [exact HC'|]. intros ts c2 HC2. apply wp_ret. apply HQ. rewrite <- app_assoc in HC2. exact HC2.
  Qed.

  Lemma run_client_ok : forall name rec l, exists ts c, run_client B name rec l e = Ok ts c /\ SafeLexer l (c_lexer c).
  Proof using All.
    intros name rec l. unfold run_client, lexer_new.
    pose proof (buffer_new_ok B e name (buffer_default (named name)) (fun _ b => Fresh B b) (fun _ H => H)) as H.
    unfold wp in H. destruct (buffer_new name B e (buffer_default (named name))) as [a b|w|]; try contradiction.
    assert (HC : CInv [] (mkClient (lexer_init b) [] rec [] None false)).
    { constructor; cbn.
      - intros _. split; auto. destruct H. constructor; auto; exact I.
      - unfold SafeLexer. cbn. auto. }
    pose proof (acts_ok l [] _ (fun _ c => SafeLexer l (c_lexer c)) HC) as H'.
    specialize (H' (fun _ c (H : CInv ([] ++ l) c) => ci_safe _ _ H)).
    unfold wp in H'. destruct (acts l e _) as [ts c|w|]; try contradiction. eauto.
  Qed.
End Client.

Lemma mono_act : forall a, Mono (act a).
Proof. mono. Qed.
Lemma mono_acts : forall l, Mono (acts l).
Proof. induction l as [|a l IH]; cbn [acts]; [mono|]. apply mono_bind; [apply mono_act|]. mono. Qed.
Lemma run_client_mono : forall B name rec l e e', more_fuel e e' -> run_client B name rec l e <> OutOfFuel ->
  run_client B name rec l e' = run_client B name rec l e.
Proof.
  intros B name rec l e e' HE H. unfold run_client, lexer_new in *.
  rewrite (mono_buffer_new name B e e'); auto. 2: { destruct (buffer_new name B e _); congruence. }
  destruct (buffer_new name B e _); auto. apply mono_acts; auto.
Qed.

(** C09.  Whatever the parser does between two token requests, no request panics or loops: the run ends normally
    with a loop bound that depends only on the length of the input, with any larger bound alike, and with any smaller
    bound it does not panic either. *)
Theorem C09_robust_against_parsers : forall (B name : list N) (rec : bool) (l : list Action) (upper : N -> bool),
  (exists ts c, forall n, 4 * List.length B + 21 <= n -> run_client B name rec l (plain_env n upper) = Ok ts c) /\
  (forall n w, run_client B name rec l (plain_env n upper) <> Panic w).
Proof.
  intros B name rec l upper.
  destruct (run_client_ok B (plain_env (4 * List.length B + 21) upper)) with (name := name) (rec := rec) (l := l) as (ts & c & H1 & _).
  { cbn [plain_env fuel]. lia. } { apply no_decoder_safe. reflexivity. }
  assert (HK : forall n, 4 * List.length B + 21 <= n -> run_client B name rec l (plain_env n upper) = Ok ts c).
  { intros n Hn. rewrite <- H1. apply run_client_mono; [|congruence]. unfold more_fuel. cbn [plain_env fuel decoder upper_oracle]. auto. }
  split; [eauto|]. intros n w H.
  assert (E : run_client B name rec l (plain_env (n + (4 * List.length B + 21)) upper) = Panic w).
  { rewrite <- H. apply run_client_mono; [|congruence]. unfold more_fuel. cbn [plain_env fuel decoder upper_oracle]. splits; auto. lia. }
  rewrite HK in E by lia. discriminate.
Qed.
Print Assumptions C09_robust_against_parsers.

(** C09, continued: what the lexer records stays sound under any parser *)
Theorem C09_records_sound : forall (B name : list N) (rec : bool) (l : list Action) n upper ts c,
  run_client B name rec l (plain_env n upper) = Ok ts c ->
  Forall (comment_ok B) (comments (c_lexer c)) /\ Forall (magic_ok B) (magic_comments (c_lexer c)) /\
  forall d, In d (diagnostics (c_lexer c)) -> ~ In (PEmit d) l ->
    loc_begin (dg_loc d) <= loc_end (dg_loc d) /\ loc_begin (dg_loc d) <= List.length B.
Proof.
  intros B name rec l n upper ts c H.
  destruct (run_client_ok B (plain_env (n + (4 * List.length B + 21)) upper)) with (name := name) (rec := rec) (l := l) as (ts' & c' & H1 & H2).
  { cbn [plain_env fuel]. lia. } { apply no_decoder_safe. reflexivity. }
  assert (E : run_client B name rec l (plain_env (n + (4 * List.length B + 21)) upper) = Ok ts c).
  { rewrite <- H. apply run_client_mono; [|congruence]. unfold more_fuel. cbn [plain_env fuel decoder upper_oracle]. splits; auto. lia. }
  rewrite E in H1. injection H1 as <- <-. destruct H2 as (S1 & S2 & S3). splits; auto.
  intros d Hd Hn. rewrite Forall_forall in S3. destruct (S3 d Hd) as [K|K]; [exact K|contradiction].
Qed.
Print Assumptions C09_records_sound.

(** A parser that follows the interpolation inside a heredoc the way the grammar does *)
Example C09_example :
  let src := bs "<<A" ++ [10%N] ++ bs "a#{b}c" ++ [10%N] ++ bs "A" ++ [10%N] in
  match run_client src [] true
    [PNext; PNext; PNext; PCmdargPush false; PCondPush false; PTakeStrterm; PLexState EXPR_BEG; PBraceNest 0; PHeredocIndent 0;
     PNext; PNext; PCondPop; PCmdargPop; PRestoreStrterm 0; PHeredocLineIndent (-1); PNext; PNext; PNext; PNext]
    (plain_env 200 (fun _ => false)) with
  | Ok ts c => Some (map token_type ts, map token_value ts)
  | _ => None
  end =
  Some ([tSTRING_BEG; tSTRING_CONTENT; tSTRING_DBEG; tIDENTIFIER; tSTRING_DEND; tSTRING_CONTENT; tSTRING_END; tNL; END_OF_INPUT],
        [bs "<<A"; bs "a"; bs "#{"; bs "b"; bs "}"; bs "c" ++ [10%N]; bs "A"; [10%N]; []]).
Proof. vm_compute. reflexivity. Qed.

(** C41.  The recorded tokens are the tokens delivered, in order; nothing is recorded otherwise. *)
Lemma acts_tokens : forall l e c ts c', acts l e c = Ok ts c' ->
  c_record c' = c_record c /\ c_tokens c' = if c_record c then c_tokens c ++ ts else c_tokens c.
Proof.
  induction l as [|a l IH]; intros e c ts c' H; cbn [acts] in H.
  - injection H as <- <-. split; auto. destruct (c_record c); auto. rewrite app_nil_r. reflexivity.
  - unfold bind at 1 in H. destruct (act a e c) as [o c1| |] eqn:Ea; try discriminate.
    unfold bind in H. destruct (acts l e c1) as [ts1 c2| |] eqn:El; try discriminate. injection H as <- <-.
    destruct (IH _ _ _ _ El) as (I1 & I2).
    assert (K : c_record c1 = c_record c /\ c_tokens c1 = match o with Some t => if c_record c then c_tokens c ++ [t] else c_tokens c | None => c_tokens c end).
    { clear El I1 I2. destruct a; cbn [act] in Ea; try (injection Ea as <- <-; split; reflexivity).
      - unfold bind, get in Ea. destruct (c_done c); [injection Ea as <- <-; auto|].
        unfold next_token, bind, zoom in Ea. destruct (yylex e (c_lexer c)) as [t s'| |]; try discriminate.
        injection Ea as <- <-. split; reflexivity.
      - unfold bind, modify, ret in Ea. injection Ea as <- <-. destruct (nth_error _ _); split; reflexivity. }
    destruct K as (K1 & K2). rewrite K1 in I1, I2. split; [congruence|]. rewrite I2, K2.
    destruct o as [t|]; destruct (c_record c); auto. rewrite <- app_assoc. reflexivity.
Qed.

Theorem C41_tokens_recorded : forall (B name : list N) (rec : bool) (l : list Action) e ts c,
  run_client B name rec l e = Ok ts c -> c_tokens c = if rec then ts else [].
Proof.
  intros B name rec l e ts c H. unfold run_client in H. destruct (lexer_new B name e) as [? s| |]; try discriminate.
  destruct (acts_tokens _ _ _ _ _ H) as (_ & E). exact E.
Qed.
Print Assumptions C41_tokens_recorded.

Example C41_example :
  match run_client (bs "a b") [] true [PNext; PLexState EXPR_BEG; PNext; PNext; PNext] (plain_env 100 (fun _ => false)) with
  | Ok ts c => map token_value (c_tokens c) = [bs "a"; bs "b"; []] /\ c_tokens c = ts
  | _ => False
  end.
Proof. vm_compute. split; reflexivity. Qed.
