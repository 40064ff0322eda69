(** * Modes of reading and frame conditions for the lexer invariant *)
Require Import Verif.Base Verif.MaybeByteM Verif.Utf8M Verif.InputM Verif.DiagnosticM Verif.LexStateM
  Verif.StackStateM Verif.ScopesM Verif.TokensM Verif.BufferM Verif.LexerM
  Verif.SourceSpec Verif.SourceProofs Verif.Wp Verif.BufInv.
Require Import ZifyBool ZifyNat ZifyN.

Section Modes.
  Variable B : list N.
  (** ghost values fixed during one call of [yylex]: a lower bound of [line_count] and the only
      value of [bonus] other than 0, which is possible on the first line only *)
  Variables n0 b0 : nat.

  Notation BWF := (BWF B).
  Notation Rm := (Rm B).
  Notation NextPost := (NextPost B).

  Definition gh (b : Buffer) : Prop :=
    n0 <= line_count b /\ (bonus B b = 0 \/ bonus B b = b0 /\ lastline b = 0).

  Lemma gh_bonus : forall b, gh b -> bonus B b <= b0.
  Proof using. intros b (_ & H). lia. Qed.

  Lemma gh_next : forall b c b', NextPost b c b' -> gh b -> gh b'.
  Proof using.
    intros b c b' [] (H1 & H2). split; [lia|]. unfold bonus in *.
    destruct n_line as [L|L]; destruct L as (L1 & L2 & L3 & _).
    - rewrite L1, L3. auto.
    - rewrite L3. lia.
  Qed.

  (** *** Reading anywhere *)
  Record Rd (lo mu : nat) (b : Buffer) : Prop := mkRd {
    rd_wf : BWF b;
    rd_lo : lo <= pcur b;
    rd_mu : Rm b <= mu;
    rd_gh : gh b
  }.

  (** The reader has just returned [c] *)
  Record AR (lo mu : nat) (c : MaybeByte) (b : Buffer) : Prop := mkAR {
    ar_wf : BWF b;
    ar_gh : gh b;
    ar_lo : lo <= pcur b;
    ar_mu : Rm b <= mu;
    ar_back : Rd lo mu (back c b);
    ar_next : nextline b = 0;
    ar_some : forall x, c = Some x -> Rm b < mu /\ eofp b = false /\ lo < pcur b /\ pbeg b < pcur b /\
                nth_error B (pcur b - 1) = Some x /\ (x <> 10%N -> pcur (back c b) = pcur b - 1);
    ar_none : c = None ->
      eofp b = true \/ (eofp b = false /\ pcur b = List.length B /\ pbeg b = pcur b /\ pend b = pcur b /\
       (pcur b = 0 \/ nth_error B (pcur b - 1) = Some 10%N))
  }.

  Lemma gh_back : forall c b, gh (back c b) <-> gh b.
  Proof using.
    intros [x|] b; [|reflexivity]. unfold back, gh, bonus. cbv zeta.
    destruct ((pbeg b <? pcur b - 1) && mbeq (byte_at b (pcur b - 1)) 10%N
      && mbeq (byte_at b (pcur b - 1 - 1)) 13%N); cbn [line_count pbeg lastline set_pcur]; reflexivity.
  Qed.

  Lemma rd_next : forall lo mu b c b', Rd lo mu b -> NextPost b c b' -> AR lo mu c b'.
  Proof using.
    intros lo mu b c b' [] N. pose proof (gh_next _ _ _ N rd_gh0) as G. destruct N.
    constructor; auto; try lia.
    - destruct c as [x|]; [destruct (n_some x eq_refl)|]; cbn [back] in *; lia.
    - destruct c as [x|]; [destruct (n_some x eq_refl) as (_ & _ & _ & _ & H & _)|]; cbn [back] in *; lia.
    - constructor; auto; try lia. apply gh_back; auto.
    - intros x Ex. destruct (n_some x Ex) as (S1 & S2 & S3 & S4 & S5 & S6 & S7 & S8).
      splits; auto; try lia. 
  Qed.

  (** *** Reading inside a token that started at [st] on the current line *)
  Record InTok (st mu : nat) (b : Buffer) : Prop := mkInTok {
    it_wf : BWF b;
    it_gh : gh b;
    it_next : nextline b = 0;
    it_pbeg : pbeg b <= st;
    it_pcur : st <= pcur b;
    it_tok : ptok b <= st;
    it_bytes : forall i, st <= i -> i < pcur b -> nth_error B i <> Some 10%N /\ nth_error B i <> Some 13%N;
    it_mu : pend b - st + (List.length B - lstart B (line_count b)) <= mu
  }.

  Lemma it_Rm : forall st mu b, InTok st mu b -> st < pcur b -> Rm b < mu.
  Proof using.
    intros st mu b [] H. unfold BufInv.Rm. pose proof (w_pcur2 B b it_wf0). rewrite it_next0. cbn [Nat.eqb].
    destruct (eofp b); lia.
  Qed.

  Lemma it_rd : forall st mu b, InTok st mu b -> Rd st mu b.
  Proof using.
    intros st mu b []. constructor; auto. unfold BufInv.Rm. pose proof (w_pcur2 B b it_wf0). rewrite it_next0. cbn [Nat.eqb].
    destruct (eofp b); lia.
  Qed.

  Lemma it_set_pcur : forall st mu b p, InTok st mu b -> st <= p -> p <= pcur b -> InTok st mu (set_pcur p b).
  Proof using.
    intros st mu b p [] H1 H2. pose proof (w_pcur2 B b it_wf0).
    constructor; cbn [nextline pbeg pcur ptok pend line_count set_pcur]; auto; try lia.
    - apply BWF_set_pcur; auto; try lia. intros Hp C1 C2.
      destruct (Nat.eq_dec p (pcur b)) as [->|E].
      + eapply (w_nosplit B b); eauto.
      + destruct (it_bytes0 p); auto; try lia.
    - intros i I1 I2. apply it_bytes0; lia.
  Qed.

  (** skipping forward over bytes that are neither CR nor LF *)
  Lemma it_forward : forall st mu b p, InTok st mu b -> st < p -> pcur b <= p -> p <= pend b ->
    (forall i, pcur b <= i -> i < p -> nth_error B i <> Some 10%N /\ nth_error B i <> Some 13%N) ->
    InTok st mu (set_pcur p b).
  Proof using.
    intros st mu b p [] H0 H1 H2 H3.
    constructor; cbn [nextline pbeg pcur ptok pend line_count set_pcur]; auto; try lia.
    - apply BWF_set_pcur; auto; try lia. intros Hp C1 C2.
      destruct (Nat.lt_ge_cases (p - 1) (pcur b)).
      + destruct (it_bytes0 (p - 1)); try lia; auto.
      + destruct (H3 (p - 1)); try lia; auto.
    - intros i I1 I2. destruct (Nat.lt_ge_cases i (pcur b)); [apply it_bytes0|apply H3]; lia.
  Qed.

  Lemma it_set_ptok : forall st mu b p, InTok st mu b -> st <= p -> p <= pcur b -> InTok p mu (set_ptok p b).
  Proof using.
    intros st mu b p [] H1 H2.
    constructor; cbn [nextline pbeg pcur ptok pend line_count set_ptok]; auto; try lia.
    - apply BWF_set_ptok; auto.
    - intros i I1 I2. apply it_bytes0; lia.
  Qed.

  Lemma it_raise : forall st st' mu b, InTok st mu b -> st <= st' -> st' <= pcur b -> InTok st' mu b.
  Proof using.
    intros st st' mu b [] H1 H2. constructor; auto; try lia. intros i I1 I2. apply it_bytes0; lia.
  Qed.

  Lemma it_eof : forall st mu b, InTok st mu b -> InTok st mu (set_eofp true b).
  Proof using.
    intros st mu b []. constructor; cbn [nextline pbeg pcur ptok pend line_count set_eofp]; auto.
    apply BWF_eof; auto.
  Qed.

  (** The reader has just returned [c] inside a token *)
  Record IA (st mu : nat) (c : MaybeByte) (b : Buffer) : Prop := mkIA {
    ia_back : InTok st mu (back c b);
    ia_back_st : st < pcur (back c b);
    ia_wf : BWF b;
    ia_gh : gh b;
    ia_next : nextline b = 0;
    ia_st : st < pcur b;
    ia_mu : Rm b < mu;
    ia_pbeg : pbeg b <= st;
    ia_ptok : ptok b <= st;
    ia_some : forall x, c = Some x -> eofp b = false /\ nth_error B (pcur b - 1) = Some x /\
       (x <> 10%N -> x <> 13%N -> InTok st mu b) /\ (x <> 10%N -> pcur b = pcur (back c b) + 1) /\
       pcur (back c b) < pcur b;
    ia_none : c = None -> InTok st mu b /\ eofp b = true
  }.

  Lemma back_fields : forall c b, nextline (back c b) = nextline b /\ pbeg (back c b) = pbeg b /\
    ptok (back c b) = ptok b /\ pend (back c b) = pend b /\ line_count (back c b) = line_count b /\
    lastline (back c b) = lastline b /\ eofp (back c b) = eofp b.
  Proof using.
    intros [x|] b; [|splits; reflexivity]. unfold back. cbv zeta.
    destruct ((pbeg b <? pcur b - 1) && mbeq (byte_at b (pcur b - 1)) 10%N
      && mbeq (byte_at b (pcur b - 1 - 1)) 13%N); splits; reflexivity.
  Qed.

  Lemma it_nextpost : forall st mu b c b', InTok st mu b -> st < pcur b -> NextPost b c b' ->
    IA st mu c b' /\ pcur (back c b') = pcur b /\ pend b' = pend b /\ pbeg b' = pbeg b /\ ptok b' = ptok b /\
    lastline b' = lastline b /\ line_count b' = line_count b.
  Proof using.
    intros st mu b c b' HI Hst N. pose proof HI as HI0. destruct HI0.
    pose proof (gh_next _ _ _ N it_gh0) as G.
    pose proof (it_Rm st mu b HI Hst) as HR.
    pose proof (w_pcur2 B b it_wf0) as P2.
    destruct N.
    destruct (back_fields c b') as (K1 & K2 & K3 & K4 & K5 & K6 & K7).
    destruct n_line as [L|L].
    2: { exfalso. destruct L as (_ & _ & _ & _ & _ & _ & _ & _ & [L|(L1 & [L2|L2])]); try lia.
      destruct (it_bytes0 (pcur b - 1)); try lia. rewrite L1 in H. auto. }
    destruct L as (L1 & L2 & L3 & L4 & L5 & L6 & L7 & L8 & L9 & L10 & L11).
    assert (HIb : InTok st mu (back c b')).
    { constructor; auto; try lia.
      - apply gh_back; auto.
      - intros i I1 I2. apply it_bytes0; lia.
      - rewrite K4, K5, L4, L7. lia. }
    split; [|splits; auto].
    constructor; auto; try lia.
    - destruct c as [x|]; [destruct (n_some x eq_refl)|]; cbn [back] in *; lia.
    - destruct c as [x|]; [destruct (n_some x eq_refl) as (_ & _ & _ & _ & H & _)|]; cbn [back] in *; lia.
    - intros x Ex. destruct (n_some x Ex) as (S1 & S2 & S3 & S4 & S5 & S6 & S7 & S8).
      splits; auto; try lia.
      intros Hx1 Hx2. constructor; auto; try lia.
      + intros i I1 I2. destruct (Nat.eq_dec i (pcur b' - 1)) as [->|E].
        * rewrite S4. split; congruence.
        * apply it_bytes0; try lia. 
      + rewrite L4, L7. lia.
    - intros ->. cbn [back] in *. auto.
  Qed.

  (** From a freshly read first character of a token *)
  Lemma ar_intok : forall lo mu x b, AR lo mu (Some x) b -> x <> 10%N -> x <> 13%N ->
    InTok (pcur b - 1) mu b /\ lo <= pcur b - 1 /\ 1 <= pcur b.
  Proof using.
    intros lo mu x b [] H1 H2. destruct (ar_some0 x eq_refl) as (S1 & S2 & S3 & S4 & S5 & S6).
    specialize (S6 H1). destruct ar_back0.
    destruct (back_fields (Some x) b) as (K1 & K2 & K3 & K4 & K5 & K6 & K7).
    split; [|lia]. constructor; auto; try lia.
    - pose proof (w_tok B _ rd_wf0). lia.
    - intros i I1 I2. replace i with (pcur b - 1) by lia. rewrite S5. split; congruence.
    - unfold BufInv.Rm in rd_mu0. rewrite K7, S2, K1, ar_next0, K4, K5 in rd_mu0. cbn [Nat.eqb] in rd_mu0. lia.
  Qed.

  Lemma rd_weaken : forall lo mu lo' mu' b, Rd lo mu b -> lo' <= lo -> mu <= mu' -> Rd lo' mu' b.
  Proof using. intros lo mu lo' mu' b [] H1 H2. constructor; auto; lia. Qed.

  (** ** Frame conditions on the lexer state *)
  Definition diag_ok (d : Diagnostic) : Prop :=
    loc_begin (dg_loc d) <= loc_end (dg_loc d) /\ loc_begin (dg_loc d) <= List.length B.

  (** Every field the theorems look at is as in [s0], except the buffer, [strterm], and new diagnostics *)
  Definition FRn (s0 s : Lexer) : Prop :=
    lval_start s = lval_start s0 /\ lval_end s = lval_end s0 /\ comments s = comments s0 /\
    magic_comments s = magic_comments s0 /\
    exists ds, diagnostics s = diagnostics s0 ++ ds /\ Forall diag_ok ds.
  Definition FR (s0 s : Lexer) : Prop := FRn s0 s /\ strterm s = strterm s0.

  Lemma FR_refl : forall s, FR s s.
  Proof using. intros s. unfold FR, FRn. splits; auto. exists []. rewrite app_nil_r. auto. Qed.

  Lemma FRn_trans : forall a b c, FRn a b -> FRn b c -> FRn a c.
  Proof using.
    intros a b c (A1 & A2 & A3 & A4 & ds & A5 & A6) (B1 & B2 & B3 & B4 & ds' & B5 & B6).
    unfold FRn. splits; try congruence. exists (ds ++ ds'). split; [rewrite B5, A5, app_assoc; auto|].
    apply Forall_app; auto.
  Qed.

  Lemma FR_trans : forall a b c, FR a b -> FR b c -> FR a c.
  Proof using. intros a b c (H1 & H2) (H3 & H4). split; [eapply FRn_trans; eauto|congruence]. Qed.

  Section WithEnv.
    Variable e : Env.

    Lemma wp_nextc_rd : forall s0 s b lo mu (Q : MaybeByte -> Lexer -> Prop),
      FR s0 s -> buffer s = b -> Rd lo mu b ->
      (forall c b' s', FR s0 s' -> buffer s' = b' -> AR lo mu c b' -> NextPost b c b' -> Q c s') ->
      wp e nextc Q s.
    Proof using.
      intros s0 s b lo mu Q HF Hb HR HQ. unfold nextc, inb. apply wp_zoom. rewrite Hb.
      apply (b_nextc_ok B); [destruct HR; auto|]. intros c b' N. eapply HQ; eauto using rd_next; try reflexivity.
    Qed.

    Lemma wp_nextc_it : forall s0 s b st mu (Q : MaybeByte -> Lexer -> Prop),
      FR s0 s -> buffer s = b -> InTok st mu b -> st < pcur b ->
      (forall c b' s', FR s0 s' -> buffer s' = b' -> IA st mu c b' ->
         pcur (back c b') = pcur b -> pend b' = pend b -> pbeg b' = pbeg b -> ptok b' = ptok b ->
         lastline b' = lastline b -> line_count b' = line_count b -> NextPost b c b' -> Q c s') ->
      wp e nextc Q s.
    Proof using.
      intros s0 s b st mu Q HF Hb HI Hst HQ. unfold nextc, inb. apply wp_zoom. rewrite Hb.
      apply (b_nextc_ok B); [destruct HI; auto|]. intros c b' N.
      destruct (it_nextpost st mu b c b') as (A & A1 & A2 & A3 & A4 & A5 & A6); auto.
      eapply HQ; eauto; reflexivity.
    Qed.

    Lemma wp_pushback : forall s0 s b c (Q : unit -> Lexer -> Prop),
      FR s0 s -> buffer s = b -> (c <> None -> 1 <= pcur b) ->
      (forall s', FR s0 s' -> buffer s' = back c b -> Q tt s') ->
      wp e (pushback c) Q s.
    Proof using.
      intros s0 s b c Q HF Hb Hc HQ. unfold pushback, inb. apply wp_zoom. rewrite Hb.
      apply pushback_back; auto; try (apply HQ; auto).
    Qed.

    Lemma wp_peek_n : forall s0 s b c n (Q : bool -> Lexer -> Prop),
      FR s0 s -> buffer s = b -> BWF b ->
      (forall s' r, FR s0 s' -> buffer s' = b ->
         (r = true -> nth_error B (pcur b + n) = Some c /\ pcur b + n < pend b) ->
         (r = false -> pcur b + n < pend b -> nth_error B (pcur b + n) <> Some c) -> Q r s') ->
      wp e (peek_n c n) Q s.
    Proof using.
      intros s0 s b c n Q HF Hb HW HQ. unfold peek_n, inb. apply wp_zoom. rewrite Hb.
      apply (peek_ok B); auto; intros; apply HQ; auto; try discriminate; intros; try tauto; lia.
    Qed.

    Lemma wp_peek : forall s0 s b c (Q : bool -> Lexer -> Prop),
      FR s0 s -> buffer s = b -> BWF b ->
      (forall s' r, FR s0 s' -> buffer s' = b ->
         (r = true -> nth_error B (pcur b) = Some c /\ pcur b < pend b) ->
         (r = false -> pcur b < pend b -> nth_error B (pcur b) <> Some c) -> Q r s') ->
      wp e (peek c) Q s.
    Proof using.
      intros s0 s b c Q HF Hb HW HQ. apply (wp_peek_n s0 s b c 0); auto.
      rewrite Nat.add_0_r. auto.
    Qed.

    Lemma wp_modb : forall s0 s b f (Q : unit -> Lexer -> Prop),
      FR s0 s -> buffer s = b -> (forall s', FR s0 s' -> buffer s' = f b -> Q tt s') ->
      wp e (modb f) Q s.
    Proof using.
      intros s0 s b f Q HF Hb HQ. unfold modb. apply wp_modify. apply HQ; auto. cbn. rewrite Hb. auto.
    Qed.

    (** Actions that leave the buffer alone and emit only well-placed diagnostics *)
    Definition Neut {A} (b : Buffer) (m : M Lexer A) : Prop :=
      forall s0 s (Q : A -> Lexer -> Prop), FR s0 s -> buffer s = b ->
        (forall a s', FR s0 s' -> buffer s' = b -> Q a s') -> wp e m Q s.

    Lemma neut_ret : forall A (a : A) b, Neut b (ret a).
    Proof using. intros A a b s0 s Q HF Hb HQ. apply wp_ret. auto. Qed.
    Lemma neut_bind : forall A C (m : M Lexer A) (k : A -> M Lexer C) b,
      Neut b m -> (forall a, Neut b (k a)) -> Neut b (bind m k).
    Proof using.
      intros A C m k b H1 H2 s0 s Q HF Hb HQ. apply wp_bind. apply (H1 s0 s); auto.
      intros a s' HF' Hb'. apply (H2 a s0 s'); auto.
    Qed.
    Lemma neut_modify : forall f b, (forall s, buffer (f s) = buffer s) ->
      (forall s0 s, FR s0 s -> FR s0 (f s)) -> Neut b (modify f).
    Proof using. intros f b H1 H2 s0 s Q HF Hb HQ. apply wp_modify. apply HQ; auto. rewrite H1. auto. Qed.
    Lemma neut_gets : forall A (f : Lexer -> A) b, Neut b (gets f).
    Proof using. intros A f b s0 s Q HF Hb HQ. apply wp_gets. auto. Qed.
    Lemma neut_getb : forall b, Neut b getb.
    Proof using. intros b. apply neut_gets. Qed.
    Lemma neut_get : forall b, Neut b get.
    Proof using. intros b s0 s Q HF Hb HQ. apply wp_get. auto. Qed.
    Lemma neut_when : forall c m b, Neut b m -> Neut b (when c m).
    Proof using. intros [|] m b H; [exact H|]. apply neut_ret. Qed.
    Lemma neut_if : forall A (c : bool) (m1 m2 : M Lexer A) b, Neut b m1 -> Neut b m2 -> Neut b (if c then m1 else m2).
    Proof using. intros A [|]; auto. Qed.
    Lemma neut_emit : forall l m loc b, loc_begin loc <= loc_end loc -> loc_begin loc <= List.length B ->
      Neut b (emit l m loc).
    Proof using.
      intros l m loc b H1 H2. apply neut_modify; [reflexivity|].
      intros s0 s ((A1 & A2 & A3 & A4 & ds & A5 & A6) & A7).
      unfold FR, FRn. splits; auto. exists (ds ++ [mkDiag l m loc]). split.
      - cbn. rewrite A5, app_assoc. reflexivity.
      - apply Forall_app. split; auto. constructor; auto. split; auto.
    Qed.
    Lemma neut_emit0 : forall l m b, BWF b -> Neut b (loc <- gets current_loc ;; emit l m loc).
    Proof using.
      intros l m b HW s0 s Q HF Hb HQ. apply wp_bind, wp_gets.
      unfold current_loc. rewrite Hb.
      pose proof (w_tok B b HW). pose proof (w_pcur2 B b HW). pose proof (pend_le B b HW).
      eapply neut_emit; eauto; cbn; lia.
    Qed.
    Lemma neut_warn0 : forall m b, BWF b -> Neut b (warn0 m).
    Proof using. intros. apply neut_emit0; auto. Qed.
    Lemma neut_compile_error0 : forall m b, BWF b -> Neut b (compile_error0 m).
    Proof using. intros. apply neut_emit0; auto. Qed.
    Lemma neut_yyerror0 : forall m b, BWF b -> Neut b (yyerror0 m).
    Proof using. intros. apply neut_emit0; auto. Qed.
    Lemma neut_peek_n : forall c n b, BWF b -> Neut b (peek_n c n).
    Proof using. intros c n b HW s0 s Q HF Hb HQ. eapply wp_peek_n; eauto. Qed.
    Lemma neut_peek : forall c b, BWF b -> Neut b (peek c).
    Proof using. intros c b HW s0 s Q HF Hb HQ. eapply wp_peek; eauto. Qed.
    Lemma neut_warn_balanced : forall t op syn c sp ls b, BWF b -> Neut b (warn_balanced t op syn c sp ls).
    Proof using. intros. apply neut_bind; [apply neut_when, neut_warn0; auto|intros; apply neut_ret]. Qed.
    Lemma neut_lex_state_set : forall v b, Neut b (lex_state_set v).
    Proof using. intros. apply neut_modify; auto. Qed.
    Lemma neut_set_yylval : forall v b, Neut b (set_yylval v).
    Proof using. intros. apply neut_modify; auto. Qed.
    Lemma neut_set_yylval_id : forall v b, Neut b (set_yylval_id v).
    Proof using. intros. apply neut_modify; auto. Qed.
    Lemma neut_set_yylval_name : forall b, Neut b set_yylval_name.
    Proof using. intros. apply neut_modify; auto. Qed.
    Lemma neut_tokadd : forall v b, Neut b (tokadd v).
    Proof using. intros. apply neut_modify; auto. Qed.
    Lemma neut_tokadd_mb : forall v b, v <> None -> Neut b (tokadd_mb v).
    Proof using. intros [v|] b H; [apply neut_tokadd|congruence]. Qed.
    Lemma neut_tok_append : forall v b, Neut b (tok_append v).
    Proof using. intros. apply neut_modify; auto. Qed.
    Lemma neut_newtok : forall b, Neut b newtok.
    Proof using. intros. apply neut_modify; auto. Qed.
    Lemma neut_set_arg_or_beg : forall b, Neut b set_arg_or_beg.
    Proof using. intros. apply neut_modify; auto. Qed.
    Lemma neut_tokenbuf_take : forall b, Neut b tokenbuf_take.
    Proof using. intros. apply neut_bind; [apply neut_gets|]. intros. apply neut_bind; [apply neut_modify; auto|]. intros. apply neut_ret. Qed.
    Lemma neut_nl : forall b, Neut b normal_newline_leaf_label.
    Proof using. intros. apply neut_bind; [apply neut_modify; auto|]. intros. apply neut_bind; [apply neut_modify; auto|]. intros. apply neut_ret. Qed.
    Lemma neut_is_label_suffix : forall n b, BWF b -> Neut b (is_label_suffix n).
    Proof using.
      intros n b HW. apply neut_bind; [apply neut_peek_n; auto|]. intros [|]; [|apply neut_ret].
      apply neut_bind; [apply neut_peek_n; auto|]. intros. apply neut_ret.
    Qed.
    Lemma neut_warn_space_char : forall c p b, BWF b -> Neut b (warn_space_char c p).
    Proof using. intros. apply neut_warn0; auto. Qed.

    Lemma neut_use : forall A (m : M Lexer A) b s0 s (Q : A -> Lexer -> Prop),
      Neut b m -> FR s0 s -> buffer s = b ->
      (forall a s', FR s0 s' -> buffer s' = b -> Q a s') -> wp e m Q s.
    Proof using. intros A m b s0 s Q H HF Hb HQ. apply (H s0); auto. Qed.
  End WithEnv.

  (** *** Small consequences used everywhere *)

  (** The state after a complete token that started at [st] *)
  Record Dn (st mu : nat) (b : Buffer) : Prop := mkDn {
    dn_wf : BWF b; dn_gh : gh b; dn_st : st < pcur b; dn_mu : Rm b < mu
  }.

  Lemma it_dn : forall st mu b, InTok st mu b -> st < pcur b -> Dn st mu b.
  Proof using. intros st mu b H Hp. pose proof (it_Rm _ _ _ H Hp). destruct H. constructor; auto. Qed.

  Lemma ia_dn : forall st mu c b, IA st mu c b -> Dn st mu b.
  Proof using. intros st mu c b []. constructor; auto. Qed.

  Lemma ia_back_dn : forall st mu c b, IA st mu c b -> Dn st mu (back c b).
  Proof using. intros st mu c b []. apply it_dn; auto. Qed.

  Lemma dn_rd : forall st mu b, Dn st mu b -> Rd (S st) (mu - 1) b.
  Proof using. intros st mu b []. constructor; auto; lia. Qed.

  Lemma ia_it : forall st mu c b, IA st mu c b -> c <> Some 10%N -> c <> Some 13%N -> InTok st mu b.
  Proof using.
    intros st mu [x|] b [] H1 H2.
    - destruct (ia_some0 x eq_refl) as (_ & _ & H & _). apply H; congruence.
    - destruct (ia_none0 eq_refl); auto.
  Qed.

  Lemma ia_pos : forall st mu c b, IA st mu c b -> c <> None -> 1 <= pcur b.
  Proof using. intros st mu c b [] H. lia. Qed.

  Lemma ar_pos : forall lo mu c b, AR lo mu c b -> c <> None -> 1 <= pcur b.
  Proof using. intros lo mu [x|] b [] H; [|congruence]. destruct (ar_some0 x eq_refl). lia. Qed.

  (** pushing one byte back inside a token *)
  Lemma it_push : forall st mu b x, InTok st mu b -> st < pcur b ->
    back (Some x) b = set_pcur (pcur b - 1) b /\ InTok st mu (back (Some x) b) /\
    pcur (back (Some x) b) = pcur b - 1.
  Proof using.
    intros st mu b x HI Hst. assert (HB : back (Some x) b = set_pcur (pcur b - 1) b).
    { unfold back. cbv zeta.
      destruct ((pbeg b <? pcur b - 1) && mbeq (byte_at b (pcur b - 1)) 10%N
        && mbeq (byte_at b (pcur b - 1 - 1)) 13%N) eqn:E; auto. exfalso.
      destruct HI. destruct (it_bytes0 (pcur b - 1)) as (C & _); try lia. apply C.
      rewrite <- (byte_at_B B b) by auto. apply mbeq_iff. lia. }
    rewrite HB. split; [auto|]. split; [|auto]. apply it_set_pcur; auto; lia.
  Qed.
End Modes.

(** ** Tactics *)
Create HintDb neut.
Global Hint Resolve neut_ret neut_gets neut_getb neut_get neut_warn0 neut_compile_error0 neut_yyerror0
  neut_peek neut_peek_n neut_warn_balanced neut_lex_state_set neut_set_yylval neut_set_yylval_id
  neut_set_yylval_name neut_tokadd neut_tok_append neut_newtok neut_set_arg_or_beg neut_tokenbuf_take neut_nl
  neut_is_label_suffix neut_warn_space_char : neut.
Global Hint Resolve ia_wf ar_wf it_wf rd_wf dn_wf : neut.

Ltac neut :=
  lazymatch goal with
  | |- Neut _ _ _ (bind _ _) => apply neut_bind; [neut|let a := fresh "a" in intros a; neut]
  | |- Neut _ _ _ (ret _) => apply neut_ret
  | |- Neut _ _ _ (modify _) =>
      apply neut_modify; [intros; reflexivity|let H := fresh in intros ? ? H; exact H]
  | |- Neut _ _ _ (if _ then _ else _) => apply neut_if; neut
  | |- Neut _ _ _ (when _ _) => apply neut_when; neut
  | |- Neut _ _ _ (match ?x with _ => _ end) => destruct x; neut
  | |- _ => solve [eauto 3 with neut]
  end.

(** one step of a monadic program whose state [s] satisfies [FR s0 s] and [buffer s = b] *)
Ltac nstep :=
  match goal with
  | HF : FR _ _ ?s, Hb : buffer ?s = _ |- wp _ _ _ ?s =>
      eapply neut_use; [solve [neut]|exact HF|exact Hb|];
      clear HF Hb; let a := fresh "a" in let s' := fresh "s" in intros a s' HF Hb; try clear s
  end.

Ltac rest_ := clear; intros.
Ltac fresh_state HF Hb := let s' := fresh "s" in intros s' HF Hb.
