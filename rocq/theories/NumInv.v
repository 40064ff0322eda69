(** * parse_numeric keeps the lexer invariant *)
Require Import Verif.Base Verif.MaybeByteM Verif.Utf8M Verif.InputM Verif.DiagnosticM Verif.LexStateM
  Verif.TokensM Verif.BufferM Verif.LexerM Verif.LexNumericM
  Verif.SourceSpec Verif.SourceProofs Verif.Wp Verif.BufInv Verif.LexInv.
Require Import ZifyBool ZifyNat ZifyN.

(** [c] cannot be CR/LF because a test on it succeeded *)
Ltac nonl := let H := fresh in intros H; try (injection H as H); subst; repeat match goal with
  | E : _ = true |- _ => progress cbn in E
  | E : _ = false |- _ => progress cbn in E end;
  repeat match goal with E : _ = _ |- _ => progress rewrite ?andb_false_r, ?andb_true_r, ?orb_false_r, ?orb_true_r in E end;
  try discriminate; try lia; try congruence.

Section Num.
  Variables (B : list N) (n0 b0 : nat) (e : Env).
  Hypothesis Hfuel : 4 * List.length B + 20 < fuel e.

  Notation FR := (FR B).
  Notation InTok := (InTok B n0 b0).
  Notation IA := (IA B n0 b0).
  Notation Dn := (Dn B n0 b0).
  Notation Rm := (Rm B).

  Ltac nx H := match goal with
    | HF : LexInv.FR _ _ ?s, Hb : buffer ?s = ?b |- wp _ nextc _ ?s =>
      eapply (wp_nextc_it B n0 b0 e _ _ b); [exact HF|exact Hb|exact H|lia|];
      clear HF Hb;
      let c := fresh "c" in let b' := fresh "b" in let s' := fresh "s" in
      intros c b' s' HF Hb; intros ?HA ?Pb ?Pe ?Pg ?Pt ?Pl ?Pc ?HN
    end.

  Lemma Rm_fuel : forall b, BWF B b -> Rm b + 1 < fuel e.
  Proof using All. intros b HW. pose proof (Rm_le B b HW). lia. Qed.

  Lemma number_literal_suffix_ok : forall mask s0 s b st mu (Q : N -> Lexer -> Prop),
    FR s0 s -> buffer s = b -> InTok st mu b -> st < pcur b ->
    (forall a s' b', FR s0 s' -> buffer s' = b' -> InTok st mu b' -> st < pcur b' -> Q a s') ->
    wp e (number_literal_suffix mask) Q s.
  Proof using All.
    intros mask s0 s b st mu Q HF Hb HI Hst HQ. unfold number_literal_suffix.
    apply wp_bind, wp_gets. rewrite Hb.
    set (lastp := pcur b) in *.
    eapply wp_loop with
      (I := fun _ s1 => exists b1, FR s0 s1 /\ buffer s1 = b1 /\ InTok st mu b1 /\ lastp <= pcur b1)
      (meas := fun _ s1 => Rm (buffer s1)).
    - exists b. splits; auto.
    - rewrite Hb. pose proof (Rm_fuel b (it_wf _ _ _ _ _ _ HI)). lia.
    - clear HF Hb. intros [mk res] s1 (b1 & HF & Hb & HI1 & Hlp). clear s HI. rename HI1 into HI. cbv beta. rewrite Hb.
      apply wp_bind. nx HI.
      pose proof (n_some _ _ _ _ HN) as NS.
      destruct (is_eof c) eqn:Ee.
      { apply wp_ret. destruct c; [discriminate|]. destruct (ia_none _ _ _ _ _ _ _ HA eq_refl) as (HI2 & _).
        cbn [back] in Pb. eapply HQ; eauto. lia. }
      destruct c as [x|]; [|discriminate]. destruct (NS x eq_refl) as (_ & _ & _ & _ & HRm & _ & Hlt & _).
      destruct (has mk NUM_SUFFIX_I && mbeq (Some x) "i") eqn:E1.
      { apply wp_ret. split; [|rewrite Hb; auto]. exists b2. splits; auto; [|lia].
        eapply ia_it; eauto; nonl. }
      destruct (has mk NUM_SUFFIX_R && mbeq (Some x) "r") eqn:E2.
      { apply wp_ret. split; [|rewrite Hb; auto]. exists b2. splits; auto; [|lia].
        eapply ia_it; eauto; nonl. }
      destruct (negb (is_ascii (Some x)) || is_alpha (Some x) || mbeq (Some x) "_") eqn:E3.
      { assert (HI2 : InTok st mu b2) by (eapply ia_it; eauto; nonl). clear E1 E2 E3 Ee.
        apply wp_bind. eapply wp_modb; eauto. intros s2 HF2 Hb2. apply wp_ret.
        eapply HQ; [exact HF2|exact Hb2| |cbn [pcur set_pcur]; lia].
        apply it_set_pcur; try lia. auto. }
      clear E1 E2 E3 Ee.
      apply wp_bind. eapply wp_pushback; eauto. { intros _. lia. }
      intros s2 HF2 Hb2. apply wp_ret. destruct HA. eapply HQ; eauto.
  Qed.

  Lemma neut_set_integer_literal : forall v x b, Neut B e b (set_integer_literal v x).
  Proof using All. intros. unfold set_integer_literal, set_number_literal. neut. Qed.
  Lemma neut_set_number_literal : forall v t x b, Neut B e b (set_number_literal v t x).
  Proof using All. intros. unfold set_number_literal. neut. Qed.
  Hint Resolve neut_set_integer_literal neut_set_number_literal : neut.

  Lemma it_raise_dn : forall st st' mu b, InTok st' mu b -> st <= st' -> st' < pcur b -> Dn st mu b.
  Proof using All. intros st st' mu b H H1 H2. destruct (it_dn _ _ _ _ _ _ H H2). constructor; auto; lia. Qed.

  Lemma trailing_uc_ok : forall nd s0 s b st mu (Q : Tok -> Lexer -> Prop),
    FR s0 s -> buffer s = b -> InTok st mu b -> st < pcur b ->
    (forall s' b', FR s0 s' -> buffer s' = b' -> InTok (pcur b - 1) mu b' -> pcur b' = pcur b ->
       Q END_OF_INPUT s') ->
    wp e (trailing_uc nd) Q s.
  Proof using All.
    intros nd s0 s b st mu Q HF Hb HI Hst HQ. unfold trailing_uc.
    apply wp_bind, wp_gets. rewrite Hb. apply wp_bind, wp_sub_ck; [lia|].
    apply wp_bind. eapply wp_modb; eauto. intros s1 HF1 Hb1.
    assert (HI1 : InTok (pcur b - 1) mu (set_ptok (pcur b - 1) b)) by (eapply it_set_ptok; eauto; lia).
    apply wp_bind. clear HF Hb s. eapply neut_use; [apply neut_yyerror0; eauto with neut|exact HF1|exact Hb1|].
    intros _ s2 HF2 Hb2. apply wp_ret. eapply HQ; [exact HF2|exact Hb2|exact HI1|reflexivity].
  Qed.

  Lemma footer_ok : forall f g s0 s b st mu (Q : Tok -> Lexer -> Prop),
    FR s0 s -> buffer s = b -> InTok st mu b -> st < pcur b ->
    (forall t s', FR s0 s' -> Dn st mu (buffer s') -> Q t s') ->
    wp e (parse_numeric_footer f g) Q s.
  Proof using All.
    intros f g s0 s b st mu Q HF Hb HI Hst HQ. unfold parse_numeric_footer.
    destruct f; apply wp_bind; (eapply number_literal_suffix_ok; eauto);
      intros suf s1 b1 HF1 Hb1 HI1 Hst1; clear HF Hb; rename HF1 into HF; rename Hb1 into Hb.
    - apply wp_bind. nstep. nstep. apply HQ; auto. rewrite Hb. eapply it_dn; eauto.
    - apply wp_bind. nstep. nstep. apply HQ; auto. rewrite Hb. eapply it_dn; eauto.
  Qed.

  Lemma finish_based_ok : forall s0 s b st mu (Q : Tok -> Lexer -> Prop),
    FR s0 s -> buffer s = b -> InTok st mu b -> st < pcur b ->
    (forall t s', FR s0 s' -> Dn st mu (buffer s') -> Q t s') ->
    wp e finish_based Q s.
  Proof using All.
    intros s0 s b st mu Q HF Hb HI Hst HQ. unfold finish_based. apply wp_bind.
    eapply number_literal_suffix_ok; eauto.
    intros suf s1 b1 HF1 Hb1 HI1 Hst1; clear HF Hb; rename HF1 into HF; rename Hb1 into Hb.
    apply wp_bind. nstep. nstep. apply HQ; auto. rewrite Hb. eapply it_dn; eauto.
  Qed.

  Lemma no_digits_ok : forall s0 s b st mu (Q : Tok -> Lexer -> Prop),
    FR s0 s -> buffer s = b -> Dn st mu b ->
    (forall t s', FR s0 s' -> Dn st mu (buffer s') -> Q t s') ->
    wp e no_digits Q s.
  Proof using All.
    intros s0 s b st mu Q HF Hb HD HQ. unfold no_digits.
    apply wp_bind. nstep. apply wp_bind. nstep. apply wp_bind.
    assert (HK : forall s' b', FR s0 s' -> buffer s' = b' -> Dn st mu b' ->
      wp e (set_integer_literal (bs "0") 0) Q s').
    { clear - HQ Hfuel n0 b0. intros s' b' HF Hb HD. nstep. apply HQ; auto. rewrite Hb. auto. }
    destruct a0; cbn [when].
    - apply wp_bind. eapply wp_nextc_rd; [exact HF|exact Hb|apply dn_rd; exact HD|].
      intros c b' s' HF' Hb' HA _. apply wp_ret. eapply HK; eauto.
      destruct HD, HA. constructor; auto; lia.
    - apply wp_ret. eapply HK; eauto.
  Qed.

  Lemma decode_num_ok : forall c nd f g s0 s b st mu (Q : Tok -> Lexer -> Prop),
    FR s0 s -> buffer s = b -> (c <> None -> 1 <= pcur b) ->
    InTok st mu (back c b) -> st < pcur (back c b) ->
    (forall t s', FR s0 s' -> Dn st mu (buffer s') -> Q t s') ->
    wp e (decode_num c nd f g) Q s.
  Proof using All.
    intros c nd f g s0 s b st mu Q HF Hb Hc HI Hst HQ. unfold decode_num.
    apply wp_bind. eapply wp_pushback; eauto. intros s1 HF1 Hb1. apply wp_bind.
    destruct nd as [x|].
    - apply wp_bind. eapply trailing_uc_ok; [exact HF1|exact Hb1|exact HI|exact Hst|].
      intros s2 b2 HF2 Hb2 HI2 Hp2. apply wp_ret.
      eapply footer_ok; [exact HF2|exact Hb2|exact HI2|lia|].
      intros t s3 HF3 HD. apply HQ; auto. destruct HD; constructor; auto; lia.
    - apply wp_ret. eapply footer_ok; [exact HF1|exact Hb1|exact HI|exact Hst|]. exact HQ.
  Qed.

  (** State of the digit loops: [c] just read, or [c] the first digit of the number *)
  Definition NumI (st mu : nat) (c : MaybeByte) (nd : option N) (b : Buffer) : Prop :=
    IA st mu c b /\ (nd <> None -> st + 2 <= pcur (back c b)).

  Lemma numI_next : forall st mu b c b' nd, InTok st mu b -> st < pcur b -> (nd <> None -> st + 2 <= pcur b) ->
    NextPost B b c b' -> NumI st mu c nd b' /\ (c <> None -> Rm b' < Rm b) /\ Rm b' <= Rm b.
  Proof using All.
    intros st mu b c b' nd HI Hst Hnd HN. destruct (it_nextpost _ _ _ _ _ _ _ _ HI Hst HN) as (HA & HP & _).
    split; [|split].
    - split; auto. rewrite HP. auto.
    - intros Hc. destruct c as [x|]; [|congruence]. destruct (n_some _ _ _ _ HN x eq_refl) as (_ & _ & _ & _ & H & _). auto.
    - destruct c as [x|].
      + destruct (n_some _ _ _ _ HN x eq_refl) as (_ & _ & _ & _ & H & _). lia.
      + pose proof (n_Rback _ _ _ _ HN). cbn [back] in *. auto.
  Qed.

  Definition digit_test (digit : MaybeByte -> bool) : Prop :=
    digit None = false /\ digit (Some 10%N) = false /\ digit (Some 13%N) = false.

  Lemma digits_loop_ok : forall digit c s0 s b st mu (Q : MaybeByte * option N -> Lexer -> Prop),
    digit_test digit ->
    FR s0 s -> buffer s = b -> IA st mu c b ->
    (forall c' nd' s' b', FR s0 s' -> buffer s' = b' -> NumI st mu c' nd' b' -> Q (c', nd') s') ->
    wp e (digits_loop digit c None) Q s.
  Proof using All.
    intros digit c s0 s b st mu Q (D1 & D2 & D3) HF Hb HA HQ. unfold digits_loop.
    eapply wp_loop with
      (I := fun x s1 => exists b1, FR s0 s1 /\ buffer s1 = b1 /\ NumI st mu (fst x) (snd x) b1)
      (meas := fun _ s1 => Rm (buffer s1)).
    - exists b. splits; auto. split; [exact HA|]. cbn [snd]. congruence.
    - rewrite Hb. pose proof (Rm_fuel b (ia_wf _ _ _ _ _ _ _ HA)). lia.
    - clear HF Hb. intros [c1 nd] s1 (b1 & HF & Hb & HNI). clear s HA c b. cbv beta. rewrite Hb. cbn [fst snd] in *.
      rename b1 into b, c1 into c.
      destruct HNI as (HA & Hnd).
      assert (HK : forall nd', c <> Some 10%N -> c <> Some 13%N -> c <> None ->
         wp e (tokadd_mb c ;;; c' <- nextc ;;
               (if is_eof c' then ret (inr (c', nd')) else ret (inl (c', nd'))))
          (fun r s' => match r with
             | inl x' => (exists b1, FR s0 s' /\ buffer s' = b1 /\ NumI st mu (fst x') (snd x') b1) /\
                         Rm (buffer s') < Rm b
             | inr r => Q r s' end) s1).
      { intros nd' C1 C2 C3. assert (HI : InTok st mu b) by (eapply ia_it; eauto).
        destruct c as [x|]; [|congruence].
        apply wp_bind. cbn [tokadd_mb]. nstep. apply wp_bind.
        eapply wp_nextc_it; [exact HF|exact Hb|exact HI|destruct HA; lia|].
        intros c b' s' HF' Hb' HA' _ _ _ _ _ _ HN.
        assert (HI2 : st + 2 <= pcur b).
        { destruct HA. destruct (ia_some x eq_refl) as (_ & _ & _ & H & _).
          rewrite H by congruence. lia. }
        destruct (numI_next _ _ _ _ _ nd' HI (ia_st _ _ _ _ _ _ _ HA) (fun _ => HI2) HN) as (HNI & HR & _).
        destruct (is_eof c) eqn:Ee.
        - apply wp_ret. eapply HQ; eauto.
        - apply wp_ret. split; [exists b'; auto|]. rewrite Hb'. apply HR. intros ->. discriminate. }
      destruct (mbeq c "_") eqn:E1.
      + apply mbeq_iff in E1. subst c. destruct nd as [y|].
        * apply wp_ret. eapply HQ; [exact HF|exact Hb|]. split; auto.
        * apply HK; congruence.
      + destruct (digit c) eqn:E2; cbn [negb].
        * apply HK; congruence.
        * apply wp_ret. eapply HQ; [exact HF|exact Hb|]. split; auto.
  Qed.

  Lemma based_number_ok : forall digit c start s0 s b st mu (Q : Tok -> Lexer -> Prop),
    digit_test digit -> c <> Some 10%N -> c <> Some 13%N -> c <> None ->
    FR s0 s -> buffer s = b -> IA st mu c b ->
    (forall t s', FR s0 s' -> Dn st mu (buffer s') -> Q t s') ->
    wp e (based_number digit c start) Q s.
  Proof using All.
    intros digit c start s0 s b st mu Q HD C1 C2 C3 HF Hb HA HQ. unfold based_number.
    destruct c as [x|]; [|congruence]. apply wp_bind. cbn [tokadd_mb]. nstep.
    assert (HI : InTok st mu b) by (eapply ia_it; eauto).
    pose proof (ia_st _ _ _ _ _ _ _ HA) as Hst. apply wp_bind. nx HI.
    apply wp_bind.
    assert (HK : forall c' nd' s' b', FR s0 s' -> buffer s' = b' -> NumI st mu c' nd' b' ->
       wp e (pushback c' ;;;
             len <- gets toklen ;;
             (if len =? start + 1 then no_digits
              else match nd' with
                   | Some byte => trailing_uc byte
                   | None => finish_based
                   end)) Q s').
    { clear - Hfuel HQ n0 b0. intros c' nd' s' b' HF Hb (HA & Hnd). apply wp_bind.
      eapply wp_pushback; [exact HF|exact Hb|intros _; destruct HA; lia|].
      intros s1 HF1 Hb1. apply wp_bind, wp_gets. destruct HA.
      destruct (toklen s1 =? start + 1).
      - eapply no_digits_ok; eauto. eapply it_dn; eauto.
      - destruct nd' as [y|].
        + eapply trailing_uc_ok; eauto. intros s2 b2 HF2 Hb2 HI2 Hp2. apply HQ; auto. rewrite Hb2.
          eapply it_raise_dn; eauto; lia.
        + eapply finish_based_ok; eauto. }
    destruct (digit c) eqn:Ed.
    - eapply digits_loop_ok; [exact HD|exact HF|exact Hb|exact HA0|].
      intros c' nd' s' b' HF' Hb' HN'. eapply HK; eauto.
    - apply wp_ret. apply (HK c None _ b1); auto. split; auto. congruence.
  Qed.

  Lemma parse_octal_ok : forall c nd start s0 s b st mu (Q : (MaybeByte * option N) + Tok -> Lexer -> Prop),
    FR s0 s -> buffer s = b -> NumI st mu c nd b ->
    (forall c' nd' s' b', FR s0 s' -> buffer s' = b' -> NumI st mu c' nd' b' -> Q (inl (c', nd')) s') ->
    (forall t s', FR s0 s' -> Dn st mu (buffer s') -> Q (inr t) s') ->
    wp e (parse_octal c nd start) Q s.
  Proof using All.
    intros c nd start s0 s b st mu Q HF Hb HN HQ1 HQ2. unfold parse_octal. apply wp_bind.
    eapply wp_loop with
      (I := fun x s1 => exists b1, FR s0 s1 /\ buffer s1 = b1 /\ NumI st mu (fst x) (snd x) b1)
      (meas := fun _ s1 => Rm (buffer s1)).
    - exists b. splits; auto.
    - rewrite Hb. pose proof (Rm_fuel b (ia_wf _ _ _ _ _ _ _ (proj1 HN))). lia.
    - clear HF Hb HN. intros [c1 nd1] s1 (b1 & HF & Hb & HNI). clear s c nd b. cbv beta. rewrite Hb. cbn [fst snd] in *.
      rename b1 into b, c1 into c, nd1 into nd.
      destruct HNI as (HA & Hnd).
      assert (HZ : forall flag nd' c' s' b', FR s0 s' -> buffer s' = b' -> NumI st mu c' nd' b' ->
        wp e (match (flag, (c', nd')) with
              | (false, cn) => ret (inl cn)
              | (true, (c, nondigit)) =>
                  len <- gets toklen ;;
                  if start <? len then
                    pushback c ;;;
                    match nondigit with
                    | Some byte => t <- trailing_uc byte ;; ret (inr t)
                    | None => t <- finish_based ;; ret (inr t)
                    end
                  else
                    match nondigit with
                    | Some byte => pushback c ;;; t <- trailing_uc byte ;; ret (inr t)
                    | None => ret (inl (c, nondigit))
                    end
              end) Q s').
      { clear - Hfuel HQ1 HQ2 n0 b0. intros flag nd c s b HF Hb (HA & Hnd).
        assert (HT : forall x s', FR s0 s' -> buffer s' = back c b ->
          wp e (t <- trailing_uc x ;; ret (inr t)) Q s').
        { intros x s' HF' Hb'. apply wp_bind. destruct HA. eapply trailing_uc_ok; [exact HF'|exact Hb'|eauto|eauto|].
          intros s2 b2 HF2 Hb2 HI2 Hp2. apply wp_ret. apply HQ2; auto. rewrite Hb2. eapply it_raise_dn; eauto; lia. }
        destruct flag.
        - apply wp_bind, wp_gets. destruct (start <? toklen s).
          + apply wp_bind. eapply wp_pushback; [exact HF|exact Hb|intros _; destruct HA; lia|].
            intros s1 HF1 Hb1. destruct nd as [y|]; [apply HT; auto|].
            apply wp_bind. destruct HA. eapply finish_based_ok; [exact HF1|exact Hb1|exact ia_back|exact ia_back_st|]. intros t s2 HF2 HD. apply wp_ret. auto.
          + destruct nd as [y|].
            * apply wp_bind. eapply wp_pushback; [exact HF|exact Hb|intros _; destruct HA; lia|].
              intros s1 HF1 Hb1. apply HT; auto.
            * apply wp_ret. eapply HQ1; eauto. split; auto.
        - apply wp_ret. eapply HQ1; eauto. split; auto. }
      assert (HK : forall nd', c <> Some 10%N -> c <> Some 13%N -> c <> None ->
         wp e (tokadd_mb c ;;; c' <- nextc ;;
               (if is_eof c' then ret (inr (true, (c', nd'))) else ret (inl (c', nd'))))
          (fun r s' => match r with
             | inl x' => (exists b1, FR s0 s' /\ buffer s' = b1 /\ NumI st mu (fst x') (snd x') b1) /\
                         Rm (buffer s') < Rm b
             | inr r =>
                wp e (match r with
              | (false, cn) => ret (inl cn)
              | (true, (c, nondigit)) =>
                  len <- gets toklen ;;
                  if start <? len then
                    pushback c ;;;
                    match nondigit with
                    | Some byte => t <- trailing_uc byte ;; ret (inr t)
                    | None => t <- finish_based ;; ret (inr t)
                    end
                  else
                    match nondigit with
                    | Some byte => pushback c ;;; t <- trailing_uc byte ;; ret (inr t)
                    | None => ret (inl (c, nondigit))
                    end
              end) Q s' end) s1).
      { intros nd' C1 C2 C3. assert (HI : InTok st mu b) by (eapply ia_it; eauto).
        destruct c as [x|]; [|congruence].
        apply wp_bind. cbn [tokadd_mb]. nstep. apply wp_bind.
        eapply wp_nextc_it; [exact HF|exact Hb|exact HI|destruct HA; lia|].
        intros c b' s' HF' Hb' HA' _ _ _ _ _ _ HN.
        assert (HI2 : st + 2 <= pcur b).
        { destruct HA. destruct (ia_some x eq_refl) as (_ & _ & _ & H & _).
          rewrite H by congruence. lia. }
        destruct (numI_next _ _ _ _ _ nd' HI (ia_st _ _ _ _ _ _ _ HA) (fun _ => HI2) HN) as (HNI & HR & _).
        destruct (is_eof c) eqn:Ee.
        - apply wp_ret. eapply (HZ true); eauto.
        - apply wp_ret. split; [exists b'; auto|]. rewrite Hb'. apply HR. intros ->. discriminate. }
      destruct (mbeq c "_") eqn:E1.
      + apply mbeq_iff in E1. subst c. destruct nd as [y|].
        * apply wp_ret. eapply (HZ true (Some y)); [exact HF|exact Hb|]. split; auto.
        * apply HK; congruence.
      + destruct (mb_lt c "0" || mb_gt c "9") eqn:E2.
        * apply wp_ret. eapply (HZ true); [exact HF|exact Hb|]. split; auto.
        * destruct (mb_gt c "7") eqn:E3.
          { apply wp_bind. unfold invalid_octal. nstep. apply wp_ret. eapply (HZ false); [exact HF|exact Hb|]. split; auto. }
          { apply HK; nonl. }
  Qed.

  Lemma leading_zero_ok : forall c start s0 s b st mu (Q : (MaybeByte * option N) + Tok -> Lexer -> Prop),
    FR s0 s -> buffer s = b -> IA st mu c b ->
    (forall c' nd' s' b', FR s0 s' -> buffer s' = b' -> NumI st mu c' nd' b' -> Q (inl (c', nd')) s') ->
    (forall t s', FR s0 s' -> Dn st mu (buffer s') -> Q (inr t) s') ->
    wp e (leading_zero c start) Q s.
  Proof using All.
    intros c start s0 s b st mu Q HF Hb HA HQ1 HQ2. unfold leading_zero.
    assert (HN : NumI st mu c None b). { split; auto. congruence. }
    apply wp_bind.
    match goal with |- wp e ?m ?P s => set (P2 := P); set (m1 := m) end.
    assert (HK : forall c' nd' s' b', FR s0 s' -> buffer s' = b' -> NumI st mu c' nd' b' -> P2 (inl (c', nd')) s').
    { clear - Hfuel HQ1 HQ2 n0 b0. subst P2. cbv beta. intros c nd s b HF Hb (HA & Hnd).
      apply wp_bind.
      match goal with |- wp e ?m ?P s => set (P3 := P); set (m2 := m) end.
      assert (HK : forall c' s' b', FR s0 s' -> buffer s' = b' -> NumI st mu c' nd b' -> P3 (inl c') s').
      { clear - Hfuel HQ1 HQ2 n0 b0. subst P3. cbv beta. intros c s b HF Hb HN. apply wp_bind.
        match goal with |- wp e ?m ?P s => set (P4 := P); set (m3 := m) end.
        assert (HK : forall c' nd' s' b', FR s0 s' -> buffer s' = b' -> NumI st mu c' nd' b' -> P4 (inl (c', nd')) s').
        { clear - Hfuel HQ1 HQ2 n0 b0. subst P4. cbv beta. intros c nd s b HF Hb (HA & Hnd).
          destruct (mb_gt c "7" && mb_le c "9") eqn:E1.
          { apply wp_bind. unfold invalid_octal. nstep. apply wp_ret. eapply HQ1; [exact HF|exact Hb|]. split; auto. }
          destruct (mbeq c "." || mbeq c "e" || mbeq c "E") eqn:E2.
          { apply wp_bind. nstep. apply wp_ret. eapply HQ1; [exact HF|exact Hb|]. split; auto. }
          apply wp_bind. eapply wp_pushback; [exact HF|exact Hb|intros _; destruct HA; lia|].
          intros s1 HF1 Hb1. apply wp_bind. destruct HA.
          eapply number_literal_suffix_ok; [exact HF1|exact Hb1|eauto|eauto|].
          clear HF Hb. intros suf s2 b2 HF Hb HI Hst. apply wp_bind. nstep. apply wp_bind. nstep. apply wp_ret.
          apply HQ2; auto. rewrite Hb. eapply it_dn; eauto. }
        subst m3. destruct (mb_ge c "0" && mb_le c "7") eqn:E1.
        - eapply parse_octal_ok; [exact HF|exact Hb|exact HN|exact HK|].
          intros t s' HF' HD. subst P4. cbv beta. apply wp_ret. auto.
        - apply wp_ret. eapply HK; eauto. }
      subst m2. destruct (mbeq c "o" || mbeq c "O") eqn:E1.
      - destruct c as [x|]; [|discriminate]. apply wp_bind. cbn [tokadd_mb]. nstep.
        assert (HI : InTok st mu b) by (eapply ia_it; eauto; nonl).
        pose proof (ia_st _ _ _ _ _ _ _ HA) as Hst. apply wp_bind.
        eapply wp_nextc_it; [exact HF|exact Hb|exact HI|exact Hst|].
        intros c b' s' HF' Hb' HA' _ _ _ _ _ _ HN.
        destruct (is_eof c || mbeq c "_" || negb (is_digit c)) eqn:E2.
        + apply wp_bind. eapply no_digits_ok; [exact HF'|exact Hb'|eapply ia_dn; eauto|].
          intros t s3 HF3 HD3. apply wp_ret. subst P3. cbv beta. apply wp_ret. auto.
        + apply wp_ret. eapply HK; [exact HF'|exact Hb'|].
          assert (HI2 : st + 2 <= pcur b).
          { destruct HA. destruct (ia_some x eq_refl) as (_ & _ & _ & H & _). rewrite H by nonl. lia. }
          eapply numI_next; eauto.
      - apply wp_ret. eapply HK; [exact HF|exact Hb|]. split; auto. }
    subst m1. destruct (mbeq c "_") eqn:E1.
    - eapply parse_octal_ok; [exact HF|exact Hb|exact HN|exact HK|].
      intros t s' HF' HD. subst P2. cbv beta. apply wp_ret. auto.
    - apply wp_ret. eapply HK; eauto.
  Qed.

  Lemma decimal_loop_n_ok : forall n c nd sp0 fl0 se0 s0 s b st mu (Q : Tok -> Lexer -> Prop),
    FR s0 s -> buffer s = b ->
    (NumI st mu c nd b \/ (is_digit c = true /\ nd = None /\ InTok st mu b /\ st < pcur b)) ->
    Rm b + 1 < n ->
    (forall t s', FR s0 s' -> Dn st mu (buffer s') -> Q t s') ->
    wp e (loop_n n decimal_body (mkNum c nd sp0 fl0 se0)) Q s.
  Proof using All.
    intros n c nd sp0 fl0 se0 s0 s b st mu Q HF Hb HN Hn HQ.
    eapply wp_loop_n with
      (I := fun x s1 => exists b1, FR s0 s1 /\ buffer s1 = b1 /\
         (NumI st mu (nm_c x) (nm_nondigit x) b1 \/
          (is_digit (nm_c x) = true /\ nm_nondigit x = None /\ InTok st mu b1 /\ st < pcur b1)))
      (meas := fun x s1 => Rm (buffer s1) + if is_eof (nm_c x) then 0 else 1).
    2: { exists b. splits; auto. }
    2: { rewrite Hb. cbn [nm_c]. destruct (is_eof c); blia. }
    - clear HF Hb HN Hn sp0 fl0 se0 n. intros [c1 nd1 sp fl se] s1 (b1 & HF & Hb & HNI). clear s c nd b. cbv beta. unfold decimal_body. rewrite Hb.
      cbn [nm_c nm_nondigit] in *. rename b1 into b, c1 into c, nd1 into nd.
      (* reading the next character from inside the token *)
      assert (HNX : forall s' b' nd' x, FR s0 s' -> buffer s' = b' -> InTok st mu b' ->
         (nd' <> None -> st + 2 <= pcur b') -> st < pcur b' -> Rm b' <= Rm b -> c <> None ->
         (forall c', nm_c (x c') = c' /\ nm_nondigit (x c') = nd') ->
         wp e (c' <- nextc ;; ret (inl (x c')))
           (fun (r : NumSt + Tok) s' => match r with
             | inl x' => (exists b1, FR s0 s' /\ buffer s' = b1 /\
                (NumI st mu (nm_c x') (nm_nondigit x') b1 \/
                 (is_digit (nm_c x') = true /\ nm_nondigit x' = None /\ InTok st mu b1 /\ st < pcur b1))) /\
                Rm (buffer s') + (if is_eof (nm_c x') then 0 else 1) < Rm b + (if is_eof c then 0 else 1)
             | inr r => Q r s' end) s').
      { clear - Hfuel n0 b0. intros s' b' nd' x HF Hb HI Hnd Hst HRb Hc Hx. apply wp_bind.
        eapply wp_nextc_it; [exact HF|exact Hb|exact HI|exact Hst|].
        intros c2 b2 s2 HF2 Hb2 HA _ _ _ _ _ _ HN. apply wp_ret. destruct (Hx c2) as (X1 & X2). rewrite X1, X2.
        destruct (numI_next _ _ _ _ _ nd' HI Hst Hnd HN) as (HNI & HR1 & HR2).
        split; [exists b2; auto|]. rewrite Hb2. destruct c as [y|]; [|congruence]. cbn [is_eof].
        destruct c2 as [z|]; cbn [is_eof]; [|blia]. specialize (HR1 ltac:(congruence)). blia. }
      assert (HLV : forall c' nd' s' b', FR s0 s' -> buffer s' = b' -> (c' <> None -> 1 <= pcur b') ->
         InTok st mu (back c' b') -> st < pcur (back c' b') ->
         wp e (t <- decode_num c' nd' fl se ;; ret (inr t))
           (fun (r : NumSt + Tok) s' => match r with
             | inl x' => (exists b1, FR s0 s' /\ buffer s' = b1 /\
                (NumI st mu (nm_c x') (nm_nondigit x') b1 \/
                 (is_digit (nm_c x') = true /\ nm_nondigit x' = None /\ InTok st mu b1 /\ st < pcur b1))) /\
                Rm (buffer s') + (if is_eof (nm_c x') then 0 else 1) < Rm b + (if is_eof c then 0 else 1)
             | inr r => Q r s' end) s').
      { clear - Hfuel HQ n0 b0. intros c' nd' s' b' HF Hb H1 H2 H3. apply wp_bind.
        eapply decode_num_ok; [exact HF|exact Hb|exact H1|exact H2|exact H3|]. intros t s2 HF2 HD. apply wp_ret. auto. }
      destruct (is_digit c) eqn:Edig.
      { assert (HI : InTok st mu b /\ st < pcur b).
        { destruct HNI as [(HA & _)|(_ & _ & HI & Hst)]; auto. split; [eapply ia_it; eauto; nonl|destruct HA; auto]. }
        destruct HI as (HI & Hst). destruct c as [x|]; [|discriminate]. apply wp_bind. cbn [tokadd_mb]. nstep.
        apply (HNX s b None (fun c => mkNum c None sp fl se)); auto; congruence. }
      destruct HNI as [(HA & Hnd)|(HX & _)]; [|discriminate].
      assert (HLC : forall nd', wp e (t <- decode_num c nd' fl se ;; ret (inr t)) (fun (r : NumSt + Tok) s' => match r with
             | inl x' => (exists b1, FR s0 s' /\ buffer s' = b1 /\
                (NumI st mu (nm_c x') (nm_nondigit x') b1 \/
                 (is_digit (nm_c x') = true /\ nm_nondigit x' = None /\ InTok st mu b1 /\ st < pcur b1))) /\
                Rm (buffer s') + (if is_eof (nm_c x') then 0 else 1) < Rm b + (if is_eof c then 0 else 1)
             | inr r => Q r s' end) s1).
      { intros nd'. eapply HLV; [exact HF|exact Hb|intros _; destruct HA; blia|destruct HA; auto|destruct HA; auto]. }
      pose proof (ia_st _ _ _ _ _ _ _ HA) as Hst.
      destruct (mbeq c ".") eqn:Edot.
      { assert (HI : InTok st mu b) by (eapply ia_it; eauto; nonl). apply mbeq_iff in Edot. subst c.
        destruct nd as [y|].
        { apply wp_bind. eapply trailing_uc_ok; [exact HF|exact Hb|exact HI|exact Hst|].
          intros s2 b2 HF2 Hb2 HI2 Hp2. apply wp_ret. apply HQ; auto. rewrite Hb2. eapply it_raise_dn; eauto; blia. }
        destruct (sp || se) eqn:Esp; [apply HLC|].
        apply wp_bind. eapply wp_nextc_it; [exact HF|exact Hb|exact HI|exact Hst|].
        intros c2 b2 s2 HF2 Hb2 HA2 Pb Pe Pg Pt Pl Pc HN2. cbn [is_eof orb].
        destruct (is_digit c2) eqn:Ed2; cbn [negb].
        - destruct c2 as [z|]; [|discriminate].
          clear HF Hb. rename HF2 into HF, Hb2 into Hb.
          apply wp_bind. nstep. apply wp_bind. cbn [tokadd_mb]. nstep.
          eapply (HNX _ b2 None (fun c => mkNum c None true true se)); auto; try congruence.
          + eapply ia_it; eauto; nonl.
          + destruct HA2; auto.
          + destruct (n_some _ _ _ _ HN2 z eq_refl) as (_ & _ & _ & _ & H & _). blia.
        - apply wp_bind. eapply wp_pushback; [exact HF2|exact Hb2|intros _; destruct HA2; blia|].
          intros s3 HF3 Hb3. eapply HLV; [exact HF3|exact Hb3|intros _; destruct HA2; blia| |].
          + destruct HA2. destruct (it_push _ _ _ _ _ _ "."%bn ia_back ltac:(blia)) as (_ & H & _). exact H.
          + pose proof (ia_back_st _ _ _ _ _ _ _ HA) as HA4.
            destruct (ia_some _ _ _ _ _ _ _ HA _ eq_refl) as (_ & _ & _ & K & _). specialize (K ltac:(congruence)).
            destruct HA2. destruct (it_push _ _ _ _ _ _ "."%bn ia_back ltac:(blia)) as (_ & _ & H). rewrite H, Pb. blia. }
      destruct (mbeq c "e" || mbeq c "E") eqn:Ee.
      { assert (HI : InTok st mu b) by (eapply ia_it; eauto; nonl).
        destruct c as [x|]; [|discriminate].
        destruct nd as [y|].
        { apply wp_bind. eapply wp_pushback; [exact HF|exact Hb|intros _; destruct HA; blia|].
          intros s2 HF2 Hb2. specialize (Hnd ltac:(congruence)).
          destruct HA. destruct (it_push _ _ _ _ _ _ y ia_back ia_back_st) as (_ & P1 & P2).
          eapply HLV; [exact HF2|exact Hb2|intros _; blia|exact P1|blia]. }
        destruct se eqn:Ese; [apply HLC|].
        apply wp_bind. eapply wp_nextc_it; [exact HF|exact Hb|exact HI|exact Hst|].
        intros c2 b2 s2 HF2 Hb2 HA2 Pb Pe Pg Pt Pl Pc HN2.
        assert (HI2 : st + 2 <= pcur b).
        { destruct HA. destruct (ia_some x eq_refl) as (_ & _ & _ & H & _). rewrite H by nonl. blia. }
        destruct (negb (mbeq c2 "-") && negb (mbeq c2 "+") && negb (is_digit c2)) eqn:E3.
        - apply wp_bind. eapply wp_pushback; [exact HF2|exact Hb2|intros _; destruct HA2; blia|].
          intros s3 HF3 Hb3. destruct HA2. destruct c2 as [z|].
          + destruct (it_push _ _ _ _ _ _ z ia_back ia_back_st) as (_ & P1 & P2).
            eapply HLV; [exact HF3|exact Hb3|intros _; blia|exact P1|blia].
          + eapply HLV; [exact HF3|exact Hb3|congruence|exact ia_back|exact ia_back_st].
        - apply wp_bind. cbn [expect]. apply wp_ret. apply wp_bind. clear HF Hb. rename HF2 into HF, Hb2 into Hb. nstep.
          destruct c2 as [z|]; [|discriminate]. apply wp_bind. cbn [tokadd_mb]. nstep.
          destruct HA2. destruct (ia_some z eq_refl) as (_ & _ & K1 & K2 & _).
          eapply (HNX _ b2 (if mbeq (Some z) "-" || mbeq (Some z) "+" then Some z else None) (fun c => mkNum c _ sp true true)); auto; try congruence.
          + apply K1; nonl.
          + intros _. specialize (K2 ltac:(nonl)). blia.
          + destruct (n_some _ _ _ _ HN2 z eq_refl) as (_ & _ & _ & _ & H & _). blia. }
      destruct (mbeq c "_") eqn:E4; [|apply HLC].
      assert (HI : InTok st mu b) by (eapply ia_it; eauto; nonl). apply mbeq_iff in E4. subst c.
      assert (HI2 : st + 2 <= pcur b).
      { destruct HA. destruct (ia_some _ eq_refl) as (_ & _ & _ & H & _). rewrite H by congruence. blia. }
      destruct nd as [y|].
      + apply wp_bind. cbn [tokadd_mb]. nstep.
        eapply HLV; [exact HF|exact Hb|intros _; destruct HA; blia|destruct HA; auto|destruct HA; auto].
      + apply wp_bind. cbn [tokadd_mb]. nstep.
        eapply (HNX _ b (Some "_"%bn) (fun c => mkNum c _ sp fl se)); auto; try congruence; blia.
  Qed.

  Lemma decimal_loop_ok : forall c nd s0 s b st mu (Q : Tok -> Lexer -> Prop),
    FR s0 s -> buffer s = b ->
    (NumI st mu c nd b \/ (is_digit c = true /\ nd = None /\ InTok st mu b /\ st < pcur b)) ->
    (forall t s', FR s0 s' -> Dn st mu (buffer s') -> Q t s') ->
    wp e (decimal_loop c nd) Q s.
  Proof using All.
    intros c nd s0 s b st mu Q HF Hb HN HQ. unfold decimal_loop, loop, wp.
    assert (HW : BWF B b). { destruct HN as [(HN & _)|(_ & _ & HN & _)]; eauto with neut. }
    pose proof (Rm_fuel b HW).
    eapply decimal_loop_n_ok; [exact HF|exact Hb|exact HN|auto|exact HQ].
  Qed.

  Lemma parse_numeric_ok : forall prefix s0 s b st mu (Q : Tok -> Lexer -> Prop),
    FR s0 s -> buffer s = b -> InTok st mu b -> st < pcur b ->
    (prefix = 45%N \/ prefix = 43%N \/ b_is_digit prefix = true) ->
    (forall t s', FR s0 s' -> Dn st mu (buffer s') -> Q t s') ->
    wp e (parse_numeric prefix) Q s.
  Proof using All.
    intros prefix s0 s b st mu Q HF Hb HI Hst Hp HQ. unfold parse_numeric.
    apply wp_bind. nstep. apply wp_bind. nstep. apply wp_bind.
    match goal with |- wp e ?m ?P _ => set (P2 := P); set (m1 := m) end.
    assert (HK : forall c s' b', FR s0 s' -> buffer s' = b' ->
       (NumI st mu c None b' \/ (is_digit c = true /\ InTok st mu b' /\ st < pcur b')) -> P2 c s').
    { clear - HQ Hfuel n0 b0. subst P2. cbv beta. intros c s b HF Hb HN.
      destruct (mbeq c "0") eqn:E0.
      2: { eapply decimal_loop_ok; [exact HF|exact Hb| |exact HQ]. destruct HN as [HN|(H1 & H2 & H3)]; auto 6. }
      assert (HI : InTok st mu b /\ st < pcur b).
      { destruct HN as [(HA & _)|(_ & HI & Hst)]; auto. split; [eapply ia_it; eauto; nonl|destruct HA; auto]. }
      destruct HI as (HI & Hst).
      apply wp_bind, wp_gets. apply wp_bind.
      eapply wp_nextc_it; [exact HF|exact Hb|exact HI|exact Hst|].
      intros c2 b2 s2 HF2 Hb2 HA2 Pb Pe Pg Pt Pl Pc HN2.
      destruct (mbeq c2 "x" || mbeq c2 "X") eqn:E1.
      { eapply based_number_ok; [split; [reflexivity|split; reflexivity]| | | |exact HF2|exact Hb2|exact HA2|exact HQ]; nonl. }
      destruct (mbeq c2 "b" || mbeq c2 "B") eqn:E2.
      { eapply based_number_ok; [split; [reflexivity|split; reflexivity]| | | |exact HF2|exact Hb2|exact HA2|exact HQ]; nonl. }
      destruct (mbeq c2 "d" || mbeq c2 "D") eqn:E3.
      { eapply based_number_ok; [split; [reflexivity|split; reflexivity]| | | |exact HF2|exact Hb2|exact HA2|exact HQ]; nonl. }
      apply wp_bind. eapply leading_zero_ok; [exact HF2|exact Hb2|exact HA2| |].
      - intros c3 nd3 s3 b3 HF3 Hb3 HN3. eapply decimal_loop_ok; [exact HF3|exact Hb3|left; exact HN3|exact HQ].
      - intros t s3 HF3 HD. apply wp_ret. auto. }
    subst m1. destruct ((prefix =? 45)%N || (prefix =? 43)%N) eqn:Ep.
    - apply wp_bind. nstep. eapply wp_nextc_it; [exact HF|exact Hb|exact HI|exact Hst|].
      intros c2 b2 s3 HF2 Hb2 HA2 _ _ _ _ _ _ HN2. eapply HK; [exact HF2|exact Hb2|]. left. split; auto. congruence.
    - apply wp_ret. eapply HK; [exact HF|exact Hb|]. right. cbn [is_digit mb_test].
      destruct Hp as [->|[->|Hp]]; try discriminate. auto.
  Qed.
End Num.
