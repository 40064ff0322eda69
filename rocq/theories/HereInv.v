(** * Invariant of heredocs *)
Require Import Verif.Base Verif.MaybeByteM Verif.Utf8M Verif.InputM Verif.DiagnosticM Verif.LexStateM
  Verif.StackStateM Verif.ScopesM Verif.TokensM Verif.ReservedM Verif.BufferM Verif.LexerM Verif.LexNumericM Verif.LexStringM
  Verif.LexIdentM Verif.LexHeredocM
  Verif.SourceSpec Verif.SourceProofs Verif.Wp Verif.BufInv Verif.LexInv Verif.NumInv Verif.StrInv Verif.TokInv Verif.IdentInv.
Require Import ZifyBool ZifyNat ZifyN.

Section HereDefs.
  Variable B : list N.
  Notation lstart := (lstart B).
  Notation lend := (lend B).

  (** Where reading continues after the heredoc *)
  Definition hpos (h : HeredocLiteral) : nat :=
    lstart (hl_lastline h) + hl_offset h + hl_length h + hl_quote h.

  (** A heredoc that can be resumed when [n] lines have been read *)
  Record HV (n : nat) (h : HeredocLiteral) : Prop := mkHV {
    hv_line : hl_lastline h < n;
    hv_func : has (hl_func h) STR_FUNC_REGEXP = false /\ has (hl_func h) STR_FUNC_QWORDS = false;
    hv_quote : hl_quote h <= hl_offset h;
    hv_pos : hpos h <= lend (hl_lastline h);
    hv_nosplit : lstart (hl_lastline h) < hpos h -> nth_error B (hpos h - 1) = Some 13%N ->
                 nth_error B (hpos h) = Some 10%N -> False
  }.

  (** Bytes of the line of the heredoc that will be read again *)
  Definition credit (h : HeredocLiteral) : nat := lend (hl_lastline h) - hpos h.

  Lemma HV_mono : forall n m h, HV n h -> n <= m -> HV m h.
  Proof using. intros n m h [] H. constructor; auto. lia. Qed.

End HereDefs.

Section Here.
  Variables (B : list N) (n0 b0 : nat) (e : Env).
  Hypothesis Hfuel : 4 * List.length B + 20 < fuel e.

  Notation FR := (FR B).
  Notation FRd := (FRd B).
  Notation Rd := (Rd B n0 b0).
  Notation AR := (AR B n0 b0).
  Notation InTok := (InTok B n0 b0).
  Notation IA := (IA B n0 b0).
  Notation Dn := (Dn B n0 b0).
  Notation Rm := (Rm B).
  Notation gh := (gh B n0 b0).
  Notation NextPost := (NextPost B).
  Notation lstart := (lstart B).
  Notation lend := (lend B).
  Notation bonus := (bonus B).
  Notation hpos := (hpos B).
  Notation HV := (HV B).
  Notation credit := (credit B).

  Ltac nxi c HA :=
    match goal with
    | HF : LexInv.FR _ _ ?s, Hb : buffer ?s = ?b, HI : LexInv.InTok _ _ _ ?st _ ?b, Hst : ?st < pcur ?b |- _ =>
        eapply wp_nextc_it; [exact HF|exact Hb|exact HI|exact Hst|];
        clear HF Hb;
        let b' := fresh "b" in let s' := fresh "s" in
        intros c b' s' HF Hb HA; intros
    end.

  (** *** heredoc_identifier *)
  Lemma heredoc_id_scan_ok : forall c off func ind s0 s b st mu p0 (Q : (nat * nat * N * Tok) + option Tok -> Lexer -> Prop),
    FR s0 s -> buffer s = b -> IA st mu c b -> pcur (back c b) = p0 -> st + 2 <= p0 ->
    (func = 0%N \/ func = STR_FUNC_INDENT /\ st + 3 <= p0) ->
    (forall s' b', FR s0 s' -> buffer s' = b' -> InTok st mu b' -> st + 2 <= pcur b' -> Q (inr None) s') ->
    (forall s' b', FR s0 s' -> buffer s' = b' -> Dn st mu b' -> Q (inr (Some END_OF_INPUT)) s') ->
    (forall f t s' b', FR s0 s' -> buffer s' = b' -> InTok st mu b' -> p0 + 2 <= pcur b' -> t <> END_OF_INPUT /\ (has f STR_FUNC_REGEXP = false /\ has f STR_FUNC_QWORDS = false) ->
       pbeg b' = pbeg b -> lastline b' = lastline b -> Q (inl (1, off + 1, f, t)) s') ->
    (forall f t s' b', FR s0 s' -> buffer s' = b' -> InTok st mu b' -> p0 + 1 <= pcur b' -> t <> END_OF_INPUT /\ (has f STR_FUNC_REGEXP = false /\ has f STR_FUNC_QWORDS = false) ->
       pbeg b' = pbeg b -> lastline b' = lastline b -> Q (inl (0, off, f, t)) s') ->
    wp e (heredoc_id_scan c off func ind) Q s.
  Proof using All.
    intros c off func ind s0 s b st mu p0 Q HF Hb HA Hp0 Hst2 Hind0 HQn HQe HQ1 HQ0. unfold heredoc_id_scan.
    assert (Hind : has func STR_FUNC_INDENT = true -> st + 3 <= p0).
    { destruct Hind0 as [->|(_ & ?)]; [discriminate|auto]. }
    assert (Hf : forall k, k = str_squote \/ k = str_dquote \/ k = str_xquote ->
       has (N.lor func k) STR_FUNC_REGEXP = false /\ has (N.lor func k) STR_FUNC_QWORDS = false).
    { intros k Hk. destruct Hind0 as [->|(-> & _)], Hk as [->|[->| ->]]; split; reflexivity. }
    destruct (mbeq c "'" || mbeq c """" || mbeq c "`") eqn:Eq.
    - destruct c as [x|]; [|discriminate Eq].
      assert (Hx : x <> 10%N /\ x <> 13%N) by (split; intros ->; discriminate Eq).
      assert (HI : InTok st mu b) by (apply (ia_it _ _ _ _ _ _ _ HA); intros C; injection C as ->; tauto).
      destruct (ia_some _ _ _ _ _ _ _ HA x eq_refl) as (_ & _ & _ & Z & _). specialize (Z (proj1 Hx)).
      apply wp_bind.
      apply wp_loop with (I := fun _ s => FR s0 s /\ InTok st mu (buffer s) /\ p0 + 1 <= pcur (buffer s) /\
          pbeg (buffer s) = pbeg b /\ lastline (buffer s) = lastline b) (meas := fun _ s => Rm (buffer s)).
      + rewrite Hb. splits; auto. lia.
      + rewrite Hb. pose proof (Rm_le B b (ia_wf _ _ _ _ _ _ _ HA)). lia.
      + clear HF Hb s. intros _ s (HF & HI1 & Hp1 & G1 & G2). remember (buffer s) as b1 eqn:Hb. symmetry in Hb.
        assert (Hst : st < pcur b1) by lia. clear HI Z HA. apply wp_bind. nxi c2 HA2. pose proof (ia_wf _ _ _ _ _ _ _ HA2) as HW2.
        destruct (mbeq_opt c2 (Some x)) eqn:Em.
        * destruct c2 as [y|]; [|discriminate Em]. cbn in Em. apply N.eqb_eq in Em. subst y.
          apply wp_ret. apply wp_ret.
          assert (HI2 : InTok st mu b2) by (apply (ia_it _ _ _ _ _ _ _ HA2); intros C; injection C as ->; tauto).
          destruct (ia_some _ _ _ _ _ _ _ HA2 x eq_refl) as (_ & _ & _ & Z & _). specialize (Z (proj1 Hx)).
          eapply HQ1; [exact HF|exact Hb|exact HI2|lia| |congruence|congruence].
          split; [destruct (mbeq (Some x) "`"); discriminate|].
          assert (Ex : x = "'"%bn \/ x = """"%bn \/ x = "`"%bn) by (clear - Eq; cbn in Eq; lia).
          destruct Ex as [->|[->| ->]]; apply Hf; auto.
        * destruct (is_eof c2 || mbeq c2 13%N || mbeq c2 10%N) eqn:Ee.
          { apply wp_bind. nstep. apply wp_ret. apply wp_ret. eapply HQe; [exact HF|exact Hb|eapply ia_dn; eauto]. }
          destruct c2 as [y|]; [|discriminate Ee]. apply wp_ret. rewrite Hb.
          match goal with HN : BufInv.NextPost _ _ _ _ |- _ => pose proof (n_some B _ _ _ HN y eq_refl) as (_ & _ & _ & _ & Hm & _) end.
          pose proof (ia_some _ _ _ _ _ _ _ HA2 y eq_refl) as (_ & _ & _ & _ & Z).
          splits; [exact HF| |blia|congruence|congruence|exact Hm].
          apply (ia_it _ _ _ _ _ _ _ HA2); intros C; injection C as ->; discriminate Ee.
    - apply wp_bind. eapply ident_b; [exact Hfuel|exact HF|exact Hb|exact HA| |]; clear HF Hb.
      + clear s. intros s x HF Hb -> HI. cbn [negb]. cbv zeta. apply wp_bind.
        assert (Hpc : pcur b = p0 + 1).
        { destruct (ia_some _ _ _ _ _ _ _ HA x eq_refl) as (_ & _ & _ & Z & _).
          assert (x <> 10%N); [|specialize (Z H); lia]. intros ->.
          destruct (it_bytes _ _ _ _ _ _ HI (pcur b - 1)) as (C & _); try (pose proof (ia_st _ _ _ _ _ _ _ HA); lia).
          destruct (ia_some _ _ _ _ _ _ _ HA 10%N eq_refl) as (_ & Z2 & _). congruence. }
        apply wp_loop with (I := fun _ s => FR s0 s /\ InTok st mu (buffer s) /\ p0 + 1 <= pcur (buffer s) /\
          pbeg (buffer s) = pbeg b /\ lastline (buffer s) = lastline b) (meas := fun _ s => Rm (buffer s)).
        * rewrite Hb. splits; auto. lia.
        * rewrite Hb. pose proof (Rm_le B b (ia_wf _ _ _ _ _ _ _ HA)). lia.
        * clear HF Hb s. intros _ s (HF & HI1 & Hp1 & G1 & G2). remember (buffer s) as b1 eqn:Hb. symmetry in Hb.
          apply wp_bind. gb. apply wp_bind, wp_sub_ck; [lia|]. apply wp_bind.
          eapply (multibyte_char_len_ok B n0 b0 e Hfuel); [exact HF|exact Hb|eauto with neut|].
          clear HF Hb s. intros s r HF Hb Hr. destruct r as [n|].
          2: { apply wp_ret. apply wp_ret. eapply HQe; [exact HF|exact Hb|apply it_dn; auto; lia]. }
          pose proof (it_wf _ _ _ _ _ _ HI1) as HW1. pose proof (it_pbeg _ _ _ _ _ _ HI1) as Hpb1.
          destruct (mb_skip_wf B n0 b0 e Hfuel b1 n HW1 ltac:(lia) (eq_sym Hr)) as (M1 & M2 & M3).
          apply wp_bind, wp_sub_ck; [lia|]. apply wp_bind. mstep.
          assert (HI2 : InTok st mu (set_pcur (pcur b1 + (n - 1)) b1)).
          { apply it_forward; auto; try lia. intros i I1 I2.
            pose proof (w_pbeg B _ HW1). pose proof (w_pcur2 B _ HW1).
            destruct (mb_len_ok B n0 b0 e Hfuel b1 (pcur b1 - 1) n HW1) as (_ & _ & M4); try lia; auto. apply M4; lia. }
          assert (Hst : st < pcur (set_pcur (pcur b1 + (n - 1)) b1)) by (cbn; lia).
          assert (Hpx : pcur b1 <= pcur (set_pcur (pcur b1 + (n - 1)) b1)) by (cbn; lia).
          assert (HRx : Rm (set_pcur (pcur b1 + (n - 1)) b1) <= Rm b1).
          { unfold BufInv.Rm. cbn [eofp nextline pend pcur line_count set_pcur]. destruct (eofp b1); [lia|]. destruct (nextline b1 =? 0); lia. }
          assert (G1x : pbeg (set_pcur (pcur b1 + (n - 1)) b1) = pbeg b) by (cbn; auto).
          assert (G2x : lastline (set_pcur (pcur b1 + (n - 1)) b1) = lastline b) by (cbn; auto).
          nameb bx. clear HI. rename HI1 into HIold. assert (HIold2 : True) by exact I. clear HIold.
          apply wp_bind. nxi c2 HA2. apply wp_bind.
          assert (HEND : forall s, FR s0 s -> buffer s = b2 -> wp e (ret (inr (Some c2)))
            (fun (r : unit + option MaybeByte) s => match r with
              | inl x' => (FR s0 s /\ InTok st mu (buffer s) /\ p0 + 1 <= pcur (buffer s) /\ pbeg (buffer s) = pbeg b /\
                           lastline (buffer s) = lastline b) /\ Rm (buffer s) < Rm b1
              | inr r => wp e match r with
                | Some c => pushback c ;;; ret (inl (0, off, N.lor func str_dquote, tSTRING_BEG) : (nat * nat * N * Tok) + option Tok)
                | None => ret (inr (Some END_OF_INPUT)) end Q s end) s).
          { clear HF Hb. intros s2 HF Hb. apply wp_ret. apply wp_bind.
            eapply wp_pushback; [exact HF|exact Hb|intros; eapply ia_pos; eauto|].
            clear HF Hb. intros s3 HF Hb. apply wp_ret. destruct (back_fields c2 b2) as (K1 & K2 & K3 & K4 & K5 & K6 & K7).
            eapply HQ0; [exact HF|exact Hb|eapply ia_back; eauto|lia|split; [discriminate|apply Hf; auto]|congruence|congruence]. }
          destruct c2 as [y|]; cbn [is_eof].
          2: { apply wp_ret. cbn [negb]. apply HEND; auto. }
          eapply ident_b; [exact Hfuel|exact HF|exact Hb|exact HA2| |]; clear HF Hb.
          { intros s4 z HF Hb _ HI4. cbn [negb]. apply wp_ret. rewrite Hb.
            match goal with HN : BufInv.NextPost _ _ _ _ |- _ => pose proof (n_some B _ _ _ HN y eq_refl) as (_ & _ & _ & _ & Hm & _) end.
            pose proof (ia_some _ _ _ _ _ _ _ HA2 y eq_refl) as (_ & _ & _ & _ & Z).
            splits; auto; try lia; congruence. }
          { intros s4 HF Hb. cbn [negb]. apply HEND; auto. }
      + intros s1 HF Hb. cbn [negb]. apply wp_bind.
        eapply wp_pushback; [exact HF|exact Hb|intros; eapply ia_pos; eauto|].
        clear HF Hb. intros s2 HF Hb. pose proof (ia_back _ _ _ _ _ _ _ HA) as HI.
        pose proof (ia_back_st _ _ _ _ _ _ _ HA) as Hst. apply wp_bind.
        destruct (has func STR_FUNC_INDENT); cbn [when].
        * specialize (Hind eq_refl).
          eapply wp_pushback; [exact HF|exact Hb|intros; lia|]. clear HF Hb. intros s3 HF Hb. apply wp_ret.
          assert (HP : forall x, InTok st mu (back (Some x) (back c b)) /\ pcur (back (Some x) (back c b)) = pcur (back c b) - 1).
          { intros x. destruct (it_push _ _ _ _ _ _ x HI Hst) as (_ & K2 & K3). auto. }
          destruct (Z.ltb 0 ind); (eapply HQn; [exact HF|exact Hb|apply HP|]); rewrite (proj2 (HP _)); lia.
        * apply wp_ret. apply wp_ret. eapply HQn; [exact HF|exact Hb|exact HI|lia].
  Qed.

  (** A heredoc has been started *)
  Record HereBeg (mu : nat) (s0 s : Lexer) : Prop := mkHereBeg {
    hb_frame : FRd s0 s;
    hb_term : exists h, strterm s = Some (HeredocLit h) /\ HV (line_count (buffer s)) h /\
                Rm (buffer s) + credit h < mu + b0;
    hb_lval : exists p1 p2, lval_start s = Some p1 /\ lval_end s = Some p2 /\ p1 <= p2 /\ p2 <= List.length B;
    hb_wf : BWF B (buffer s);
    hb_gh : gh (buffer s)
  }.

  Hypothesis Hb0 : b0 <= 3.

  Lemma heredoc_identifier_ok : forall s0 s b st mu (Q : option Tok -> Lexer -> Prop),
    FR s0 s -> buffer s = b -> InTok st mu b -> pcur b = st + 2 ->
    (forall s' b', FR s0 s' -> buffer s' = b' -> InTok st mu b' -> st + 2 <= pcur b' -> Q None s') ->
    (forall s' b', FR s0 s' -> buffer s' = b' -> Dn st mu b' -> Q (Some END_OF_INPUT) s') ->
    (forall t s', t <> END_OF_INPUT -> HereBeg mu s0 s' -> Q (Some t) s') ->
    wp e heredoc_identifier Q s.
  Proof using All.
    intros s0 s b st mu Q HF Hb HI Hpc HQn HQe HQ. unfold heredoc_identifier.
    pose proof (it_wf _ _ _ _ _ _ HI) as HW. pose proof (w_pcur1 B b HW) as HP1. pose proof (it_pbeg _ _ _ _ _ _ HI) as HPB.
    apply wp_bind. gb. apply wp_bind, wp_sub_ck; [auto|]. assert (Hst : st < pcur b) by lia.
    apply wp_bind. nxi ch HA.
    assert (HK : forall c off func ind s b1, FR s0 s -> buffer s = b1 -> IA st mu c b1 ->
       st + 2 <= pcur (back c b1) -> (func = 0%N \/ func = STR_FUNC_INDENT /\ st + 3 <= pcur (back c b1)) ->
       pbeg b1 = pbeg b -> lastline b1 = lastline b -> pbeg b + off = pcur (back c b1) ->
       wp e (r <- heredoc_id_scan c off func ind ;;
        match r with
        | inr t => ret t
        | inl (quote, offset, func, token) =>
            b <- getb ;;
            len <- sub_ck (pcur b) (pbeg b + offset) ;;
            len <- sub_ck len quote ;;
            id <- expect (b_substr_at b (ptok b) (pcur b)) "failed to get heredoc id" ;;
            set_yylval id ;;;
            modify (set_lval_start (Some (ptok b))) ;;;
            modify (set_lval_end (Some (pcur b))) ;;;
            modb goto_eol ;;;
            modify (set_strterm (Some (HeredocLit
              (mkHeredocLiteral (lastline b) offset (ruby_sourceline b) len quote func)))) ;;;
            token_flush ;;;
            modb (set_heredoc_indent ind) ;;;
            modb (set_heredoc_line_indent 0%Z) ;;;
            ret (Some token)
        end) Q s).
    { clear - HQn HQe HQ Hfuel Hb0 HPB. intros c off func ind s b1 HF Hb HA Hst2 Hind G1 G2 Hoff.
      assert (HFIN : forall quote f t s b2, FR s0 s -> buffer s = b2 -> InTok st mu b2 -> st + 3 <= pcur b2 ->
         pcur (back c b1) + 2 * quote <= pcur b2 -> quote <= 1 -> t <> END_OF_INPUT /\ (has f STR_FUNC_REGEXP = false /\ has f STR_FUNC_QWORDS = false) ->
         pbeg b2 = pbeg b1 -> lastline b2 = lastline b1 ->
         wp e (b <- getb ;;
            len <- sub_ck (pcur b) (pbeg b + (off + quote)) ;;
            len <- sub_ck len quote ;;
            id <- expect (b_substr_at b (ptok b) (pcur b)) "failed to get heredoc id" ;;
            set_yylval id ;;;
            modify (set_lval_start (Some (ptok b))) ;;;
            modify (set_lval_end (Some (pcur b))) ;;;
            modb goto_eol ;;;
            modify (set_strterm (Some (HeredocLit
              (mkHeredocLiteral (lastline b) (off + quote) (ruby_sourceline b) len quote f)))) ;;;
            token_flush ;;;
            modb (set_heredoc_indent ind) ;;;
            modb (set_heredoc_line_indent 0%Z) ;;;
            ret (Some t)) Q s).
      { clear HF Hb s HA Hst2 Hind. intros quote f t s b2 HF Hb HI Hp3 Hq Hq1 (Ht & Hreg) G3 G4.
        pose proof (it_wf _ _ _ _ _ _ HI) as HW. pose proof (w_pcur1 B _ HW) as X1. pose proof (w_pcur2 B _ HW) as X2.
        pose proof (w_tok B _ HW) as X3. pose proof (w_pbeg B _ HW) as X4. pose proof (w_pend B _ HW) as X5.
        pose proof (w_last B _ HW) as X6. pose proof (pend_le B _ HW) as X7. pose proof (it_gh _ _ _ _ _ _ HI) as HG.
        pose proof (it_mu _ _ _ _ _ _ HI) as HM. pose proof (it_next _ _ _ _ _ _ HI) as HN.
        apply wp_bind. gb. apply wp_bind, wp_sub_ck; [lia|]. apply wp_bind, wp_sub_ck; [lia|].
        assert (Hs : exists l, b_substr_at b2 (ptok b2) (pcur b2) = Some l).
        { unfold b_substr_at, substr_at. pose proof (w_bytes B b2 HW) as Eb. unfold bytes in Eb. rewrite Eb.
          replace ((ptok b2 <=? pcur b2) && (pcur b2 <=? List.length B)) with true by lia. eauto. }
        destruct Hs as (l & Hl). apply wp_bind. eapply wp_expect; [exact Hl|].
        repeat (apply wp_bind; apply wp_modify). apply wp_ret. apply HQ; [exact Ht|].
        set (h := mkHeredocLiteral (lastline b2) (off + quote) (ruby_sourceline b2)
          (pcur b2 - (pbeg b2 + (off + quote)) - quote) quote f).
        assert (HH : hpos h + bonus b2 = pcur b2).
        { unfold hpos, BufInv.bonus, h. cbn [hl_lastline hl_offset hl_length hl_quote]. lia. }
        assert (Hbon : bonus b2 <= 3) by (destruct HG; lia).
        assert (HWg : BWF B (goto_eol b2)) by (apply BWF_goto_eol; auto).
        constructor.
        - apply FR_FRd in HF. exact HF.
        - exists h. split; [reflexivity|]. cbn. rewrite Hb. split.
          + constructor; auto.
            * cbn [hl_quote hl_offset h]. lia.
            * unfold h at 2. cbn [hl_lastline]. lia.
            * intros C1 C2 C3. destruct (Nat.eq_dec (bonus b2) 0) as [E0|E0].
              -- rewrite E0, Nat.add_0_r in HH. rewrite HH in *. apply (w_nosplit B _ HW); auto.
                 unfold BufInv.bonus in E0. cbn [hl_lastline h] in C1. lia.
              -- destruct (it_bytes _ _ _ _ _ _ HI (hpos h)) as (C & _); try lia. congruence.
          + unfold BufInv.Rm, goto_eol, credit. cbn [eofp nextline pend pcur line_count set_pcur set_ptok b_token_flush set_heredoc_indent set_heredoc_line_indent].
            unfold h at 1. cbn [hl_lastline]. rewrite <- X5. rewrite HN. cbn [Nat.eqb].
            destruct HG. destruct (eofp b2); lia.
        - exists (ptok b2), (pcur b2). splits; [reflexivity|reflexivity|lia|lia].
        - cbn. rewrite Hb. destruct HWg. constructor; auto.
        - cbn. rewrite Hb. exact HG. }
      apply wp_bind. eapply heredoc_id_scan_ok; [exact HF|exact Hb|exact HA|reflexivity|exact Hst2|exact Hind| | | |].
      - clear HF Hb. intros s2 b2 HF Hb HI2 HP2. apply wp_ret. eapply HQn; eauto.
      - clear HF Hb. intros s2 b2 HF Hb HD2. apply wp_ret. eapply HQe; eauto.
      - clear HF Hb. intros f t s2 b2 HF Hb HI2 HP2 Ht G3 G4. eapply (HFIN 1); eauto; lia.
      - clear HF Hb. intros f t s2 b2 HF Hb HI2 HP2 Ht G3 G4. rewrite <- (Nat.add_0_r off). eapply (HFIN 0); eauto; lia. }
    assert (HS : forall x (ind : Z), x <> 10%N -> x <> 13%N -> ch = Some x ->
       wp e (c <- nextc ;; ret (c, STR_FUNC_INDENT, pcur b - pbeg b + 1, ind)) (fun (r : MaybeByte * N * nat * Z) s => let '(c, func, off, ind) := r in
         exists b1, FR s0 s /\ buffer s = b1 /\ IA st mu c b1 /\ pcur (back c b1) = st + 3 /\
         pbeg b1 = pbeg b /\ lastline b1 = lastline b /\ off = pcur b - pbeg b + 1 /\ func = STR_FUNC_INDENT) s1).
    { intros x ind Hx1 Hx2 ->. assert (HI1 : InTok st mu b1) by (apply (ia_it _ _ _ _ _ _ _ HA); congruence).
      destruct (ia_some _ _ _ _ _ _ _ HA x eq_refl) as (_ & _ & _ & Z & _). specialize (Z Hx1).
      clear HI Hst. assert (Hst : st < pcur b1) by lia. clear HA. apply wp_bind. nxi c2 HA2. apply wp_ret. exists b2.
      splits; [exact HF|exact Hb|exact HA2|lia|congruence|congruence|reflexivity|reflexivity]. }
    apply wp_bind. destruct (mbeq ch "-") eqn:E1; [|destruct (mbeq ch "~") eqn:E2].
    - apply (mbeq_some B n0 b0 e Hfuel) in E1.
      eapply wp_conseq; [eapply HS; [| |exact E1]; discriminate|]. cbv beta.
      intros (((c2 & func) & off) & ind) s2 (b2 & HF2 & Hb2 & HA2 & P1 & P2 & P3 & P4 & P5).
      eapply HK; [exact HF2|exact Hb2|exact HA2|lia|right; split; [exact P5|lia]|auto|auto|lia].
    - apply (mbeq_some B n0 b0 e Hfuel) in E2.
      eapply wp_conseq; [eapply HS; [| |exact E2]; discriminate|]. cbv beta.
      intros (((c2 & func) & off) & ind) s2 (b2 & HF2 & Hb2 & HA2 & P1 & P2 & P3 & P4 & P5).
      eapply HK; [exact HF2|exact Hb2|exact HA2|lia|right; split; [exact P5|lia]|auto|auto|lia].
    - apply wp_ret. eapply HK; [exact HF|exact Hb|exact HA|lia|left; reflexivity|exact H1|exact H3|lia].
  Qed.

  (** *** Going back to the line of the heredoc *)
  Record Restored (h : HeredocLiteral) (b b' : Buffer) : Prop := mkRestored {
    rs_wf : BWF B b';
    rs_gh : gh b';
    rs_Rm : Rm b' <= Rm b + credit h;
    rs_bonus : bonus b' = 0;
    rs_pcur : pcur b' = hpos h;
    rs_next : nextline b' = 0;
    rs_count : line_count b' = line_count b
  }.

  Lemma heredoc_restore_ok : forall h s0 s b (Q : unit -> Lexer -> Prop),
    FR s0 s -> buffer s = b -> BWF B b -> gh b -> nextline b = 0 -> HV (line_count b) h ->
    (forall s', FR (set_strterm None s0) s' -> Restored h b (buffer s') -> Q tt s') ->
    wp e (heredoc_restore h) Q s.
  Proof using All.
    intros h s0 s b Q HF Hb HW HG Hn [H1 H2 H3 H4 H5] HQ. unfold heredoc_restore.
    apply wp_bind, wp_modify. set (s1 := set_strterm None s).
    assert (HF1 : FR (set_strterm None s0) s1) by (destruct HF as (HF & _); split; [exact HF|reflexivity]).
    assert (Hb1 : buffer s1 = b) by exact Hb. clearbody s1. clear HF Hb s. rename Hb1 into Hb, HF1 into HF, s1 into s.
    pose proof (w_count B b HW) as HC.
    destruct (line_some B (hl_lastline h)) as (l & L1 & L2 & L3); [lia|].
    destruct (line_bounds B (hl_lastline h)) as (L4 & L5); [lia|].
    apply wp_bind. mstep. apply wp_bind. gb. apply wp_bind. eapply wp_expect.
    { unfold line_at. cbn [input set_lastline]. rewrite (w_lines B b HW). exact L1. }
    do 3 (apply wp_bind; mstep). apply wp_bind. gb. apply wp_bind, wp_sub_ck; [cbn; lia|].
    do 4 (apply wp_bind; mstep). mstep. apply HQ; [exact HF|]. rewrite Hb.
    assert (HP : l_start l + hl_offset h + hl_length h + hl_quote h = hpos h) by (unfold hpos; lia).
    assert (HLL : l_start l + line_len l = lend (hl_lastline h)) by (unfold line_len; lia).
    assert (HE : eofp b = true \/ eofp b = false) by (destruct (eofp b); auto).
    assert (HLC : forall (x : bool) y, line_count (if x then set_nextline 0 y else y) = line_count y) by (intros [|]; reflexivity).
    unfold hpos in *.
    constructor.
    - pose proof (w_prev B b HW) as HP1. pose proof (w_bytes B b HW) as HB1. pose proof (w_lines B b HW) as HL1.
      destruct HE as [HE|HE]; constructor; cbn; rewrite HE; cbn; rewrite ?HP, ?HLL; auto; try lia; try congruence;
        rewrite ?L2; auto.
    - destruct HG as (G1 & _). unfold LexInv.gh, BufInv.bonus. destruct HE as [HE|HE]; cbn; rewrite HE; cbn; lia.
    - unfold BufInv.Rm, credit, hpos. destruct HE as [HE|HE]; cbn; rewrite HE; cbn; rewrite ?Hn; cbn; lia.
    - unfold BufInv.bonus. destruct HE as [HE|HE]; cbn; rewrite HE; cbn; lia.
    - unfold hpos. destruct HE as [HE|HE]; cbn; rewrite HE; cbn; lia.
    - destruct HE as [HE|HE]; cbn; rewrite HE; cbn; auto.
    - destruct HE as [HE|HE]; cbn; rewrite HE; cbn; auto.
  Qed.
End Here.
