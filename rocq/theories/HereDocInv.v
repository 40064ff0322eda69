(** * Invariant of heredoc bodies *)
Require Import Verif.Base Verif.MaybeByteM Verif.Utf8M Verif.InputM Verif.DiagnosticM Verif.LexStateM
  Verif.StackStateM Verif.ScopesM Verif.TokensM Verif.ReservedM Verif.BufferM Verif.LexerM Verif.LexNumericM Verif.LexStringM
  Verif.LexIdentM Verif.LexHeredocM
  Verif.SourceSpec Verif.SourceProofs Verif.Wp Verif.BufInv Verif.LexInv Verif.NumInv Verif.StrInv Verif.TokInv Verif.IdentInv
  Verif.HereInv.
Require Import ZifyBool ZifyNat ZifyN.

(** An unterminated heredoc has been reported *)
Definition unterm (s : Lexer) : Prop :=
  exists d id, In d (diagnostics s) /\ dg_message d = UnterminatedHeredoc id.

Lemma count_spaces_le : forall l, count_spaces l <= List.length l.
Proof using. induction l as [|c l IH]; cbn; [lia|]. destruct (N.eqb c 32); cbn; lia. Qed.
Lemma count_to_newline_le : forall l, count_to_newline l <= List.length l.
Proof using. induction l as [|c l IH]; cbn; [lia|]. destruct (N.eqb c 10); cbn; lia. Qed.

Section HereDoc.
  Variables (B : list N) (n0 b0 : nat) (e : Env).
  Hypothesis Hfuel : 4 * List.length B + 20 < fuel e.
  Hypothesis Hb0 : b0 <= 3.

  Notation FR := (FR B).
  Notation FRd := (FRd B).
  Notation Rd := (Rd B n0 b0).
  Notation AR := (AR B n0 b0).
  Notation Rm := (Rm B).
  Notation gh := (gh B n0 b0).
  Notation NextPost := (NextPost B).
  Notation lstart := (lstart B).
  Notation lend := (lend B).
  Notation bonus := (bonus B).
  Notation hpos := (hpos B).
  Notation HV := (HV B).
  Notation credit := (credit B).
  Notation Restored := (Restored B n0 b0).
  Notation upd := StrInv.upd.

  Lemma restored_flush : forall h b b', Restored h b b' -> Restored h b (set_ptok (pcur b') b').
  Proof using.
    intros h b b' []. constructor; auto. apply BWF_set_ptok; auto.
  Qed.

  (** The text of the terminator is inside the input *)
  Lemma here_id : forall h b n, BWF B b -> HV n h -> n <= NL B ->
    exists l, b_substr_at b (lstart (hl_lastline h) + hl_offset h) (lstart (hl_lastline h) + hl_offset h + hl_length h) = Some l.
  Proof using All.
    intros h b n HW HV Hn. destruct HV as [V1 V2 V3 V4 V5]. unfold HereInv.hpos in V4.
    destruct (line_bounds B (hl_lastline h)) as (L4 & L5); [lia|].
    unfold b_substr_at, substr_at. pose proof (w_bytes B b HW) as Eb. unfold bytes in Eb. rewrite Eb.
    match goal with |- context [if ?x then _ else _] => replace x with true by lia end. eauto.
  Qed.

  Lemma here_document_error_ok : forall h s0 s b (Q : Tok -> Lexer -> Prop),
    FR s0 s -> buffer s = b -> BWF B b -> gh b -> nextline b = 0 -> HV (line_count b) h ->
    (forall s', FRd s0 s' -> lval_start s' = lval_start s0 -> strterm s' = None -> unterm s' ->
       Restored h b (buffer s') -> Q tSTRING_END s') ->
    wp e (here_document_error h (lstart (hl_lastline h) + hl_offset h) (hl_length h)) Q s.
  Proof using All.
    intros h s0 s b Q HF Hb HW HG Hn HH HQ. unfold here_document_error.
    pose proof (w_count B b HW) as HC.
    apply wp_bind. eapply (heredoc_restore_ok B n0 b0 e Hfuel Hb0); [exact HF|exact Hb|exact HW|exact HG|exact Hn|exact HH|].
    clear HF Hb s. intros s HF HR. remember (buffer s) as b1 eqn:Hb. symmetry in Hb.
    apply wp_bind. gb. destruct (here_id h b1 _ (rs_wf _ _ _ _ _ _ HR) HH HC) as (l & Hl).
    apply wp_bind. eapply wp_expect; [exact Hl|].
    apply wp_bind. unfold compile_error0. apply wp_bind, wp_gets. apply wp_modify.
    set (d := mkDiag Error (UnterminatedHeredoc l) (current_loc s)).
    set (s1 := set_diagnostics (diagnostics s ++ [d]) s).
    assert (HF1 : FR (set_strterm None s0) s1).
    { destruct HF as ((A1 & A2 & A3 & A4 & ds & A5 & A6) & A7). unfold LexInv.FR, FRn. splits; auto.
      exists (ds ++ [d]). split; [cbn; rewrite A5, app_assoc; reflexivity|]. apply Forall_app. split; auto. constructor; auto.
      unfold diag_ok, d, current_loc. rewrite Hb. cbn. pose proof (rs_wf _ _ _ _ _ _ HR) as HW1.
      pose proof (w_tok B b1 HW1). pose proof (w_pcur2 B b1 HW1). pose proof (pend_le B b1 HW1). lia. }
    assert (Hb1 : buffer s1 = b1) by exact Hb.
    assert (HU : unterm s1) by (exists d, l; split; [cbn; apply in_or_app; right; left|]; reflexivity).
    clearbody s1. clear HF Hb d s.
    apply wp_bind, wp_modify. apply wp_bind, wp_modify. apply wp_bind, wp_modify. apply wp_ret. apply HQ.
    - destruct HF1 as ((A1 & A2 & A3 & A4 & A5) & A7). unfold TokInv.FRd. splits; auto.
    - apply HF1.
    - reflexivity.
    - exact HU.
    - cbn. rewrite Hb1. apply restored_flush. exact HR.
  Qed.

  Lemma compute_heredoc_end_ok : forall s0 s b (Q : HeredocEnd -> Lexer -> Prop),
    FR s0 s -> buffer s = b -> BWF B b ->
    (forall he s', FR s0 s' -> buffer s' = b -> he_start he <= he_end he -> he_end he <= List.length B -> Q he s') ->
    wp e compute_heredoc_end Q s.
  Proof using All.
    intros s0 s b Q HF Hb HW HQ. unfold compute_heredoc_end. apply wp_bind. gb. cbv zeta.
    pose proof (w_bytes B b HW) as Eb. pose proof (w_pcur1 B b HW) as X1. pose proof (w_pcur2 B b HW) as X2.
    pose proof (pend_le B b HW) as X3.
    set (i := count_spaces (skipn (pbeg b) (bytes b))).
    assert (H1 : pbeg b + i <= List.length B).
    { pose proof (count_spaces_le (skipn (pbeg b) (bytes b))) as H. rewrite skipn_length in H. fold i in H. rewrite Eb in H. lia. }
    set (j := count_to_newline (skipn (pbeg b + i) (bytes b))).
    assert (H2 : pbeg b + i + j <= List.length B).
    { pose proof (count_to_newline_le (skipn (pbeg b + i) (bytes b))) as H. rewrite skipn_length in H. fold j in H. rewrite Eb in H. lia. }
    clearbody i j.
    assert (Hs : exists l, b_substr_at b (pbeg b + i) (pbeg b + i + j) = Some l).
    { unfold b_substr_at, substr_at. unfold bytes in Eb. rewrite Eb.
      match goal with |- context [if ?x then _ else _] => replace x with true by lia end. eauto. }
    destruct Hs as (l & Hl). apply wp_bind. eapply wp_expect; [exact Hl|]. apply wp_ret. apply HQ; auto; cbn; lia.
  Qed.

  Lemma here_document_restore_ok : forall h s0 s b (Q : Tok -> Lexer -> Prop),
    FR s0 s -> buffer s = b -> BWF B b -> gh b -> nextline b = 0 -> HV (line_count b) h ->
    (forall s' p q, FRd s0 s' -> lval_start s' = Some p -> lval_end s' = Some q -> p <= q -> q <= List.length B ->
       strterm s' = None -> Restored h b (buffer s') -> Q tSTRING_END s') ->
    wp e (here_document_restore h) Q s.
  Proof using All.
    intros h s0 s b Q HF Hb HW HG Hn HH HQ. unfold here_document_restore.
    apply wp_bind. eapply compute_heredoc_end_ok; [exact HF|exact Hb|exact HW|]. clear HF Hb s.
    intros he s HF Hb P1 P2. do 3 (apply wp_bind, wp_modify). apply wp_bind.
    set (s1 := set_lval_end _ _).
    match goal with |- wp _ _ _ ?x => set (s2 := x) end.
    assert (HF2 : FR s2 s2) by apply FR_refl. assert (Hb2 : buffer s2 = b) by exact Hb.
    assert (HD2 : FRd s0 s2) by exact (FR_FRd _ _ _ HF).
    assert (HL1 : lval_start s2 = Some (he_start he)) by reflexivity.
    assert (HL2 : lval_end s2 = Some (he_end he)) by reflexivity. clearbody s2. clear s1.
    eapply (heredoc_restore_ok B n0 b0 e Hfuel Hb0); [exact HF2|exact Hb2|exact HW|exact HG|exact Hn|exact HH|].
    clear HF2 HF Hb s. intros s HF HR. do 3 (apply wp_bind, wp_modify). apply wp_ret.
    destruct HF as ((A1 & A2 & A3) & A4).
    eapply HQ; [|rewrite <- HL1; exact A1|rewrite <- HL2; exact A2|exact P1|exact P2|reflexivity|].
    - eapply FRd_trans; [exact HD2|exact A3].
    - apply restored_flush. exact HR.
  Qed.

  Lemma here_document_finish_ok : forall h str he s0 s b (Q : Tok -> Lexer -> Prop),
    FR s0 s -> buffer s = b -> BWF B b -> gh b -> nextline b = 0 -> HV (line_count b) h ->
    (forall s', FRd s0 s' -> lval_start s' = lval_start s0 -> lval_end s' = lval_end s0 ->
       strterm s' = new_strterm (N.lor (hl_func h) STR_FUNC_TERM) 0 (Some 0%N) (Some he) -> Restored h b (buffer s') ->
       Q tSTRING_CONTENT s') ->
    wp e (here_document_finish h str he) Q s.
  Proof using All.
    intros h str he s0 s b Q HF Hb HW HG Hn HH HQ. unfold here_document_finish.
    apply wp_bind. eapply (heredoc_restore_ok B n0 b0 e Hfuel Hb0); [exact HF|exact Hb|exact HW|exact HG|exact Hn|exact HH|].
    clear HF Hb s. intros s HF HR. do 3 (apply wp_bind, wp_modify). apply wp_ret.
    destruct HF as ((A1 & A2 & A3) & A4).
    eapply HQ; [exact A3|exact A1|exact A2|reflexivity|].
    apply restored_flush. exact HR.
  Qed.

  Lemma at_terminator_neut : forall h b, BWF B b -> HV (line_count b) h ->
    Neut B e b (at_terminator h (lstart (hl_lastline h) + hl_offset h)).
  Proof using All.
    intros h b HW HH s0 s Q HF Hb HQ. unfold at_terminator. apply wp_bind. gb.
    destruct (here_id h b _ HW HH (w_count B b HW)) as (l & Hl).
    apply wp_bind. eapply wp_expect; [exact Hl|]. apply wp_ret. apply HQ; auto.
  Qed.

  Lemma at_end_Rm : forall b, BWF B b -> pcur b = List.length B -> Rm b = 0.
  Proof using All.
    intros b HW Hp. pose proof (w_pcur2 B b HW) as H2. pose proof (pend_le B b HW) as H3. pose proof (w_pend B b HW) as H4.
    pose proof (w_last B b HW) as H5. pose proof (w_count B b HW) as H6. pose proof (w_next B b HW) as H7.
    pose proof (lstart_mono B _ H6 _ H5) as H8. unfold BufInv.Rm. destruct (eofp b); [lia|].
    destruct (nextline b =? 0) eqn:En; [lia|]. apply Nat.eqb_neq in En. destruct (H7 En) as (N1 & N2 & N3).
    pose proof (lstart_mono B (nextline b) ltac:(lia) _ N1) as N4. pose proof (line_bounds B (nextline b) ltac:(lia)). lia.
  Qed.

  Lemma upd_upd : forall x y x' y' b, upd x y (upd x' y' b) = upd x y b.
  Proof using. intros x y x' y' []. reflexivity. Qed.

  Lemma update_indent_upd : forall n ptr b, exists x y, update_indent_range n ptr b = upd x y b.
  Proof using.
    induction n as [|n IH]; intros ptr b; cbn [update_indent_range].
    - exists (heredoc_line_indent b), (heredoc_indent b). rewrite upd_same. reflexivity.
    - destruct (update_upd (byte_at b ptr) b) as (x & y & ->). destruct (IH (ptr + 1) (upd x y b)) as (x' & y' & ->).
      exists x', y'. apply upd_upd.
  Qed.

  Lemma gh_hv : forall h, HV n0 h -> forall b, gh b -> HV (line_count b) h.
  Proof using. intros h HH b' (H & _). eapply HV_mono; eauto. Qed.

  Section Doc.
    Variables (h : HeredocLiteral) (s : Lexer) (b : Buffer) (s0 : Lexer).
    (** [s0] is the state after the assignment to [lval_start] *)
    Hypothesis Hs0 : FRd s s0 /\ lval_start s0 = Some (pcur b) /\ lval_end s0 = None /\
      strterm s0 = Some (HeredocLit h).
    Hypothesis HWb : BWF B b.
    Hypothesis HH : HV n0 h.

    Record HereTok (t : Tok) (s' : Lexer) : Prop := mkHereTok {
      ht_frame : FRd s s';
      ht_wf : BWF B (buffer s');
      ht_gh : gh (buffer s');
      ht_tok : t <> END_OF_INPUT;
      ht_state : (strterm s' = Some (HeredocLit h) /\ Rm (buffer s') < Rm b) \/
        ((strterm s' = None \/ exists f he, strterm s' = new_strterm (N.lor f STR_FUNC_TERM) 0 (Some 0%N) (Some he) /\
            he_start he <= he_end he /\ he_end he <= List.length B) /\
         Rm (buffer s') <= Rm b + credit h /\ bonus (buffer s') = 0);
      ht_lval : exists p, lval_start s' = Some p /\ p <= List.length B /\
        ((exists q, (lval_end s' = Some q \/ lval_end s' = None /\ q = pcur (buffer s')) /\
                    p <= q /\ q <= List.length B) \/
         unterm s' \/ (strterm s' = Some (HeredocLit h) /\ Rm (buffer s') = 0))
    }.

    Lemma pcur_len : forall b', BWF B b' -> pcur b' <= List.length B.
    Proof using All. intros b' H. pose proof (w_pcur2 B b' H). pose proof (pend_le B b' H). lia. Qed.

    (** Building the postcondition *)
    Lemma tok_cont : forall v t s1, FR (set_lval_end v s0) s1 -> t <> END_OF_INPUT ->
      Rd (pcur b) (Rm b) (buffer s1) -> Rm (buffer s1) < Rm b ->
      match v with None => True | Some q => pcur b <= q /\ (q <= List.length B \/ Rm (buffer s1) = 0) end ->
      HereTok t s1.
    Proof using All.
      intros v t s1 HF Ht HR HM Hv. destruct Hs0 as (A1 & A2 & A3 & A4).
      destruct HF as ((F1 & F2 & F3) & F4). cbn in F1, F2, F4.
      constructor; auto.
      - eapply FRd_trans; [exact A1|exact F3].
      - eapply rd_wf; eauto.
      - eapply rd_gh; eauto.
      - left. split; [congruence|auto].
      - exists (pcur b). rewrite F1, F2, F4. splits; [auto|apply pcur_len; auto|].
        destruct v as [q|].
        + destruct Hv as (V1 & [V2|V2]); [left; exists q; auto|]. right; right. auto.
        + left. exists (pcur (buffer s1)). splits; auto; [eapply rd_lo; eauto|apply pcur_len; eapply rd_wf; eauto].
    Qed.

    Lemma tok_error : forall v s1 b1, FRd (set_lval_end v s0) s1 -> lval_start s1 = lval_start s0 ->
      strterm s1 = None -> unterm s1 -> Rm b1 <= Rm b -> Restored h b1 (buffer s1) -> HereTok tSTRING_END s1.
    Proof using All.
      intros v s1 b1 HF H1 H2 H3 H4 []. destruct Hs0 as (A1 & A2 & A3 & A4).
      constructor; auto.
      - eapply FRd_trans; [exact A1|exact HF].
      - discriminate.
      - right. splits; auto. lia.
      - exists (pcur b). rewrite H1. splits; [auto|apply pcur_len; auto|auto].
    Qed.

    Lemma tok_finish : forall q f he t s1 b1, FRd (set_lval_end (Some q) s0) s1 -> lval_start s1 = lval_start s0 ->
      lval_end s1 = Some q -> t <> END_OF_INPUT ->
      strterm s1 = new_strterm (N.lor f STR_FUNC_TERM) 0 (Some 0%N) (Some he) ->
      he_start he <= he_end he -> he_end he <= List.length B ->
      pcur b <= q -> q <= List.length B -> Rm b1 <= Rm b -> Restored h b1 (buffer s1) -> HereTok t s1.
    Proof using All.
      intros q f he t s1 b1 HF H1 H2 H3 H4 H5 H6 H7 H8 H9 []. destruct Hs0 as (A1 & A2 & A3 & A4).
      constructor; auto.
      - eapply FRd_trans; [exact A1|exact HF].
      - right. splits; auto; [|lia]. right. exists f, he. auto.
      - exists (pcur b). rewrite H1. splits; [auto|apply pcur_len; auto|]. left. exists q. auto.
    Qed.

    Lemma here_document_raw_ok : forall s1 (Q : Tok -> Lexer -> Prop),
      FR s0 s1 -> Rd (pcur b) (Rm b) (buffer s1) -> Rm (buffer s1) < Rm b -> nextline (buffer s1) = 0 ->
      (forall t s', HereTok t s' -> Q t s') ->
      wp e (here_document_raw h (lstart (hl_lastline h) + hl_offset h)) Q s1.
    Proof using All.
      intros s1 Q HF HR HM Hn HQ. unfold here_document_raw.
      apply wp_loop with (I := fun _ s1 => FR s0 s1 /\ Rd (pcur b) (Rm b) (buffer s1) /\ Rm (buffer s1) < Rm b /\
        nextline (buffer s1) = 0) (meas := fun _ s1 => Rm (buffer s1)).
      { splits; auto. }
      { pose proof (Rm_le B _ (rd_wf _ _ _ _ _ _ HR)). lia. }
      clear HF HR HM Hn s1. intros str s1 (HF & HR & HM & Hn). remember (buffer s1) as b1 eqn:Hb. symmetry in Hb.
      pose proof (rd_wf _ _ _ _ _ _ HR) as HW1. cbv beta. apply wp_bind. gb.
      pose proof (w_last B b1 HW1) as H5. pose proof (w_count B b1 HW1) as H6. pose proof (pend_le B b1 HW1) as H7.
      pose proof (w_pend B b1 HW1) as H8.
      destruct (line_some B (lastline b1)) as (l & L1 & L2 & L3); [lia|].
      destruct (line_bounds B (lastline b1)) as (L4 & L5); [lia|].
      apply wp_bind. eapply wp_expect. { unfold line_at. rewrite (w_lines B b1 HW1). exact L1. }
      cbv zeta. rewrite L2. apply wp_bind.
      assert (HRL : forall Q : nat -> Lexer -> Prop,
        (forall p, lstart (lastline b1) <= p -> p <= pend b1 -> Q p s1) -> wp e (raw_line_end b1 (lstart (lastline b1))) Q s1).
      { intros Q' HQ'. unfold raw_line_end. cbv zeta.
        destruct (lstart (lastline b1) <? pend b1) eqn:E1; [|apply wp_ret, HQ'; lia].
        assert (HBy : forall i, i < List.length B -> exists x, byte_at b1 i = Some x).
        { intros i Hi. rewrite (byte_at_B B b1 i HW1). destruct (nth_error B i) eqn:En; [eauto|]. apply nth_error_None in En. lia. }
        destruct (HBy (pend b1 - 1)) as (x & Hx); [lia|].
        apply wp_bind. eapply wp_expect; [exact Hx|].
        destruct (N.eqb x 10).
        - destruct (pend b1 - 1 =? lstart (lastline b1)) eqn:E2; [apply wp_ret, HQ'; lia|].
          destruct (HBy (pend b1 - 1 - 1)) as (y & Hy); [lia|]. apply wp_bind. eapply wp_expect; [exact Hy|].
          apply wp_ret, HQ'; destruct (N.eqb y 13); lia.
        - destruct (N.eqb x 13); apply wp_ret, HQ'; lia. }
      apply HRL. clear HRL. intros p P1 P2. apply wp_bind.
      assert (HU : forall Q : unit -> Lexer -> Prop, (forall s2 x y, FR s0 s2 -> buffer s2 = upd x y b1 -> Q tt s2) ->
         wp e (when (Z.ltb 0 (heredoc_indent b1))
           (modb (fun b => set_heredoc_line_indent 0%Z (update_indent_range (p - lstart (lastline b1)) (lstart (lastline b1)) b)))) Q s1).
      { intros Q' HQ'. destruct (Z.ltb 0 (heredoc_indent b1)); cbn [when].
        - eapply wp_modb; [exact HF|exact Hb|]. intros s2 HF2 Hb2.
          destruct (update_indent_upd (p - lstart (lastline b1)) (lstart (lastline b1)) b1) as (x & y & E).
          rewrite E in Hb2. eapply (HQ' s2 0%Z y); [exact HF2|]. rewrite Hb2. destruct b1; reflexivity.
        - apply wp_ret. eapply HQ'; [exact HF|]. rewrite upd_same. exact Hb. }
      apply HU. clear HU HF Hb s1. intros s1 x y HF Hb.
      assert (Hs : exists l, b_substr_at b1 (lstart (lastline b1)) p = Some l).
      { unfold b_substr_at, substr_at. pose proof (w_bytes B b1 HW1) as Eb. unfold bytes in Eb. rewrite Eb.
        match goal with |- context [if ?x then _ else _] => replace x with true by lia end. eauto. }
      destruct Hs as (l' & Hl). apply wp_bind. eapply wp_expect; [exact Hl|].
      apply wp_bind. mstep.
      pose proof (upd_rd B n0 b0 x y _ _ _ HR) as HR2.
      assert (HR3 : Rd (pcur b) (Rm b) (goto_eol (upd x y b1))).
      { destruct HR2. constructor; auto.
        - apply BWF_goto_eol; auto.
        - pose proof (w_pcur2 B _ rd_wf). cbn in *. lia.
        - revert rd_mu. unfold BufInv.Rm. cbn. destruct (eofp b1); [lia|]. destruct (nextline b1 =? 0); lia. }
      assert (HM3 : Rm (goto_eol (upd x y b1)) <= Rm b1).
      { unfold BufInv.Rm. cbn. destruct (eofp b1); [lia|]. destruct (nextline b1 =? 0); lia. }
      remember (goto_eol (upd x y b1)) as b3 eqn:Eb3. clear Eb3 HR2. 
      apply wp_bind. gb. destruct (Z.ltb 0 (heredoc_indent b3)).
      { apply wp_bind. unfold heredoc_flush_str. apply wp_bind. nstep. apply wp_ret. apply wp_ret. apply HQ.
        eapply (tok_cont None); auto; try discriminate; rewrite ?Hb; auto; try lia.
        destruct HF as ((F1 & F2 & F3) & F4). split; [split; [exact F1|split; [|exact F3]]|exact F4].
        rewrite F2. destruct Hs0 as (_ & _ & -> & _). reflexivity. }
      apply wp_bind. eapply wp_nextc_rd; [exact HF|exact Hb|exact (mkRd B n0 b0 (pcur b) (Rm b3) b3 (rd_wf _ _ _ _ _ _ HR3) (rd_lo _ _ _ _ _ _ HR3) (le_n _) (rd_gh _ _ _ _ _ _ HR3))|].
      clear HF Hb. intros c b4 s4 HF Hb HA HN.
      pose proof (ar_wf _ _ _ _ _ _ _ HA) as HW4. pose proof (ar_gh _ _ _ _ _ _ _ HA) as HG4.
      pose proof (ar_next _ _ _ _ _ _ _ HA) as Hn4. pose proof (ar_mu _ _ _ _ _ _ _ HA) as HM4.
      destruct c as [ch|]; cbn [is_eof].
      2: { apply wp_bind. eapply here_document_error_ok; [exact HF|exact Hb|exact HW4|exact HG4|exact Hn4|apply gh_hv; auto|].
        intros s9 E1 E2 E3 E4 E5. apply wp_ret. apply HQ. eapply (tok_error None); [exact E1|exact E2|exact E3|exact E4| |exact E5]; lia. }
      destruct (ar_some _ _ _ _ _ _ _ HA ch eq_refl) as (S1 & S2 & S3 & S4 & S5 & S6).
      apply wp_bind. eapply neut_use; [apply at_terminator_neut; [exact HW4|apply gh_hv; auto]|exact HF|exact Hb|].
      clear HF Hb s4. intros m s4 HF Hb. destruct m.
      - apply wp_bind. gb. pose proof (w_pcur2 B b4 HW4) as H9.
        apply wp_bind, wp_sub_ck; [lia|]. apply wp_bind, wp_modify. apply wp_bind.
        pose proof (pend_le B b4 HW4) as H10.
        eapply (compute_heredoc_end_ok (set_lval_end (Some (pend b4 - 1)) s0)); [|exact Hb|exact HW4|].
        { destruct HF as ((F1 & F2 & F3) & F4). split; [split; [exact F1|split; [reflexivity|exact F3]]|exact F4]. }
        intros he s9 HF2 Hb2 E1 E2. apply wp_bind.
        eapply here_document_finish_ok; [exact HF2|exact Hb2|exact HW4|exact HG4|exact Hn4|apply gh_hv; auto|].
        intros s3 E3 E4 E5 E6 E7. apply wp_ret. apply HQ.
        eapply (tok_finish (pend b4 - 1)); [exact E3|exact E4|exact E5|discriminate|exact E6|exact E1|exact E2| | | |exact E7]; lia.
      - apply wp_ret. rewrite Hb. splits; auto; try lia. destruct HA. constructor; auto. lia.
    Qed.

    Lemma FR_set_end : forall v w s1, FR (set_lval_end v s0) s1 -> FR (set_lval_end w s0) (set_lval_end w s1).
    Proof using All.
      intros v w s1 ((F1 & F2 & F3) & F4). split; [split; [exact F1|split; [reflexivity|exact F3]]|exact F4].
    Qed.

    Lemma here_document_expand_ok : forall c s1 b1 (Q : Tok -> Lexer -> Prop),
      FR s0 s1 -> buffer s1 = b1 -> AR (pcur b) (Rm b) c b1 ->
      Rm (back c b1) < Rm b \/
        (exists b2 x y, NextPost b c b2 /\ b1 = upd x y b2 /\ c <> None /\ c <> Some "#"%bn) ->
      (forall t s', HereTok t s' -> Q t s') ->
      wp e (here_document_expand h (lstart (hl_lastline h) + hl_offset h) c) Q s1.
    Proof using All.
      intros c s1 b1 Q HF Hb HA HP HQ. unfold here_document_expand. cbv zeta.
      pose proof (hv_func _ _ _ HH) as (HRE & HQW).
      apply wp_loop with (I := fun c s1 => (exists v, FR (set_lval_end v s0) s1) /\ AR (pcur b) (Rm b) c (buffer s1) /\
         (Rm (back c (buffer s1)) < Rm b \/
          (exists b2 x y, NextPost b c b2 /\ buffer s1 = upd x y b2 /\ c <> None /\ c <> Some "#"%bn)))
        (meas := fun c s1 => Rm (back c (buffer s1))).
      { rewrite Hb. splits; auto. exists None. destruct HF as ((F1 & F2 & F3) & F4).
        split; [split; [exact F1|split; [|exact F3]]|exact F4]. rewrite F2. destruct Hs0 as (_ & _ & -> & _). reflexivity. }
      { rewrite Hb. pose proof (Rm_le B _ (rd_wf _ _ _ _ _ _ (ar_back _ _ _ _ _ _ _ HA))). lia. }
      clear HF Hb HA HP s1 b1 c. intros c s1 ((v & HF) & HA & HP). remember (buffer s1) as b1 eqn:Hb. symmetry in Hb.
      cbv beta. apply wp_bind.
      eapply wp_pushback; [exact HF|exact Hb|intros; eapply ar_pos; eauto|]. clear HF Hb s1. intros s1 HF Hb.
      pose proof (ar_back _ _ _ _ _ _ _ HA) as HRb.
      assert (HRb' : Rd (pcur b) (Rm (back c b1)) (back c b1)) by (destruct HRb; constructor; auto).
      apply wp_bind. eapply tokadd_string_ok; [exact Hfuel|exact HF|exact Hb|exact HRb'|].
      clear HF Hb s1. intros r n s1 b3 HF Hb HR3 HM3 HST (HPU & HEO).
      pose proof (rd_wf _ _ _ _ _ _ HR3) as HW3. pose proof (rd_gh _ _ _ _ _ _ HR3) as HG3.
      assert (HR3' : Rd (pcur b) (Rm b) b3) by (eapply rd_weaken; [exact HR3|lia|apply (rd_mu _ _ _ _ _ _ HRb)]).
      pose proof (rd_mu _ _ _ _ _ _ HRb) as HMb.
      destruct r as [c3|].
      2: { specialize (HEO eq_refl HRE). apply wp_bind. gb. rewrite HEO. apply wp_bind.
        eapply here_document_error_ok; [exact HF|exact Hb|exact HW3|exact HG3|apply (w_eof B); auto|apply gh_hv; auto|].
        intros s9 E1 E2 E3 E4 E5. apply wp_ret. apply HQ. eapply (tok_error v); [exact E1|exact E2|exact E3|exact E4| |exact E5]; lia. }
      apply wp_bind, wp_modify. rewrite Hb.
      apply (FR_set_end v (Some (pcur b3 + 1))) in HF.
      assert (Hb' : buffer (set_lval_end (Some (pcur b3 + 1)) s1) = b3) by exact Hb.
      clear Hb. rename Hb' into Hb. remember (set_lval_end (Some (pcur b3 + 1)) s1) as s2 eqn:Es2. clear Es2.
      destruct (mbeq c3 10%N) eqn:E10; cbn [negb].
      2: { assert (HPR : Rm b3 < Rm b).
        { destruct HST as [HST|HST]; [lia|]. destruct HP as [HP|(b2 & x & y & P1 & P2 & P3 & P4)]; [lia|].
          exfalso. destruct HST as (c1 & b4 & x1 & y1 & T1 & T2 & T3 & T4). destruct c as [ch|]; [|congruence].
          rewrite P2, upd_back in T1. destruct (reread_upd B n0 b0 e Hfuel _ _ _ _ _ _ _ P1 T1) as (-> & _).
          injection T2 as ->. destruct T4 as [T4|[(T4 & _)|[(_ & T4)|(T4 & _)]]]; try congruence.
          injection T4 as ->. discriminate E10. }
        apply wp_bind.
        assert (HTL : forall s3 b4, FR (set_lval_end (Some (pcur b3 + 1)) s0) s3 -> buffer s3 = b4 -> Rm b4 = Rm b3 ->
          Rd (pcur b) (Rm b) b4 -> pcur b4 = pcur b3 -> wp e (t <- heredoc_flush ;; ret (inr t)) (fun r s' => match r with
            | inl x => (((exists v, FR (set_lval_end v s0) s') /\ AR (pcur b) (Rm b) x (buffer s') /\
              (Rm (back x (buffer s')) < Rm b \/
               (exists b2 x0 y, NextPost b x b2 /\ buffer s' = upd x0 y b2 /\ x <> None /\ x <> Some "#"%bn))) /\
              Rm (back x (buffer s')) < Rm (back c b1))
            | inr r => Q r s' end) s3).
        { intros s3 b4 HF3 Hb3 M4 R4 C4. apply wp_bind. unfold heredoc_flush. apply wp_bind.
          eapply (neut_use B e _ _ b4); [neut|exact HF3|exact Hb3|]. intros a s4 HF4 Hb4.
          unfold heredoc_flush_str. apply wp_bind. eapply (neut_use B e _ _ b4); [neut|exact HF4|exact Hb4|].
          intros [] s5 HF5 Hb5. apply wp_ret. apply wp_ret. apply HQ.
          eapply (tok_cont (Some (pcur b3 + 1))); [exact HF5|discriminate|rewrite Hb5; auto|rewrite Hb5; lia|].
          rewrite Hb5. pose proof (rd_lo _ _ _ _ _ _ HR3'). split; [lia|].
          pose proof (pcur_len b3 HW3). destruct (Nat.eq_dec (pcur b3) (List.length B)) as [Ec|Ec]; [|left; lia].
          right. rewrite M4. apply at_end_Rm; auto. }
        destruct (mbeq c3 "\"); cbn [when].
        - eapply wp_modb; [exact HF|exact Hb|]. intros s3 HF3 Hb3. 
          eapply HTL; [exact HF3|exact Hb3|reflexivity| |reflexivity].
          destruct HR3'. constructor; auto. destruct rd_wf; constructor; auto.
        - apply wp_ret. eapply HTL; [exact HF|exact Hb|reflexivity|exact HR3'|reflexivity]. }
      apply mbeq_iff in E10. subst c3. destruct (HPU _ eq_refl ltac:(discriminate)) as (b4 & b5 & x & y & P1 & P2).
      pose proof (n_some B _ _ _ P1 _ eq_refl) as (_ & _ & _ & _ & _ & _ & P7 & _).
      pose proof (pcur_len b5 (n_wf B _ _ _ P1)) as P8.
      assert (Hend : pcur b <= pcur b3 + 1 /\ pcur b3 + 1 <= List.length B).
      { pose proof (rd_lo _ _ _ _ _ _ HR3'). split; [lia|]. rewrite P2. change (pcur (upd x y (back (Some 10%N) b5))) with (pcur (back (Some 10%N) b5)). lia. }
      apply wp_bind. eapply wp_nextc_rd; [exact HF|exact Hb|exact (mkRd B n0 b0 (pcur b) (Rm b3) b3 HW3 (rd_lo _ _ _ _ _ _ HR3') (le_n _) HG3)|].
      clear HF Hb s2. intros cc b6 s2 HF Hb HA6 HN6.
      assert (cc = Some 10%N) as ->.
      { rewrite P2 in HN6. apply (reread_upd B n0 b0 e Hfuel _ _ _ _ _ _ _ P1 HN6). }
      destruct (ar_some _ _ _ _ _ _ _ HA6 _ eq_refl) as (S1 & S2 & S3 & S4 & S5 & S6).
      pose proof (ar_wf _ _ _ _ _ _ _ HA6) as HW6. pose proof (ar_gh _ _ _ _ _ _ _ HA6) as HG6.
      pose proof (ar_lo _ _ _ _ _ _ _ HA6) as HL6.
      apply wp_bind. cbn [tokadd_mb]. eapply (neut_use B e _ _ b6); [neut|exact HF|exact Hb|].
      clear HF Hb s2. intros _ s2 HF Hb. apply wp_bind. gb.
      destruct (Z.ltb 0 (heredoc_indent b6)).
      { apply wp_bind. eapply wp_modb; [exact HF|exact Hb|]. clear HF Hb s2. intros s2 HF Hb.
        assert (HWg : BWF B (goto_eol b6)) by (apply BWF_goto_eol; auto).
        apply wp_bind. unfold heredoc_flush. apply wp_bind.
        eapply (neut_use B e _ _ (goto_eol b6)); [neut|exact HF|exact Hb|]. clear HF Hb s2. intros a s2 HF Hb.
        unfold heredoc_flush_str. apply wp_bind. eapply (neut_use B e _ _ (goto_eol b6)); [neut|exact HF|exact Hb|].
        clear HF Hb s2. intros [] s2 HF Hb. apply wp_ret. apply wp_ret. apply HQ.
        assert (HMg : Rm (goto_eol b6) <= Rm b6).
        { unfold BufInv.Rm. cbn. destruct (eofp b6); [lia|]. destruct (nextline b6 =? 0); lia. }
        eapply (tok_cont (Some (pcur b3 + 1))); [exact HF|discriminate| | |]; rewrite Hb; [|lia|].
        - constructor; auto; [|lia]. cbn. pose proof (w_pcur2 B b6 HW6). lia.
        - split; [lia|left; lia]. }
      apply wp_bind. eapply wp_nextc_rd; [exact HF|exact Hb|exact (mkRd B n0 b0 (pcur b) (Rm b6) b6 HW6 HL6 (le_n _) HG6)|].
      clear HF Hb s2. intros c7 b7 s2 HF Hb HA7 HN7.
      pose proof (ar_wf _ _ _ _ _ _ _ HA7) as HW7. pose proof (ar_gh _ _ _ _ _ _ _ HA7) as HG7.
      pose proof (ar_next _ _ _ _ _ _ _ HA7) as Hn7. pose proof (ar_mu _ _ _ _ _ _ _ HA7) as HM7.
      destruct c7 as [ch|]; cbn [is_eof].
      2: { apply wp_bind. eapply here_document_error_ok; [exact HF|exact Hb|exact HW7|exact HG7|exact Hn7|apply gh_hv; auto|].
        intros s9 E1 E2 E3 E4 E5. apply wp_ret. apply HQ. eapply (tok_error (Some (pcur b3 + 1))); [exact E1|exact E2|exact E3|exact E4| |exact E5]; lia. }
      apply wp_bind. eapply neut_use; [apply at_terminator_neut; [exact HW7|apply gh_hv; auto]|exact HF|exact Hb|].
      clear HF Hb s2. intros m s2 HF Hb. destruct m.
      - apply wp_bind. eapply compute_heredoc_end_ok; [exact HF|exact Hb|exact HW7|].
        clear HF Hb s2. intros he s2 HF Hb E1 E2. apply wp_bind, wp_gets. apply wp_bind.
        eapply here_document_finish_ok; [exact HF|exact Hb|exact HW7|exact HG7|exact Hn7|apply gh_hv; auto|].
        intros s9 E3 E4 E5 E6 E7. apply wp_ret. apply HQ.
        eapply (tok_finish (pcur b3 + 1)); [exact E3|exact E4|exact E5|discriminate|exact E6|exact E1|exact E2| | | |exact E7]; lia.
      - apply wp_ret. rewrite Hb. pose proof (rd_mu _ _ _ _ _ _ (ar_back _ _ _ _ _ _ _ HA7)) as HMb7.
        splits; [exists (Some (pcur b3 + 1)); exact HF| |left; lia|lia].
        destruct HA7 as [A1 A2 A3 A4 A5 A6 A7 A8]. constructor; auto; try lia.
        + destruct A5. constructor; auto. lia.
        + intros z Hz. destruct (A7 z Hz) as (Z1 & Z2). split; [lia|exact Z2].
    Qed.
  End Doc.

  Lemma here_document_ok : forall h s b (Q : Tok -> Lexer -> Prop),
    strterm s = Some (HeredocLit h) -> buffer s = b -> BWF B b -> gh b -> HV n0 h -> lval_end s = None ->
    (forall t s', HereTok h s b t s' -> (Rm b = 0 -> unterm s') -> Q t s') ->
    wp e here_document Q s.
  Proof using All.
    intros h s b Q Ht Hb0' HW HG HH Hle HQ. unfold here_document. apply wp_bind, wp_gets. rewrite Ht.
    apply wp_bind, wp_ret. apply wp_bind, wp_modify. rewrite Hb0'.
    remember (set_lval_start (Some (pcur b)) s) as s0 eqn:Es0.
    assert (Hs0 : FRd s s0 /\ lval_start s0 = Some (pcur b) /\ lval_end s0 = None /\ strterm s0 = Some (HeredocLit h)).
    { subst s0. splits; auto. exact (FRd_refl B s). }
    assert (Hb : buffer s0 = b) by (subst s0; exact Hb0'). clear Es0. assert (HF : FR s0 s0) by apply FR_refl.
    pose proof (w_count B b HW) as HC. pose proof (hv_line _ _ _ (gh_hv h HH b HG)) as HL.
    destruct (line_some B (hl_lastline h)) as (l & L1 & L2 & L3); [lia|].
    apply wp_bind. gb. apply wp_bind. eapply wp_expect. { unfold line_at. rewrite (w_lines B b HW). exact L1. }
    cbv zeta. rewrite L2.
    apply wp_bind. eapply wp_nextc_rd; [exact HF|exact Hb|exact (rd_refl B n0 b0 e Hfuel b HW HG)|].
    clear HF Hb. intros c b1 s1 HF Hb HA HN.
    pose proof (ar_wf _ _ _ _ _ _ _ HA) as HW1. pose proof (ar_gh _ _ _ _ _ _ _ HA) as HG1.
    pose proof (ar_next _ _ _ _ _ _ _ HA) as Hn1. pose proof (ar_mu _ _ _ _ _ _ _ HA) as HM1.
    destruct c as [ch|]; cbn [is_eof].
    2: { eapply here_document_error_ok; [exact HF|exact Hb|exact HW1|exact HG1|exact Hn1|apply (gh_hv h); auto|].
      intros s9 E1 E2 E3 E4 E5. apply HQ; [|auto]. eapply (tok_error h s b s0 Hs0 HW HH (lval_end s0)); [exact E1|exact E2|exact E3|exact E4| |exact E5]; lia. }
    destruct (ar_some _ _ _ _ _ _ _ HA ch eq_refl) as (S1 & S2 & S3 & S4 & S5 & S6).
    assert (HQ' : forall t s', HereTok h s b t s' -> Q t s') by (intros; apply HQ; auto; lia).
    clear HQ. rename HQ' into HQ.
    apply wp_bind. gb. apply wp_bind.
    assert (HSTOP : forall Q : bool -> Lexer -> Prop,
      (forall stop s2 x y, FR s0 s2 -> buffer s2 = upd x y b1 -> Q stop s2) ->
      wp e (if negb (was_bol b1) then ret false
             else if Z.eqb (heredoc_line_indent b1) (-1) then
               modb (set_heredoc_line_indent 0%Z) ;;; ret false
             else at_terminator h (lstart (hl_lastline h) + hl_offset h)) Q s1).
    { intros Q' HQ'. pose proof (fun st => HQ' st s1 (heredoc_line_indent b1) (heredoc_indent b1) HF (eq_trans Hb (eq_sym (upd_same b1)))) as HQ0.
      destruct (negb (was_bol b1)); [apply wp_ret; auto|].
      destruct (Z.eqb (heredoc_line_indent b1) (-1)).
      - apply wp_bind. eapply wp_modb; [exact HF|exact Hb|]. intros s2 HF2 Hb2. apply wp_ret.
        eapply (HQ' false s2 0%Z (heredoc_indent b1)); [exact HF2|]. rewrite Hb2. destruct b1; reflexivity.
      - eapply neut_use; [apply at_terminator_neut; [exact HW1|apply (gh_hv h); auto]|exact HF|exact Hb|].
        intros st s2 HF2 Hb2. eapply HQ'; [exact HF2|]. rewrite upd_same. exact Hb2. }
    apply HSTOP. clear HSTOP HF Hb s1. intros stop s1 x y HF Hb.
    pose proof (upd_ar B n0 b0 x y _ _ _ _ HA) as HA2.
    assert (HM2 : Rm (upd x y b1) < Rm b) by exact S1.
    assert (HR2 : Rd (pcur b) (Rm b) (upd x y b1)) by (destruct HA2; constructor; auto).
    assert (HW2 : BWF B (upd x y b1)) by (eapply rd_wf; eauto).
    destruct stop.
    { eapply here_document_restore_ok; [exact HF|exact Hb|exact HW2|exact HG1|exact Hn1|apply (gh_hv h HH (upd x y b1)); exact HG1|].
      intros s9 p q E1 E2 E3 E4 E5 E6 []. apply HQ. destruct Hs0 as (A1 & _). constructor; auto.
      - eapply FRd_trans; eauto.
      - discriminate.
      - right. splits; auto. lia.
      - exists p. splits; auto; [lia|]. left. exists q. auto. }
    destruct (negb (has (hl_func h) STR_FUNC_EXPAND)).
    { eapply (here_document_raw_ok h s b s0 Hs0 HW HH); [exact HF|rewrite Hb; exact HR2|rewrite Hb; exact HM2|rewrite Hb; exact Hn1|exact HQ]. }
    apply wp_bind. eapply neut_use; [apply neut_newtok|exact HF|exact Hb|]. clear HF Hb s1. intros _ s1 HF Hb.
    destruct (mbeq (Some ch) "#") eqn:Eh.
    - apply wp_bind. eapply (peek_variable_name_ok B n0 b0 e Hfuel); [exact HF|exact Hb|
        exact (mkRd B n0 b0 (pcur b) (Rm b1) _ HW2 (rd_lo _ _ _ _ _ _ HR2) (le_n _) (rd_gh _ _ _ _ _ _ HR2))|exact Hn1|].
      clear HF Hb s1. intros r s1 b3 HF Hb HR3 Hr. apply wp_bind. eapply wp_modb; [exact HF|exact Hb|].
      clear HF Hb s1. intros s1 HF Hb.
      match type of Hb with buffer _ = ?X => assert (HX : exists x1 y1, X = upd x1 y1 b3) end.
      { destruct (negb _).
        - match goal with |- context [if ?z then _ else _] => destruct z end.
          + exists (-1)%Z, (heredoc_line_indent b3). destruct b3; reflexivity.
          + exists (-1)%Z, (heredoc_indent b3). destruct b3; reflexivity.
        - exists (heredoc_line_indent b3), (heredoc_indent b3). rewrite upd_same. reflexivity. }
      destruct HX as (x1 & y1 & EX). rewrite EX in Hb. clear EX.
      pose proof (upd_rd B n0 b0 x1 y1 _ _ _ HR3) as HR4. pose proof (rd_mu _ _ _ _ _ _ HR4) as HM4.
      assert (HTK : forall t, t <> END_OF_INPUT -> HereTok h s b t s1).
      { intros t Ht'. eapply (tok_cont h s b s0 Hs0 HW HH None); [|exact Ht'| | |exact I].
        - destruct HF as ((F1 & F2 & F3) & F4). split; [split; [exact F1|split; [|exact F3]]|exact F4].
          rewrite F2. destruct Hs0 as (_ & _ & -> & _). reflexivity.
        - rewrite Hb. eapply rd_weaken; [exact HR4|lia|lia].
        - rewrite Hb. lia. }
      destruct Hr as [(-> & ->)|[-> | ->]]; [|apply wp_ret, HQ, HTK; discriminate|apply wp_ret, HQ, HTK; discriminate].
      apply wp_bind. eapply neut_use; [apply neut_tokadd|exact HF|exact Hb|]. clear HF Hb HTK s1. intros _ s1 HF Hb.
      apply wp_bind. eapply wp_nextc_rd; [exact HF|exact Hb|exact HR4|]. clear HF Hb s1. intros c2 b4 s1 HF Hb HA4 HN4.
      pose proof (rd_mu _ _ _ _ _ _ (ar_back _ _ _ _ _ _ _ HA4)) as HMb4.
      eapply (here_document_expand_ok h s b s0 Hs0 HW HH); [exact HF|exact Hb| |left; lia|exact HQ].
      destruct HA4 as [A1 A2 A3 A4 A5 A6 A7 A8]. constructor; auto; try lia.
      + destruct A5. constructor; auto. lia.
      + intros z Hz. destruct (A7 z Hz) as (Z1 & Z2). split; [lia|exact Z2].
    - eapply (here_document_expand_ok h s b s0 Hs0 HW HH); [exact HF|exact Hb|exact HA2| |exact HQ].
      right. exists b1, x, y. splits; [exact HN|reflexivity|discriminate|]. intros C. rewrite C in Eh. discriminate Eh.
  Qed.
End HereDoc.
