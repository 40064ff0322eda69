(** * Token-level measures and frames, and the invariant of string tokens *)
Require Import Verif.Base Verif.MaybeByteM Verif.Utf8M Verif.InputM Verif.DiagnosticM Verif.LexStateM
  Verif.StackStateM Verif.ScopesM Verif.TokensM Verif.BufferM Verif.LexerM Verif.LexNumericM Verif.LexStringM
  Verif.SourceSpec Verif.SourceProofs Verif.Wp Verif.BufInv Verif.LexInv Verif.NumInv Verif.StrInv.
Require Import ZifyBool ZifyNat ZifyN.

Ltac dif := match goal with |- wp _ (if ?x then _ else _) _ _ => destruct x end.

Section Tok.
  Variables (B : list N) (n0 b0 : nat) (e : Env).
  Hypothesis Hfuel : 4 * List.length B + 20 < fuel e.

  Notation FR := (FR B).
  Notation Rd := (Rd B n0 b0).
  Notation AR := (AR B n0 b0).
  Notation InTok := (InTok B n0 b0).
  Notation IA := (IA B n0 b0).
  Notation Dn := (Dn B n0 b0).
  Notation Rm := (Rm B).
  Notation gh := (gh B n0 b0).
  Notation NextPost := (NextPost B).

  (** Only diagnostics were added *)
  Definition FRd (s0 s : Lexer) : Prop :=
    comments s = comments s0 /\ magic_comments s = magic_comments s0 /\
    exists ds, diagnostics s = diagnostics s0 ++ ds /\ Forall (diag_ok B) ds.

  Lemma FR_FRd : forall s0 s, FR s0 s -> FRd s0 s.
  Proof using. intros s0 s ((_ & _ & H1 & H2 & H3) & _). split; auto. Qed.
  Lemma FRd_refl : forall s, FRd s s.
  Proof using. intros s. apply FR_FRd, FR_refl. Qed.
  Lemma FRd_trans : forall a b c, FRd a b -> FRd b c -> FRd a c.
  Proof using.
    intros a b c (A1 & A2 & ds & A3 & A4) (C1 & C2 & ds' & C3 & C4). unfold FRd; splits; try congruence.
    exists (ds ++ ds'). split; [rewrite C3, A3, app_assoc; auto|]. apply Forall_app; auto.
  Qed.

  (** How far the reader is from having noticed the end of the input *)
  Definition Eo (b : Buffer) : nat :=
    if eofp b then 0
    else if (line_count b =? NL B) && (pcur b =? pend b) && (nextline b =? 0) then 1 else 2.

  Lemma eofp_back : forall c b, eofp (back c b) = eofp b.
  Proof using. intros [x|] b; auto. unfold back. cbv zeta. destruct (_ && _ && _); reflexivity. Qed.

  Lemma Eo_next : forall b c b', BWF B b -> NextPost b c b' -> Eo (back c b') <= Eo b.
  Proof using All.
    intros b c b' HW HN. unfold Eo. rewrite eofp_back. destruct (eofp b') eqn:E'; [lia|].
    destruct (eofp b) eqn:Eb.
    - exfalso. destruct c as [x|].
      + destruct (n_some B _ _ _ HN x eq_refl). congruence.
      + destruct (n_line B _ _ _ HN) as [(_ & _ & _ & _ & _ & _ & _ & _ & _ & _ & H)|(_ & _ & _ & _ & _ & _ & H & _)]; [|congruence].
        rewrite H in E'; auto; congruence.
    - destruct ((line_count b =? NL B) && (pcur b =? pend b) && (nextline b =? 0)) eqn:E1; [|match goal with |- (if ?x then _ else _) <= _ => destruct x; auto end].
      apply andb_prop in E1. destruct E1 as (E1 & E3). apply andb_prop in E1. destruct E1 as (E1 & E2).
      apply Nat.eqb_eq in E1, E2, E3. exfalso. destruct c as [x|].
      + destruct (n_some B _ _ _ HN x eq_refl) as (_ & _ & _ & _ & H & _).
        unfold BufInv.Rm in H. rewrite Eb in H. rewrite E3 in H. cbn [Nat.eqb] in H.
        assert (lstart B (line_count b) = List.length B).
        { rewrite E1. apply lstart_out; lia. }
        lia.
      + destruct (n_end B _ _ _ HN eq_refl Eb) as (_ & _ & _ & _ & [H|H]); [congruence|lia].
  Qed.

  (** Reading again what was pushed back *)
  Lemma reread_upd : forall b x b' c1 b1 u v, NextPost b (Some x) b' -> NextPost (upd u v (back (Some x) b')) c1 b1 ->
    c1 = Some x /\ pcur b1 = pcur b'.
  Proof using All.
    intros b x b' c1 b1 u v H1 H2. set (b2 := back (Some x) b') in *.
    destruct (n_some B _ _ _ H1 x eq_refl) as (X1 & X2 & X3 & X4 & X5 & X6 & X7 & X8). fold b2 in X6, X7, X8.
    destruct (back_fields (Some x) b') as (K1 & K2 & K3 & K4 & K5 & K6 & K7). fold b2 in K1, K2, K3, K4, K5, K6, K7.
    pose proof (n_wf B _ _ _ H1) as HW'. pose proof (w_pcur2 B _ HW') as PW.
    pose proof (n_nextline B _ _ _ H1) as Hnl.
    assert (CR : pcur b' = pcur b2 + 2 -> nth_error B (pcur b2) = Some 13%N /\ nth_error B (pcur b2 + 1) = Some 10%N).
    { clear - HW' X3. unfold b2, back. cbv zeta.
      destruct ((pbeg b' <? pcur b' - 1) && mbeq (byte_at b' (pcur b' - 1)) 10%N
        && mbeq (byte_at b' (pcur b' - 1 - 1)) 13%N) eqn:E; cbn [pcur set_pcur]; intros P; [|lia].
      apply andb_prop in E. destruct E as (E & E3). apply andb_prop in E. destruct E as (E1 & E2).
      apply mbeq_iff in E2, E3. rewrite byte_at_B with (B := B) in E2, E3 by auto.
      split; [auto|]. replace (pcur b' - 1 - 1 + 1) with (pcur b' - 1) by lia. auto. }
    destruct c1 as [y|].
    2: { exfalso. destruct (n_end B _ _ _ H2 eq_refl) as (E & _); [change (eofp b2 = false); congruence|].
      change (pcur b2 = pend b2) in E. lia. }
    destruct (n_some B _ _ _ H2 y eq_refl) as (Y1 & Y2 & Y3 & Y4 & Y5 & Y6 & Y7 & Y8).
    assert (P : pcur (back (Some y) b1) = pcur b2).
    { destruct (n_line B _ _ _ H2) as [(_ & _ & _ & _ & _ & _ & _ & _ & _ & H & _)|(_ & _ & _ & _ & _ & _ & _ & _ & H)]; auto.
      exfalso. destruct H as [H|(H & _)]; [change (nextline b2 <> 0) in H; congruence|].
      change (pcur b2 = pend b2) in H. lia. }
    rewrite P in Y6, Y7, Y8.
    assert (CR1 : pcur b1 = pcur b2 + 2 -> nth_error B (pcur b2) = Some 13%N /\ nth_error B (pcur b2 + 1) = Some 10%N).
    { pose proof (n_wf B _ _ _ H2) as HW1. clear - HW1 Y3 P. rewrite <- P. unfold back. cbv zeta.
      destruct ((pbeg b1 <? pcur b1 - 1) && mbeq (byte_at b1 (pcur b1 - 1)) 10%N
        && mbeq (byte_at b1 (pcur b1 - 1 - 1)) 13%N) eqn:E; cbn [pcur set_pcur]; intros P'; [|lia].
      apply andb_prop in E. destruct E as (E & E3). apply andb_prop in E. destruct E as (E1 & E2).
      apply mbeq_iff in E2, E3. rewrite byte_at_B with (B := B) in E2, E3 by auto.
      split; [auto|]. replace (pcur b1 - 1 - 1 + 1) with (pcur b1 - 1) by lia. auto. }
    assert (D : pcur b1 = pcur b').
    { assert (A1 : pcur b' = pcur b2 + 1 \/ pcur b' = pcur b2 + 2) by lia.
      assert (A2 : pcur b1 = pcur b2 + 1 \/ pcur b1 = pcur b2 + 2) by lia.
      destruct A1 as [A1|A1], A2 as [A2|A2]; try lia; exfalso.
      - destruct (CR1 A2) as (C1 & C2). apply (w_nosplit B _ HW'); auto.
        + rewrite A1. replace (pcur b2 + 1 - 1) with (pcur b2) by lia. auto.
        + rewrite A1. auto.
      - destruct (CR A1) as (C1 & C2). apply (w_nosplit B _ (n_wf B _ _ _ H2)); auto.
        + rewrite A2. replace (pcur b2 + 1 - 1) with (pcur b2) by lia. auto.
        + rewrite A2. auto. }
    split; [|exact D]. rewrite D in Y4. congruence.
  Qed.

  Lemma reread : forall b x b' c1 b1, NextPost b (Some x) b' -> NextPost (back (Some x) b') c1 b1 -> c1 = Some x.
  Proof using All.
    intros b x b' c1 b1 H1 H2. rewrite <- (upd_same (back (Some x) b')) in H2.
    eapply reread_upd; eauto.
  Qed.

  Lemma wp_nextc_raw : forall s (Q : MaybeByte -> Lexer -> Prop), BWF B (buffer s) ->
    (forall c b', NextPost (buffer s) c b' -> Q c (set_buffer b' s)) -> wp e nextc Q s.
  Proof using All.
    intros s Q HW HQ. unfold nextc, inb. apply wp_zoom. apply (b_nextc_ok B); auto.
  Qed.

  (** *** regx_options *)
  Lemma ascii_valid : forall l, Forall (fun x => (x < 128)%N) l -> utf8_valid l = true.
  Proof using All.
    induction 1 as [|x l Hx Hl IH]; [reflexivity|]. destruct l; cbn [utf8_valid]; 
      replace (x <? 128)%N with true by lia; auto.
  Qed.

  Lemma regx_options_ok : forall s0 s b lo mu (Q : list N -> Lexer -> Prop),
    FR s0 s -> buffer s = b -> Rd lo mu b ->
    (forall r s' b', FR s0 s' -> buffer s' = b' -> Rd lo mu b' -> Q r s') ->
    wp e regx_options Q s.
  Proof using All.
    intros s0 s b lo mu Q HF Hb HR HQ. unfold regx_options.
    apply wp_bind, wp_modify. set (s1 := set_tokenbuf [] s).
    assert (HF1 : FR s0 s1) by exact HF. assert (Hb1 : buffer s1 = b) by exact Hb.
    assert (HT : Forall (fun x => (x < 128)%N) (tokenbuf s1)) by constructor. clearbody s1. clear HF Hb s.
    apply wp_bind.
    apply wp_loop with (I := fun _ s => FR s0 s /\ Rd lo mu (buffer s) /\ Forall (fun x => (x < 128)%N) (tokenbuf s))
      (meas := fun _ s => Rm (buffer s)).
    { splits; auto. rewrite Hb1; auto. }
    { rewrite Hb1. pose proof (Rm_le B b (rd_wf _ _ _ _ _ _ HR)). lia. }
    clear HF1 Hb1 s1 HT HR. intros res s (HF & HR & HT). cbv beta. apply wp_bind.
    apply wp_nextc_raw; [eapply rd_wf; eauto|]. intros c b1 HN.
    pose proof (rd_next _ _ _ _ _ _ _ _ HR HN) as HA.
    assert (HF1 : FR s0 (set_buffer b1 s)) by exact HF.
    assert (HFIN : wp e (ret (inr (c, res)))
      (fun (r : list N + MaybeByte * list N) s' => match r with
         | inl x' => (FR s0 s' /\ Rd lo mu (buffer s') /\ Forall (fun x => (x < 128)%N) (tokenbuf s')) /\
                     Rm (buffer s') < Rm (buffer s)
         | inr r => wp e ((let '(c0, result) := r in
              pushback c0;;;
              len <- gets toklen ;;
              when (0 <? len)
                (t <- gets tokenbuf ;;
                 opts <- expect (if utf8_valid t then Some t else None) "expected buffer to have only utf-8 chars" ;;
                 compile_error0 (UnknownRegexOptions opts)) ;;;
              ret result)) Q s'
         end) (set_buffer b1 s)).
    { apply wp_ret. apply wp_bind.
      unfold pushback, inb. apply wp_zoom. apply pushback_back; cbn [buffer set_buffer].
      { intros Hc. eapply ar_pos; eauto. }
      apply wp_bind, wp_gets. apply wp_bind.
      set (s2 := set_buffer (back c b1) (set_buffer b1 s)).
      assert (HF2 : FR s0 s2) by exact HF. assert (Hb2 : buffer s2 = back c b1) by reflexivity.
      assert (HR2 : Rd lo mu (back c b1)) by (eapply ar_back; eauto).
      assert (HT2 : utf8_valid (tokenbuf s2) = true) by (apply ascii_valid; exact HT). clearbody s2.
      destruct (0 <? toklen s2); cbn [when].
      - apply wp_bind, wp_gets. rewrite HT2. apply wp_bind. cbn [expect]. apply wp_ret.
        eapply neut_use; [apply neut_compile_error0; eapply rd_wf; eauto|exact HF2|exact Hb2|].
        intros _ s3 HF3 Hb3. apply wp_ret. eapply HQ; eauto.
      - apply wp_ret, wp_ret. eapply HQ; eauto. }
    destruct c as [ch|]; [|exact HFIN].
    destruct (negb (is_alpha (Some ch))) eqn:Ea; [exact HFIN|].
    destruct (ar_some _ _ _ _ _ _ _ HA ch eq_refl) as (M1 & M2 & M3 & M4 & M5 & M6).
    pose proof (n_some B _ _ _ HN ch eq_refl) as (_ & _ & _ & _ & M7 & _).
    assert (HR1 : Rd lo mu b1) by (destruct HA; constructor; auto).
    destruct (existsb (N.eqb ch) (bs "onesuixm")).
    - apply wp_ret. cbn [buffer set_buffer tokenbuf]. splits; auto.
    - apply wp_bind, wp_modify, wp_ret. cbn [buffer set_buffer]. splits; auto.
      change (Forall (fun x => (x < 128)%N) (tokenbuf s ++ [ch])). apply Forall_app. split; auto. constructor; auto.
      clear - Ea. unfold is_alpha, mb_test, b_is_alpha, b_is_upper, b_is_lower, in_range in Ea. lia.
  Qed.

  (** *** Strings *)
  Definition To (o : option StrTerm) : nat :=
    match o with
    | None => 0
    | Some (StringLit q) =>
        if has (sl_func q) STR_FUNC_TERM then 1 else if has (sl_func q) STR_FUNC_LIST then 3 else 2
    | Some (HeredocLit _) => 5
    end.

  Lemma has_term_lor : forall f, has (N.lor f STR_FUNC_TERM) STR_FUNC_TERM = true.
  Proof using All.
    intros f. unfold has. rewrite N.land_lor_distr_l. destruct (N.eqb _ 0) eqn:E; auto. exfalso.
    apply N.eqb_eq, N.lor_eq_0_iff in E. destruct E as (_ & E). discriminate.
  Qed.
  Lemma has_list_ldiff : forall f, has (N.ldiff f STR_FUNC_LIST) STR_FUNC_LIST = false.
  Proof using All.
    intros f. unfold has.
    replace (N.land (N.ldiff f STR_FUNC_LIST) STR_FUNC_LIST) with 0%N; auto.
    symmetry. apply N.bits_inj. intros i. rewrite N.land_spec, N.ldiff_spec, N.bits_0.
    destruct (N.testbit f i), (N.testbit STR_FUNC_LIST i); auto.
  Qed.
  Lemma To_str_le : forall q, To (Some (StringLit q)) <= 3.
  Proof using All. intros q. cbn. destruct (has _ _); [lia|]. destruct (has _ _); lia. Qed.

  (** What a string token leaves behind; [q] is the literal before, [b] the buffer before *)
  Record StrTok (q : StringLiteral) (s : Lexer) (b : Buffer) (t : Tok) (s' : Lexer) : Prop := mkStrTok {
    st_frame : FRd s s';
    st_rd : Rd (pcur b) (Rm b) (buffer s');
    st_term : strterm s' = None \/ exists q', strterm s' = Some (StringLit q') /\
                sl_heredoc_end q' = sl_heredoc_end q /\ sl_term q' = sl_term q /\ sl_paren q' = sl_paren q;
    st_lval : (lval_start s' = Some (pcur b) /\ lval_end s' = lval_end s) \/
      (exists he, sl_heredoc_end q = Some he /\ lval_start s' = Some (he_start he) /\
         lval_end s' = Some (he_end he) /\ t = tSTRING_END);
    st_tok : t <> END_OF_INPUT;
    st_meas : Rm (buffer s') < Rm b \/ To (strterm s') + Eo (buffer s') < To (Some (StringLit q)) + Eo b
  }.

  Lemma rd_refl : forall b, BWF B b -> gh b -> Rd (pcur b) (Rm b) b.
  Proof using All. intros b H1 H2. constructor; auto. Qed.
  Lemma rd_mono : forall lo mu mu' b, Rd lo mu b -> mu <= mu' -> Rd lo mu' b.
  Proof using All. intros lo mu mu' b [] H. constructor; auto. lia. Qed.

  Lemma peek_variable_name_ok : forall s0 s1 b1 lo mu (Q : option Tok -> Lexer -> Prop),
    FR s0 s1 -> buffer s1 = b1 -> Rd lo mu b1 -> nextline b1 = 0 ->
    (forall r s2 b2, FR s0 s2 -> buffer s2 = b2 -> Rd lo mu b2 ->
       r = None /\ b2 = b1 \/ r = Some tSTRING_DVAR \/ r = Some tSTRING_DBEG -> Q r s2) ->
    wp e peek_variable_name Q s1.
  Proof using All.
    intros s0 s1 b1 lo mu Q HF Hb HR Hn HQ. unfold peek_variable_name. apply wp_bind. gb. cbv zeta.
    assert (HN : wp e (ret None) Q s1) by (apply wp_ret; eapply HQ; eauto).
    assert (HFin : forall c, wp e (ret (if negb (is_ascii c) || mbeq c "_" || is_alpha c then Some tSTRING_DVAR else None)) Q s1).
    { intros c. destruct (_ || _); [|exact HN]. apply wp_ret. eapply HQ; eauto. }
    destruct (pend b1 <=? pcur b1 + 1) eqn:E1; [exact HN|].
    destruct (mbeq (byte_at b1 (pcur b1)) "$").
    { dif; [dif; auto|]. dif; [|apply HFin]. apply wp_ret. eapply HQ; eauto. }
    destruct (mbeq (byte_at b1 (pcur b1)) "@").
    { dif; [dif; auto|]. apply HFin. }
    destruct (mbeq (byte_at b1 (pcur b1)) "{") eqn:E2; [|exact HN].
    clear HN HFin. apply wp_bind. mstep. apply wp_bind. nstep. apply wp_ret. eapply HQ; [exact HF|exact Hb| |auto].
    apply Nat.leb_gt in E1. apply mbeq_iff in E2. rewrite (byte_at_B B) in E2 by (eapply rd_wf; eauto).
    destruct HR as [W1 W2 W3 W4]. constructor.
    - apply BWF_set_pcur; auto; cbn; try lia.
      + pose proof (w_pcur1 B _ W1); lia.
      + pose proof (w_tok B _ W1); lia.
      + intros _ C _. replace (pcur b1 + 1 - 1) with (pcur b1) in C by lia. congruence.
    - cbn [pcur set_pcur]. lia.
    - unfold BufInv.Rm in *. cbn [eofp nextline pend pcur line_count set_pcur]. rewrite Hn in *. cbn [Nat.eqb] in *.
      destruct (eofp b1); lia.
    - exact W4.
  Qed.

  Section Parse.
    Variables (q : StringLiteral) (s0 : Lexer) (b : Buffer).
    (** [s0] is the state after [take_strterm] and the assignment to [lval_start] *)
    Variable s : Lexer.
    Hypothesis Hs0 : FRd s s0 /\ lval_start s0 = Some (pcur b) /\ lval_end s0 = lval_end s /\ strterm s0 = None.
    Hypothesis HW : BWF B b.

    Lemma str_none : forall s1 t, FR s0 s1 -> Rd (pcur b) (Rm b) (buffer s1) -> t <> END_OF_INPUT ->
      Rm (buffer s1) < Rm b \/ Eo (buffer s1) < To (Some (StringLit q)) + Eo b ->
      StrTok q s b t s1.
    Proof using All.
      intros s1 t HF HR Ht HM. destruct Hs0 as (A1 & A2 & A3 & A4).
      pose proof (FRd_trans _ _ _ A1 (FR_FRd _ _ HF)) as HD. destruct HF as ((F1 & F2 & _) & F3).
      constructor; auto.
      - left. congruence.
      - left. split; congruence.
      - rewrite F3, A4. exact HM.
    Qed.

    Lemma str_some : forall s1 t q', FR s0 s1 -> Rd (pcur b) (Rm b) (buffer s1) -> t <> END_OF_INPUT ->
      sl_heredoc_end q' = sl_heredoc_end q -> sl_term q' = sl_term q -> sl_paren q' = sl_paren q ->
      Rm (buffer s1) < Rm b \/ To (Some (StringLit q')) + Eo (buffer s1) < To (Some (StringLit q)) + Eo b ->
      StrTok q s b t (set_strterm (Some (StringLit q')) s1).
    Proof using All.
      intros s1 t q' HF HR Ht E1 E2 E3 HM. destruct Hs0 as (A1 & A2 & A3 & A4).
      pose proof (FRd_trans _ _ _ A1 (FR_FRd _ _ HF)) as HD. destruct HF as ((F1 & F2 & _) & F3).
      constructor; auto.
      - right. exists q'. auto.
      - left. cbn [lval_start lval_end set_strterm]. split; congruence.
    Qed.

    Lemma string_term_ok : forall func term s1 b1 (Q : Tok -> Lexer -> Prop),
      FR s0 (set_strterm None s1) -> buffer s1 = b1 -> Rd (pcur b) (Rm b) b1 -> Rm b1 < Rm b ->
      (forall t s', StrTok q s b t s' -> Q t s') ->
      wp e (string_term term func) Q s1.
    Proof using All.
      intros func term s1 b1 Q HF Hb HR HM HQ. unfold string_term. apply wp_bind, wp_modify.
      assert (Hb2 : buffer (set_strterm None s1) = b1) by exact Hb. clear Hb.
      remember (set_strterm None s1) as s2 eqn:Es2. clear Es2 s1. rename Hb2 into Hb.
      assert (HR1 : Rd (pcur b) (Rm b1) b1) by (destruct HR; constructor; auto).
      destruct (has func STR_FUNC_REGEXP).
      - apply wp_bind. eapply regx_options_ok; [exact HF|exact Hb|exact HR1|].
        clear HF Hb s2. intros r s2 b2 HF Hb HR2. apply wp_bind. nstep. apply wp_bind. nstep. apply wp_ret.
        apply HQ. apply str_none; auto; rewrite ?Hb; try discriminate.
        + eapply rd_mono; eauto. lia.
        + left. destruct HR2; lia.
      - apply wp_bind.
        eapply (neut_use B e _ _ b1); [destruct (has func STR_FUNC_LABEL); neut|exact HF|exact Hb|].
        clear HF Hb s2. intros a s2 HF Hb. destruct a.
        + apply wp_bind. eapply wp_nextc_rd; [exact HF|exact Hb|exact HR1|].
          clear HF Hb s2. intros c b2 s2 HF Hb HA HN. apply wp_bind. nstep. apply wp_ret.
          apply HQ. apply str_none; auto; rewrite ?Hb; try discriminate.
          * destruct HA; constructor; auto; lia.
          * left. destruct HA; lia.
        + apply wp_bind. nstep. apply wp_ret. apply HQ. apply str_none; auto; rewrite ?Hb; auto. discriminate.
    Qed.

    Lemma parse_string_term_ok : forall s1 (Q : Tok -> Lexer -> Prop),
      FR s0 s1 -> buffer s1 = b -> Rd (pcur b) (Rm b) b -> has (sl_func q) STR_FUNC_TERM = true ->
      (forall t s', StrTok q s b t s' -> Q t s') ->
      wp e (parse_string_term q) Q s1.
    Proof using All.
      intros s1 Q HF Hb HR HT HQ. unfold parse_string_term. apply wp_bind.
      assert (HK : forall s2 b2, FR s0 s2 -> buffer s2 = b2 -> Rd (pcur b) (Rm b) b2 -> (Rm b2 < Rm b \/ Eo b2 <= Eo b) ->
        wp e (lex_state_set EXPR_END ;;;
  modify (set_strterm None) ;;;
  if has (sl_func q) STR_FUNC_REGEXP then ret tREGEXP_END
  else
    match sl_heredoc_end q with
    | Some he =>
        modify (set_lval_start (Some (he_start he))) ;;;
        modify (set_lval_end (Some (he_end he))) ;;;
        set_yylval (he_value he)
    | None => ret tt
    end ;;;
    ret tSTRING_END) Q s2).
      { clear HF Hb s1. intros s1 b1 HF Hb HR1 HM. apply wp_bind. nstep. apply wp_bind, wp_modify.
        assert (HF2 : FR s0 (set_strterm None s2)).
        { destruct HF as (HF & _). split; [exact HF|]. destruct Hs0 as (_ & _ & _ & ->). reflexivity. }
        assert (Hb2 : buffer (set_strterm None s2) = b1) by exact Hb. clear HF Hb.
        remember (set_strterm None s2) as s3 eqn:Es. clear Es s2.
        assert (HM' : Rm (buffer s3) < Rm b \/ Eo (buffer s3) < To (Some (StringLit q)) + Eo b).
        { rewrite Hb2. destruct HM as [?|?]; [auto|]. right. cbn [To]. rewrite HT. lia. }
        destruct (has (sl_func q) STR_FUNC_REGEXP).
        - apply wp_ret. apply HQ. apply str_none; auto; [rewrite Hb2; auto|discriminate].
        - destruct (sl_heredoc_end q) as [he|] eqn:Ehe.
          + apply wp_bind, wp_bind, wp_modify, wp_bind, wp_modify. apply wp_modify. apply wp_ret. apply HQ.
            pose proof (str_none _ tSTRING_END HF2 ltac:(rewrite Hb2; auto) ltac:(discriminate) HM') as [].
            constructor; auto. right. exists he. cbn. auto.
          + apply wp_bind, wp_ret, wp_ret. apply HQ. apply str_none; auto; [rewrite Hb2; auto|discriminate]. }
      destruct (has (sl_func q) STR_FUNC_QWORDS); cbn [when].
      - apply wp_bind. eapply wp_nextc_rd; [exact HF|exact Hb|exact HR|].
        clear HF Hb s1. intros c b2 s1 HF Hb HA HN. apply wp_ret. eapply HK; [exact HF|exact Hb| |].
        + destruct HA; constructor; auto.
        + destruct c as [x|].
          * left. destruct (n_some B _ _ _ HN x eq_refl); lia.
          * right. pose proof (Eo_next _ _ _ HW HN). auto.
      - apply wp_ret. eapply HK; eauto.
    Qed.

    (** a name after ['#'] *)

    Lemma parse_string_content_ok : forall c b1 s1 (Q : Tok -> Lexer -> Prop),
      FR s0 s1 -> buffer s1 = b1 -> AR (pcur b) (Rm b) c b1 -> NextPost b c b1 ->
      has (sl_func q) STR_FUNC_TERM = false -> has (sl_func q) STR_FUNC_LIST = false ->
      mbeq c (sl_term q) && (sl_nest q =? 0) = false ->
      (has (sl_func q) STR_FUNC_QWORDS = true -> is_space c = false) ->
      (forall t s', StrTok q s b t s' -> Q t s') ->
      wp e (parse_string_content q (sl_func q) c) Q s1.
    Proof using All.
      intros c b1 s1 Q HF Hb HA HN HT HL Hterm Hsp HQ. unfold parse_string_content. cbv zeta.
      apply wp_bind. nstep.
      (** the rest, after the first character has been dealt with *)
      assert (HK : forall c s1 b1, FR s0 s1 -> buffer s1 = b1 -> AR (pcur b) (Rm b) c b1 ->
        (Rm (back c b1) < Rm b \/
         (NextPost b c b1 /\ mbeq c (sl_term q) && (sl_nest q =? 0) = false /\
          (has (sl_func q) STR_FUNC_QWORDS = true -> is_space c = false) /\
          has (sl_func q) STR_FUNC_EXPAND && mbeq c "#" = false)) ->
        wp e (pushback c ;;;
      '(added, nest) <- tokadd_string (sl_func q) (sl_term q) (sl_paren q) (sl_nest q) ;;
      b <- getb ;;
      if (match added with Some _ => true | None => false end) && eofp b then
        literal_flush (pcur b) ;;;
        if has (sl_func q) STR_FUNC_QWORDS then
          yyerror0 UnterminatedList ;;;
          modify (set_strterm None) ;;;
          ret tSTRING_END
        else
          (if has (sl_func q) STR_FUNC_REGEXP then yyerror0 UnterminatedRegexp
           else yyerror0 UnterminatedString) ;;;
          t <- gets tokenbuf ;;
          set_yylval t ;;;
          restore_strterm (sl_set_func (N.lor (sl_func (sl_set_nest nest q)) STR_FUNC_TERM) (sl_set_nest nest q)) ;;;
          ret tSTRING_CONTENT
      else 
        t <- gets tokenbuf ;;
        set_yylval t ;;;
        restore_strterm (sl_set_nest nest q) ;;;
        ret tSTRING_CONTENT) Q s1).
      { clear HF Hb HA HN Hterm Hsp c b1. try clear s1; try clear s2. intros c s1 b1 HF Hb HA HC. apply wp_bind.
        eapply wp_pushback; [exact HF|exact Hb|intros; eapply ar_pos; eauto|].
        clear HF Hb s1. intros s1 HF Hb. pose proof (ar_back _ _ _ _ _ _ _ HA) as HRb. apply wp_bind.
        eapply tokadd_string_ok; [exact Hfuel|exact HF|exact Hb|exact HRb|].
        clear HF Hb s1. intros r n s1 b2 HF Hb HR2 HM2 HST _. apply wp_bind. gb.
        destruct ((match r with Some _ => true | None => false end) && eofp b2) eqn:Er.
        - apply andb_prop in Er. destruct Er as (Er & Eof).
          assert (HE : Eo (set_ptok (pcur b2) b2) = 0) by (unfold Eo; cbn [eofp set_ptok]; rewrite Eof; auto).
          assert (HR3 : Rd (pcur b) (Rm b) (set_ptok (pcur b2) b2)).
          { destruct HR2; constructor; auto. apply BWF_set_ptok; auto. }
          unfold literal_flush. apply wp_bind. mstep. nameb b3.
          assert (HW3 : BWF B b3) by (eapply rd_wf; eauto).
          destruct (has (sl_func q) STR_FUNC_QWORDS).
          + apply wp_bind. nstep. apply wp_bind, wp_modify, wp_ret. apply HQ. apply str_none.
            * destruct HF as (HF & _). split; [exact HF|]. destruct Hs0 as (_ & _ & _ & ->). reflexivity.
            * cbn [buffer set_strterm]. rewrite Hb. auto.
            * discriminate.
            * right. cbn [buffer set_strterm]. rewrite Hb, HE. cbn [To]. rewrite HT, HL. lia.
          + apply wp_bind. eapply (neut_use B e _ _ b3); [destruct (has (sl_func q) STR_FUNC_REGEXP); neut|exact HF|exact Hb|].
            clear HF Hb. intros _ s3 HF Hb. apply wp_bind, wp_gets. apply wp_bind. nstep.
            apply wp_bind, wp_modify, wp_ret. apply HQ. apply str_some; auto; try discriminate.
            * rewrite Hb. auto.
            * right. rewrite Hb, HE. cbn [To sl_func sl_set_func]. rewrite has_term_lor, HT, HL. lia.
        - apply wp_bind, wp_gets. apply wp_bind. nstep.
          apply wp_bind, wp_modify, wp_ret. apply HQ. apply str_some; auto; try discriminate.
          { rewrite Hb. auto. }
          left. rewrite Hb.
          destruct HC as [HC|(HC1 & HC2 & HC3 & HC4)]; [clear - HC HM2; lia|].
          destruct HST as [HST|(c1 & b3 & x & y & T1 & T2 & T3 & T4)].
          { pose proof (n_Rback B _ _ _ HC1). clear - HST H. lia. }
          exfalso. subst r. cbn [andb] in Er. destruct c as [ch|].
          + pose proof (reread _ _ _ _ _ HC1 T1) as ->.
            destruct T4 as [T4|[(T4 & T5)|[(T4 & T5)|(T4 & T5)]]].
            * discriminate.
            * injection T4 as ->. rewrite T5 in HC2. replace (mbeq (Some (sl_term q)) (sl_term q)) with true in HC2; [discriminate|].
              symmetry. apply mbeq_iff. auto.
            * injection T5 as ->. rewrite T4 in HC4. discriminate.
            * rewrite HC3 in T5; auto. discriminate.
          + cbn [back] in T1. assert (E2 : eofp b3 = false).
            { rewrite T3 in Er. destruct c1; [|exact Er]. rewrite <- (eofp_back (Some n1)). exact Er. }
            assert (Eb : eofp b = false).
            { destruct (eofp b) eqn:Eb; auto. exfalso.
              assert (E1 : eofp b1 = true).
              { destruct (n_line B _ _ _ HC1) as [(_ & _ & _ & _ & _ & _ & _ & _ & _ & _ & H)|(_ & _ & _ & _ & _ & _ & H & _)]; [auto|congruence]. }
              destruct c1 as [y1|].
              - destruct (n_some B _ _ _ T1 y1 eq_refl). congruence.
              - destruct (n_line B _ _ _ T1) as [(_ & _ & _ & _ & _ & _ & _ & _ & _ & _ & H)|(_ & _ & _ & _ & _ & _ & H & _)]; [|congruence].
                rewrite H in E2; auto. discriminate. }
            destruct (n_end B _ _ _ HC1 eq_refl Eb) as (G1 & G2 & G3 & G4 & G5).
            destruct (eofp b1) eqn:Eb1.
            { destruct c1 as [y1|].
              - destruct (n_some B _ _ _ T1 y1 eq_refl). congruence.
              - destruct (n_line B _ _ _ T1) as [(_ & _ & _ & _ & _ & _ & _ & _ & _ & _ & H)|(_ & _ & _ & _ & _ & _ & H & _)]; [|congruence].
                rewrite H in E2; auto. discriminate. }
            destruct c1 as [y1|].
            * destruct (n_some B _ _ _ T1 y1 eq_refl) as (_ & _ & _ & _ & H & _). unfold BufInv.Rm in H.
              rewrite Eb1 in H. rewrite (n_nextline B _ _ _ HC1) in H. cbn [Nat.eqb] in H.
              rewrite G4 in H. rewrite (lstart_out B (NL B) (le_n _)) in H. clear - H G3. lia.
            * destruct (n_end B _ _ _ T1 eq_refl Eb1) as (_ & _ & _ & _ & [H|H]); [congruence|clear - H G4; lia]. }
      assert (Hpos : c <> None -> 1 <= pcur b1) by (intros; eapply ar_pos; eauto).
      apply wp_bind.
      destruct (has (sl_func q) STR_FUNC_EXPAND && mbeq c "#") eqn:Eh.
      - assert (Ec : c = Some "#"%bn) by (apply mbeq_iff; apply andb_prop in Eh; destruct Eh; auto). subst c.
        destruct (n_some B _ _ _ HN _ eq_refl) as (_ & _ & _ & _ & M & _).
        assert (HR1 : Rd (pcur b) (Rm b1) b1) by (destruct HA; constructor; auto).
        apply wp_bind. eapply peek_variable_name_ok; [exact HF|exact Hb|exact HR1|apply (ar_next _ _ _ _ _ _ _ HA)|].
        clear HF Hb. intros r s3 b3 HF Hb HR3 Hr.
        assert (HDV : forall t, t <> END_OF_INPUT -> wp e (restore_strterm q;;; ret t) Q s3).
        { intros t Ht. apply wp_bind, wp_modify, wp_ret. apply HQ. apply str_some; auto.
          - rewrite Hb. eapply rd_mono; eauto. lia.
          - left. rewrite Hb. destruct HR3; lia. }
        destruct Hr as [(-> & ->)|[-> | ->]]; [|apply wp_ret, HDV; discriminate|apply wp_ret, HDV; discriminate].
        apply wp_bind. nstep. apply wp_bind. eapply wp_nextc_rd; [exact HF|exact Hb|exact HR1|].
        clear HF Hb HDV. intros c b4 s4 HF Hb HA4 HN4. apply wp_ret. eapply HK; [exact HF|exact Hb| |].
        + clear - HA4 M Hfuel. destruct HA4 as [A1 A2 A3 A4 A5 A6 A7 A8]. constructor; auto; try lia.
          * eapply rd_mono; eauto. lia.
          * intros x Ex. destruct (A7 x Ex) as (X1 & X2 & X3 & X4). splits; auto; try lia; try apply X4.
        + left. pose proof (n_Rback B _ _ _ HN4) as H. clear - H M. lia.
      - apply wp_ret. eapply HK; [exact HF|exact Hb|exact HA|]. right. splits; auto.
    Qed.
  End Parse.

  (** skipping the spaces between the words of a list *)
  Lemma skip_list_spaces_ok : forall s0 s b lo (Q : MaybeByte -> Lexer -> Prop),
    FR s0 s -> buffer s = b -> Rd lo (Rm b) b ->
    (forall c s' b', FR s0 s' -> buffer s' = b' -> AR lo (Rm b) c b' -> is_space c = false -> Q c s') ->
    wp e (loop (fun _ : unit =>
               c <- nextc ;;
               if negb (is_space c) then ret (inr c) else ret (inl tt)) tt) Q s.
  Proof using All.
    intros s0 s b lo Q HF Hb HR HQ.
    apply wp_loop with (I := fun _ s => FR s0 s /\ Rd lo (Rm b) (buffer s)) (meas := fun _ s => Rm (buffer s)).
    { split; auto. rewrite Hb; auto. }
    { rewrite Hb. pose proof (Rm_le B b (rd_wf _ _ _ _ _ _ HR)). lia. }
    clear HF Hb s HR. intros _ s (HF & HR). remember (buffer s) as b1 eqn:Hb. symmetry in Hb.
    apply wp_bind. eapply wp_nextc_rd; [exact HF|exact Hb|exact HR|].
    clear HF Hb s. intros c b2 s HF Hb HA HN. destruct (is_space c) eqn:Es; cbn [negb].
    - apply wp_ret. rewrite Hb. destruct c as [x|]; [|discriminate].
      destruct (n_some B _ _ _ HN x eq_refl) as (_ & _ & _ & _ & M & _). splits; auto.
      destruct HA; constructor; auto.
    - apply wp_ret. eapply HQ; eauto.
  Qed.

  Lemma has_term_ldiff : forall f, has f STR_FUNC_TERM = false -> has (N.ldiff f STR_FUNC_LIST) STR_FUNC_TERM = false.
  Proof using All.
    intros f H. unfold has in *. replace (N.land (N.ldiff f STR_FUNC_LIST) STR_FUNC_TERM) with (N.land f STR_FUNC_TERM); auto.
    apply N.bits_inj. intros i. rewrite !N.land_spec, N.ldiff_spec.
    destruct (N.testbit STR_FUNC_LIST i) eqn:E1; [|rewrite andb_true_r; auto].
    destruct (N.testbit STR_FUNC_TERM i) eqn:E2; [|rewrite !andb_false_r; auto].
    exfalso. assert (H3 : N.testbit (N.land STR_FUNC_LIST STR_FUNC_TERM) i = true) by (rewrite N.land_spec, E1, E2; auto).
    change (N.land STR_FUNC_LIST STR_FUNC_TERM) with 0%N in H3. rewrite N.bits_0 in H3. discriminate.
  Qed.

  Theorem parse_string_ok : forall q s b (Q : Tok -> Lexer -> Prop),
    strterm s = Some (StringLit q) -> buffer s = b -> BWF B b -> gh b ->
    (forall t s', StrTok q s b t s' -> Q t s') ->
    wp e parse_string Q s.
  Proof using All.
    intros q s b Q Hq Hb HW HG HQ. unfold parse_string, take_strterm.
    apply wp_bind, wp_bind, wp_gets, wp_bind, wp_modify. rewrite Hq. apply wp_ret. apply wp_bind, wp_modify.
    cbn [buffer set_strterm]. rewrite Hb.
    set (s0 := set_lval_start (Some (pcur b)) (set_strterm None s)).
    assert (Hs0 : FRd s s0 /\ lval_start s0 = Some (pcur b) /\ lval_end s0 = lval_end s /\ strterm s0 = None).
    { splits; auto. exact (FRd_refl s). }
    assert (HF : FR s0 s0) by apply FR_refl. assert (Hb0 : buffer s0 = b) by exact Hb.
    pose proof (rd_refl b HW HG) as HR. clearbody s0.
    destruct (has (sl_func q) STR_FUNC_TERM) eqn:HT. { eapply parse_string_term_ok; eauto. }
    clear Hb. rename Hb0 into Hb. apply wp_bind.
    eapply wp_nextc_rd; [exact HF|exact Hb|exact HR|].
    clear HF Hb. intros c b1 s1 HF Hb HA HN. apply wp_bind.
    (** after skipping spaces *)
    assert (HK : forall c (space : bool) s1 b1, FR s0 s1 -> buffer s1 = b1 -> AR (pcur b) (Rm b) c b1 ->
      (if space then Rm (back c b1) < Rm b /\ (c <> None -> Rm b1 < Rm b)
       else NextPost b c b1 /\ (has (sl_func q) STR_FUNC_QWORDS = true -> is_space c = false)) ->
      wp e (
    let quote := if has (sl_func q) STR_FUNC_LIST then sl_set_func (N.ldiff (sl_func q) STR_FUNC_LIST) q
                 else q in
    let space := space || has (sl_func q) STR_FUNC_LIST in
    if mbeq c (sl_term q) && (sl_nest quote =? 0) then
      if has (sl_func q) STR_FUNC_QWORDS then
        pushback c ;;;
        restore_strterm (sl_set_func (N.lor (sl_func quote) STR_FUNC_TERM) quote) ;;;
        ret tSPACE
      else
        restore_strterm quote ;;;
        string_term (sl_term q) (sl_func q)
    else if space then
      pushback c ;;;
      restore_strterm quote ;;;
      ret tSPACE
    else parse_string_content quote (sl_func q) c) Q s1).
    { clear HF Hb HA HN c b1 s1. intros c space s1 b1 HF Hb HA HS. cbv zeta.
      set (q' := if has (sl_func q) STR_FUNC_LIST then sl_set_func (N.ldiff (sl_func q) STR_FUNC_LIST) q else q).
      assert (Hq' : sl_heredoc_end q' = sl_heredoc_end q /\ sl_term q' = sl_term q /\ sl_paren q' = sl_paren q /\
        sl_nest q' = sl_nest q /\ (has (sl_func q) STR_FUNC_LIST = false -> q' = q) /\
        (has (sl_func q) STR_FUNC_LIST = true -> To (Some (StringLit q')) = 2)).
      { unfold q'. destruct (has (sl_func q) STR_FUNC_LIST) eqn:El; splits; auto; try discriminate. intros _.
        cbn [To sl_func sl_set_func]. rewrite (has_term_ldiff _ HT), has_list_ldiff. auto. }
      clearbody q'. destruct Hq' as (q1 & q2 & q3 & q4 & q5 & q6).
      assert (HToq : To (Some (StringLit q)) = if has (sl_func q) STR_FUNC_LIST then 3 else 2).
      { cbn [To]. rewrite HT. auto. }
      assert (HRb : Rd (pcur b) (Rm b) (back c b1)) by (eapply ar_back; eauto).
      assert (HEb : Rm (back c b1) < Rm b \/ Eo (back c b1) <= Eo b).
      { destruct space; [left; apply HS|right; apply Eo_next; [auto|apply HS]]. }
      destruct (mbeq c (sl_term q) && (sl_nest q' =? 0)) eqn:Et.
      - destruct (has (sl_func q) STR_FUNC_QWORDS) eqn:Eq.
        + apply wp_bind. eapply wp_pushback; [exact HF|exact Hb|intros; eapply ar_pos; eauto|].
          clear HF Hb s1. intros s1 HF Hb. apply wp_bind, wp_modify, wp_ret. apply HQ.
          eapply str_some; eauto; try discriminate; rewrite Hb; auto.
          destruct HEb as [HEb|HEb]; [auto|right]. rewrite HToq. cbn [To sl_func sl_set_func].
          rewrite has_term_lor. clear - HEb. destruct (has (sl_func q) STR_FUNC_LIST); lia.
        + apply wp_bind, wp_modify.
          eapply string_term_ok with (b1 := b1); [exact Hs0|exact HW| |exact Hb| | |exact HQ].
          * destruct HF as (HF & _). split; [exact HF|]. destruct Hs0 as (_ & _ & _ & ->). reflexivity.
          * clear - HA. destruct HA; constructor; auto.
          * apply andb_prop in Et. destruct Et as (Et & _). apply mbeq_iff in Et. subst c.
            clear - HS. destruct space; [apply HS; discriminate|]. destruct HS as (HS & _).
            destruct (n_some B _ _ _ HS _ eq_refl) as (_ & _ & _ & _ & H & _). exact H.
      - destruct (space || has (sl_func q) STR_FUNC_LIST) eqn:Esp.
        + apply wp_bind. eapply wp_pushback; [exact HF|exact Hb|intros; eapply ar_pos; eauto|].
          clear HF Hb s1. intros s1 HF Hb. apply wp_bind, wp_modify, wp_ret. apply HQ.
          eapply str_some; eauto; try discriminate; rewrite Hb; auto.
          destruct space; [left; apply HS|]. cbn [orb] in Esp. rewrite HToq, Esp.
          destruct HEb as [HEb|HEb]; [auto|right]. rewrite (q6 Esp). lia.
        + apply orb_false_iff in Esp. destruct Esp as (-> & El). rewrite (q5 El) in *.
          destruct HS as (HS1 & HS2).
          eapply parse_string_content_ok with (b1 := b1); eauto. }
    destruct (has (sl_func q) STR_FUNC_QWORDS && is_space c) eqn:Es.
    - apply andb_prop in Es. destruct Es as (Es1 & Es2). destruct c as [x|]; [|discriminate].
      destruct (n_some B _ _ _ HN x eq_refl) as (_ & _ & _ & _ & M & _).
      assert (HR1 : Rd (pcur b) (Rm b1) b1) by (clear - HA; destruct HA; constructor; auto).
      apply wp_bind. eapply skip_list_spaces_ok; [exact HF|exact Hb|exact HR1|].
      clear HF Hb HA HN s1. intros c s1 b2 HF Hb HA Hsp. apply wp_ret. eapply (HK c true); [exact HF|exact Hb| |].
      + clear - HA M Hfuel. destruct HA as [A1 A2 A3 A4 A5 A6 A7 A8]. constructor; auto; try lia.
        * eapply rd_mono; eauto. lia.
        * intros y Ey. destruct (A7 y Ey) as (X1 & X2 & X3 & X4). splits; auto; try lia; try apply X4.
      + clear - HA M. destruct HA as [A1 A2 A3 A4 A5 A6 A7 A8]. destruct A5. split; [lia|]. intros; lia.
    - apply wp_ret. eapply (HK c false); [exact HF|exact Hb|exact HA|]. split; [exact HN|].
      intros E. rewrite E in Es. exact Es.
  Qed.
End Tok.
