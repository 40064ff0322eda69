(** * Invariant of whole runs: Lexer::new followed by tokenize_until_eof *)
Require Import Verif.Base Verif.MaybeByteM Verif.Utf8M Verif.InputM Verif.DiagnosticM Verif.LexStateM
  Verif.StackStateM Verif.ScopesM Verif.TokensM Verif.ReservedM Verif.BufferM Verif.LexerM Verif.LexNumericM Verif.LexStringM
  Verif.LexIdentM Verif.LexHeredocM Verif.LexMagicM Verif.LexMainM
  Verif.SourceSpec Verif.SourceProofs Verif.Wp Verif.BufInv Verif.LexInv Verif.TokInv
  Verif.HereInv Verif.HereDocInv Verif.MagicInv Verif.LexSpec Verif.NewlineInv Verif.MainInv.
Require Import ZifyBool ZifyNat ZifyN.

Section Run.
  Variables (B : list N) (e : Env).

  (** What Lexer::new establishes *)
  Record Fresh (b : Buffer) : Prop := mkFresh {
    fr_wf : BWF B b;
    fr_bonus : bonus B b = 0 \/ (bonus B b = 3 /\ lastline b = 0 /\ text_at B 0 [239; 187; 191]%N);
    fr_rm : Rm B b + bonus B b <= List.length B
  }.

  Lemma buffer_new_ok : forall name b0 (Q : unit -> Buffer -> Prop),
    (forall b, Fresh b -> Q tt b) -> wp e (buffer_new name B) Q b0.
  Proof using.
    intros name b0 Q HQ. unfold buffer_new, prepare. apply wp_bind, wp_modify. apply wp_bind.
    unfold b_nextc. apply wp_bind, wp_get. apply wp_bind.
    cbn [buffer_default pcur pend Nat.eqb orb]. unfold b_nextline. apply wp_bind, wp_get. apply wp_bind, wp_modify.
    cbn [buffer_default nextline eofp pbeg pend Nat.eqb Nat.ltb Nat.leb].
    apply wp_bind, wp_ret. apply wp_bind. unfold getline. apply wp_bind, wp_get.
    cbn [set_nextline buffer_default line_count input].
    pose proof (NL_pos B) as HNL.
    destruct (0 <? List.length (d_lines (update_bytes B (named name)))) eqn:E0.
    2: { exfalso. rewrite update_bytes_lines in E0. unfold NL in HNL. lia. }
    apply wp_bind, wp_modify, wp_ret. apply wp_bind, wp_modify.
    apply (load_line_ok B); [apply update_bytes_lines|lia|].
    intros b1 I1 I2 I3 I4 I5 I6 I7 I8 I9 I10 I11 I12 I13 I14. cbn in I1, I2, I3, I5, I10. rewrite lstart_0 in *.
    pose proof (line_bounds B 0 ltac:(lia)) as LB. rewrite lstart_0 in LB.
    assert (HW1 : BWF B b1).
    { constructor; rewrite ?I2, ?I3, ?I4, ?I5, ?I6, ?I7, ?I8, ?I9, ?lstart_0; auto; try lia.
      - unfold bytes. rewrite I1. apply update_bytes_table.
      - rewrite I1. apply update_bytes_lines.
      - intros p Ep. injection Ep as <-. lia. }
    assert (HB1 : bonus B b1 = 0) by (unfold bonus; rewrite I6; lia).
    assert (HF1 : forall v, Fresh (set_has_shebang v b1)).
    { intros v. constructor.
      - destruct HW1; constructor; auto.
      - left. exact HB1.
      - change (Rm B b1 + bonus B b1 <= List.length B). pose proof (Rm_le B b1 HW1). lia. }
    assert (HF0 : Fresh b1).
    { constructor; auto. pose proof (Rm_le B b1 HW1). lia. }
    assert (HK : forall x b', pcur b1 < pend b1 -> Read1 B b1 x b' ->
      wp e (if is_eof (Some x) then ret tt
            else if mbeq (Some x) "#" then
              p <- b_peek "!" ;; when p (modify (set_has_shebang true)) ;;; b_pushback (Some x)
            else if mbeq (Some x) 239%N then
              b <- get ;;
              room <- sub_ck (pend b) (pcur b) ;;
              if (2 <=? room) && mbeq (byte_at b (pcur b)) 187%N && mbeq (byte_at b (pcur b + 1)) 191%N then
                modify (fun b => set_pcur (pcur b + 2) b) ;;;
                modify (fun b => set_pbeg (pcur b) b)
              else b_pushback (Some x)
            else b_pushback (Some x)) Q b').
    { intros x b' Hlt [R1 R2 R3 R4 R5 R6 R7]. cbn [is_eof].
      assert (HP : back (Some x) b' = b1) by (rewrite R6, R5; destruct b1; reflexivity).
      assert (HPush : forall b'', b'' = b' -> wp e (b_pushback (Some x)) Q b'').
      { intros b'' ->. apply pushback_back; [lia|]. rewrite HP. apply HQ. exact HF0. }
      destruct (mbeq (Some x) "#").
      - apply wp_bind. unfold b_peek. apply (peek_ok B); auto; intros.
        + apply wp_bind, wp_when; intros Hw; [|discriminate]. apply wp_modify.
          apply pushback_back; [intros _; cbn [pcur set_has_shebang]; lia|].
          replace (back (Some x) (set_has_shebang true b')) with (set_has_shebang true (back (Some x) b')).
          * rewrite HP. apply HQ, HF1.
          * unfold back. destruct b'; cbn. destruct (_ && _ && _); reflexivity.
      - destruct (mbeq (Some x) 239%N) eqn:Ex; [|auto].
        apply mbeq_iff in Ex. injection Ex as ->.
        apply wp_bind, wp_get, wp_bind. pose proof (w_pcur2 B b' R1) as W2. apply wp_sub_ck; [lia|].
        rewrite R7 in * by discriminate. rewrite I7 in *. cbn [Nat.add] in *.
        destruct (_ && _ && _) eqn:Eb; [|auto].
        apply andb_prop in Eb. destruct Eb as (Eb & Eb3). apply andb_prop in Eb. destruct Eb as (Eb1 & Eb2).
        rewrite !byte_at_B with (B := B) in * by auto. apply mbeq_iff in Eb2, Eb3. apply Nat.leb_le in Eb1.
        apply wp_bind, wp_modify, wp_modify. cbn [set_pcur pcur]. apply HQ. rewrite R5. rewrite R5 in Eb1. cbn [pend set_pcur] in Eb1.
        assert (HT : text_at B 0 [239; 187; 191]%N).
        { unfold text_at. cbn [List.length skipn firstn Nat.sub] in *. destruct B as [|x0 [|x1 [|x2 r]]]; cbn in *; congruence. }
        constructor.
        + destruct HW1. constructor; cbn; auto; rewrite ?I4, ?lstart_0; try lia.
        + right. unfold bonus. cbn. rewrite I4, lstart_0. auto.
        + unfold Rm, bonus. cbn. rewrite I10, I5, I4, I2, lstart_0. cbn [Nat.eqb].
          pose proof (lstart_mono B 1 ltac:(lia) 0 ltac:(lia)). pose proof (lstart_le B 1). lia. }
    cbn [negb]. apply (read_here B); auto.
    - intros _ _. cbn [is_eof]. apply wp_ret. apply HQ. exact HF0.
    - intros x H1 H2 H3. apply HK; auto. apply read1_plain; auto.
    - intros H1 H2 H3. apply HK; [lia|]. apply read1_crlf; auto.
    - destruct (Nat.eq_dec (lstart B 0) (lend B 0)) as [E1|E1]; rewrite lstart_0 in E1; [|lia].
      destruct (empty_last_line B 0) as (_ & E2 & _); try lia. rewrite lstart_0. lia.
  Qed.

  Hypothesis Hfuel : 9 * List.length B + 20 < fuel e.
  Hypothesis Hdec : safe_decoder e B.

  (** The result of a run *)
  Record RunOk (toks : list Token) (s : Lexer) : Prop := mkRunOk {
    ro_count : List.length toks <= 9 * List.length B + 3;
    ro_ranges : Forall (range_ok B) toks \/ unterm s;
    ro_comments : Forall (comment_ok B) (comments s);
    ro_magic : Forall (magic_ok B) (magic_comments s);
    ro_diags : Forall (diag_ok B) (diagnostics s)
  }.

  Lemma unterm_mono : forall s s', FRx B s s' -> unterm s -> unterm s'.
  Proof using.
    clear. intros s s' (_ & _ & ds & H & _) (d & id & H1 & H2). exists d, id. rewrite H. split; auto. apply in_or_app; auto.
  Qed.

  Lemma tokenize_ok : forall b (Q : list Token -> Lexer -> Prop), Fresh b ->
    (forall ts s, RunOk ts s -> Q ts s) -> wp e tokenize_until_eof Q (lexer_init b).
  Proof using Hfuel Hdec.
    intros b Q HF HQ. set (s0 := lexer_init b).
    assert (HL0 : LInv B s0).
    { destruct HF. constructor; auto; exact I. }
    assert (HT0 : TM B s0 <= 9 * List.length B + 3).
    { unfold TM, Phi. change (buffer s0) with b. change (strterm s0) with (@None StrTerm). cbn [To].
      pose proof (Eo_2 B b). pose proof (Lc_1 B b). pose proof (fr_rm _ HF). lia. }
    unfold tokenize_until_eof.
    apply wp_loop with (I := fun ts s => LInv B s /\ FRx B s0 s /\ List.length ts + TM B s <= TM B s0 /\
        (Forall (range_ok B) ts \/ unterm s \/ doomed B s)) (meas := fun _ s => TM B s).
    - splits; auto. { apply FRd_FRx, FRd_refl. }
    - lia.
    - intros ts s (HL & HX & HT & HR). apply wp_bind. apply (yylex_ok B e ltac:(lia) Hdec); auto.
      intros t s' (Y1 & Y2 & Y3).
      assert (HX' : FRx B s0 s') by (eapply FRx_trans; eauto).
      destruct (tok_eqb (token_type t) END_OF_INPUT) eqn:Et; apply wp_ret.
      + apply HQ. destruct HX' as ((cs & C1 & C2) & (ms & C3 & C4) & (ds & C5 & C6)).
        constructor; try lia.
        * destruct HR as [HR|[HR|HR]]; [auto|right; exact (unterm_mono _ _ Y1 HR)|auto].
        * rewrite C1. exact C2.
        * rewrite C3. exact C4.
        * rewrite C5. exact C6.
      + assert (Hn : token_type t <> END_OF_INPUT) by (intros E; rewrite E in Et; discriminate Et).
        destruct (Y2 Hn) as (Z1 & Z2 & Z3 & _). splits; auto.
        * rewrite app_length. cbn [List.length]. lia.
        * destruct HR as [HR|[HR|HR]]; [|right; left; exact (unterm_mono _ _ Y1 HR)|right; left; auto].
          destruct Z3 as [Z3|Z3]; [|auto]. left. apply Forall_app. auto.
  Qed.

  Theorem run_lexer_ok : forall name, exists ts s, run_lexer B name e = Ok ts s /\ RunOk ts s.
  Proof using Hfuel Hdec.
    intros name. unfold run_lexer, lexer_new.
    pose proof (buffer_new_ok name (buffer_default (named name)) (fun _ b => Fresh b) (fun _ H => H)) as H.
    unfold wp in H. destruct (buffer_new name B e (buffer_default (named name))) as [a b|w|]; try contradiction.
    pose proof (tokenize_ok b (fun ts s => RunOk ts s) H (fun _ _ H => H)) as H'.
    unfold wp in H'. destruct (tokenize_until_eof e (lexer_init b)) as [ts s|w|]; try contradiction. eauto.
  Qed.
End Run.
