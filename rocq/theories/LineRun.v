(** * Passing over line ends, comments and empty lines *)
Require Import Verif.Base Verif.MaybeByteM Verif.Utf8M Verif.InputM Verif.DiagnosticM Verif.TokensM Verif.BufferM Verif.LexStateM Verif.ScopesM
  Verif.LexerM Verif.LexIdentM Verif.LexMagicM Verif.LexMainM Verif.ParserClientM
  Verif.SourceSpec Verif.SourceProofs Verif.Wp Verif.BufInv Verif.LexSpec Verif.LexInv Verif.MagicInv Verif.NewlineInv Verif.MainInv Verif.RunInv Verif.FuelMono Verif.Prop_Lexer
  Verif.ReadSpec Verif.YylexSpec Verif.Reach Verif.IdentSpec Verif.Prop_Ident Verif.OpSpec Verif.OpStep Verif.Blind Verif.LineSpec Verif.LineStep Verif.DocStep.
Require Import ZifyBool ZifyNat ZifyN.

(** ** The state of the lexer decides what a line end means *)
Lemma line_class : forall st, ls_is_some st (N.lor (N.lor (N.lor EXPR_BEG EXPR_CLASS) EXPR_FNAME) EXPR_DOT) && negb (ls_is_some st EXPR_LABELED) = true <-> operand_to_come st.
Proof.
  intros st. rewrite andb_true_iff, negb_true_iff, !some_lor. unfold operand_to_come, in_state.
  change EXPR_BEG with (2 ^ b_beg)%N. change EXPR_CLASS with (2 ^ b_class)%N. change EXPR_FNAME with (2 ^ b_fname)%N. change EXPR_DOT with (2 ^ b_dot)%N.
  change EXPR_LABELED with (2 ^ b_labeled)%N. rewrite !some_pow, !orb_true_iff, not_true_iff_false. tauto.
Qed.
Lemma label_class : forall st, ls_is_all st (N.lor EXPR_ARG EXPR_LABELED) = true <-> behind_label st.
Proof. intros st. apply (all_two st b_arg b_labeled). discriminate. Qed.

Lemma tail_skip : forall sn e s, line_end_skipped (lex_state s) (ctx_get IN_KWARG (context s)) -> newline_tail sn e s = Ok (Retry sn) s.
Proof.
  intros sn e s H. unfold newline_tail. unfold bind at 1, get at 1. pose proof (line_class (lex_state s)) as H1. pose proof (label_class (lex_state s)) as H2.
  set (cc := ls_is_some _ _ && _) in *. set (dd := ls_is_all _ _) in *. unfold line_end_skipped in H.
  destruct H as [H|(H & E)].
  - apply H1 in H. rewrite H. reflexivity.
  - apply H2 in H. rewrite H, orb_true_r. rewrite E, andb_false_r. reflexivity.
Qed.
Lemma tail_counts : forall sn e s, line_end_counts (lex_state s) -> newline_tail sn e s = loop nl_body sn e s.
Proof.
  intros sn e s (Ha & Hb). unfold newline_tail. unfold bind at 1, get at 1. pose proof (line_class (lex_state s)) as H1. pose proof (label_class (lex_state s)) as H2.
  set (cc := ls_is_some _ _ && _) in *. set (dd := ls_is_all _ _) in *.
  destruct cc; [exfalso; tauto|]. destruct dd; [exfalso; tauto|]. reflexivity.
Qed.

(** The end of the source instead of a next line *)
Lemma nl_eof : forall B b t e sn s, 4 * List.length B + 20 < fuel e -> AtE B b t (List.length B) -> in_order b ->
  exists bN, BWF B bN /\ eofp bN = false /\ nextline bN = 0 /\ line_count bN = NL B /\ pcur bN = t /\ ptok bN = t /\ pend bN = List.length B /\
    loop nl_body sn e (set_buffer b s) = Ok (Tk tNL) (nl_done bN s).
Proof.
  intros B b t e sn s Hf HA HO. destruct (next_line B b t _ HA HO) as (b1 & K1 & K2 & K3 & K4 & K5 & K6 & K7 & K8 & K9 & _ & _ & K12).
  destruct (K12 eq_refl) as (K13 & K14). pose proof K1 as (W1 & N1 & E1). pose proof (w_last B b1 W1) as WL. pose proof (w_count B b1 W1) as WC. pose proof (w_pend B b1 W1) as WE.
  assert (HNL : line_count b1 = NL B).
  { unfold in_order in K9. rewrite N1 in K9. cbn in K9. destruct (Nat.eq_dec (lastline b1 + 1) (NL B)) as [E|E]; [lia|].
    destruct (line_newline B (lastline b1)) as (A & _ & _); [lia|]. lia. }
  destruct (go_back B e b b1 t _ s Hf HA) as (bN & I1 & I2 & I3 & I4); auto; try lia.
  { apply (w_bytes B b1 W1). } { apply (w_lines B b1 W1). }
  destruct I2 as [J1 J2 J3 J4 J5 J6 J7 J8]. exists bN. splits; auto; try congruence; try lia.
  unfold loop. replace (fuel e) with (S (fuel e - 1)) by lia. cbn [loop_n]. unfold bind at 1. unfold nl_body at 1. unfold bind at 1. unfold nextc, inb at 1, zoom. cbn [buffer set_buffer]. rewrite K14.
  cbn [mbeq is_eof orb]. change (set_buffer b1 (set_buffer b s)) with (set_buffer b1 s). unfold bind at 1 2. cbn [ret]. unfold bind. rewrite I1. reflexivity.
Qed.

Lemma set_comments_app : forall cs1 cs2 (s : Lexer) v b v' b', 
  set_comments (comments (set_comments (comments s ++ cs1) (set_token_seen v (set_buffer b s))) ++ cs2)
    (set_token_seen v' (set_buffer b' (set_comments (comments s ++ cs1) (set_token_seen v (set_buffer b s))))) =
  set_comments (comments s ++ cs1 ++ cs2) (set_token_seen v' (set_buffer b' s)).
Proof. intros. cbn. rewrite <- app_assoc. reflexivity. Qed.

(** ** The end of a line, with the comment lines that directly follow it *)
Lemma ends_run : forall p g cs t, ends_line p g cs t -> forall B b0, BWF B b0 -> upcoming b0 p -> in_order b0 -> text_at B p g -> (forall x, g = 10%N :: x -> whole B p) ->
  exists k bE, k <= List.length g /\ AtE B bE t (p + List.length g) /\ in_order bE /\
    forall e c seen sn s, 4 * List.length B + 20 < fuel e -> decoder e = None -> line_end_counts (lex_state s) ->
    exists sn', forall m, loop_n (k + S m) (lex_step c seen) sn e (set_buffer b0 s) =
      bind (bind (newline_tail sn') step_end) (fun r => match r with inl a => loop_n m (lex_step c seen) a | inr x => ret x end) e
        (set_comments (comments s ++ cs) (set_token_seen seen (set_buffer bE s))).
Proof.
  intros p g cs t H. induction H as [p rem el HR HEl|p rem el bl rest cs t HR HEl HB HN IH]; intros B b0 HW HU HO HT HWh.
  - destruct (end_step B b0 p rem el HW HU HT HR HEl) as (bE & A1 & A2 & A3 & A4).
    { intros -> ->. apply (HWh []). reflexivity. }
    exists 0, bE. rewrite app_length, Nat.add_assoc. splits; auto; [lia|].
    intros e c seen sn s Hf Hd HC. exists sn. intros m. cbn [Nat.add loop_n]. unfold bind at 1. rewrite A4 by auto. reflexivity.
  - rewrite app_assoc in HT. apply text_at_app in HT. destruct HT as (HT1 & HT2).
    destruct (end_step B b0 p rem el HW HU HT1 HR HEl) as (bE & A1 & A2 & A3 & A4).
    { intros -> ->. cbn [app] in HWh. eapply HWh. reflexivity. }
    set (z := p + List.length rem + List.length el) in *. rewrite app_length, Nat.add_assoc in HT2. fold z in HT2.
    apply text_at_app in HT2. destruct HT2 as (HT2 & HT3). set (r := z + List.length bl) in *.
    pose proof (text_at_len _ _ _ HT3 ltac:(discriminate)) as HL. cbn [List.length] in HL.
    pose proof HT3 as HX. apply text_at_cons in HX. destruct HX as (Hx & _).
    destruct (nl_start B bE _ z bl A1 (A3 HO) HB HT2) as (b1 & N1 & N2 & N3 & N4 & N5 & N6 & N7 & N8 & N9 & N10 & N11); [lia|]. fold r in N10, N11.
    pose proof N1 as (W1 & NN & NE).
    assert (W2 : BWF B (set_pcur r b1)) by (apply BWF_set_pcur; auto; try lia; intros _ _ A; congruence).
    destruct (IH B (set_pcur r b1)) as (k & bE' & I1 & I2 & I3 & I4); auto.
    { split; [exact NE|left]. cbn. splits; auto. }
    { discriminate. }
    exists (S k), bE'. rewrite !app_length. cbn [List.length] in *. splits.
    + destruct HEl; cbn [List.length]; lia.
    + replace (p + (List.length rem + (List.length el + (List.length bl + S (List.length rest))))) with (r + S (List.length rest)) by (unfold r, z; lia). exact I2.
    + exact I3.
    + intros e c seen sn s Hf Hd HC.
      set (s1 := set_comments (comments s ++ noted p rem el) (set_token_seen seen (set_buffer bE s))).
      destruct (I4 e c seen (sn || nonempty bl) s1 Hf Hd HC) as (sn' & I5). exists sn'. intros m.
      change (S k + S m) with (S (k + S m)). cbn [loop_n]. unfold bind at 1. rewrite A4 by auto. fold s1.
      unfold bind at 1. rewrite tail_counts by exact HC. change s1 with (set_buffer bE s1) at 1. rewrite N11 by lia.
      replace (fuel e - List.length bl) with (S (fuel e - List.length bl - 1)) by lia.
      rewrite (nl_more B) by (auto; lia). cbn [step_end ret]. rewrite I5. unfold s1. rewrite set_comments_app. reflexivity.
Qed.

Lemma atE_flush : forall B b t z, AtE B b t z -> AtE B (b_token_flush b) t z.
Proof. intros B b t z [H1 H2 H3 H4 H5 H6 H7 H8]. constructor; auto. unfold b_token_flush. apply BWF_set_ptok; auto. Qed.

Lemma atE_upcoming : forall B b t z, AtE B b t z -> in_order b -> z < List.length B -> upcoming b z.
Proof.
  intros B b t z HA HO HL. destruct (next_line B b t z HA HO) as (b1 & (W1 & N1 & E1) & K2 & K3 & K4 & K5 & K6 & K7 & K8 & K9 & _).
  destruct HA as [H1 H2 H3 H4 H5 H6 H7 H8]. split; auto. right. rewrite H3. cbn [Nat.eqb].
  unfold in_order in HO, K9. rewrite H3 in HO. rewrite N1 in K9. cbn [Nat.eqb] in HO, K9. pose proof (w_last B b1 W1). pose proof (w_count B b1 W1).
  destruct (line_some B (line_count b)) as (l & L1 & L2 & L3); [lia|]. exists l. unfold line_at. rewrite (w_lines B b H1), L1. splits; auto; try lia.
  rewrite L2. replace (line_count b) with (lastline b1) by lia. lia.
Qed.

(** The next line is read, in front of its first byte *)
Lemma atE_loaded : forall B b t z, AtE B b t z -> in_order b -> z < List.length B ->
  exists b1, Ready B b1 /\ pcur b1 = z /\ ptok b1 = z /\ z < pend b1 /\ bonus B b1 = 0 /\ in_order b1 /\
    forall e c seen sn s, lex_step c seen sn e (set_buffer b s) = lex_step c seen sn e (set_buffer b1 s).
Proof.
  intros B b t z HA HO HL. destruct (next_line B _ t z (atE_flush _ _ _ _ HA) HO) as (b1 & K1 & K2 & K3 & K4 & K5 & K6 & K7 & K8 & K9 & K10 & K11 & _).
  exists b1. splits; auto. { unfold bonus. lia. }
  intros e c seen sn s. unfold lex_step. unfold bind at 1 5. unfold gets. cbn [lex_state set_buffer].
  unfold bind at 1 4. unfold token_flush, modb, modify. cbn [buffer set_buffer].
  apply bind_same. unfold nextc, inb, zoom. cbn [buffer set_buffer]. rewrite (flush_same b1) by congruence. rewrite K11 by auto. destruct (b_nextc e b1); reflexivity.
Qed.

Lemma white_last : forall w, white w -> w = [] \/ exists u y, w = u ++ [y] /\ y <> 13%N.
Proof.
  intros w H. induction H as [|i w Hi Hw IH]; [auto|]. right. destruct IH as [->|(u & y & -> & Hy)].
  - rewrite app_nil_r. destruct Hi as [c Hc| |]; [exists [], c|exists [92%N], 10%N|exists [92%N; 13%N], 10%N]; split; auto; try discriminate. unfold blank in Hc. lia.
  - exists (i ++ u), y. rewrite app_assoc. auto.
Qed.

Lemma gap_nil : forall p cs, gap p [] cs -> cs = [].
Proof.
  intros p cs H. remember [] as g eqn:E. destruct H as [|p sp rem el rest cs _ _ HEl _|p doc rest cs HD _]; [reflexivity| |destruct HD; discriminate].
  apply app_eq_nil in E. destruct E as (_ & E). apply app_eq_nil in E. destruct E as (_ & E). apply app_eq_nil in E. destruct E as (E & _). destruct HEl; discriminate.
Qed.

(** ** Lines without a token, where a line end means nothing *)
Lemma gap_run : forall p g cs, gap p g cs -> g <> [] -> forall B b0, BWF B b0 -> upcoming b0 p -> in_order b0 -> text_at B p g -> (forall x, g = 10%N :: x -> whole B p) -> (forall x, g = 61%N :: x -> line_start B p) ->
  exists k bE t, k <= List.length g /\ AtE B bE t (p + List.length g) /\ in_order bE /\
    forall e c seen sn s, 4 * List.length B + 20 < fuel e -> decoder e = None -> line_end_skipped (lex_state s) (ctx_get IN_KWARG (context s)) ->
    exists sn' v, forall m, loop_n (k + m) (lex_step c seen) sn e (set_buffer b0 s) =
      loop_n m (lex_step c seen) sn' e (set_comments (comments s ++ cs) (set_token_seen v (set_buffer bE s))).
Proof.
  intros p g cs H. induction H as [p|p sp rem el rest cs HSp HR HEl HN IH|p doc rest cs HD HN IH]; intros Hne B b0 HW HU HO HT HWh HLs; [congruence| |].
 {
  apply text_at_app in HT. destruct HT as (HT0 & HT). rewrite app_assoc in HT. apply text_at_app in HT. destruct HT as (HT1 & HT2).
  set (q := p + List.length sp) in *.
  assert (Hre : rem ++ el <> []) by (destruct HEl; destruct rem; discriminate).
  assert (HqB : q < List.length B).
  { pose proof (text_at_len _ _ _ HT1 Hre). rewrite app_length in H. destruct HEl; cbn [List.length] in *; lia. }
  destruct (white_run B sp HSp b0 p HW (fun _ => HU) HT0 (fun _ => HO)) as (k0 & b1 & K1 & W1 & _ & O1 & Z1 & P1 & S1).
  assert (HU1 : upcoming b1 q).
  { destruct sp as [|x sp]; [rewrite (Z1 eq_refl); unfold q; cbn; rewrite Nat.add_0_r; exact HU|apply P1; auto; discriminate]. }
  destruct (end_step B b1 q rem el W1 HU1 HT1 HR HEl) as (bE & A1 & A2 & A3 & A4).
  { intros -> ->. destruct sp as [|x sp].
    - unfold q. cbn [List.length]. rewrite Nat.add_0_r. eapply HWh. reflexivity.
    - right. destruct (white_last _ HSp) as [A|(u & y & Hu & Hy)]; [discriminate|]. unfold q. rewrite Hu in *. rewrite app_length in *. cbn [List.length] in *.
      apply text_at_app in HT0. destruct HT0 as (_ & HT0). apply text_at_cons in HT0. destruct HT0 as (HT0 & _).
      replace (p + (List.length u + 1) - 1) with (p + List.length u) by lia. congruence. }
  set (z := q + List.length rem + List.length el) in *.
  assert (Hz : p + List.length (sp ++ rem ++ el ++ rest) = z + List.length rest) by (rewrite !app_length; unfold z, q; lia).
  assert (Hel : 1 <= List.length el) by (destruct HEl; cbn; lia).
  rewrite app_length, Nat.add_assoc in HT2. fold z in HT2. rewrite Hz.
  assert (Hk0 : forall e c seen sn s, 4 * List.length B + 20 < fuel e -> decoder e = None -> line_end_skipped (lex_state s) (ctx_get IN_KWARG (context s)) ->
     exists sn', forall m, loop_n (k0 + S m) (lex_step c seen) sn e (set_buffer b0 s) =
      loop_n m (lex_step c seen) sn' e (set_comments (comments s ++ noted q rem el) (set_token_seen seen (set_buffer bE s)))).
  { intros e c seen sn s Hf Hd HC. eexists. intros m. rewrite S1. cbn [loop_n]. unfold bind at 1. rewrite A4 by auto. unfold bind. rewrite tail_skip by exact HC. reflexivity. }
  destruct rest as [|x rest].
  - rewrite (gap_nil _ _ HN). exists (k0 + 1), bE, (q + List.length rem). cbn [List.length]. replace (z + 0) with z by lia. split; [rewrite !app_length; cbn [List.length]; lia|]. split; [exact A1|]. split; [auto|].
    intros e c seen sn s Hf Hd HC. destruct (Hk0 e c seen sn s Hf Hd HC) as (sn' & E). exists sn', seen. intros m. rewrite <- Nat.add_assoc, (app_nil_r (noted q rem el)). apply E.
  - pose proof (text_at_len _ _ _ HT2 ltac:(discriminate)) as HL2. cbn [List.length] in HL2.
    assert (WE : BWF B bE) by (destruct A1; auto).
    destruct (IH ltac:(discriminate) B bE) as (k & bE' & t & I1 & I2 & I3 & I4); auto.
    { eapply atE_upcoming; eauto. lia. }
    { intros _ _. right. pose proof (ae_lf _ _ _ _ A1) as A. intros C. congruence. }
    { intros _ _. right. exact (ae_lf _ _ _ _ A1). }
    exists (k0 + S k), bE', t. splits; auto.
    { rewrite !app_length. lia. }
    intros e c seen sn s Hf Hd HC. destruct (Hk0 e c seen sn s Hf Hd HC) as (sn1 & E).
    set (s1 := set_comments (comments s ++ noted q rem el) (set_token_seen seen (set_buffer bE s))) in *.
    destruct (I4 e c seen sn1 s1 Hf Hd HC) as (sn' & v & I5). exists sn', v. intros m.
    replace (k0 + S k + m) with (k0 + S (k + m)) by lia. rewrite E. change s1 with (set_buffer bE s1) at 1. rewrite I5. unfold s1. rewrite set_comments_app. reflexivity. }
  apply text_at_app in HT. destruct HT as (HT1 & HT2). assert (Hd1 : 1 <= List.length doc) by (destruct HD; cbn; lia).
  destruct (doc_step B b0 p doc HW HU HO HT1 HD) as (bE & t & A1 & A2 & A3). { destruct HD. eapply HLs. reflexivity. }
  rewrite app_length, Nat.add_assoc. set (z := p + List.length doc) in *.
  destruct rest as [|x rest].
  - rewrite (gap_nil _ _ HN). exists 1, bE, t. cbn [List.length]. rewrite !Nat.add_0_r. splits; auto; try lia.
    intros e c seen sn s Hf Hd HC. exists sn, (token_seen s). intros m. cbn [Nat.add loop_n]. unfold bind at 1. rewrite A3 by auto. destruct s; reflexivity.
  - pose proof (text_at_len _ _ _ HT2 ltac:(discriminate)) as HL2. cbn [List.length] in HL2.
    assert (WE : BWF B bE) by (destruct A1; auto).
    destruct (IH ltac:(discriminate) B bE) as (k & bE' & t' & I1 & I2 & I3 & I4); auto.
    { eapply atE_upcoming; eauto. lia. }
    { intros _ _. right. pose proof (ae_lf _ _ _ _ A1) as A. intros C. congruence. }
    { intros _ _. right. exact (ae_lf _ _ _ _ A1). }
    exists (S k), bE', t'. splits; auto; try lia.
    intros e c seen sn s Hf Hd HC.
    set (s1 := set_comments (comments s ++ [mkComment (mkLoc p z) Document]) (set_buffer bE s)).
    destruct (I4 e c seen sn s1 Hf Hd HC) as (sn' & v & I5). exists sn', v. intros m.
    cbn [Nat.add loop_n]. unfold bind at 1. rewrite A3 by auto. fold z s1. change s1 with (set_buffer bE s1) at 1. rewrite I5. unfold s1. cbn [comments set_comments].
    rewrite <- app_assoc. reflexivity.
Qed.
