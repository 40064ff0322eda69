(** * C51: line ends, comments and empty lines *)
Require Import Verif.Base Verif.MaybeByteM Verif.Utf8M Verif.InputM Verif.DiagnosticM Verif.TokensM Verif.BufferM Verif.LexStateM Verif.ScopesM
  Verif.LexerM Verif.LexIdentM Verif.LexMagicM Verif.LexMainM Verif.ParserClientM
  Verif.SourceSpec Verif.SourceProofs Verif.Wp Verif.BufInv Verif.LexSpec Verif.LexInv Verif.MagicInv Verif.NewlineInv Verif.MainInv Verif.RunInv Verif.FuelMono Verif.Prop_Lexer
  Verif.ReadSpec Verif.YylexSpec Verif.Reach Verif.NumberSpec Verif.NumRead Verif.Prop_Number Verif.IdentSpec Verif.IdentRead Verif.IdentStep Verif.Prop_Ident Verif.Prop_Var Verif.Prop_End Verif.Prop_White Verif.OpSpec Verif.OpStep Verif.Blind
  Verif.LineSpec Verif.LineStep Verif.LineRun Verif.LineAgree Verif.Prop_Bracket.
Require Import ZifyBool ZifyNat ZifyN.

Lemma request_ends : forall B n upper s, LInv B s -> enough B <= n -> yylex (plain_env n upper) s <> OutOfFuel.
Proof.
  intros B n upper s HL Hn. unfold enough in Hn. pose proof (yylex_ok B (plain_env n upper)) as Y.
  specialize (Y ltac:(cbn; lia) (MagicInv.no_decoder_safe (plain_env n upper) B eq_refl) s (fun _ _ => True) HL (fun _ _ _ => I)).
  unfold wp in Y. destruct (yylex (plain_env n upper) s); try contradiction; discriminate.
Qed.

(** A line feed that comes next is not the second half of CR LF *)
Lemma start_prev : forall B k, k < NL B -> lstart B k = 0 \/ nth_error B (lstart B k - 1) = Some 10%N.
Proof.
  intros B k H. destruct k as [|k]; [left; apply lstart_0|]. right. destruct (line_newline B k) as (_ & A & _); [lia|].
  rewrite lend_next in A by lia. replace (k + 1) with (S k) in A by lia. exact A.
Qed.
Lemma upcoming_whole : forall B s q, LInv B s -> upcoming (buffer s) q -> nth_error B q = Some 10%N -> whole B q.
Proof.
  intros B s q [HW HBn _ _] (HE & HU) Hq. pose proof (w_last B _ HW) as WL. pose proof (w_count B _ HW) as WC. pose proof (w_pbeg B _ HW) as WB. pose proof (w_pcur1 B _ HW) as W1.
  destruct HU as [(H1 & H2 & ->)|(l & H1 & -> & H3)].
  - destruct (Nat.eq_dec (pbeg (buffer s)) (pcur (buffer s))) as [E|E].
    + unfold bonus in HBn. destruct HBn as [HBn|(HBn & H0 & HT)].
      * assert (Hs : pcur (buffer s) = lstart B (lastline (buffer s))) by lia. rewrite Hs. destruct (start_prev B (lastline (buffer s))) as [A|A]; [lia|left; auto|right; congruence].
      * right. rewrite H0, lstart_0 in HBn. replace (pcur (buffer s) - 1) with 2 by lia. apply text_at_cons in HT. destruct HT as (_ & HT). apply text_at_cons in HT. destruct HT as (_ & HT). apply text_at_cons in HT. destruct HT as (HT & _). change (0 + 1 + 1) with 2 in HT. rewrite HT. discriminate.
    + right. intros A. apply (w_nosplit B _ HW); auto. lia.
  - set (k := if nextline (buffer s) =? 0 then line_count (buffer s) else nextline (buffer s)) in *. unfold line_at in H1. rewrite (w_lines B _ HW) in H1.
    assert (Hk : k < NL B). { assert (A : nth_error (LN B) k <> None) by congruence. apply nth_error_Some in A. exact A. }
    destruct (line_some B k Hk) as (l' & L1 & L2 & L3). rewrite L1 in H1. injection H1 as <-. unfold whole. rewrite L2. destruct (start_prev B k Hk) as [A|A]; [left; auto|right; congruence].
Qed.

Lemma yylex_newline : forall e s s2, strterm s = None -> lval_start s2 = None ->
  loop (lex_step (command_start s) (token_seen s)) false e (set_token_seen true (set_command_start false (set_lval None s))) = Ok (inl tNL) s2 ->
  yylex e s = Ok (mkToken tNL [10%N] (mkLoc (ptok (buffer s2)) (ptok (buffer s2) + 1))) (set_lval None (set_lval_end None (set_lval_start None s2))).
Proof.
  intros e s s2 ST HL H. unfold yylex. unfold bind at 1, modify at 1. unfold bind at 1. rewrite parser_yylex_none by exact ST.
  change (command_start (set_lval None s)) with (command_start s). change (token_seen (set_lval None s)) with (token_seen s). rewrite H.
  cbn [ret]. unfold bind at 1, get at 1. rewrite HL. reflexivity.
Qed.

(** What a statement end leaves behind *)
Record LineDone (B : list N) (s s' : Lexer) (cs : list Comment) (z : nat) : Prop := mkLineDone {
  ld_term : strterm s' = None;
  ld_state : lex_state s' = EXPR_BEG;
  ld_cmd : command_start s' = true;
  ld_comments : comments s' = comments s ++ cs;
  ld_diags : diagnostics s' = diagnostics s;
  ld_next : z < List.length B -> upcoming (buffer s') z /\ in_order (buffer s')
}.

Lemma ends_last : forall p g cs t, ends_line p g cs t -> forall B, text_at B p g -> (forall x, g = 10%N :: x -> whole B p) ->
  exists u el, g = u ++ el /\ eol el /\ t = p + List.length u /\ (el = [10%N] -> whole B t).
Proof.
  intros p g cs t H. induction H as [p rem el HR HEl|p rem el bl rest cs t HR HEl HB HN IH]; intros B HT HWh.
  - exists rem, el. splits; auto. intros ->. destruct rem as [|c w].
    + cbn [List.length]. rewrite Nat.add_0_r. apply (HWh []). reflexivity.
    + right. apply text_at_app in HT. destruct HT as (HT & _). destruct (@exists_last _ (c :: w) ltac:(discriminate)) as (u & y & E).
      assert (Hy : y <> 13%N).
      { intros ->. assert (K : In 13%N (c :: w)) by (rewrite E; apply in_or_app; right; left; reflexivity). inversion HR; subst; (destruct K as [K|K]; [discriminate|contradiction]). }
      rewrite E in *. rewrite app_length. cbn [List.length]. apply text_at_app in HT. destruct HT as (_ & HT). apply text_at_cons in HT. destruct HT as (HT & _).
      replace (p + (List.length u + 1) - 1) with (p + List.length u) by lia. congruence.
  - destruct (IH B) as (u & el' & E1 & E2 & E3 & E4).
    { rewrite !app_assoc in HT. apply text_at_app in HT. destruct HT as (_ & HT). rewrite !app_length in HT. rewrite <- !Nat.add_assoc in *. exact HT. }
    { discriminate. }
    exists (rem ++ el ++ bl ++ u), el'. splits; auto.
    + rewrite E1. rewrite !app_assoc. reflexivity.
    + rewrite !app_length. lia.
Qed.

Lemma line_end_step : forall B n upper s p sp g bl cs t,
  LInv B s -> strterm s = None -> upcoming (buffer s) p -> in_order (buffer s) -> text_at B p (sp ++ g ++ bl) -> white sp ->
  line_end_counts (lex_state s) -> ends_line (p + List.length sp) g cs t -> Forall blank bl ->
  let z := p + List.length sp + List.length g in
  new_line B (z + List.length bl) \/ (z = List.length B /\ bl = []) -> enough B <= n ->
  exists s', yylex (plain_env n upper) s = Ok (mkToken tNL [10%N] (mkLoc t (t + 1))) s' /\ LineDone B s s' cs z /\
    (z = List.length B -> exists tk s2, yylex (plain_env n upper) s' = Ok tk s2 /\ token_type tk = END_OF_INPUT /\ comments s2 = comments s' /\ diagnostics s2 = diagnostics s').
Proof.
  intros B n upper s p sp g bl cs t HL ST HU HO HT HSp HC HE HBl z HN Hn. set (e := plain_env n upper).
  assert (HWh : forall x, sp ++ g = 10%N :: x -> whole B p).
  { intros x Hx. apply (upcoming_whole B s); auto. rewrite app_assoc, Hx in HT. apply text_at_cons in HT. tauto. }
  assert (Hf : 4 * List.length B + 20 < fuel e) by (unfold enough in Hn; cbn; lia).
  pose proof HL as [HW _ _ (L1 & L2)].
  apply text_at_app in HT. destruct HT as (HT0 & HT). apply text_at_app in HT. destruct HT as (HT1 & HT2). fold z in HT2.
  assert (Hg : g <> []) by (destruct HE as [? ? ? _ HEl|? ? ? ? ? ? ? _ HEl _ _]; destruct HEl; destruct rem; discriminate).
  pose proof (text_at_len _ _ _ HT1 Hg) as HgL. fold z in HgL.
  assert (Hg1 : 1 <= List.length g) by (destruct g; [congruence|cbn; lia]).
  set (s1 := set_token_seen true (set_command_start false (set_lval None s))).
  destruct (white_run B sp HSp (buffer s) p HW (fun _ => HU) HT0 (fun _ => HO)) as (k0 & b1 & K1 & W1 & _ & O1 & Z1 & P1 & S1).
  assert (HU1 : upcoming b1 (p + List.length sp)).
  { destruct sp as [|x sp]; [rewrite (Z1 eq_refl); cbn; rewrite Nat.add_0_r; exact HU|apply P1; [discriminate|lia]]. }
  destruct (ends_run _ _ _ _ HE B b1 W1 HU1 (O1 HO) HT1) as (k & bE & A1 & A2 & A3 & A4).
  { intros x Hx. destruct sp as [|y sp].
    - cbn [List.length]. rewrite Nat.add_0_r. eapply HWh. exact Hx.
    - right. destruct (white_last _ HSp) as [A|(u & y' & Hu & Hy)]; [discriminate|]. rewrite Hu in *. rewrite app_length in *. cbn [List.length] in *.
      apply text_at_app in HT0. destruct HT0 as (_ & HT0). apply text_at_cons in HT0. destruct HT0 as (HT0 & _).
      replace (p + (List.length u + 1) - 1) with (p + List.length u) by lia. congruence. }
  fold z in A2.
  destruct (A4 e (command_start s) (token_seen s) (nonempty sp) s1 Hf eq_refl HC) as (sn' & A5).
  set (sE := set_comments (comments s1 ++ cs) (set_token_seen (token_seen s) (set_buffer bE s1))) in *.
  (* the line end itself *)
  assert (HM : exists bN, BWF B bN /\ eofp bN = false /\ pcur bN = t /\ ptok bN = t /\ pend bN = z /\ (z < List.length B -> upcoming bN z /\ in_order bN) /\
    (z = List.length B -> nextline bN = 0) /\
    loop nl_body sn' e sE = Ok (Tk tNL) (nl_done bN sE)).
  { destruct HN as [HN|(Hz & Hb)].
    - assert (HzL : z + List.length bl < List.length B) by (destruct HN as (x & Hx & _); apply nth_error_Some; congruence).
      destruct (nl_start B bE t z bl A2 A3 HBl HT2 HzL) as (b2 & N1 & N2 & N3 & N4 & N5 & N6 & N7 & N8 & N9 & N10 & N11).
      specialize (N11 e sn' sE ltac:(lia)). replace (fuel e - List.length bl) with (S (fuel e - List.length bl - 1)) in N11 by lia.
      destruct (nl_new B bE t z b2 (z + List.length bl) e (fuel e - List.length bl - 1) (sn' || nonempty bl) sE Hf A2 N1 N2 N5 N6 N7 N8 N9) as (bN & M1 & M2 & M3 & M4 & M5 & M6 & M7); auto; [lia|].
      exists bN. splits; auto; try lia; try apply M2. change sE with (set_buffer bE sE) at 1. rewrite N11. exact M7.
    - rewrite Hz in A2. destruct (nl_eof B bE t e sn' sE Hf A2 A3) as (bN & M1 & M2 & M3 & M4 & M5 & M6 & M7 & M8). exists bN. splits; auto; lia. }
  destruct HM as (bN & M1 & M2 & M3 & M4 & M5 & M6 & M7 & M8).
  assert (Hloop : loop (lex_step (command_start s) (token_seen s)) false e s1 = Ok (inl tNL) (nl_done bN sE)).
  { unfold loop. replace (fuel e) with (k0 + (k + S (fuel e - k0 - k - 1))) by lia. change s1 with (set_buffer (buffer s) s1) at 1. rewrite S1. cbn [orb]. rewrite A5.
    unfold bind at 1 2. rewrite tail_counts by exact HC. rewrite M8. reflexivity. }
  pose proof (yylex_newline e s (nl_done bN sE) ST L1 Hloop) as HY.
  change (ptok (buffer (nl_done bN sE))) with (ptok bN) in HY. rewrite M4 in HY.
  eexists. split; [exact HY|]. split.
  { constructor; auto. }
  (* the end of the source *)
  intros Hz. set (s' := set_lval None _).
  assert (HLs : LInv B s') by (eapply step_inv; [exact HL|exact HY|discriminate]).
  destruct (ends_last _ _ _ _ HE B HT1) as (u & el & Hu & Hel & Ht & Hwt).
  { intros x Hx. destruct sp as [|y sp].
    - cbn [List.length]. rewrite Nat.add_0_r. eapply HWh. exact Hx.
    - right. destruct (white_last _ HSp) as [A|(w & y' & Hu & Hy)]; [discriminate|]. rewrite Hu in *. rewrite app_length in *. cbn [List.length] in *.
      apply text_at_app in HT0. destruct HT0 as (_ & HT0). apply text_at_cons in HT0. destruct HT0 as (HT0 & _).
      replace (p + (List.length w + 1) - 1) with (p + List.length w) by lia. congruence. }
  assert (HTt : text_at B t ([] ++ el)) by (rewrite Hu in HT1; apply text_at_app in HT1; destruct HT1 as (_ & HT1); rewrite Ht; exact HT1).
  assert (Htz : t + List.length el = z) by (unfold z; rewrite Hu, app_length; lia).
  assert (Hel1 : 1 <= List.length el) by (destruct Hel; cbn; lia).
  destruct (end_step B bN t [] el M1) as (b2 & G1 & G2 & G3 & G4); auto.
  { split; auto. left. splits; auto. lia. }
  { constructor. }
  cbn [List.length] in G1, G4. rewrite Nat.add_0_r, Htz in G1.
  assert (HB2 : BWF B b2 /\ AtEnd B b2). { destruct G1 as [X1 X2 X3 X4 X5 X6 X7 X8]. split; auto. right. lia. }
  destruct HB2 as (W2 & AE2).
  assert (HAg : agree (yylex e s') (yylex e (set_comments (comments s') (set_buffer b2 s')))).
  { apply (skip_agree e s' b2 (comments s') 1); auto; try lia.
    - eapply request_ends; eauto.
    - intros v. apply (ind_end B); auto.
    - exists false, (token_seen s'). intros m. cbn [Nat.add loop_n]. unfold bind at 1.
      change (set_token_seen true (set_command_start false (set_lval None s'))) with (set_buffer bN (set_token_seen true (set_command_start false (set_lval None s')))).
      rewrite G4 by auto. unfold bind. rewrite tail_skip.
      2: { left. unfold operand_to_come, in_state. vm_compute. intuition discriminate. }
      cbn [step_end ret]. f_equal. cbn [noted]. rewrite app_nil_r. reflexivity. }
  assert (HG : wp e yylex (fun tk s2 => token_type tk = END_OF_INPUT /\ comments s2 = comments s' /\ diagnostics s2 = diagnostics s') (set_comments (comments s') (set_buffer b2 s'))).
  { apply (blank_end B e _ (List.length B) []); auto.
    - left. splits; auto. destruct G1 as [X1 X2 X3 X4 X5 X6 X7 X8]. cbn; lia.
    - reflexivity.
    - cbn [List.length]. lia. }
  unfold wp in HG. destruct (yylex e (set_comments _ _)) as [tk s2| |]; try contradiction. destruct (yylex e s') as [tk' s2'| |]; cbn in HAg; try contradiction.
  destruct HAg as (-> & (v & ->)). cbn in HG. exists tk, s2'. splits; tauto.
Qed.

Lemma same_line : forall B b r x, BWF B b -> r < pend b -> nth_error B r = Some x -> x <> 10%N -> r + 1 < List.length B -> r + 1 < pend b.
Proof.
  intros B b r x HW Hr Hx Hn HL. destruct (Nat.eq_dec (r + 1) (pend b)) as [E|E]; [exfalso|lia].
  pose proof (w_last B b HW). pose proof (w_count B b HW). pose proof (w_pend B b HW) as We.
  destruct (Nat.eq_dec (lastline b + 1) (NL B)) as [E2|E2]. { destruct (line_last B _ E2) as (A & _). lia. }
  destruct (line_newline B (lastline b)) as (_ & A & _); [lia|]. rewrite <- We, <- E in A. replace (r + 1 - 1) with r in A by lia. congruence.
Qed.

(** Where the flag for white space makes no difference, by the text that comes next *)
Definition plain_start (B : list N) (r : nat) : Prop :=
  (exists i, white_item i /\ text_at B r i) \/ (exists x, nth_error B r = Some x /\ heedless x) \/
  (leading_dot B r /\ exists y, nth_error B (r + 1) = Some y /\ y <> 13%N /\ ~ digit y).

Lemma ind_start : forall B e s r, BWF B (buffer s) -> upcoming (buffer s) r -> plain_start B r -> indifferent e s.
Proof.
  intros B e s r HW HU [(i & Hi & HT)|[(x & Hx & Hh)|(HD & y & Hy & Hy13 & Hyd)]].
  - eapply ind_white; eauto.
  - eapply ind_byte; eauto.
  - apply ind_nextc. intros c0 s2 E c sn sn' seen st.
    assert (HL : r + 1 < List.length B) by (apply nth_error_Some; congruence).
    destruct (flush_nextc B _ r HW HU ltac:(lia)) as (b1 & R1 & R2 & R3 & R4 & R5 & R6 & R7). pose proof R1 as (W1 & N1 & E1).
    assert (HX : exists x, nth_error B r = Some x /\ (x = 46%N /\ y <> 46%N \/ x = 38%N /\ y = 46%N)).
    { destruct HD as [(A1 & A2)|(A1 & A2)]; [exists 46%N|exists 38%N]; split; auto; [left|right]; split; auto; congruence. }
    destruct HX as (x & Hx & Hxy).
    unfold nextc, inb, zoom in E. cbn [buffer set_buffer] in E. rewrite R7, <- (rd_here e b1 r R2), (rd_byte B e b1 R1 r x) in E by (auto; lia). injection E as <- <-.
    assert (HP : r + 1 < pend b1) by (eapply same_line; eauto; lia).
    assert (EY : forall s0, nextc e (set_buffer (set_pcur (r + 1) b1) s0) = Ok (Some y) (set_buffer (set_pcur (r + 1 + 1) b1) s0)).
    { intros s0. unfold nextc, inb, zoom. cbn [buffer set_buffer]. rewrite (rd_byte B e b1 R1 (r + 1) y) by auto. reflexivity. }
    destruct Hxy as [(-> & Hn)|(-> & ->)].
    + change (lex_dot sn st e (set_buffer (set_pcur (r + 1) b1) s) = lex_dot sn' st e (set_buffer (set_pcur (r + 1) b1) s)).
      assert (EO : forall a, lex_dot a st e (set_buffer (set_pcur (r + 1) b1) s) =
         (pushback (Some y) ;;; set_yylval_id "." ;;; lex_state_set EXPR_DOT ;;; tk tDOT) e (set_buffer (set_pcur (r + 1 + 1) b1) (set_lex_state EXPR_BEG s))).
      { intros a. unfold lex_dot. unfold bind at 1, get at 1. unfold bind at 1. unfold lex_state_set, modify.
        change (set_lex_state EXPR_BEG (set_buffer (set_pcur (r + 1) b1) s)) with (set_buffer (set_pcur (r + 1) b1) (set_lex_state EXPR_BEG s)).
        unfold bind at 1. rewrite EY. replace (mbeq (Some y) ".") with false by (symmetry; cbn; apply N.eqb_neq; exact Hn).
        replace (is_digit (Some y)) with false by (symmetry; cbn; unfold b_is_digit, in_range, digit in *; lia). reflexivity. }
      rewrite !EO. reflexivity.
    + change (lex_amp sn st e (set_buffer (set_pcur (r + 1) b1) s) = lex_amp sn' st e (set_buffer (set_pcur (r + 1) b1) s)).
      assert (EO : forall a, lex_amp a st e (set_buffer (set_pcur (r + 1) b1) s) = (set_yylval_id "&." ;;; lex_state_set EXPR_DOT ;;; tk tANDDOT) e (set_buffer (set_pcur (r + 1 + 1) b1) s)).
      { intros a. unfold lex_amp. unfold bind at 1. rewrite EY. reflexivity. }
      rewrite !EO. reflexivity.
Qed.

Lemma moved_inv : forall B s b' C, LInv B s -> strterm s = None -> BWF B b' -> bonus B b' = 0 -> LInv B (set_comments C (set_buffer b' s)).
Proof. intros B s b' C [H1 H2 H3 H4] ST HW HB. constructor; auto. unfold StrOk. cbn. rewrite ST. exact I. Qed.

(** ** Lines without tokens *)
Lemma gap_step : forall B n upper s p g cs,
  LInv B s -> strterm s = None -> upcoming (buffer s) p -> in_order (buffer s) -> gap p g cs -> g <> [] -> text_at B p g -> (forall x, g = 61%N :: x -> line_start B p) ->
  line_end_skipped (lex_state s) (ctx_get IN_KWARG (context s)) -> plain_start B (p + List.length g) -> enough B <= n ->
  exists b', upcoming b' (p + List.length g) /\ in_order b' /\ LInv B (set_comments (comments s ++ cs) (set_buffer b' s)) /\
    agree (yylex (plain_env n upper) s) (yylex (plain_env n upper) (set_comments (comments s ++ cs) (set_buffer b' s))).
Proof.
  intros B n upper s p g cs HL ST HU HO HG Hne HT HLs HC HP Hn. set (e := plain_env n upper).
  assert (HWh : forall x, g = 10%N :: x -> whole B p).
  { intros x Hx. apply (upcoming_whole B s); auto. rewrite Hx in HT. apply text_at_cons in HT. tauto. }
  assert (Hf : 4 * List.length B + 20 < fuel e) by (unfold enough in Hn; cbn; lia). pose proof HL as [HW _ _ _].
  pose proof (text_at_len _ _ _ HT Hne) as HLen.
  assert (HzL : p + List.length g < List.length B).
  { destruct HP as [(i & Hi & A)|[(x & A & _)|(_ & y & A & _)]].
    - assert (Hin : i <> []) by (destruct Hi; discriminate). pose proof (text_at_len _ _ _ A Hin). destruct Hi; cbn [List.length] in *; lia.
    - apply nth_error_Some. congruence.
    - assert (p + List.length g + 1 < List.length B) by (apply nth_error_Some; congruence). lia. }
  destruct (gap_run _ _ _ HG Hne B (buffer s) HW HU HO HT HWh HLs) as (k & bE & t & A1 & A2 & A3 & A4).
  destruct (atE_loaded B bE t _ A2 A3 HzL) as (b' & R1 & R2 & R3 & R4 & R5 & R6 & R7). pose proof R1 as (W1 & N1 & E1).
  assert (HU' : upcoming b' (p + List.length g)) by (split; auto; left; splits; auto; lia).
  exists b'. splits; auto. { apply moved_inv; auto. }
  apply (skip_agree e s b' (comments s ++ cs) k); auto; try lia.
  - eapply request_ends; eauto.
  - intros v. eapply ind_start; [| |exact HP]; auto.
  - set (s1 := set_token_seen true (set_command_start false (set_lval None s))).
    destruct (A4 e (command_start s) (token_seen s) false s1 Hf eq_refl HC) as (sn' & v & A5). exists sn', v. intros m.
    change s1 with (set_buffer (buffer s) s1) at 1. rewrite A5. destruct m as [|m]; [reflexivity|]. cbn [loop_n]. apply bind_same.
    set (X := set_comments (comments s1 ++ cs) (set_token_seen v s1)).
    change (lex_step (command_start s) (token_seen s) sn' e (set_buffer bE X) = lex_step (command_start s) (token_seen s) sn' e (set_buffer b' X)). apply R7.
Qed.

(** C51.  Where a line end means nothing, a request in front of empty lines and comment lines agrees with the request behind
    them: the same token, at the same place, and the same final state.  Only the comments are recorded. *)
Theorem C51_blank_lines : forall B n upper s p g cs,
  reached B n upper s -> strterm s = None -> upcoming (buffer s) p -> in_order (buffer s) -> text_at B p g -> gap p g cs -> g <> [] -> (forall x, g = 61%N :: x -> line_start B p) ->
  line_end_skipped (lex_state s) (ctx_get IN_KWARG (context s)) -> plain_start B (p + List.length g) -> enough B <= n ->
  exists b', upcoming b' (p + List.length g) /\ in_order b' /\
    agree (yylex (plain_env n upper) s) (yylex (plain_env n upper) (set_comments (comments s ++ cs) (set_buffer b' s))).
Proof.
  intros B n upper s p g cs HR ST HU HO HT HG Hne HLs HC HP Hn.
  destruct (gap_step B n upper s p g cs) as (b' & A1 & A2 & _ & A4); eauto using reached_inv.
Qed.
Print Assumptions C51_blank_lines.

(** C51.  A line end that counts is one token, at the last line terminator in front of the next line that is not a comment.
    A new statement begins behind it. *)
Theorem C51_line_end : forall B n upper s p sp g bl cs t,
  reached B n upper s -> strterm s = None -> upcoming (buffer s) p -> in_order (buffer s) -> text_at B p (sp ++ g ++ bl) -> white sp ->
  line_end_counts (lex_state s) -> ends_line (p + List.length sp) g cs t -> Forall blank bl ->
  new_line B (p + List.length sp + List.length g + List.length bl) \/ (p + List.length sp + List.length g = List.length B /\ bl = []) -> enough B <= n ->
  exists s', yylex (plain_env n upper) s = Ok (mkToken tNL [10%N] (mkLoc t (t + 1))) s' /\
    LineDone B s s' cs (p + List.length sp + List.length g) /\
    (p + List.length sp + List.length g = List.length B ->
     exists tk s2, yylex (plain_env n upper) s' = Ok tk s2 /\ token_type tk = END_OF_INPUT /\ comments s2 = comments s' /\ diagnostics s2 = diagnostics s').
Proof.
  intros B n upper s p sp g bl cs t HR ST HU HO HT HSp HC HE HBl HN Hn.
  apply (line_end_step B n upper s p sp g bl cs t); eauto using reached_inv.
Qed.
Print Assumptions C51_line_end.

(** C51.  Behind a label inside a parameter list without parentheses every line end counts, whatever the next line begins with *)
Theorem C51_label_line_end : forall B n upper s p sp rem el,
  reached B n upper s -> strterm s = None -> upcoming (buffer s) p -> in_order (buffer s) -> text_at B p (sp ++ rem ++ el) -> white sp -> remark rem -> eol el ->
  ~ operand_to_come (lex_state s) -> behind_label (lex_state s) -> ctx_get IN_KWARG (context s) = true -> enough B <= n ->
  let q := p + List.length sp in let z := q + List.length rem + List.length el in
  exists s', yylex (plain_env n upper) s = Ok (mkToken tNL [10%N] (mkLoc q (q + 1))) s' /\ LineDone B s s' (noted q rem el) z.
Proof.
  intros B n upper s p sp rem el HR ST HU HO HT HSp HRm HEl HC HLb HK Hn q z. set (e := plain_env n upper).
  pose proof (reached_inv B n upper s HR) as HL.
  assert (Hf : 4 * List.length B + 20 < fuel e) by (unfold enough in Hn; cbn; lia).
  pose proof HL as [HW _ _ (L1 & L2)]. assert (HT' := HT). apply text_at_app in HT. destruct HT as (HT0 & HT1).
  assert (Hg : rem ++ el <> []) by (destruct HEl; destruct rem; discriminate).
  pose proof (text_at_len _ _ _ HT1 Hg) as HgL. rewrite app_length in HgL. assert (Hel1 : 1 <= List.length el) by (destruct HEl; cbn; lia).
  set (s1 := set_token_seen true (set_command_start false (set_lval None s))).
  destruct (white_run B sp HSp (buffer s) p HW (fun _ => HU) HT0 (fun _ => HO)) as (k0 & b1 & K1 & W1 & _ & O1 & Z1 & P1 & S1).
  assert (HU1 : upcoming b1 q).
  { unfold q. destruct sp as [|x sp]; [rewrite (Z1 eq_refl); cbn; rewrite Nat.add_0_r; exact HU|apply P1; [discriminate|lia]]. }
  destruct (end_step B b1 q rem el W1 HU1 HT1 HRm HEl) as (bE & A1 & A2 & A3 & A4).
  { intros -> ->. unfold q. destruct sp as [|y sp].
    - cbn [List.length]. rewrite Nat.add_0_r. apply (upcoming_whole B s); auto. apply text_at_cons in HT'. tauto.
    - right. destruct (white_last _ HSp) as [A|(u & y' & Hu & Hy)]; [discriminate|]. rewrite Hu in *. rewrite app_length in *. cbn [List.length] in *.
      apply text_at_app in HT0. destruct HT0 as (_ & HT0). apply text_at_cons in HT0. destruct HT0 as (HT0 & _).
      replace (p + (List.length u + 1) - 1) with (p + List.length u) by lia. congruence. }
  set (sE := set_comments (comments s1 ++ noted q rem el) (set_token_seen (token_seen s) (set_buffer bE s1))).
  assert (HTl : forall sn, newline_tail sn e sE = Ok (Tk tNL) (nl_done bE sE)).
  { intros sn. unfold newline_tail. unfold bind at 1, get at 1. change (lex_state sE) with (lex_state s). change (context sE) with (context s).
    pose proof (line_class (lex_state s)) as H1. pose proof (label_class (lex_state s)) as H2.
    set (cc := ls_is_some _ _ && _) in *. set (dd := ls_is_all _ _) in *. apply H2 in HLb. destruct cc; [exfalso; tauto|]. rewrite HLb, HK. reflexivity. }
  assert (Hloop : loop (lex_step (command_start s) (token_seen s)) false e s1 = Ok (inl tNL) (nl_done bE sE)).
  { unfold loop. replace (fuel e) with (k0 + S (fuel e - k0 - 1)) by lia. change s1 with (set_buffer (buffer s) s1) at 1. rewrite S1. cbn [loop_n]. unfold bind at 1. rewrite A4 by auto. fold sE.
    unfold bind at 1. rewrite HTl. reflexivity. }
  pose proof (yylex_newline e s (nl_done bE sE) ST L1 Hloop) as HY.
  change (ptok (buffer (nl_done bE sE))) with (ptok bE) in HY. rewrite A2 in HY.
  eexists. split; [exact HY|]. constructor; auto. intros Hz. split; [|apply A3; apply O1; exact HO]. eapply atE_upcoming; eauto.
Qed.
Print Assumptions C51_label_line_end.

(** C51.  A line that starts with a dot continues the line before it: there is no token for the line end *)
Theorem C51_leading_dot : forall B n upper s p sp g bl cs t,
  reached B n upper s -> strterm s = None -> upcoming (buffer s) p -> in_order (buffer s) -> text_at B p (sp ++ g ++ bl) -> white sp ->
  line_end_counts (lex_state s) -> ends_line (p + List.length sp) g cs t -> Forall blank bl ->
  let r := p + List.length sp + List.length g + List.length bl in
  leading_dot B r -> (exists y, nth_error B (r + 1) = Some y /\ y <> 13%N /\ ~ digit y) -> enough B <= n ->
  exists b', upcoming b' r /\ in_order b' /\
    agree (yylex (plain_env n upper) s) (yylex (plain_env n upper) (set_comments (comments s ++ cs) (set_buffer b' s))).
Proof.
  intros B n upper s p sp g bl cs t HR ST HU HO HT HSp HC HE HBl r HD HY Hn. set (e := plain_env n upper).
  pose proof (reached_inv B n upper s HR) as HL. pose proof HL as [HW _ _ _].
  assert (Hf : 4 * List.length B + 20 < fuel e) by (unfold enough in Hn; cbn; lia).
  apply text_at_app in HT. destruct HT as (HT0 & HT). apply text_at_app in HT. destruct HT as (HT1 & HT2). set (z := p + List.length sp + List.length g) in *.
  assert (HrL : r + 1 < List.length B) by (destruct HY as (y & A & _); apply nth_error_Some; congruence).
  assert (Hg : g <> []) by (destruct HE as [? ? ? _ HEl|? ? ? ? ? ? ? _ HEl _ _]; destruct HEl; destruct rem; discriminate).
  assert (Hg1 : 1 <= List.length g) by (destruct g; [congruence|cbn; lia]).
  destruct (white_run B sp HSp (buffer s) p HW (fun _ => HU) HT0 (fun _ => HO)) as (k0 & b1 & K1 & W1 & _ & O1 & Z1 & P1 & S1).
  assert (HU1 : upcoming b1 (p + List.length sp)).
  { destruct sp as [|x sp]; [rewrite (Z1 eq_refl); cbn; rewrite Nat.add_0_r; exact HU|apply P1; [discriminate|lia]]. }
  destruct (ends_run _ _ _ _ HE B b1 W1 HU1 (O1 HO) HT1) as (k & bE & A1 & A2 & A3 & A4).
  { intros x Hx. destruct sp as [|y sp].
    - cbn [List.length]. rewrite Nat.add_0_r. apply (upcoming_whole B s); auto. subst g. apply text_at_cons in HT1. cbn [List.length] in HT1. rewrite Nat.add_0_r in HT1. tauto.
    - right. destruct (white_last _ HSp) as [A|(u & y' & Hu & Hy)]; [discriminate|]. rewrite Hu in *. rewrite app_length in *. cbn [List.length] in *.
      apply text_at_app in HT0. destruct HT0 as (_ & HT0). apply text_at_cons in HT0. destruct HT0 as (HT0 & _).
      replace (p + (List.length u + 1) - 1) with (p + List.length u) by lia. congruence. }
  fold z in A2. assert (HzL : z + List.length bl < List.length B) by (unfold r, z in *; lia).
  destruct (nl_start B bE t z bl A2 A3 HBl HT2 HzL) as (b2 & N1 & N2 & N3 & N4 & N5 & N6 & N7 & N8 & N9 & N10 & N11). fold r in N10, N11. pose proof N1 as (W2 & NN & NE).
  assert (HB : BWF B (set_pcur r b2)).
  { apply BWF_set_pcur; auto; try (unfold r in *; fold z; lia). intros _ _ A. destruct HD as [(C & _)|(C & _)]; congruence. }
  assert (HU' : upcoming (set_pcur r b2) r) by (split; [exact NE|left; cbn; splits; auto]).
  exists (set_pcur r b2). splits; auto.
  set (s1 := set_token_seen true (set_command_start false (set_lval None s))).
  destruct (A4 e (command_start s) (token_seen s) (nonempty sp) s1 Hf eq_refl HC) as (sn' & A5).
  apply (skip_agree e s (set_pcur r b2) (comments s ++ cs) (k0 + (k + 1))); auto; try lia.
  - eapply request_ends; eauto.
  - intros v. eapply ind_start; [exact HB|exact HU'|]. right. right. auto.
  - exists (sn' || nonempty bl), (token_seen s). intros m. fold s1. rewrite <- !Nat.add_assoc. change s1 with (set_buffer (buffer s) s1) at 1. rewrite S1. cbn [orb].
    change (1 + m) with (S m). rewrite A5. set (sE := set_comments (comments s1 ++ cs) (set_token_seen (token_seen s) (set_buffer bE s1))).
    unfold bind at 1 2. rewrite tail_counts by exact HC. specialize (N11 e sn' sE ltac:(lia)). change (set_buffer bE sE) with sE in N11. rewrite N11.
    replace (fuel e - List.length bl) with (S (fuel e - List.length bl - 1)) by lia. rewrite (nl_more B) by (auto; lia). reflexivity.
Qed.
Print Assumptions C51_leading_dot.

(** ** Whole programs *)
Lemma beg_skips : forall s, lex_state s = EXPR_BEG -> line_end_skipped (lex_state s) (ctx_get IN_KWARG (context s)).
Proof. intros s ->. left. unfold operand_to_come, in_state. vm_compute. intuition discriminate. Qed.
Lemma beg_not_def : ~ after_def EXPR_BEG.
Proof. vm_compute. discriminate. Qed.

Lemma alike_inv : forall B s s', alike s s' -> LInv B s -> LInv B s'.
Proof. intros B s s' (v & ->) [H1 H2 H3 H4]. constructor; auto. Qed.

Lemma lexes_alike : forall e ts s s1, lexes e s ts s1 -> forall s', alike s s' -> exists s1', lexes e s' ts s1' /\ alike s1 s1'.
Proof.
  intros e ts s s1 H. induction H as [s|s t s1 ts s2 H1 H2 H3 IH]; intros s' HA; [exists s'; split; auto; constructor|].
  pose proof (blind_yylex e s s' HA) as G. rewrite H1 in G. destruct (yylex e s') as [t' s1'|w|] eqn:E; cbn in G; try contradiction.
  destruct G as (<- & G). destruct (IH s1' G) as (s2' & K1 & K2). exists s2'. split; auto. econstructor; eauto.
Qed.
Lemma lexes_agree : forall e ts s s2 s3, agree (yylex e s) (yylex e s2) -> lexes e s2 ts s3 -> ts <> [] -> exists s3', lexes e s ts s3' /\ alike s3 s3'.
Proof.
  intros e ts s s2 s3 HA H Hne. destruct H as [|s2 t s1 ts s3 H1 H2 H3]; [congruence|]. rewrite H1 in HA.
  destruct (yylex e s) as [t' s1'|w|] eqn:E; cbn in HA; try contradiction. destruct HA as (-> & HA). apply alike_sym in HA.
  destruct (lexes_alike e ts s1 s3 H3 s1' HA) as (s3' & K1 & K2). exists s3'. split; auto. econstructor; eauto.
Qed.

(** Entering a line behind empty lines *)
Lemma gap_enter : forall B n upper s p g cs,
  LInv B s -> strterm s = None -> upcoming (buffer s) p -> in_order (buffer s) -> gap p g cs -> text_at B p g -> (forall x, g = 61%N :: x -> line_start B p) ->
  lex_state s = EXPR_BEG -> plain_start B (p + List.length g) -> enough B <= n ->
  exists s2, LInv B s2 /\ strterm s2 = None /\ lex_state s2 = EXPR_BEG /\ in_order (buffer s2) /\ upcoming (buffer s2) (p + List.length g) /\
    comments s2 = comments s ++ cs /\ diagnostics s2 = diagnostics s /\ agree (yylex (plain_env n upper) s) (yylex (plain_env n upper) s2).
Proof.
  intros B n upper s p g cs HL ST HU HO HG HT HLs HS HP Hn. destruct g as [|x g].
  - exists s. rewrite (gap_nil _ _ HG), app_nil_r. cbn [List.length]. rewrite Nat.add_0_r. splits; auto. apply agree_refl.
  - destruct (gap_step B n upper s p (x :: g) cs) as (b' & A1 & A2 & A3 & A4); auto; [discriminate|apply beg_skips; auto|].
    exists (set_comments (comments s ++ cs) (set_buffer b' s)). splits; auto.
Qed.

(** Nothing but empty lines up to the end *)
Lemma gap_to_end : forall B n upper s p g cs,
  LInv B s -> strterm s = None -> upcoming (buffer s) p -> in_order (buffer s) -> gap p g cs -> g <> [] -> text_at B p g -> (forall x, g = 61%N :: x -> line_start B p) -> p + List.length g = List.length B ->
  lex_state s = EXPR_BEG -> enough B <= n ->
  exists tk s2, yylex (plain_env n upper) s = Ok tk s2 /\ token_type tk = END_OF_INPUT /\ comments s2 = comments s ++ cs /\ diagnostics s2 = diagnostics s.
Proof.
  intros B n upper s p g cs HL ST HU HO HG Hne HT HLs HE HS Hn. set (e := plain_env n upper).
  assert (Hf : 4 * List.length B + 20 < fuel e) by (unfold enough in Hn; cbn; lia). pose proof HL as [HW _ _ (L1 & L2)].
  destruct (gap_run _ _ _ HG Hne B (buffer s) HW HU HO HT) as (k & bE & t & A1 & A2 & A3 & A4).
  { intros x Hx. apply (upcoming_whole B s); auto. rewrite Hx in HT. apply text_at_cons in HT. tauto. }
  { exact HLs. }
  assert (HB2 : BWF B bE /\ AtEnd B bE /\ pcur bE = List.length B). { destruct A2 as [X1 X2 X3 X4 X5 X6 X7 X8]. splits; auto; [right|]; lia. }
  destruct HB2 as (W2 & AE2 & PE2).
  pose proof (text_at_len _ _ _ HT Hne) as HLen.
  assert (HAg : agree (yylex e s) (yylex e (set_comments (comments s ++ cs) (set_buffer bE s)))).
  { apply (skip_agree e s bE (comments s ++ cs) k); auto; try lia.
    - eapply request_ends; eauto.
    - intros v. apply (ind_end B); auto.
    - set (s1 := set_token_seen true (set_command_start false (set_lval None s))).
      destruct (A4 e (command_start s) (token_seen s) false s1 Hf eq_refl (beg_skips s HS)) as (sn' & v & A5). exists sn', v. exact A5. }
  assert (HG' : wp e yylex (fun tk s2 => token_type tk = END_OF_INPUT /\ comments s2 = comments s ++ cs /\ diagnostics s2 = diagnostics s) (set_comments (comments s ++ cs) (set_buffer bE s))).
  { apply (blank_end B e _ (List.length B) []); auto.
    - left. splits; auto.
    - reflexivity.
    - cbn [List.length]. lia. }
  unfold wp in HG'. destruct (yylex e (set_comments _ _)) as [tk s2| |]; try contradiction. destruct (yylex e s) as [tk' s2'| |]; cbn in HAg; try contradiction.
  destruct HAg as (-> & (v & ->)). cbn in HG'. exists tk, s2'. splits; tauto.
Qed.

Lemma item_heedless : forall upper w k, item upper w k -> exists x r, w = x :: r /\ heedless x.
Proof.
  intros upper w k [w0 k0 H|w0 sfx k0 H _ _ _|w0 k0 H|w0 k0 H].
  - destruct (number_first _ _ H) as (d & r & -> & Hd & _). unfold dec in Hd. exists d, r. split; auto. left. lia.
  - destruct (word_first _ _ H) as (d & r & -> & Hd). unfold letter in Hd. exists d, r. split; auto. left. lia.
  - destruct H; eexists; eexists; split; try reflexivity; right; cbn; tauto.
  - destruct H; eexists; eexists; split; try reflexivity; right; cbn; tauto.
Qed.

Lemma layout_start : forall upper p items text toks B, layout upper p items text toks -> items <> [] -> text_at B p text -> plain_start B p /\ text <> [] /\ toks <> [].
Proof.
  intros upper p items text toks B H Hne HT. destruct H as [|p sp w k items rest toks HS HI Hr HN]; [congruence|].
  destruct (item_heedless _ _ _ HI) as (x & r & -> & Hx). splits; [|destruct sp; discriminate|discriminate].
  destruct HS as [|i v Hi Hv].
  - right. left. exists x. cbn in HT. apply text_at_cons in HT. tauto.
  - left. exists i. rewrite <- app_assoc in HT. apply text_at_app in HT. tauto.
Qed.

(** The items of one line *)
Lemma layout_line : forall upper p items text toks, layout upper p items text toks -> forall B n s,
  List.length B + 3 < n -> LInv B s -> strterm s = None -> ~ after_def (lex_state s) -> in_order (buffer s) -> text_at B p text ->
  p + List.length text < List.length B -> (forall c, nth_error B (p + List.length text) = Some c -> c = 10%N \/ c = 13%N \/ c = 35%N) ->
  upcoming (buffer s) p -> (items = [] -> line_end_counts (lex_state s)) ->
  exists s1 sp q, lexes (plain_env n upper) s toks s1 /\ LInv B s1 /\ strterm s1 = None /\ upcoming (buffer s1) q /\ in_order (buffer s1) /\
    white sp /\ text_at B q sp /\ q + List.length sp = p + List.length text /\ line_end_counts (lex_state s1) /\
    diagnostics s1 = diagnostics s /\ comments s1 = comments s.
Proof.
  intros upper p items text toks H. induction H as [p sp HS|p sp w k items rest toks HS HI Hr HN IH]; intros B n s Hn HL ST HD HO HT HE HX HU HC.
  - exists s, sp, p. splits; auto. constructor.
  - rewrite app_assoc in HT. apply text_at_app in HT. destruct HT as (HT1 & HT2).
    rewrite !app_length in HE, HX. rewrite app_length in HT2. rewrite Nat.add_assoc in HT2.
    set (q := p + List.length sp + List.length w) in *.
    assert (Hends : item_ends B q).
    { intros c Hc. destruct Hr as [->|(c' & r & -> & Hc')].
      - replace (p + (List.length sp + (List.length w + List.length (@nil N)))) with q in HX by (unfold q; cbn; lia). apply HX in Hc. tauto.
      - apply text_at_cons in HT2. destruct HT2 as (A & _). rewrite A in Hc. injection Hc as <-. tauto. }
    destruct (item_step B n upper s p sp w k) as (s1 & st & Y & A & Hd & Hcn); auto.
    { split; auto. }
    fold q in Y, A. destruct A as [A1 A2 A3 A4 A5 A6 A7].
    destruct (IH B n s1) as (s2 & sp2 & q2 & X1 & X2 & X3 & X4 & X5 & X6 & X7 & X8 & X9 & X10 & X11); auto.
    + eapply step_inv; [exact HL|exact Y|exact (item_kind _ _ _ HI)].
    + congruence.
    + unfold q. lia.
    + intros c Hc. apply HX. rewrite <- Hc. f_equal. unfold q. lia.
    + apply A2; [unfold q; lia|]. intros E. apply Hends in E. unfold blank in E. lia.
    + intros _. congruence.
    + exists s2, sp2, q2. splits; auto; try congruence.
      * econstructor; [exact Y|exact (item_kind _ _ _ HI)|exact X1].
      * rewrite X8, !app_length. unfold q. lia.
Qed.

(** [program upper p text toks cs]: [text] at [p] is a program of lines with items, comments and empty lines.  [toks] are
    the items with their places and one token for the end of each line with items, [cs] are the comments with their places. *)
Definition opens (text : list N) : Prop :=
  exists bl x r, text = bl ++ x :: r /\ Forall blank bl /\ ~ blank x /\ x <> 35%N /\ x <> 46%N /\ x <> 38%N /\ (x = 13%N -> hd_error r = Some 10%N).
Definition line_token (t : nat) : Token := mkToken tNL [10%N] (mkLoc t (t + 1)).
Inductive program (upper : N -> bool) : nat -> list N -> list Token -> list Comment -> Prop :=
| pg_blank : forall p g cs sp, gap p g cs -> white sp -> program upper p (g ++ sp) [] cs
| pg_last : forall p g cs items text toks, gap p g cs -> layout upper (p + List.length g) items text toks -> items <> [] -> program upper p (g ++ text) toks cs
| pg_done : forall p g cs items text toks le cs2 t, gap p g cs -> layout upper (p + List.length g) items text toks -> items <> [] ->
    ends_line (p + List.length g + List.length text) le cs2 t -> program upper p (g ++ text ++ le) (toks ++ [line_token t]) (cs ++ cs2)
| pg_line : forall p g cs items text toks le cs2 t rest toks' cs3, gap p g cs -> layout upper (p + List.length g) items text toks -> items <> [] ->
    ends_line (p + List.length g + List.length text) le cs2 t -> opens rest ->
    program upper (p + List.length g + List.length text + List.length le) rest toks' cs3 ->
    program upper p (g ++ text ++ le ++ rest) (toks ++ line_token t :: toks') (cs ++ cs2 ++ cs3).

Lemma ends_lf : forall p g cs t, ends_line p g cs t -> exists u, g = u ++ [10%N].
Proof.
  intros p g cs t H. induction H as [p rem el HR HEl|p rem el bl rest cs t HR HEl HB HN (u & IH)].
  - destruct HEl; [exists rem; reflexivity|exists (rem ++ [13%N]); rewrite <- app_assoc; reflexivity].
  - rewrite IH. exists (rem ++ el ++ bl ++ u). rewrite <- !app_assoc. reflexivity.
Qed.
Lemma ends_first : forall p g cs t, ends_line p g cs t -> exists c r, g = c :: r /\ (c = 10%N \/ c = 13%N \/ c = 35%N).
Proof.
  intros p g cs t H. destruct H as [p rem el HR HEl|p rem el bl rest cs t HR HEl HB HN].
  - destruct HR; [destruct HEl| |]; eexists; eexists; split; try reflexivity; auto.
  - destruct HR; [destruct HEl| |]; eexists; eexists; split; try reflexivity; auto.
Qed.

(** One line of a program up to its last token *)
Lemma line_items : forall B n upper s p g cs items text toks le cs2 t,
  LInv B s -> strterm s = None -> upcoming (buffer s) p -> in_order (buffer s) -> lex_state s = EXPR_BEG ->
  gap p g cs -> layout upper (p + List.length g) items text toks -> items <> [] -> ends_line (p + List.length g + List.length text) le cs2 t ->
  text_at B p (g ++ text ++ le) -> line_start B p -> enough B <= n ->
  exists s1 sp q, lexes (plain_env n upper) s toks s1 /\ LInv B s1 /\ strterm s1 = None /\ upcoming (buffer s1) q /\ in_order (buffer s1) /\
    white sp /\ text_at B q (sp ++ le) /\ q + List.length sp = p + List.length g + List.length text /\ line_end_counts (lex_state s1) /\
    diagnostics s1 = diagnostics s /\ comments s1 = comments s ++ cs.
Proof.
  intros B n upper s p g cs items text toks le cs2 t HL ST HU HO HS HG HLy Hne HE HT HLs Hn.
  apply text_at_app in HT. destruct HT as (HT1 & HT). apply text_at_app in HT. destruct HT as (HT2 & HT3).
  destruct (layout_start _ _ _ _ _ _ HLy Hne HT2) as (HP & Htx & Htk). destruct (ends_first _ _ _ _ HE) as (c & r & Hle & Hc).
  destruct (gap_enter B n upper s p g cs HL ST HU HO HG HT1 (fun _ _ => HLs) HS HP Hn) as (s2 & A1 & A2 & A3 & A4 & A5 & A6 & A7 & A8).
  pose proof (text_at_len _ _ _ HT3 ltac:(rewrite Hle; discriminate)) as HLen. rewrite Hle in HLen. cbn [List.length] in HLen.
  pose proof HT3 as HT4. rewrite Hle in HT4. apply text_at_cons in HT4. destruct HT4 as (Hc0 & _).
  destruct (layout_line _ _ _ _ _ HLy B n s2) as (s1 & sp & q & X1 & X2 & X3 & X4 & X5 & X6 & X7 & X8 & X9 & X10 & X11); auto.
  - unfold enough in Hn. lia.
  - rewrite A3. apply beg_not_def.
  - lia.
  - intros y Hy. rewrite Hc0 in Hy. injection Hy as <-. exact Hc.
  - intros ->. congruence.
  - destruct (lexes_agree _ _ _ _ _ A8 X1 Htk) as (s1' & Y1 & Y2). pose proof (alike_inv B _ _ Y2 X2) as Y3. destruct Y2 as (v & ->).
    exists (set_token_seen v s1), sp, q. splits; auto; cbn; try congruence. apply text_at_app. split; auto. rewrite X8. exact HT3.
Qed.

Lemma opens_new : forall B z rest, opens rest -> text_at B z rest -> exists bl, Forall blank bl /\ text_at B z bl /\ new_line B (z + List.length bl) /\ rest <> [].
Proof.
  intros B z rest (bl & x & r & -> & HB & H1 & H2 & H3 & H4 & H5) HT. exists bl. apply text_at_app in HT. destruct HT as (HT1 & HT2). splits; auto.
  - apply text_at_cons in HT2. destruct HT2 as (Hx & HT2). exists x. splits; auto.
    + intros E. specialize (H5 E). destruct r as [|y r]; [discriminate|]. cbn in H5. injection H5 as ->. apply text_at_cons in HT2. tauto.
    + intros [(A & _)|(A & _)]; congruence.
  - destruct bl; discriminate.
Qed.

Lemma program_lexes : forall upper p text toks cs, program upper p text toks cs -> forall B n s,
  enough B <= n -> LInv B s -> strterm s = None -> upcoming (buffer s) p -> in_order (buffer s) -> lex_state s = EXPR_BEG -> text_at B p text -> line_start B p ->
  text <> [] -> p + List.length text = List.length B ->
  exists s1 s' tk, lexes (plain_env n upper) s toks s1 /\ yylex (plain_env n upper) s1 = Ok tk s' /\ token_type tk = END_OF_INPUT /\
    diagnostics s' = diagnostics s /\ comments s' = comments s ++ cs.
Proof.
  intros upper p text toks cs H.
  induction H as [p g cs sp HG HSp|p g cs items text toks HG HLy Hne|p g cs items text toks le cs2 t HG HLy Hne HE|p g cs items text toks le cs2 t rest toks' cs3 HG HLy Hne HE HOp HPr IH];
    intros B n s Hn HL ST HU HO HS HT HLs Htx HEnd.
  - apply text_at_app in HT. destruct HT as (HT1 & HT2). rewrite app_length in HEnd. destruct sp as [|x sp].
    + rewrite app_nil_r in Htx. cbn [List.length] in HEnd.
      destruct (gap_to_end B n upper s p g cs) as (tk & s2 & E1 & E2 & E3 & E4); auto; [lia|]. exists s, s2, tk. splits; auto. constructor.
    + assert (HP : plain_start B (p + List.length g)).
      { left. inversion HSp as [|i v Hi Hv E]. exists i. split; auto. rewrite <- E in HT2. apply text_at_app in HT2. tauto. }
      destruct (gap_enter B n upper s p g cs) as (s2 & A1 & A2 & A3 & A4 & A5 & A6 & A7 & A8); auto.
      pose proof A1 as [W2 _ _ (L1 & L2)].
      assert (HG' : wp (plain_env n upper) yylex (fun tk s3 => token_type tk = END_OF_INPUT /\ diagnostics s3 = diagnostics s2 /\ comments s3 = comments s2) s2).
      { apply (blank_end B (plain_env n upper) s2 (p + List.length g) (x :: sp)); auto.
        - right. splits; auto; [lia|discriminate].
        - split; auto.
        - unfold enough in Hn. cbn [fuel plain_env]. lia. }
      unfold wp in HG'. destruct (yylex (plain_env n upper) s2) as [tk s3| |]; try contradiction.
      destruct (yylex (plain_env n upper) s) as [tk' s3'| |] eqn:E; cbn in A8; try contradiction. destruct A8 as (-> & (v & ->)). cbn in HG'.
      exists s, s3', tk. destruct HG' as (G1 & G2 & G3). splits; auto; try congruence. constructor.
  - apply text_at_app in HT. destruct HT as (HT1 & HT2). rewrite app_length in HEnd.
    destruct (layout_start _ _ _ _ _ _ HLy Hne HT2) as (HP & Htx2 & Htk).
    destruct (gap_enter B n upper s p g cs) as (s2 & A1 & A2 & A3 & A4 & A5 & A6 & A7 & A8); auto.
    destruct (layout_lexes _ _ _ _ _ HLy B n s2) as (s1 & s' & tk & X1 & X2 & X3 & X4 & X5); auto.
    + unfold enough in Hn. lia.
    + rewrite A3. apply beg_not_def.
    + lia.
    + contradiction.
    + destruct (lexes_agree _ _ _ _ _ A8 X1 Htk) as (s1' & Y1 & Y2). pose proof (blind_yylex (plain_env n upper) _ _ Y2) as G. rewrite X2 in G.
      destruct (yylex (plain_env n upper) s1') as [tk' s3'| |] eqn:E; cbn in G; try contradiction. destruct G as (<- & (v & ->)).
      exists s1', (set_token_seen v s'), tk. splits; auto; cbn; congruence.
  - destruct (line_items B n upper s p g cs items text toks le cs2 t) as (s1 & sp & q & X1 & X2 & X3 & X4 & X5 & X6 & X7 & X8 & X9 & X10 & X11); auto.
    rewrite !app_length in HEnd.
    destruct (line_end_step B n upper s1 q sp le [] cs2 t) as (s2 & Y1 & [Z1 Z2 Z3 Z4 Z5 Z6] & Y3); auto.
    + rewrite app_nil_r. exact X7.
    + rewrite X8. exact HE.
    + right. split; auto. lia.
    + destruct Y3 as (tk & s3 & U1 & U2 & U3 & U4); [lia|].
      exists s2, s3, tk. splits; auto.
      * eapply lexes_app; [exact X1|]. econstructor; [exact Y1|discriminate|constructor].
      * congruence.
      * rewrite U3, Z4, X11, app_assoc. reflexivity.
  - replace (g ++ text ++ le ++ rest) with ((g ++ text ++ le) ++ rest) in HT by (rewrite <- !app_assoc; reflexivity).
    apply text_at_app in HT. destruct HT as (HT1 & HT2). rewrite !app_length, !Nat.add_assoc in HT2.
    destruct (line_items B n upper s p g cs items text toks le cs2 t) as (s1 & sp & q & X1 & X2 & X3 & X4 & X5 & X6 & X7 & X8 & X9 & X10 & X11); auto.
    rewrite !app_length in HEnd. destruct (opens_new B _ rest HOp HT2) as (bl & B1 & B2 & B3 & B4).
    assert (Hz : q + List.length sp + List.length le = p + List.length g + List.length text + List.length le) by lia.
    destruct (line_end_step B n upper s1 q sp le bl cs2 t) as (s2 & Y1 & [Z1 Z2 Z3 Z4 Z5 Z6] & Y3); auto.
    + rewrite app_assoc. apply text_at_app. split; auto. rewrite app_length, Nat.add_assoc, Hz. exact B2.
    + rewrite X8. exact HE.
    + left. rewrite Hz. exact B3.
    + rewrite Hz in Z6. assert (Hr : 1 <= List.length rest) by (destruct rest; [congruence|cbn; lia]). destruct Z6 as (Z6 & Z7); [lia|].
      destruct (IH B n s2) as (s3 & s4 & tk & U1 & U2 & U3 & U4 & U5); auto.
      * eapply step_inv; [exact X2|exact Y1|discriminate].
      * right. destruct (ends_lf _ _ _ _ HE) as (u & Eu). rewrite app_assoc in HT1. apply text_at_app in HT1. destruct HT1 as (_ & HT1). rewrite Eu in HT1 |- *.
        apply text_at_app in HT1. destruct HT1 as (_ & HT1). apply text_at_cons in HT1. destruct HT1 as (HT1 & _). rewrite <- HT1, !app_length. cbn [List.length]. f_equal. lia.
      * lia.
      * exists s3, s4, tk. splits; auto.
        -- eapply lexes_app; [exact X1|]. econstructor; [exact Y1|discriminate|exact U1].
        -- congruence.
        -- rewrite U5, Z4, X11, <- !app_assoc. reflexivity.
Qed.

(** C51.  The flag that a token was seen on the line influences no token and nothing else of the state *)
Theorem C51_token_seen : forall e s v, agree (yylex e s) (yylex e (set_token_seen v s)).
Proof. intros e s v. apply blind_yylex. exists v. reflexivity. Qed.
Print Assumptions C51_token_seen.

Lemma ends_nonempty : forall p g cs t, ends_line p g cs t -> 1 <= List.length g.
Proof. intros p g cs t H. destruct (ends_first _ _ _ _ H) as (c & r & -> & _). cbn. lia. Qed.
Lemma program_len : forall upper p text toks cs, program upper p text toks cs -> List.length toks <= List.length text.
Proof.
  intros upper p text toks cs H.
  induction H as [p g cs sp HG HSp|p g cs items text toks HG HLy Hne|p g cs items text toks le cs2 t HG HLy Hne HE|p g cs items text toks le cs2 t rest toks' cs3 HG HLy Hne HE HOp HPr IH];
    try (pose proof (layout_len _ _ _ _ _ HLy)); try (pose proof (ends_nonempty _ _ _ _ HE)); rewrite ?app_length; cbn [List.length]; lia.
Qed.

(** C51.  A program of lines is lexed into exactly its items and one line end for each line with items.  The comments are
    recorded in order, and nothing is reported. *)
Theorem C51_program : forall text toks cs name n upper,
  program upper 0 text toks cs -> text <> [] -> hd_error text <> Some 239%N -> enough text <= n ->
  exists s, run_lexer text name (plain_env n upper) = Ok toks s /\ diagnostics s = [] /\ comments s = cs.
Proof.
  intros text toks cs name n upper H Hne H239 Hn. pose proof (program_len _ _ _ _ _ H) as HLen.
  destruct text as [|x r]; [congruence|].
  destruct (start_reading (x :: r) (plain_env n upper) name x r eq_refl) as (b & E1 & E2 & E3 & E4 & E5). { intros ->. apply H239. reflexivity. }
  destruct (program_lexes _ _ _ _ _ H (x :: r) n (lexer_init b)) as (s1 & s' & t & X1 & X2 & X3 & X4 & X5); auto.
  - destruct E2. constructor; auto; exact I.
  - unfold text_at. cbn [skipn]. apply firstn_all.
  - left. reflexivity.
  - exists s'. splits; auto. eapply run_exact; eauto. unfold enough in Hn. lia.
Qed.
Print Assumptions C51_program.

(** ** The hypotheses are met *)
Lemma remark_ok : forall w, existsb (fun c => N.eqb c 10 || N.eqb c 13 || N.eqb c 58) w = false -> remark (35%N :: w).
Proof.
  intros w H. assert (K : forall c, In c w -> (N.eqb c 10 || N.eqb c 13 || N.eqb c 58) = false).
  { intros c Hc. destruct (_ || _ || _) eqn:E; auto. rewrite <- H. symmetry. apply existsb_exists. eauto. }
  apply rk_some; intros A; apply K in A; discriminate.
Qed.

Example C51_blank_lines_hypotheses :
  let src := bs "x = # c

  1" in
  exists s, reached src 200 (fun _ => false) s /\ strterm s = None /\ upcoming (buffer s) 3 /\ in_order (buffer s) /\
    text_at src 3 (bs " # c

") /\ gap 3 (bs " # c

") [mkComment (mkLoc 4 8) Inline] /\ line_end_skipped (lex_state s) (ctx_get IN_KWARG (context s)) /\ plain_start src 9.
Proof.
  set (src := bs "x = # c

  1"). cbn zeta. reach_state src [PNext; PNext]. splits; auto; try reflexivity.
  - split; [reflexivity|]. left. splits; auto. cbn. lia.
  - apply (gp_line 3 [32%N] (bs "# c") [10%N] [10%N] []); [apply blank_white; repeat constructor|apply remark_ok; reflexivity|constructor|].
    apply (gp_line 8 [] [] [10%N] [] []); constructor.
  - left. unfold operand_to_come, in_state. vm_compute. intuition discriminate.
  - left. exists [32%N]. split; [constructor; unfold blank; lia|reflexivity].
Qed.

Example C51_line_end_hypotheses :
  let src := bs "1 # c
  # d

2" in
  exists s, reached src 200 (fun _ => false) s /\ strterm s = None /\ upcoming (buffer s) 1 /\ in_order (buffer s) /\
    text_at src 1 (bs " " ++ bs "# c
  # d
" ++ []) /\ white (bs " ") /\ line_end_counts (lex_state s) /\ ends_line 2 (bs "# c
  # d
") [mkComment (mkLoc 2 6) Inline; mkComment (mkLoc 8 12) Inline] 11 /\ new_line src 12.
Proof.
  set (src := bs "1 # c
  # d

2"). cbn zeta. reach_state src [PNext]. splits; auto; try reflexivity.
  - split; [reflexivity|]. left. splits; auto. cbn. lia.
  - apply blank_white. repeat constructor.
  - apply end_counts.
  - apply (el_more 2 (bs "# c") [10%N] [32; 32]%N (bs " d
") [mkComment (mkLoc 8 12) Inline]); [apply remark_ok; reflexivity|constructor|repeat constructor; unfold blank; lia|].
    apply (el_one 8 (bs "# d") [10%N]); [apply remark_ok; reflexivity|constructor].
  - exists 10%N. splits; try reflexivity; try discriminate. { unfold blank. lia. } unfold leading_dot. cbn. intros [(A & _)|(A & _)]; discriminate.
Qed.

(** The line end behind the label of [def f a: # c]; with the parameter-list flag it is a token although a dot follows *)
Example C51_label_line_end_hypotheses :
  let src := bs "def f a: # c
 .b" in
  exists s, reached src 200 (fun _ => false) s /\ strterm s = None /\ upcoming (buffer s) 8 /\ in_order (buffer s) /\
    text_at src 8 (bs " " ++ bs "# c" ++ [10%N]) /\ white (bs " ") /\ remark (bs "# c") /\ eol [10%N] /\
    ~ operand_to_come (lex_state s) /\ behind_label (lex_state s) /\ ctx_get IN_KWARG (context s) = true.
Proof.
  set (src := bs "def f a: # c
 .b"). cbn zeta. reach_state src [PNext; PNext; PNext; PContext 2%N]. splits; auto; try reflexivity.
  - split; [reflexivity|]. left. splits; auto. cbn. lia.
  - apply blank_white. repeat constructor.
  - apply remark_ok. reflexivity.
  - constructor.
  - unfold operand_to_come, in_state. vm_compute. intuition discriminate.
  - unfold behind_label, in_state. split; vm_compute; reflexivity.
Qed.

Example C51_leading_dot_hypotheses :
  let src := bs "a # c
 .b" in
  exists s, reached src 200 (fun _ => false) s /\ strterm s = None /\ upcoming (buffer s) 1 /\ in_order (buffer s) /\
    text_at src 1 (bs " " ++ bs "# c
" ++ bs " ") /\ white (bs " ") /\ line_end_counts (lex_state s) /\ ends_line 2 (bs "# c
") [mkComment (mkLoc 2 6) Inline] 5 /\ leading_dot src 7 /\ (exists y, nth_error src 8 = Some y /\ y <> 13%N /\ ~ digit y).
Proof.
  set (src := bs "a # c
 .b"). cbn zeta. reach_state src [PNext]. splits; auto; try reflexivity.
  - split; [reflexivity|]. left. splits; auto. cbn. lia.
  - apply blank_white. repeat constructor.
  - unfold line_end_counts, operand_to_come, behind_label, in_state. vm_compute. intuition discriminate.
  - apply (el_one 2 (bs "# c") [10%N]); [apply remark_ok; reflexivity|constructor].
  - left. split; [reflexivity|discriminate].
  - exists 98%N. splits; [reflexivity|discriminate|unfold digit; lia].
Qed.

(** Two lines with an item each, comments and an empty line *)
Example C51_program_sample : program (fun _ => false) 0 (bs "# top
12 # one

 @a
") [mkToken tINTEGER (bs "12") (mkLoc 6 8); line_token 14; mkToken tIVAR (bs "@a") (mkLoc 17 19); line_token 19]
  [mkComment (mkLoc 0 6) Inline; mkComment (mkLoc 9 15) Inline].
Proof.
  apply (pg_line _ 0 (bs "# top
") [mkComment (mkLoc 0 6) Inline] [(tINTEGER, bs "12")] (bs "12 ") [mkToken tINTEGER (bs "12") (mkLoc 6 8)] (bs "# one
") [mkComment (mkLoc 9 15) Inline] 14 (bs "
 @a
") [mkToken tIVAR (bs "@a") (mkLoc 17 19); line_token 19] []).
  - apply (gp_line 0 [] (bs "# top") [10%N] [] []); [constructor|apply remark_ok; reflexivity|constructor|constructor].
  - apply (lo_item _ 6 [] (bs "12") tINTEGER [] (bs " ") []); [constructor| | |].
    + apply it_number. left. apply (dl_int (bs "12") []); [|constructor]. apply (ip_run 49 (bs "2")); [lia|]. apply more_digit; [unfold dec; cbn; lia|]. apply more_nil.
    + right. eexists. eexists. split; [reflexivity|]. left. unfold blank. cbn. lia.
    + apply lo_end. apply blank_white. repeat constructor.
  - discriminate.
  - apply (el_one 9 (bs "# one") [10%N]); [apply remark_ok; reflexivity|constructor].
  - exists [], 10%N, (bs " @a
"). splits; try discriminate; try reflexivity; [constructor|unfold blank; lia].
  - apply (pg_done _ 15 [10%N] [] [(tIVAR, bs "@a")] (bs " @a") [mkToken tIVAR (bs "@a") (mkLoc 17 19)] [10%N] [] 19).
    + apply (gp_line 15 [] [] [10%N] [] []); constructor.
    + apply (lo_item _ 16 [32%N] (bs "@a") tIVAR [] [] []); [apply blank_white; repeat constructor| | |].
      * apply it_object. apply (ov_instance (bs "a")). apply (nm_ascii 97 []); [unfold letter; lia|constructor].
      * left. reflexivity.
      * apply lo_end. constructor.
    + discriminate.
    + apply (el_one 19 [] [10%N]); constructor.
Qed.
(** The terminator of a comment line that follows directly, and a line that goes on with a dot *)
Example C51_sample : exists ts s, lexed (bs "a # one
 # two
b # three
  .c
") = Some (ts, s) /\
  map (fun t => (token_type t, loc_begin (token_loc t))) ts = [(tIDENTIFIER, 0); (tNL, 14); (tIDENTIFIER, 15); (tDOT, 27); (tIDENTIFIER, 28); (tNL, 29)] /\
  map (fun c => loc_begin (cm_location c)) (comments s) = [2; 9; 17].
Proof. eexists. eexists. split; [vm_compute; reflexivity|splits; vm_compute; reflexivity]. Qed.
