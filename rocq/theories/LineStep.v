(** * Reading line ends and comments *)
Require Import Verif.Base Verif.MaybeByteM Verif.Utf8M Verif.InputM Verif.DiagnosticM Verif.TokensM Verif.BufferM Verif.LexStateM Verif.ScopesM
  Verif.LexerM Verif.LexIdentM Verif.LexMagicM Verif.LexMainM Verif.ParserClientM
  Verif.SourceSpec Verif.SourceProofs Verif.Wp Verif.BufInv Verif.LexSpec Verif.LexInv Verif.MagicInv Verif.NewlineInv Verif.MainInv Verif.RunInv Verif.FuelMono Verif.Prop_Lexer
  Verif.ReadSpec Verif.YylexSpec Verif.Reach Verif.IdentSpec Verif.MagicSpec Verif.MagicRun Verif.LineSpec.
Require Import ZifyBool ZifyNat ZifyN.

(** ** Comments without a colon are never magic *)
Lemma magic_body_plain : forall B e ind p0 l0 hi s (Q : (nat * Z) + MagicRes -> Lexer -> Prop),
  4 * List.length B + 20 < fuel e -> decoder e = None -> BWF B (buffer s) -> hi <= List.length B -> (l0 <= Z.of_nat (List.length B))%Z ->
  (Z.of_nat p0 + l0 <= Z.of_nat hi)%Z -> (forall i, p0 <= i -> i < hi -> nth_error B i <> Some 58%N) ->
  (forall p l, p0 <= p -> (Z.of_nat p + l <= Z.of_nat hi)%Z -> Z.to_nat l < Z.to_nat l0 -> Q (inl (p, l)) s) ->
  (forall r, Q (inr (MagicOk r)) s) ->
  wp e (magic_comment_body ind (p0, l0)) Q s.
Proof.
  intros B e ind p0 l0 hi s Q Hf Hd HW Hhi Hl HE HC HQl HQr. unfold magic_comment_body. cbv beta iota zeta.
  destruct (Z.leb l0 0) eqn:E0; [apply wp_ret; auto|].
  apply wp_bind, wp_gets. set (b1 := buffer s) in *.
  pose proof (no_decoder_safe e B Hd) as Hdec.
  apply wp_bind. apply (mc_skip_junk_ok B e Hf Hdec); [lia|lia|]. intros p1 l1 A1 A2 A3 A4. cbv beta zeta.
  apply wp_bind. apply (mc_scan_name_ok B e Hf Hdec); [lia|lia|]. intros p2 l2 B1 B2 B3 B4. cbv beta zeta.
  assert (HC2 : (l2 < l0)%Z).
  { destruct (Nat.eq_dec p1 p0) as [->|]; [|lia]. assert (l1 = l0) as -> by lia.
    destruct B4 as [B4|[B4|B4]]; [lia|lia|]. destruct A4 as [A4|[A4|A4]]; [lia| |congruence].
    rewrite A4 in B4. discriminate B4. }
  apply wp_bind. apply (mc_skip_space_ok B e Hf Hdec); [lia|lia|]. intros p3 l3 C1 C2 C3. cbv beta zeta.
  destruct (Z.eqb l3 0) eqn:E3; [apply wp_ret; auto|].
  assert (HN : mbeq (byte_at b1 p3) ":" = false).
  { rewrite (byte_at_B B b1 p3 HW). destruct (mbeq (nth_error B p3) ":") eqn:E; auto. exfalso. apply mbeq_iff in E. apply (HC p3); auto; lia. }
  rewrite HN. cbn [negb]. destruct (negb ind); apply wp_ret; [apply HQr|]. apply HQl; lia.
Qed.

Lemma magic_loop_plain : forall B e ind p0 l0 hi s (Q : MagicRes -> Lexer -> Prop),
  4 * List.length B + 20 < fuel e -> decoder e = None -> BWF B (buffer s) -> hi <= List.length B -> (l0 <= Z.of_nat (List.length B))%Z ->
  (Z.of_nat p0 + l0 <= Z.of_nat hi)%Z -> (forall i, p0 <= i -> i < hi -> nth_error B i <> Some 58%N) ->
  (forall r, Q (MagicOk r) s) ->
  wp e (loop (magic_comment_body ind) (p0, l0)) Q s.
Proof.
  intros B e ind p0 l0 hi s Q Hf Hd HW Hhi Hl HE HC HQ.
  apply wp_loop with (I := fun x s1 => s1 = s /\ p0 <= fst x /\ (Z.of_nat (fst x) + snd x <= Z.of_nat hi)%Z /\ (snd x <= Z.of_nat (List.length B))%Z)
    (meas := fun x _ => Z.to_nat (snd x)).
  - cbn [fst snd]. splits; auto.
  - cbn [snd]. lia.
  - intros (p & l) s1 (-> & P1 & P2 & P3). cbn [fst snd] in *. apply (magic_body_plain B e ind p l hi); auto.
    + intros i I1 I2. apply HC; lia.
    + intros p' l' R1 R2 R3. cbn [fst snd]. splits; auto; lia.
Qed.

Lemma magic_plain : forall B e p0 n s (Q : MagicRes -> Lexer -> Prop),
  4 * List.length B + 20 < fuel e -> decoder e = None -> BWF B (buffer s) -> p0 + n <= List.length B ->
  (forall i, p0 <= i -> i < p0 + n -> nth_error B i <> Some 58%N) ->
  (forall r, Q (MagicOk r) s) -> wp e (magic_comment p0 n) Q s.
Proof.
  intros B e p0 n s Q Hf Hd HW Hn HC HQ. unfold magic_comment. pose proof (no_decoder_safe e B Hd) as Hdec.
  destruct (n <=? 7); [apply wp_ret; auto|]. apply wp_bind.
  assert (H0 : wp e (loop (magic_comment_body false) (p0, Z.of_nat n)) Q s).
  { apply (magic_loop_plain B e false p0 _ (p0 + n)); auto; lia. }
  apply (magic_comment_marker_ok B e Hf Hdec); [lia|exact H0|]. intros p P1 P2.
  destruct (p =? 0) eqn:Ep; [exact H0|]. apply wp_bind, wp_sub_ck; [auto|]. apply wp_bind.
  apply (magic_comment_marker_ok B e Hf Hdec); [lia|apply wp_ret; auto|]. intros q Q1 Q2.
  destruct (q =? 0); [apply wp_ret; auto|]. apply wp_bind, wp_sub_ck; [lia|]. apply wp_bind, wp_sub_ck; [lia|].
  apply (magic_loop_plain B e true p _ (p0 + n)); auto; try lia. intros i I1 I2. apply HC; lia.
Qed.

(** A comment that stands at [q], in a line that ends at [z] *)
Lemma comment_plain : forall B e b q s seen, 4 * List.length B + 20 < fuel e -> decoder e = None -> Ready B b ->
  pbeg b <= q -> q < pend b -> ptok b = q -> nth_error B q = Some 35%N ->
  (forall i, q < i -> i < pend b -> nth_error B i <> Some 58%N) ->
  lex_comment seen e (set_buffer (set_pcur (q + 1) b) s) =
  Ok true (set_comments (comments s ++ [mkComment (mkLoc q (pend b)) Inline]) (set_token_seen seen (set_buffer (set_pcur (pend b) b) s))).
Proof.
  intros B e b q s seen Hf Hd HR Hq0 Hq Hp Hx HC. pose proof HR as (HW & N1 & N2).
  assert (HW1 : BWF B (set_pcur (q + 1) b)).
  { destruct HW. constructor; cbn; auto; try lia. intros _ A. replace (q + 1 - 1) with q in A by lia. congruence. }
  pose proof (pend_le B b HW) as HL.
  enough (HG : wp e (lex_comment seen) (fun r s' => r = true /\ s' = set_comments (comments s ++ [mkComment (mkLoc q (pend b)) Inline]) (set_token_seen seen (set_buffer (set_pcur (pend b) b) s)))
     (set_buffer (set_pcur (q + 1) b) s)).
  { unfold wp in HG. destruct (lex_comment seen e _) as [r s'| |]; try contradiction. destruct HG as (-> & ->). reflexivity. }
  unfold lex_comment. ws. ws. ws. ws. ws. cbn [buffer set_buffer set_token_seen pend set_pcur pcur].
  apply wp_sub_ck; [lia|]. ws. apply (magic_plain B); auto; try lia. { intros i I1 I2. apply HC; lia. }
  intros r. ws.
  match goal with |- wp e ?m ?P ?t => assert (HK : P tt t) end.
  { cbv beta. ws. ws. ws. ws. ws. split; auto. unfold current_loc, goto_eol. cbn.
    assert (EC : comment_new (mkLoc (ptok b) (pend b)) (input b) = mkComment (mkLoc q (pend b)) Inline).
    { unfold comment_new. change (loc_source (mkLoc (ptok b) (pend b)) (input b)) with (b_substr_at b (ptok b) (pend b)).
      rewrite (substr_some B) by (auto; lia). rewrite Hp. destruct (nth_skipn _ _ _ Hx) as (u & ->).
      replace (pend b - q) with (S (pend b - q - 1)) by lia. reflexivity. }
    rewrite EC. reflexivity. }
  destruct r; cbn [negb]; [ws; exact HK|]. ws. apply comment_at_top_ok; [cbn; lia|]. intros top. ws. ws.
  apply wp_when; intros Ht; [|exact HK]. pose proof (no_decoder_safe e B Hd) as Hdec. apply (set_file_encoding_ok B e Hf Hdec); auto; cbn; lia.
Qed.

(** ** The end of a line has been read *)
(** The cursor is behind the terminator at [t] of its line, which ends at [z] *)
Record AtE (B : list N) (b : Buffer) (t z : nat) : Prop := mkAtE {
  ae_wf : BWF B b;
  ae_eofp : eofp b = false;
  ae_next : nextline b = 0;
  ae_pcur : pcur b = z;
  ae_pend : pend b = z;
  ae_pbeg : pbeg b < z;
  ae_lf : nth_error B (z - 1) = Some 10%N;
  ae_term : t + tlen B (lastline b) = z
}.

(** The next line is loaded by the next read *)
Lemma next_line : forall B b t z, AtE B b t z -> in_order b ->
  exists b1, Ready B b1 /\ pcur b1 = z /\ pbeg b1 = z /\ ptok b1 = z /\ pbeg b1 = lstart B (lastline b1) /\ prevline b1 = Some (lastline b) /\ lastline b1 = lastline b + 1 /\
    1 <= ruby_sourceline b1 /\ in_order b1 /\ (z < List.length B -> z < pend b1) /\
    (z < List.length B -> forall e, b_nextc e b = b_nextc e b1) /\
    (z = List.length B -> pend b1 = z /\ forall e, b_nextc e b = Ok None b1).
Proof.
  intros B b t z [HW HE HN HP HP2 HP3 HLf _] HO. pose proof (w_last B b HW) as WL. pose proof (w_count B b HW) as WC. pose proof (w_pend B b HW) as WE.
  pose proof (w_pbeg B b HW) as WB.
  destruct (newline_last B (lastline b) (z - 1)) as (_ & HK); auto; try lia.
  unfold in_order in HO. rewrite HN in HO. cbn [Nat.eqb] in HO.
  set (v := line_count b) in *. assert (Hv : v < NL B) by lia.
  assert (ES : lstart B v = z). { rewrite HO, <- lend_next by lia. lia. }
  pose proof (line_bounds B v Hv) as LB.
  set (b0 := set_cr_seen false (set_line_count (v + 1) b)).
  assert (HLd : forall e, wp e (load_line v) (fun r b1 => r = true /\ Ready B b1 /\ pcur b1 = z /\ pbeg b1 = z /\ ptok b1 = z /\ pbeg b1 = lstart B (lastline b1) /\ prevline b1 = Some (lastline b) /\
      lastline b1 = lastline b + 1 /\ 1 <= ruby_sourceline b1 /\ in_order b1 /\ pend b1 = lend B v) b0).
  { intros e. apply (load_line_ok B); auto. { exact (w_lines B b HW). }
    intros b1 I1 I2 I3 I4 I5 I6 I7 I8 I9 I10 I11 I12 I13 I14. cbn in I1, I2, I3, I5, I10.
    unfold Ready. splits; auto; try congruence; try lia.
    - constructor; rewrite ?I2, ?I3, ?I4, ?I5, ?I6, ?I7, ?I8, ?I9; auto; try lia.
      + unfold bytes. rewrite I1. apply (w_bytes B b HW).
      + rewrite I1. apply (w_lines B b HW).
      + intros q E. injection E as <-. lia.
    - unfold in_order. rewrite I2, I4, I5, HN. cbn [Nat.eqb]. lia. }
  assert (HD : forall e e', load_line v e b0 = load_line v e' b0).
  { intros e e'. unfold load_line, bind, get, expect. destruct (line_at (input b0) v); [|reflexivity]. unfold ret, when, modify. destruct (0 <? heredoc_end b0); reflexivity. }
  destruct (load_line v (mkEnv 0 None (fun _ => false)) b0) as [r b1|m|] eqn:EL.
  2,3: specialize (HLd (mkEnv 0 None (fun _ => false))); unfold wp in HLd; rewrite EL in HLd; contradiction.
  pose proof (HLd (mkEnv 0 None (fun _ => false))) as HQ. unfold wp in HQ. rewrite EL in HQ. destruct HQ as (-> & K1 & K2 & K3 & K4 & K5 & K6 & K7 & K8 & K9 & K10).
  assert (E3 : forall e, b_nextline e b = Ok true b1).
  { intros e. rewrite <- EL. rewrite (HD _ e). unfold b_nextline. unfold bind at 1. unfold get at 1. unfold bind at 1, modify at 1. rewrite HN, HE. cbn [Nat.eqb].
    replace (pbeg b <? pend b) with true by lia. unfold bind at 1 2. rewrite in_byte_at_B with (B := B) by exact HW. rewrite HP2, HLf. cbn [expect].
    unfold ret at 1 2. cbn [N.eqb Pos.eqb negb]. unfold bind at 1, getline. unfold bind at 1, get at 1. cbn [set_nextline line_count input].
    rewrite (w_lines B b HW). fold (NL B). fold v. replace (v <? NL B) with true by lia.
    unfold b0. assert (E0 : set_nextline 0 b = b) by (destruct b; cbn in *; subst; reflexivity). rewrite E0. unfold b_nextline, bind, modify, ret. reflexivity. }
  exists b1. rewrite K10. splits; auto.
  - intros Hz. destruct (Nat.eq_dec (lstart B v) (lend B v)) as [E|E]; [|lia]. destruct (empty_last_line B v Hv E) as (_ & A & _). lia.
  - intros Hz e. assert (HL : lstart B v < lend B v). { destruct (Nat.eq_dec (lstart B v) (lend B v)) as [E|E]; [|lia]. destruct (empty_last_line B v Hv E) as (_ & A & _). lia. }
    unfold b_nextc. unfold bind at 1. unfold get at 1. rewrite HP, HP2, Nat.eqb_refl. cbn [orb]. unfold bind at 1. rewrite E3. cbn [negb].
    unfold bind at 4. unfold get at 2. destruct K1 as (_ & R2 & R3). rewrite R2, R3, K2, K10. replace (z =? lend B v) with false by lia. cbn [orb negb Nat.eqb]. reflexivity.
  - intros Hz. assert (EE : lend B v = z). { destruct (Nat.eq_dec (v + 1) (NL B)) as [E|E]. { destruct (line_last B _ E) as (A & _). lia. } destruct (line_newline B v) as (A & _); [lia|]. lia. }
    split; [exact EE|]. intros e. unfold b_nextc. unfold bind at 1. unfold get at 1. rewrite HP, HP2, Nat.eqb_refl. cbn [orb]. unfold bind at 1. rewrite E3. cbn [negb].
    unfold bind at 1, get at 1. rewrite (rd_at B b1 K1), K2. replace (nth_error B z) with (@None N); [reflexivity|]. symmetry. apply nth_error_None. lia.
Qed.

(** What follows the terminator, after a comment has been recorded *)
Definition newline_tail (space_seen : bool) : M Lexer Step :=
  s <- get ;;
  let cc := ls_is_some (lex_state s) (N.lor (N.lor (N.lor EXPR_BEG EXPR_CLASS) EXPR_FNAME) EXPR_DOT)
            && negb (ls_is_some (lex_state s) EXPR_LABELED) in
  if cc || ls_is_all (lex_state s) (N.lor EXPR_ARG EXPR_LABELED) then
    if negb cc && ctx_get IN_KWARG (context s) then as_tk normal_newline_leaf_label
    else ret (Retry space_seen)
  else lex_newline_loop space_seen.
Definition step_end (r : Step) : M Lexer (bool + (Tok + MaybeByte)) :=
  match r with Retry space_seen => ret (inl space_seen) | Tk t => ret (inr (inl t)) | Ident c => ret (inr (inr c)) end.

Lemma set_comments_nil : forall s, set_comments (comments s ++ []) s = s.
Proof. intros s. rewrite app_nil_r. destruct s; reflexivity. Qed.

Lemma flush_same : forall b, ptok b = pcur b -> b_token_flush b = b.
Proof. intros b H. unfold b_token_flush. rewrite <- H. destruct b; reflexivity. Qed.

Lemma tlen_lf : forall B b t, BWF B b -> pend b = t + 1 -> nth_error B t = Some 10%N -> whole B t -> t + tlen B (lastline b) = t + 1.
Proof.
  intros B b t HW HP HL HT. pose proof (w_pend B b HW) as WE. unfold tlen. rewrite <- WE, HP. replace (t + 1 - 1) with t by lia. replace (t + 1 - 2) with (t - 1) by lia.
  destruct (_ && _ && _) eqn:E; [|lia]. exfalso. apply andb_prop in E. destruct E as (E & E3). apply andb_prop in E. destruct E as (E1 & E2). rewrite mbeq_iff in E3.
  destruct HT as [->|HT]; [lia|congruence].
Qed.
Lemma tlen_crlf : forall B b t, BWF B b -> pbeg b <= t -> pend b = t + 2 -> nth_error B t = Some 13%N -> nth_error B (t + 1) = Some 10%N -> t + tlen B (lastline b) = t + 2.
Proof.
  intros B b t HW HB HP H1 H2. pose proof (w_pend B b HW) as WE. pose proof (w_pbeg B b HW). unfold tlen. rewrite <- WE, HP. replace (t + 2 - 1) with (t + 1) by lia. replace (t + 2 - 2) with t by lia.
  rewrite H1, H2. cbn [mbeq N.eqb Pos.eqb]. replace (lstart B (lastline b) <? t + 1) with true by lia. reflexivity.
Qed.

Lemma set_pcur_id : forall b p q, set_pcur p (set_pcur q b) = set_pcur p b.
Proof. intros b p q. destruct b; reflexivity. Qed.

Lemma remark_cases : forall rem, remark rem -> rem = [] \/ exists w, rem = 35%N :: w /\ ~ In 10%N w /\ ~ In 13%N w.
Proof. intros rem [|w H10 H13 _|w H10 H13 _]; [auto|right; eauto|right; eauto]. Qed.

(** A line end, with or without a comment, read by one round of the main loop *)
Lemma end_step : forall B b0 q rem el, BWF B b0 -> upcoming b0 q -> text_at B q (rem ++ el) -> remark rem -> eol el -> (rem = [] -> el = [10%N] -> whole B q) ->
  exists bE, AtE B bE (q + List.length rem) (q + List.length rem + List.length el) /\ ptok bE = q /\ (in_order b0 -> in_order bE) /\
    forall e, 4 * List.length B + 20 < fuel e -> decoder e = None -> forall cs seen sn s,
      lex_step cs seen sn e (set_buffer b0 s) =
      bind (newline_tail sn) step_end e (set_comments (comments s ++ noted q rem el) (set_token_seen seen (set_buffer bE s))).
Proof.
  intros B b0 q rem el HW HU HT HR HEl HWh. set (t := q + List.length rem). set (z := t + List.length el).
  assert (Hne : rem ++ el <> []) by (destruct HEl; destruct rem; discriminate).
  pose proof (text_at_len _ _ _ HT Hne) as HLen.
  assert (HqB : q < List.length B). { rewrite app_length in HLen. destruct HEl; cbn [List.length] in *; lia. }
  destruct (flush_nextc B _ q HW HU HqB) as (b1 & R1 & R2 & R3 & R4 & R5 & R6 & R7).
  pose proof R1 as (W1 & N1 & E1). pose proof (w_pcur1 B b1 W1) as Wp. pose proof (w_pbeg B b1 W1) as Wb.
  pose proof (w_last B b1 W1) as Wl. pose proof (w_count B b1 W1) as Wc. pose proof (w_pend B b1 W1) as We. pose proof (pend_le B b1 W1) as Wle.
  apply text_at_app in HT. destruct HT as (HT1 & HT2). fold t in HT2.
  (* the comment is on the line *)
  assert (Ht : t < pend b1 /\ (rem <> [] -> forall i, q <= i -> i < t -> nth_error B i <> Some 13%N)).
  { destruct (remark_cases rem HR) as [->|(w & -> & H10 & H13)]; [unfold t; cbn [List.length]; split; [lia|congruence]|]. set (u := 35%N :: w) in *.
    assert (HI : forall i, q <= i -> i < t -> exists c, nth_error B i = Some c /\ In c u).
    { intros i I1 I2. exists (nth (i - q) u 0%N). assert (Hi : i - q < List.length u) by (unfold t in I2; lia). split; [|apply nth_In; exact Hi].
      assert (E : i < q + List.length u) by lia. unfold text_at in HT1. 
      assert (G : nth_error (firstn (List.length u) (skipn q B)) (i - q) = nth_error u (i - q)) by (rewrite HT1; reflexivity).
      rewrite nth_error_firstn in G. replace (i - q <? List.length u) with true in G by lia. rewrite nth_error_skipn in G. replace (q + (i - q)) with i in G by lia. rewrite G. apply nth_error_nth'. exact Hi. }
    split.
    - assert (F : q + List.length u <= pend b1). { apply (fits B b1 q u); auto; try lia. unfold u. intros [A|A]; [discriminate|auto]. }
      assert (Hl : nth_error B t <> None). { destruct HEl; apply text_at_cons in HT2; destruct HT2 as (A & _); congruence. } apply nth_error_Some in Hl.
      destruct (Nat.eq_dec t (pend b1)) as [E|E]; [exfalso|unfold t in *; lia].
      destruct (Nat.eq_dec (lastline b1 + 1) (NL B)) as [E2|E2]. { destruct (line_last B _ E2) as (A & _). lia. }
      destruct (line_newline B (lastline b1)) as (_ & A & _); [lia|]. rewrite <- We, <- E in A.
      destruct (HI (t - 1)) as (c & C1 & C2); [unfold t, u in *; cbn [List.length] in *; lia|unfold t, u in *; cbn [List.length] in *; lia|]. rewrite A in C1. injection C1 as <-. unfold u in C2. destruct C2 as [C2|C2]; [discriminate|auto].
    - intros _ i I1 I2 A. destruct (HI i I1 I2) as (c & C1 & C2). rewrite A in C1. injection C1 as <-. unfold u in C2. destruct C2 as [C2|C2]; [discriminate|auto]. }
  destruct Ht as (Ht & H13).
  assert (HZ : pend b1 = z /\ nth_error B (z - 1) = Some 10%N /\ t + tlen B (lastline b1) = z).
  { unfold z. destruct HEl as [|]; cbn [List.length].
    - apply text_at_cons in HT2. destruct HT2 as (A & _). destruct (newline_last B (lastline b1) t) as (A1 & A2); auto; try lia.
      assert (EP : pend b1 = t + 1) by lia. splits; auto. { replace (t + 1 - 1) with t by lia. exact A. }
      apply tlen_lf; auto. destruct rem as [|c r]; [unfold t; cbn; rewrite Nat.add_0_r; apply HWh; auto|].
      right. apply H13; [discriminate| |]; unfold t; cbn [List.length]; lia.
    - apply text_at_cons in HT2. destruct HT2 as (A & HT3). apply text_at_cons in HT3. destruct HT3 as (A' & _).
      destruct (rd_crlf B (mkEnv 0 None (fun _ => false)) b1 R1 t) as (K & _); auto; [unfold t; lia|].
      destruct (newline_last B (lastline b1) (t + 1)) as (A1 & A2); auto; try lia.
      assert (EP : pend b1 = t + 2) by lia. splits; auto. { replace (t + 2 - 1) with (t + 1) by lia. exact A'. }
      apply tlen_crlf; auto. unfold t; lia. }
  destruct HZ as (HZ1 & HZ2 & HZ3).
  exists (set_pcur z b1). splits; auto.
  - assert (t < z) by (unfold z; destruct HEl; cbn [List.length]; lia).
    constructor; auto; cbn [pbeg set_pcur]; [|unfold t in *; lia].
    pose proof (BWF_goto_eol B b1 W1) as G. unfold goto_eol in G. rewrite HZ1 in G. exact G.
  - intros e Hf Hd cs seen sn s. unfold lex_step. unfold bind at 1, gets at 1. unfold bind at 1. unfold token_flush, modb, modify at 1.
    cbn [buffer set_buffer]. unfold bind at 1. unfold nextc, inb, zoom. cbn [buffer set_buffer]. rewrite R7.
    destruct HR as [|w H10 H13' H58|w H10 H13' HN].
    + (* no comment *)
      assert (EN : b_nextc e b1 = Ok (Some 10%N) (set_pcur z b1)).
      { rewrite <- (rd_here e b1 _ R2). unfold z, t in *. cbn [List.length] in *. rewrite Nat.add_0_r in *. destruct HEl; cbn [List.length].
        - apply text_at_cons in HT2. destruct HT2 as (A & _). apply (rd_byte B e b1 R1); auto. discriminate.
        - apply text_at_cons in HT2. destruct HT2 as (A & HT3). apply text_at_cons in HT3. destruct HT3 as (A' & _). apply (rd_crlf B e b1 R1); auto. lia. }
      rewrite EN. cbn [noted]. cbn [set_buffer buffer lex_state]. rewrite app_nil_r. 
      change (lex_char (Some 10%N) cs sn seen (lex_state s)) with (lex_newline (Some 10%N) sn seen). destruct s; reflexivity.
    + apply text_at_cons in HT1. destruct HT1 as (A & HT1).
      rewrite <- (rd_here e b1 _ R2), (rd_byte B e b1 R1 q 35%N) by (auto; discriminate).
      change (lex_char (Some 35%N) cs sn seen (lex_state (set_buffer b0 s))) with (lex_newline (Some 35%N) sn seen). unfold lex_newline. change (mbeq (Some 35%N) "#") with true. cbv iota.
      change (set_buffer (set_pcur (q + 1) b1) (set_buffer (b_token_flush b0) (set_buffer b0 s))) with (set_buffer (set_pcur (q + 1) b1) s). unfold bind at 1 2.
      assert (HC : forall i, q < i -> i < pend b1 -> nth_error B i <> Some 58%N).
      { intros i I1 I2 C. assert (HI : In 58%N (w ++ el)).
        { assert (HT3 : text_at B (q + 1) (w ++ el)). { apply text_at_app. split; [exact HT1|]. unfold t in HT2. cbn [List.length] in HT2. replace (q + 1 + List.length w) with (q + S (List.length w)) by lia. exact HT2. }
          assert (G : nth_error (firstn (List.length (w ++ el)) (skipn (q + 1) B)) (i - (q + 1)) = nth_error (w ++ el) (i - (q + 1))) by (unfold text_at in HT3; rewrite HT3; reflexivity).
          rewrite nth_error_firstn in G. rewrite app_length in G. unfold z, t in HZ1. cbn [List.length] in HZ1. replace (i - (q + 1) <? List.length w + List.length el) with true in G by lia.
          rewrite nth_error_skipn in G. replace (q + 1 + (i - (q + 1))) with i in G by lia. rewrite C in G. symmetry in G. apply nth_error_In in G. exact G. }
        apply in_app_or in HI. destruct HI as [HI|HI]; [auto|]. destruct HEl; cbn in HI; intuition discriminate. }
      rewrite (comment_plain B e b1 q s seen) by (auto; lia).
      cbv iota. cbn [negb]. rewrite HZ1. cbn [noted]. unfold z, t. destruct s; reflexivity.
    + apply text_at_cons in HT1. destruct HT1 as (A & HT1).
      rewrite <- (rd_here e b1 _ R2), (rd_byte B e b1 R1 q 35%N) by (auto; discriminate).
      change (lex_char (Some 35%N) cs sn seen (lex_state (set_buffer b0 s))) with (lex_newline (Some 35%N) sn seen). unfold lex_newline. change (mbeq (Some 35%N) "#") with true. cbv iota.
      change (set_buffer (set_pcur (q + 1) b1) (set_buffer (b_token_flush b0) (set_buffer b0 s))) with (set_buffer (set_pcur (q + 1) b1) s). unfold bind at 1 2.
      assert (EP : pend b1 = q + 1 + List.length w + List.length el) by (rewrite HZ1; unfold z, t; cbn [List.length]; lia).
      rewrite (comment_magic B e b1 q s seen w el []); auto; try lia.
      * cbv iota. cbn [negb]. rewrite HZ1. cbn [noted]. unfold z, t. unfold add_magic. rewrite app_nil_r. destruct s; reflexivity.
      * apply text_at_app. split; [exact HT1|]. unfold t in HT2. cbn [List.length] in HT2. replace (q + 1 + List.length w) with (q + S (List.length w)) by lia. exact HT2.
      * destruct HEl; repeat constructor; unfold sp_char; lia.
Qed.

(** ** Behind a line end that counts: looking at the next line *)
Definition nl_body : bool -> M Lexer (bool + Step) := fun space_seen =>
    c <- nextc ;;
    if mbeq c 32%N || mbeq c 9%N || mbeq c 12%N || mbeq c 13%N || mbeq c 11%N then ret (inl true)
    else if mbeq c "#" then
      pushback c ;;; ret (inr (Retry space_seen))
    else
      lead <- (if mbeq c "&" || mbeq c "." then
                 p <- peek "." ;; ret (Bool.eqb p (mbeq c "&"))
               else ret false) ;;
      if lead : bool then pushback c ;;; ret (inr (Retry space_seen))
      else if is_eof c then
        inb eof_no_decrement ;;;
        t <- normal_newline_leaf_label ;;
        ret (inr (Tk t))
      else
        b <- getb ;;
        l <- sub_ck (ruby_sourceline b) 1 ;;
        modb (set_ruby_sourceline l) ;;;
        modb (fun b => set_nextline (lastline b) b) ;;;
        inb eof_no_decrement ;;;
        t <- normal_newline_leaf_label ;;
        ret (inr (Tk t)).
Lemma nl_loop : forall sn, lex_newline_loop sn = loop nl_body sn.
Proof. reflexivity. Qed.

Lemma nl_blanks : forall B b1 e, Ready B b1 -> forall bl p, Forall blank bl -> text_at B p bl -> p + List.length bl <= pend b1 -> forall m sn s,
  loop_n (List.length bl + m) nl_body sn e (set_buffer (set_pcur p b1) s) =
  loop_n m nl_body (sn || nonempty bl) e (set_buffer (set_pcur (p + List.length bl) b1) s).
Proof.
  intros B b1 e HR bl. induction bl as [|c bl IH]; intros p HB HT HL m sn s.
  - cbn [List.length Nat.add]. rewrite Nat.add_0_r, orb_false_r. reflexivity.
  - inversion HB as [|? ? Hc HB']; subst. apply text_at_cons in HT. destruct HT as (Hx & HT). cbn [List.length] in *. unfold blank in Hc.
    cbn [Nat.add loop_n]. unfold bind at 1. unfold nl_body at 1. unfold bind at 1. unfold nextc, inb, zoom. cbn [buffer set_buffer].
    rewrite (rd_byte B e b1 HR p c) by (auto; lia). cbn [mbeq].
    replace (N.eqb c 32 || N.eqb c 9 || N.eqb c 12 || N.eqb c 13 || N.eqb c 11) with true by lia. unfold ret at 1.
    change (set_buffer (set_pcur (p + 1) b1) (set_buffer (set_pcur p b1) s)) with (set_buffer (set_pcur (p + 1) b1) s).
    rewrite IH by (auto; lia). cbn [nonempty]. rewrite orb_true_r. cbn [orb]. replace (p + 1 + List.length bl) with (p + S (List.length bl)) by lia. reflexivity.
Qed.

(** The state behind the newline token *)
Definition nl_done (bN : Buffer) (s : Lexer) : Lexer := set_lex_state EXPR_BEG (set_command_start true (set_buffer bN s)).

Lemma go_back : forall B e b b2 t z s, 4 * List.length B + 20 < fuel e -> AtE B b t z ->
  bytes b2 = B -> d_lines (input b2) = LN B -> prevline b2 = Some (lastline b) -> eofp b2 = false -> lastline b < line_count b2 -> line_count b2 <= NL B ->
  (nextline b2 <> 0 -> lastline b < nextline b2 /\ nextline b2 < line_count b2 /\ lstart B (nextline b2) < lend B (nextline b2)) ->
  exists bN, inb eof_no_decrement e (set_buffer b2 s) = Ok tt (set_buffer bN s) /\ AtNl B (lastline b) b2 bN /\ pcur bN = t /\ pend bN = z.
Proof.
  intros B e b b2 t z s Hf [HW HE HN HP HP2 HP3 HLf HTm] H1 H2 H3 H4 H5 H6 H7. pose proof (w_pend B b HW) as WE. pose proof (w_pbeg B b HW) as WB.
  assert (HG : wp e (inb eof_no_decrement) (fun _ s' => AtNl B (lastline b) b2 (buffer s')) (set_buffer b2 s)).
  { apply (eof_no_decrement_ok B 0 0 e Hf (lastline b) (set_buffer b2 s) (set_buffer b2 s) b2); auto.
    - apply FR_refl.
    - rewrite H3, H4. reflexivity.
    - lia.
    - intros p E. rewrite H3 in E. injection E as <-. exact H5.
    - rewrite H4. discriminate. }
  unfold wp in HG. unfold inb, zoom in *. cbn [buffer set_buffer] in *. destruct (eof_no_decrement e b2) as [[] bN| |]; try contradiction.
  cbn [buffer set_buffer] in HG. exists bN. splits; auto.
  - pose proof (an_pcur _ _ _ _ HG). pose proof (w_pend B bN (an_wf _ _ _ _ HG)) as E. rewrite (an_last _ _ _ _ HG) in E. lia.
  - pose proof (w_pend B bN (an_wf _ _ _ _ HG)) as E. rewrite (an_last _ _ _ _ HG) in E. lia.
Qed.

Lemma bind_same : forall S A C (m : M S A) (f : A -> M S C) e s1 s2, m e s1 = m e s2 -> bind m f e s1 = bind m f e s2.
Proof. intros * H. unfold bind. rewrite H. reflexivity. Qed.

Lemma blank_in : forall bl c, Forall blank bl -> In c bl -> blank c.
Proof. intros bl c H. rewrite Forall_forall in H. apply H. Qed.

(** Blanks at the start of the next line *)
Lemma nl_start : forall B b t z bl, AtE B b t z -> in_order b -> Forall blank bl -> text_at B z bl -> z + List.length bl < List.length B ->
  exists b1, Ready B b1 /\ pbeg b1 = z /\ ptok b1 = z /\ pcur b1 = z /\ pbeg b1 = lstart B (lastline b1) /\ prevline b1 = Some (lastline b) /\ lastline b1 = lastline b + 1 /\ 1 <= ruby_sourceline b1 /\ in_order b1 /\
    z + List.length bl < pend b1 /\
    forall e sn s, List.length bl < fuel e ->
      loop nl_body sn e (set_buffer b s) =
      loop_n (fuel e - List.length bl) nl_body (sn || nonempty bl) e (set_buffer (set_pcur (z + List.length bl) b1) s).
Proof.
  intros B b t z bl HA HO HB HT HL. destruct (next_line B b t z HA HO) as (b1 & K1 & K2 & K3 & K4 & K5 & K6 & K7 & K8 & K9 & K10 & K11 & _).
  specialize (K10 ltac:(lia)). specialize (K11 ltac:(lia)). pose proof K1 as (W1 & N1 & E1).
  assert (HF : z + List.length bl <= pend b1).
  { apply (fits B b1 z bl); auto; try lia. intros A. apply (blank_in _ _ HB) in A. unfold blank in A. lia. }
  assert (HF2 : z + List.length bl < pend b1).
  { destruct (Nat.eq_dec (z + List.length bl) (pend b1)) as [E|E]; [exfalso|lia]. pose proof (w_last B b1 W1). pose proof (w_count B b1 W1). pose proof (w_pend B b1 W1) as We.
    destruct (Nat.eq_dec (lastline b1 + 1) (NL B)) as [E2|E2]. { destruct (line_last B _ E2) as (A & _). lia. }
    destruct (line_newline B (lastline b1)) as (_ & A & _); [lia|]. rewrite <- We, <- E in A.
    assert (Hbl : bl <> []) by (intros ->; cbn in E; lia). destruct (exists_last Hbl) as (u & c & ->).
    apply text_at_app in HT. destruct HT as (_ & HT). apply text_at_cons in HT. destruct HT as (HT & _). rewrite app_length in A. cbn [List.length] in A.
    replace (z + (List.length u + 1) - 1) with (z + List.length u) in A by lia. rewrite A in HT. injection HT as <-.
    assert (C : blank 10%N) by (apply (blank_in _ _ HB), in_or_app; right; left; reflexivity). unfold blank in C. lia. }
  exists b1. splits; auto. intros e sn s Hf.
  assert (E0 : forall m, loop_n (S m) nl_body sn e (set_buffer b s) = loop_n (S m) nl_body sn e (set_buffer (set_pcur z b1) s)).
  { assert (EN : nextc e (set_buffer b s) = nextc e (set_buffer (set_pcur z b1) s)).
    { unfold nextc, inb, zoom. cbn [buffer set_buffer]. rewrite K11. assert (ES : set_pcur z b1 = b1) by (rewrite <- K2 at 1; apply set_pcur_same). rewrite ES. destruct (b_nextc e b1); reflexivity. }
    assert (EB : nl_body sn e (set_buffer b s) = nl_body sn e (set_buffer (set_pcur z b1) s)).
    { apply bind_same, EN. }
    intros m. cbn [loop_n]. apply bind_same, EB. }
  unfold loop. replace (fuel e) with (S (fuel e - 1)) at 1 by lia. rewrite E0.
  replace (S (fuel e - 1)) with (List.length bl + (fuel e - List.length bl)) by lia. apply (nl_blanks B); auto.
Qed.

(** A comment or a leading dot: the statement goes on *)
Lemma nl_more : forall B b1 r e m sn s, Ready B b1 -> pbeg b1 <= r -> r < pend b1 -> nth_error B r = Some 35%N \/ leading_dot B r ->
  loop_n (S m) nl_body sn e (set_buffer (set_pcur r b1) s) = Ok (Retry sn) (set_buffer (set_pcur r b1) s).
Proof.
  intros B b1 r e m sn s HR Hr0 Hr H. pose proof HR as (HW & N1 & E1).
  assert (Hbk : forall x, nth_error B r = Some x -> x <> 10%N -> pushback (Some x) e (set_buffer (set_pcur (r + 1) b1) s) = Ok tt (set_buffer (set_pcur r b1) s)).
  { intros x Hx Hn. assert (G : wp e (pushback (Some x)) (fun _ s' => s' = set_buffer (set_pcur r b1) s) (set_buffer (set_pcur (r + 1) b1) s)).
    { apply (wp_push_byte B e b1 HR _ r x); auto. }
    unfold wp in G. destruct (pushback (Some x) e _) as [[] s'| |]; try contradiction. rewrite G. reflexivity. }
  assert (Hpk : forall p s0, buffer s0 = set_pcur p b1 -> peek "." e s0 = Ok ((p <? pend b1) && mbeq (nth_error B p) ".") s0).
  { intros p s0 H0. assert (G : wp e (peek_n "." 0) (fun a s' => a = (p + 0 <? pend b1) && mbeq (nth_error B (p + 0)) "." /\ s' = s0) s0).
    { apply (wp_peek_at B e b1 HR _ _ _ p); auto. }
    unfold wp in G. change (peek "." e s0) with (peek_n "." 0 e s0). rewrite Nat.add_0_r in G. destruct (peek_n "." 0 e s0) as [a s'| |]; try contradiction. destruct G as (-> & ->). reflexivity. }
  cbn [loop_n]. unfold bind at 1. unfold nl_body at 1. unfold bind at 1. unfold nextc, inb, zoom. cbn [buffer set_buffer].
  destruct H as [H|[(H & H')|(H & H')]].
  - rewrite (rd_byte B e b1 HR r 35%N) by (auto; discriminate).
    change (set_buffer (set_pcur (r + 1) b1) (set_buffer (set_pcur r b1) s)) with (set_buffer (set_pcur (r + 1) b1) s). cbn [mbeq N.eqb Pos.eqb orb].
    unfold bind at 1. rewrite (Hbk 35%N) by (auto; discriminate). reflexivity.
  - rewrite (rd_byte B e b1 HR r 46%N) by (auto; discriminate).
    change (set_buffer (set_pcur (r + 1) b1) (set_buffer (set_pcur r b1) s)) with (set_buffer (set_pcur (r + 1) b1) s). cbn [mbeq N.eqb Pos.eqb orb].
    unfold bind at 1 2. rewrite (Hpk (r + 1)) by reflexivity.
    assert (EM : (r + 1 <? pend b1) && mbeq (nth_error B (r + 1)) "." = false).
    { destruct (mbeq (nth_error B (r + 1)) ".") eqn:E; [|apply andb_false_r]. apply mbeq_iff in E. contradiction. }
    rewrite EM. cbn. unfold bind at 1. rewrite (Hbk 46%N) by (auto; discriminate). reflexivity.
  - rewrite (rd_byte B e b1 HR r 38%N) by (auto; discriminate).
    change (set_buffer (set_pcur (r + 1) b1) (set_buffer (set_pcur r b1) s)) with (set_buffer (set_pcur (r + 1) b1) s). cbn [mbeq N.eqb Pos.eqb orb].
    unfold bind at 1 2. rewrite (Hpk (r + 1)) by reflexivity.
    assert (HP1 : r + 1 < pend b1).
    { destruct (Nat.eq_dec (r + 1) (pend b1)) as [E|E]; [exfalso|lia]. pose proof (w_last B b1 HW). pose proof (w_count B b1 HW). pose proof (w_pend B b1 HW) as We.
      destruct (Nat.eq_dec (lastline b1 + 1) (NL B)) as [E2|E2]. { destruct (line_last B _ E2) as (A & _). assert (K : nth_error B (r + 1) <> None) by congruence. apply nth_error_Some in K. lia. }
      destruct (line_newline B (lastline b1)) as (_ & A & _); [lia|]. rewrite <- We, <- E in A. replace (r + 1 - 1) with r in A by lia. congruence. }
    replace (r + 1 <? pend b1) with true by lia. rewrite H'. cbn. unfold bind at 1. rewrite (Hbk 38%N) by (auto; discriminate). reflexivity.
Qed.

(** Anything else: the line feed is a token, and the line that was looked at is kept for later *)
Lemma nl_new : forall B b t z b1 r e m sn s, 4 * List.length B + 20 < fuel e -> AtE B b t z ->
  Ready B b1 -> pbeg b1 = z -> pbeg b1 = lstart B (lastline b1) -> prevline b1 = Some (lastline b) -> lastline b1 = lastline b + 1 -> 1 <= ruby_sourceline b1 -> in_order b1 ->
  z <= r -> r < pend b1 -> new_line B r ->
  exists bN, BWF B bN /\ upcoming bN z /\ in_order bN /\ pcur bN = t /\ ptok bN = t /\ pend bN = z /\
    loop_n (S m) nl_body sn e (set_buffer (set_pcur r b1) s) = Ok (Tk tNL) (nl_done bN s).
Proof.
  intros B b t z b1 r e m sn s Hf HA HR H1 H2 H3 H4 H5 H6 Hr0 Hr (x & Hx & Hbl & Hsh & Hcr & Hdot). pose proof HR as (W1 & N1 & E1).
  pose proof (w_pend B b1 W1) as WE1. pose proof (w_last B b1 W1) as WL1. pose proof (w_count B b1 W1) as WC1.
  (* what is read *)
  assert (HG : exists c p1, b_nextc e (set_pcur r b1) = Ok (Some c) (set_pcur p1 b1) /\ c <> 13%N /\ ~ blank c /\ c <> 35%N /\ r < p1 /\ p1 <= pend b1 /\
                 (c = 46%N \/ c = 38%N -> c = x /\ p1 = r + 1)).
  { destruct (N.eq_dec x 13%N) as [->|Hn].
    - destruct (rd_crlf B e b1 HR r) as (A1 & A2); auto; try lia. exists 10%N, (r + 2). rewrite A2. splits; auto; try discriminate; try lia. unfold blank; lia.
    - exists x, (r + 1). rewrite (rd_byte B e b1 HR r x) by auto. splits; auto; lia. }
  destruct HG as (c & p1 & G1 & G2 & G3 & G4 & G5 & G6 & G7).
  set (b2 := set_nextline (lastline b1) (set_ruby_sourceline (ruby_sourceline b1 - 1) (set_pcur p1 b1))).
  destruct (go_back B e b b2 t z s Hf HA) as (bN & I1 & I2 & I3 & I4).
  { apply (w_bytes B b1 W1). } { apply (w_lines B b1 W1). } { exact H3. } { exact E1. } { cbn. lia. } { cbn. lia. } { cbn. intros _. lia. }
  destruct I2 as [J1 J2 J3 J4 J5 J6 J7 J8]. exists bN.
  cbn [nextline b2 set_nextline set_ruby_sourceline set_pcur line_count eofp] in J6, J7, J8.
  splits; auto; try lia.
  - split; [congruence|right]. rewrite J7. replace (lastline b1 =? 0) with false by lia. destruct (line_some B (lastline b1)) as (l & L1 & L2 & L3); [lia|].
    exists l. unfold line_at. rewrite (w_lines B bN J1), L1. splits; auto; lia.
  - unfold in_order in *. rewrite J7, J6. rewrite N1 in H6. replace (lastline b1 =? 0) with false by lia. cbn in H6. exact H6.
  - cbn [loop_n]. unfold bind at 1. unfold nl_body at 1. unfold bind at 1. unfold nextc, inb at 1, zoom. cbn [buffer set_buffer]. rewrite G1.
    change (set_buffer (set_pcur p1 b1) (set_buffer (set_pcur r b1) s)) with (set_buffer (set_pcur p1 b1) s).
    assert (Hc : forall y, mbeq (Some c) y = (c =? y)%N) by reflexivity. rewrite !Hc.
    unfold blank in G3. replace (_ || _ || _ || _ || (c =? 11)%N) with false by lia. replace (c =? 35)%N with false by lia.
    assert (HL : (if (c =? 38)%N || (c =? 46)%N then p <- peek 46%N ;; ret (Bool.eqb p (c =? 38)%N) else ret false) e (set_buffer (set_pcur p1 b1) s) = Ok false (set_buffer (set_pcur p1 b1) s)).
    { destruct ((c =? 38)%N || (c =? 46)%N) eqn:EC; [|reflexivity]. destruct G7 as (-> & ->); [lia|].
      assert (Hpk : peek 46%N e (set_buffer (set_pcur (r + 1) b1) s) = Ok ((r + 1 <? pend b1) && mbeq (nth_error B (r + 1)) ".") (set_buffer (set_pcur (r + 1) b1) s)).
      { set (s0 := set_buffer _ s). assert (G : wp e (peek_n "." 0) (fun a s' => a = (r + 1 + 0 <? pend b1) && mbeq (nth_error B (r + 1 + 0)) "." /\ s' = s0) s0).
        { apply (wp_peek_at B e b1 HR _ _ _ (r + 1)); auto. }
        unfold wp in G. change (peek 46%N e s0) with (peek_n "." 0 e s0). rewrite Nat.add_0_r in G. destruct (peek_n "." 0 e s0) as [a s'| |]; try contradiction. destruct G as (-> & ->). reflexivity. }
      unfold bind. rewrite Hpk. unfold ret. f_equal. unfold leading_dot in Hdot.
      destruct (N.eq_dec x 38%N) as [->|Hn38].
      - destruct (mbeq (nth_error B (r + 1)) ".") eqn:E; [apply mbeq_iff in E; exfalso; apply Hdot; right; auto|]. rewrite andb_false_r. reflexivity.
      - assert (x = 46%N) by lia. subst x. destruct (mbeq (nth_error B (r + 1)) ".") eqn:E.
        + apply mbeq_iff in E. assert (HP1 : r + 1 < pend b1).
          { destruct (Nat.eq_dec (r + 1) (pend b1)) as [E0|E0]; [exfalso|lia].
            destruct (Nat.eq_dec (lastline b1 + 1) (NL B)) as [E2|E2]. { destruct (line_last B _ E2) as (A & _). assert (K : nth_error B (r + 1) <> None) by congruence. apply nth_error_Some in K. lia. }
            destruct (line_newline B (lastline b1)) as (_ & A & _); [lia|]. rewrite <- WE1, <- E0 in A. replace (r + 1 - 1) with r in A by lia. congruence. }
          replace (r + 1 <? pend b1) with true by lia. reflexivity.
        + exfalso. apply Hdot. left. split; auto. intros K. rewrite K in E. discriminate. }
    unfold bind at 1. rewrite HL. cbn [is_eof].
    unfold bind at 1. unfold getb, gets, bind at 1. cbn [buffer set_buffer ruby_sourceline set_pcur]. unfold sub_ck at 1.
    replace (1 <=? ruby_sourceline b1) with true by lia.
    unfold bind at 1. cbn [ret]. unfold modb, modify, bind. cbn [buffer set_buffer].
    change (set_buffer (set_nextline _ _) _) with (set_buffer b2 s).
    rewrite I1. reflexivity.
Qed.
