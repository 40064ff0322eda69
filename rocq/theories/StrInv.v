(** * Escapes and string contents keep the lexer invariant *)
Require Import Verif.Base Verif.MaybeByteM Verif.Utf8M Verif.InputM Verif.DiagnosticM Verif.LexStateM
  Verif.TokensM Verif.BufferM Verif.LexerM Verif.LexNumericM Verif.LexStringM
  Verif.SourceSpec Verif.SourceProofs Verif.Wp Verif.BufInv Verif.LexInv Verif.NumInv.
Require Import ZifyBool ZifyNat ZifyN.

(** ** Scanning digits *)
Lemma scan_hex_loop_range : forall b len s r v s', scan_hex_loop b len s r = (v, s') ->
  s <= s' /\ s' <= s + len /\
  forall i, s <= i -> i < s' -> exists c, byte_at b i = Some c /\ c <> 10%N /\ c <> 13%N.
Proof.
  intros b. induction len as [|len IH]; intros s r v s' H; cbn [scan_hex_loop] in H.
  - inversion H; subst. splits; try lia.
  - destruct (byte_at b s) as [c|] eqn:Ec.
    2: { inversion H; subst. splits; try lia. }
    destruct (hex_value c) as [h|] eqn:Eh.
    2: { inversion H; subst. splits; try lia. }
    apply IH in H. destruct H as (H1 & H2 & H3). splits; try lia.
    intros i I1 I2. destruct (Nat.eq_dec i s) as [->|E].
    + exists c. split; auto. split; intros ->; discriminate.
    + apply H3; lia.
Qed.

Lemma scan_hex_range : forall b s len v n, scan_hex b s len = (v, n) ->
  n <= len /\ forall i, s <= i -> i < s + n -> exists c, byte_at b i = Some c /\ c <> 10%N /\ c <> 13%N.
Proof.
  intros b s len v n H. unfold scan_hex in H. destruct (scan_hex_loop b len s 0) as [r s'] eqn:E.
  inversion H; subst. apply scan_hex_loop_range in E. destruct E as (H1 & H2 & H3). split; [lia|].
  intros i I1 I2. apply H3; lia.
Qed.

Lemma scan_oct_loop_range : forall b len s r v s', scan_oct_loop b len s r = (v, s') ->
  s <= s' /\ s' <= s + len /\
  forall i, s <= i -> i < s' -> exists c, byte_at b i = Some c /\ c <> 10%N /\ c <> 13%N.
Proof.
  intros b. induction len as [|len IH]; intros s r v s' H; cbn [scan_oct_loop] in H.
  - inversion H; subst. splits; try lia.
  - destruct (byte_at b s) as [c|] eqn:Ec.
    2: { inversion H; subst. splits; try lia. }
    destruct (in_range "0" "7" c) eqn:Eh.
    2: { inversion H; subst. splits; try lia. }
    apply IH in H. destruct H as (H1 & H2 & H3). splits; try lia.
    intros i I1 I2. destruct (Nat.eq_dec i s) as [->|E].
    + exists c. split; auto. split; intros ->; discriminate.
    + apply H3; lia.
Qed.

Lemma scan_oct_range : forall b s len v n, scan_oct b s len = (v, n) ->
  n <= len /\ forall i, s <= i -> i < s + n -> exists c, byte_at b i = Some c /\ c <> 10%N /\ c <> 13%N.
Proof.
  intros b s len v n H. unfold scan_oct in H. destruct (scan_oct_loop b len s 0) as [r s'] eqn:E.
  inversion H; subst. apply scan_oct_loop_range in E. destruct E as (H1 & H2 & H3). split; [lia|].
  intros i I1 I2. apply H3; lia.
Qed.

(** A code point that passes the two tests of tokadd_codepoint is a [char] *)
Lemma surrogate_mask : forall cp, (55296 <= cp)%N -> (cp <= 57343)%N -> N.land cp 4294965248 = 55296%N.
Proof.
  assert (H : forallb (fun k => N.eqb (N.land (55296 + N.of_nat k) 4294965248) 55296) (seq 0 2048) = true)
    by (vm_compute; reflexivity).
  rewrite forallb_forall in H. intros cp H1 H2.
  specialize (H (N.to_nat (cp - 55296))).
  assert (Hin : In (N.to_nat (cp - 55296)) (seq 0 2048)) by (apply in_seq; lia).
  apply H in Hin. apply N.eqb_eq in Hin. rewrite <- Hin. f_equal. lia.
Qed.

Lemma codepoint_char : forall cp, (1114111 <? cp)%N = false -> N.eqb (N.land cp 4294965248) 55296 = false ->
  exists ch, from_u32 cp = Some ch.
Proof.
  intros cp H1 H2. unfold from_u32, in_range.
  destruct ((cp <=? 1114111)%N && negb ((55296 <=? cp)%N && (cp <=? 57343)%N)) eqn:E; [eauto|].
  exfalso. assert (H3 : (55296 <= cp)%N /\ (cp <= 57343)%N) by lia. destruct H3.
  rewrite surrogate_mask in H2 by lia. discriminate.
Qed.

(** [modb f] with the state hypotheses named [HF] and [Hb] *)
Ltac mstep := match goal with
  | HF : FR _ _ ?s, Hb : buffer ?s = ?b |- wp _ (modb _) _ ?s =>
      eapply wp_modb; [exact HF|exact Hb|]; clear HF Hb;
      let s' := fresh "s" in intros s' HF Hb; try clear s
  end.
(** [getb] *)
Ltac gb := match goal with Hb : buffer ?s = _ |- wp _ _ _ ?s => apply wp_gets; rewrite Hb end.
(** name the current buffer [x] *)
Ltac nameb x := match goal with Hb : buffer ?s = ?t |- _ => remember t as x eqn:Ebx; clear Ebx end.

Section Str.
  Variables (B : list N) (n0 b0 : nat) (e : Env).
  Hypothesis Hfuel : 4 * List.length B + 20 < fuel e.

  Notation FR := (FR B).
  Notation Rd := (Rd B n0 b0).
  Notation AR := (AR B n0 b0).
  Notation InTok := (InTok B n0 b0).
  Notation IA := (IA B n0 b0).
  Notation Dn := (Dn B n0 b0).
  Notation Rm := (Rm B).
  Notation gh := (gh B n0 b0).
  Notation tail b := (List.length B - lstart B (line_count b)).

  (** On the line of a token that started at [st], anywhere behind its first byte *)
  Record IL (st mu : nat) (b : Buffer) : Prop := mkIL {
    il_wf : BWF B b; il_gh : gh b; il_next : nextline b = 0; il_pbeg : pbeg b <= st; il_st : st < pcur b;
    il_mu : pend b - st + tail b <= mu
  }.

  Hint Resolve il_wf : neut.

  Lemma it_il : forall st mu b, InTok st mu b -> st < pcur b -> IL st mu b.
  Proof using All. intros st mu b [] H. constructor; auto. Qed.

  Lemma ia_il : forall st mu c b, IA st mu c b -> IL st mu b.
  Proof using All.
    intros st mu c b []. constructor; auto.
    destruct (back_fields c b) as (K1 & K2 & K3 & K4 & K5 & _). destruct ia_back. rewrite <- K4, <- K5. auto.
  Qed.

  Lemma il_dn : forall st mu b, IL st mu b -> Dn st mu b.
  Proof using All.
    intros st mu b []. constructor; auto. unfold BufInv.Rm. pose proof (w_pcur2 B b il_wf0). rewrite il_next0. cbn [Nat.eqb].
    destruct (eofp b); lia.
  Qed.

  Lemma il_ptok : forall st mu b p, IL st mu b -> p <= pcur b -> IL st mu (set_ptok p b).
  Proof using All. intros st mu b p [] H. constructor; auto. apply BWF_set_ptok; auto. Qed.

  Lemma il_pcur : forall st mu b p, IL st mu b -> st < p -> p <= pend b -> ptok b <= p ->
    (pbeg b < p -> nth_error B (p - 1) = Some 13%N -> nth_error B p = Some 10%N -> False) ->
    IL st mu (set_pcur p b).
  Proof using All.
    intros st mu b p [] H1 H2 H3 H4. constructor; auto. apply BWF_set_pcur; auto. lia.
  Qed.

  Lemma il_end : forall st mu b, IL st mu b -> nth_error B (pcur b - 1) <> Some 10%N ->
    pcur b < pend b \/ pend b = List.length B.
  Proof using All.
    intros st mu b [] H. pose proof (w_pcur2 B b il_wf0). pose proof (w_last B b il_wf0). pose proof (w_count B b il_wf0).
    pose proof (w_pend B b il_wf0) as Hpe.
    destruct (Nat.eq_dec (lastline b + 1) (NL B)) as [E|E].
    - right. destruct (line_last B _ E) as (A & _). lia.
    - left. destruct (line_newline B (lastline b)) as (_ & A & _); [lia|].
      destruct (Nat.eq_dec (pcur b) (pend b)) as [E1|E1]; [|lia]. rewrite E1, Hpe in H. congruence.
  Qed.

  (** bytes that are no newline stay on the line of the token *)
  Lemma it_limit : forall st mu b p, InTok st mu b -> st < pcur b ->
    (forall i, pcur b <= i -> i < p -> exists c, nth_error B i = Some c /\ c <> 10%N) -> p <= pend b \/ p < pcur b.
  Proof using All.
    intros st mu b p HI Hst H. pose proof (it_il _ _ _ HI Hst) as HL.
    destruct (Nat.lt_ge_cases p (pcur b)) as [L|L]; [auto|left].
    pose proof (w_pcur2 B b (it_wf _ _ _ _ _ _ HI)).
    destruct (il_end _ _ _ HL) as [E|E].
    { destruct (it_bytes _ _ _ _ _ _ HI (pcur b - 1)); auto; lia. }
    - destruct (Nat.lt_ge_cases (pend b) p) as [L1|L1]; [exfalso|auto].
      destruct (Nat.eq_dec (lastline b + 1) (NL B)) as [E1|E1].
      + destruct (line_last B _ E1) as (A & _). rewrite <- (w_pend B b (it_wf _ _ _ _ _ _ HI)) in A.
        destruct (H (pend b)) as (c & C1 & _); try lia.
        assert (nth_error B (pend b) <> None) as X by congruence. apply nth_error_Some in X. lia.
      + pose proof (w_last B b (it_wf _ _ _ _ _ _ HI)). pose proof (w_count B b (it_wf _ _ _ _ _ _ HI)).
        destruct (line_newline B (lastline b)) as (_ & A & _); [lia|].
        rewrite <- (w_pend B b (it_wf _ _ _ _ _ _ HI)) in A.
        destruct (H (pend b - 1)) as (c & C1 & C2); try lia. congruence.
    - destruct (Nat.lt_ge_cases (pend b) p) as [L1|L1]; [exfalso|auto].
      destruct (H (pend b)) as (c & C1 & _); try lia.
      assert (nth_error B (pend b) <> None) as X by congruence. apply nth_error_Some in X. lia.
  Qed.

  Lemma dn_ptok : forall st mu b p, Dn st mu b -> p <= pcur b -> Dn st mu (set_ptok p b).
  Proof using All. intros st mu b p [] H. constructor; auto. apply BWF_set_ptok; auto. Qed.

  Lemma dn_flush : forall st mu b, Dn st mu b -> Dn st mu (b_token_flush b).
  Proof using All. intros. apply dn_ptok; auto. Qed.

  Lemma substr_some : forall b i j, BWF B b -> i <= j -> j <= List.length B ->
    exists l, b_substr_at b i j = Some l.
  Proof using All.
    intros b i j HW H1 H2. unfold b_substr_at, substr_at. pose proof (w_bytes B b HW) as E. unfold bytes in E.
    rewrite E. replace ((i <=? j) && (j <=? List.length B)) with true by lia. eauto.
  Qed.

  Lemma neut_tokcopy : forall n b, BWF B b -> n <= pcur b -> Neut B e b (tokcopy n).
  Proof using All.
    intros n b HW Hn s0 s Q HF Hb HQ. unfold tokcopy. apply wp_bind. gb. apply wp_bind, wp_sub_ck; [lia|].
    destruct (substr_some b (pcur b - n) (pcur b)) as (l & Hl); auto; try lia.
    { pose proof (w_pcur2 B b HW). pose proof (pend_le B b HW). lia. }
    apply wp_bind. eapply wp_expect; [exact Hl|]. nstep. auto.
  Qed.

  Lemma neut_yyerror1_cur : forall m b k, BWF B b -> Neut B e b (yyerror1 m (mkLoc (pcur b) (pcur b + k))).
  Proof using All.
    intros m b k HW. apply neut_emit; cbn [loc_begin loc_end]; [lia|].
    pose proof (w_pcur2 B b HW). pose proof (pend_le B b HW). lia.
  Qed.

  Lemma unterminated_ok : forall s0 s b st mu (Q : unit -> Lexer -> Prop),
    FR s0 s -> buffer s = b -> Dn st mu b ->
    (forall s', FR s0 s' -> Dn st mu (buffer s') -> Q tt s') ->
    wp e tokadd_utf8_unterminated Q s.
  Proof using All.
    intros s0 s b st mu Q HF Hb HD HQ. unfold tokadd_utf8_unterminated, token_flush.
    apply wp_bind. mstep. assert (HD1 : Dn st mu (b_token_flush b)) by (apply dn_flush; auto).
    nameb b1. apply wp_bind. gb.
    eapply neut_use; [|exact HF|exact Hb|].
    - apply neut_emit; cbn [loc_begin loc_end].
      + pose proof (w_tok B _ (dn_wf _ _ _ _ _ _ HD1)). lia.
      + pose proof (w_tok B _ (dn_wf _ _ _ _ _ _ HD1)). pose proof (w_pcur2 B _ (dn_wf _ _ _ _ _ _ HD1)).
        pose proof (pend_le B _ (dn_wf _ _ _ _ _ _ HD1)). lia.
    - intros [] s2 HF2 Hb2. apply HQ; auto. rewrite Hb2. auto.
  Qed.

  Lemma tokadd_codepoint_ok : forall rl wide s0 s b st mu (Q : bool -> Lexer -> Prop),
    FR s0 s -> buffer s = b -> IL st mu b -> (wide = false -> InTok st mu b) ->
    (forall ok s' b', FR s0 s' -> buffer s' = b' -> IL st mu b' -> pend b' = pend b -> pcur b <= pcur b' ->
       (ok = true -> wide = true -> pcur b < pcur b' /\ (pcur b' < pend b' \/ pend b' = List.length B)) -> Q ok s') ->
    wp e (tokadd_codepoint rl wide) Q s.
  Proof using All.
    intros rl wide s0 s b st mu Q HF Hb HL HI HQ. unfold tokadd_codepoint.
    pose proof (il_wf _ _ _ HL) as HW. pose proof (w_pcur2 B b HW) as P2. pose proof (w_tok B b HW) as P3.
    apply wp_bind. gb. apply wp_bind.
    assert (HK : forall len, (wide = true -> len = pend b - pcur b) -> wp e (
      let '(codepoint, numlen) := scan_hex b (pcur b) len in
      literal_flush (pcur b) ;;;
      modb (fun b => set_pcur (pcur b + numlen) b) ;;;
      if (if wide then (numlen =? 0) || (6 <? numlen) else (numlen <? 4)) then
        b <- getb ;;
        yyerror1 InvalidUnicodeEscape (mkLoc (pcur b) (pcur b + 1)) ;;;
        ret (wide && (0 <? numlen))
      else if (1114111 <? codepoint)%N then
        yyerror0 TooLargeUnicodeCodepoint ;;; ret wide
      else if N.eqb (N.land codepoint 4294965248) 55296 then
        yyerror0 InvalidUnicodeCodepoint ;;; ret wide
      else
        (if rl then tokcopy numlen
         else if (128 <=? codepoint)%N then tokaddmbc codepoint
         else tokadd (as_u8 codepoint)) ;;;
        ret true) Q s).
    2: { destruct wide; [apply wp_sub_ck; [lia|]|apply wp_ret]; apply HK; auto; discriminate. }
    intros len Hlen. destruct (scan_hex b (pcur b) len) as [cp numlen] eqn:Esc.
    destruct (scan_hex_range _ _ _ _ _ Esc) as (R1 & R2).
    assert (R3 : forall i, pcur b <= i -> i < pcur b + numlen ->
      exists c, nth_error B i = Some c /\ c <> 10%N /\ c <> 13%N).
    { intros i I1 I2. rewrite <- (byte_at_B B b) by auto. auto. }
    assert (Hend : pcur b + numlen <= pend b).
    { destruct wide; [specialize (Hlen eq_refl); lia|].
      destruct (it_limit st mu b (pcur b + numlen)) as [?|?]; auto; try lia.
      - destruct HL; auto.
      - intros i I1 I2. destruct (R3 i I1 I2) as (c & C1 & C2 & _). eauto. }
    unfold literal_flush. apply wp_bind. mstep. apply wp_bind. mstep.
    cbn [pcur set_ptok] in Hb.
    assert (HL2 : IL st mu (set_pcur (pcur b + numlen) (set_ptok (pcur b) b))).
    { apply il_pcur; cbn [pcur set_ptok pend ptok pbeg]; try lia.
      - apply il_ptok; auto.
      - destruct HL; lia.
      - intros L1 L2 L3. destruct (Nat.eq_dec numlen 0) as [E|E].
        + subst. rewrite Nat.add_0_r in *. eapply (w_nosplit B b); eauto.
        + destruct (R3 (pcur b + numlen - 1)) as (c & C1 & C2 & C3); try lia. congruence. }
    assert (HE : numlen <> 0 -> pcur b + numlen < pend b \/ pend b = List.length B).
    { intros Hn. apply (il_end _ _ _ HL2). cbn [pcur set_pcur].
      destruct (R3 (pcur b + numlen - 1)) as (c & C1 & C2 & C3); try lia. congruence. }
    remember (set_pcur (pcur b + numlen) (set_ptok (pcur b) b)) as b2.
    assert (X1 : pend b2 = pend b) by (subst b2; reflexivity).
    assert (X2 : pcur b2 = pcur b + numlen) by (subst b2; reflexivity). clear Heqb2.
    pose proof (il_wf _ _ _ HL2) as HW2.
    destruct (if wide then (numlen =? 0) || (6 <? numlen) else (numlen <? 4)) eqn:E1.
    { apply wp_bind. gb. apply wp_bind. eapply neut_use; [apply neut_yyerror1_cur; auto|exact HF|exact Hb|].
      intros _ s2 HF2 Hb2. apply wp_ret. eapply HQ; [exact HF2|exact Hb2|exact HL2|auto|lia|].
      intros K1 ->. cbn [andb] in K1. assert (numlen <> 0) by lia. specialize (HE H). lia. }
    assert (Hn : numlen <> 0) by (destruct wide; lia). specialize (HE Hn).
    destruct (1114111 <? cp)%N eqn:E2.
    { apply wp_bind. nstep. apply wp_ret. eapply HQ; [exact HF|exact Hb|exact HL2|auto|lia|]. intros; lia. }
    destruct (N.eqb (N.land cp 4294965248) 55296) eqn:E3.
    { apply wp_bind. nstep. apply wp_ret. eapply HQ; [exact HF|exact Hb|exact HL2|auto|lia|]. intros; lia. }
    apply wp_bind. eapply neut_use; [|exact HF|exact Hb|].
    - destruct rl; [apply neut_tokcopy; auto; lia|]. destruct (128 <=? cp)%N; [|apply neut_tokadd].
      unfold tokaddmbc. replace (cp <? 2 ^ 32)%N with true by (cbn; lia).
      destruct (codepoint_char cp E2 E3) as (ch & ->). cbn [expect]. neut.
    - intros _ s2 HF2 Hb2. apply wp_ret. eapply HQ; [exact HF2|exact Hb2|exact HL2|auto|lia|]. intros; lia.
  Qed.

  Lemma skip_spaces1_ok : forall s0 s b st mu (Q : MaybeByte -> Lexer -> Prop),
    FR s0 s -> buffer s = b -> IL st mu b -> pcur b < pend b ->
    (forall c s' b', FR s0 s' -> buffer s' = b' -> IL st mu b' -> Q c s') ->
    wp e utf8_skip_spaces1 Q s.
  Proof using All.
    intros s0 s b st mu Q HF Hb HL Hlt HQ. unfold utf8_skip_spaces1.
    pose proof (il_wf _ _ _ HL) as HW. pose proof (w_tok B b HW) as P3. pose proof (pend_le B b HW) as P4.
    eapply wp_loop with
      (I := fun _ s1 => exists p, FR s0 s1 /\ buffer s1 = set_pcur p b /\ pcur b <= p /\ p < pend b)
      (meas := fun _ s1 => pend b - pcur (buffer s1)).
    - exists (pcur b). splits; auto. rewrite set_pcur_same. auto.
    - lia.
    - clear HF Hb s. intros _ s (p & HF & Hb & Hp1 & Hp2). cbv beta. rewrite Hb. cbn [pcur set_pcur].
      apply wp_bind. gb. cbn [pcur set_pcur].
      change (byte_at (set_pcur p b) p) with (byte_at b p). rewrite (byte_at_B B b) by auto.
      destruct (negb (is_space (nth_error B p))) eqn:Es.
      + apply wp_ret. eapply HQ; [exact HF|exact Hb|]. apply il_pcur; auto; try lia.
        * destruct HL; lia.
        * intros _ _ K. rewrite K in Es. discriminate.
      + apply wp_bind. mstep. cbn [pcur set_pcur] in Hb. apply wp_bind. gb. cbn [pcur pend set_pcur].
        destruct (pend b <=? p + 1) eqn:E2.
        * apply wp_ret. eapply HQ; [exact HF|exact Hb|].
          change (set_pcur (p + 1) (set_pcur p b)) with (set_pcur (p + 1) b).
          apply il_pcur; auto; try lia.
          { destruct HL; lia. }
          replace (p + 1) with (pend b) by lia. intros K1 K2 K3. eapply (nosplit_end B b); eauto.
        * apply wp_ret. split; [exists (p + 1); splits; auto; lia|]. rewrite Hb. cbn [pcur set_pcur]. lia.
  Qed.

  Lemma skip_spaces2_ok : forall last s0 s b st mu (Q : option (MaybeByte * MaybeByte) -> Lexer -> Prop),
    FR s0 s -> buffer s = b -> IL st mu b -> pcur b < pend b \/ pend b = List.length B -> last <> None ->
    (forall s' b', FR s0 s' -> buffer s' = b' -> IL st mu b' -> Q None s') ->
    (forall c last' s' b', FR s0 s' -> buffer s' = b' -> IL st mu b' -> pend b' = pend b -> pcur b <= pcur b' ->
       last' <> None -> Q (Some (c, last')) s') ->
    wp e (utf8_skip_spaces2 last) Q s.
  Proof using All.
    intros last s0 s b st mu Q HF Hb HL Hlt Hlast HQ1 HQ2. unfold utf8_skip_spaces2.
    pose proof (il_wf _ _ _ HL) as HW. pose proof (w_tok B b HW) as P3. pose proof (pend_le B b HW) as P4.
    pose proof (w_pcur2 B b HW) as P5.
    eapply wp_loop with
      (I := fun last s1 => exists p, FR s0 s1 /\ buffer s1 = set_pcur p b /\ pcur b <= p /\ p <= pend b /\
              (p < pend b \/ pend b = List.length B) /\ (p = pcur b \/ p < pend b) /\ last <> None)
      (meas := fun _ s1 => pend b - pcur (buffer s1)).
    - exists (pcur b). splits; auto. rewrite set_pcur_same. auto.
    - lia.
    - clear HF Hb s Hlast last. intros last s (p & HF & Hb & Hp1 & Hp2 & Hp3 & Hp4 & Hlast). cbv beta. rewrite Hb. cbn [pcur set_pcur].
      apply wp_bind. gb. cbn [pcur set_pcur].
      change (byte_at (set_pcur p b) p) with (byte_at b p). rewrite (byte_at_B B b) by auto.
      destruct (negb (is_space (nth_error B p))) eqn:Es.
      + apply wp_ret. eapply HQ2; [exact HF|exact Hb| |auto|auto|auto]. apply il_pcur; auto; try lia.
        * destruct HL; lia.
        * intros _ _ K. rewrite K in Es. discriminate.
      + destruct (nth_error B p) as [x|] eqn:Ex; [|discriminate].
        assert (Hpe : p < pend b).
        { destruct Hp3 as [?|Hp3]; auto. rewrite Hp3. apply nth_error_Some. congruence. }
        apply wp_bind. mstep. cbn [pcur set_pcur] in Hb. apply wp_bind. gb. cbn [pcur pend set_pcur].
        destruct (pend b <=? p + 1) eqn:E2.
        * apply wp_ret. eapply HQ1; [exact HF|exact Hb|].
          change (set_pcur (p + 1) (set_pcur p b)) with (set_pcur (p + 1) b).
          apply il_pcur; auto; try lia.
          { destruct HL; lia. }
          replace (p + 1) with (pend b) by lia. intros K1 K2 K3. eapply (nosplit_end B b); eauto.
        * apply wp_ret. split; [exists (p + 1); splits; auto; try lia; congruence|]. rewrite Hb. cbn [pcur set_pcur]. lia.
  Qed.

  Lemma codepoints_ok : forall term rl c last s0 s b st mu (Q : option (MaybeByte * option nat * bool) -> Lexer -> Prop),
    FR s0 s -> buffer s = b -> IL st mu b -> last <> None ->
    (forall s', FR s0 s' -> Dn st mu (buffer s') -> Q None s') ->
    (forall c second err s' b', FR s0 s' -> buffer s' = b' -> IL st mu b' ->
       (forall p, second = Some p -> p <= pcur b') -> Q (Some (c, second, err)) s') ->
    wp e (utf8_codepoints term rl c last) Q s.
  Proof using All.
    intros term rl c last s0 s b st mu Q HF Hb HL Hlast HQ1 HQ2. unfold utf8_codepoints.
    pose proof (pend_le B b (il_wf _ _ _ HL)) as P4.
    eapply wp_loop with
      (I := fun x s1 => exists b1, FR s0 s1 /\ buffer s1 = b1 /\ IL st mu b1 /\ pend b1 = pend b /\
              snd (fst (fst x)) <> None /\ (forall p, snd (fst x) = Some p -> p <= pcur b1))
      (meas := fun _ s1 => pend b - pcur (buffer s1)).
    - exists b. cbn [fst snd]. splits; auto. discriminate.
    - lia.
    - clear HF Hb HL s Hlast last c. intros [[[c last] second] err] s (b1 & HF & Hb & HL & Hpe & Hlast & Hsec).
      cbv beta. rewrite Hb. cbn [fst snd] in Hlast, Hsec.
      destruct (mbeq c "}"). { apply wp_ret. eapply HQ2; eauto. }
      destruct (mbeq_opt c term).
      { apply wp_bind. eapply unterminated_ok; [exact HF|exact Hb|apply il_dn; exact HL|].
        intros s2 HF2 HD. apply wp_ret. apply HQ1; auto. }
      apply wp_bind. gb.
      assert (Hsec1 : forall p, (if err then Some (pcur b1) else second) = Some p -> p <= pcur b1).
      { destruct err; auto. intros p Ep. inversion Ep. lia. }
      remember (if err then Some (pcur b1) else second) as second1. clear Hsec Heqsecond1 second.
      destruct last as [la|]; [|congruence].
      apply wp_bind. eapply neut_use; [apply neut_when; cbn [tokadd_mb]; apply neut_tokadd|exact HF|exact Hb|].
      clear HF Hb s. intros _ s HF Hb. apply wp_bind.
      eapply tokadd_codepoint_ok; [exact HF|exact Hb|exact HL|discriminate|].
      clear HF Hb s. intros ok s b2 HF Hb HL2 Hpe2 Hpc2 Hok.
      destruct ok; cbn [negb].
      2: { apply wp_ret. eapply HQ2; [exact HF|exact Hb|exact HL2|]. intros p Ep. specialize (Hsec1 p Ep). lia. }
      destruct (Hok eq_refl eq_refl) as (Hlt & Hend). apply wp_bind.
      eapply skip_spaces2_ok; [exact HF|exact Hb|exact HL2|exact Hend|congruence| |].
      + clear HF Hb s. intros s b3 HF Hb HL3. apply wp_bind.
        eapply unterminated_ok; [exact HF|exact Hb|apply il_dn; exact HL3|].
        intros s2 HF2 HD. apply wp_ret. apply HQ1; auto.
      + clear HF Hb s. intros c3 last3 s b3 HF Hb HL3 Hpe3 Hpc3 Hl3. apply wp_ret. split.
        * exists b3. cbn [fst snd]. splits; auto; try lia. intros p Ep. specialize (Hsec1 p Ep). lia.
        * rewrite Hb. pose proof (w_pcur2 B b3 (il_wf _ _ _ HL3)). lia.
  Qed.

  Lemma nextc_not_none : forall b c b', NextPost B b c b' -> eofp b = false -> pcur b < pend b \/ nextline b <> 0 -> c <> None.
  Proof using All. intros b c b' HN He Hl ->. destruct (n_end _ _ _ _ HN eq_refl He). lia. Qed.

  Lemma tokadd_utf8_ok : forall term rl s0 s b st mu (Q : unit -> Lexer -> Prop),
    FR s0 s -> buffer s = b -> InTok st mu b -> st < pcur b -> eofp b = false ->
    (forall s', FR s0 s' -> Dn st mu (buffer s') -> Q tt s') ->
    wp e (tokadd_utf8 term rl) Q s.
  Proof using All.
    intros term rl s0 s b st mu Q HF Hb HI Hst Heof HQ. unfold tokadd_utf8. apply wp_bind.
    eapply neut_use; [apply neut_when; neut|exact HF|exact Hb|]. clear HF Hb s. intros _ s HF Hb.
    apply wp_bind. eapply wp_peek; [exact HF|exact Hb|eauto with neut|]. clear HF Hb s. intros s p HF Hb Hp1 Hp2.
    destruct p.
    2: { apply wp_bind. eapply tokadd_codepoint_ok; [exact HF|exact Hb|apply it_il; eauto|auto|].
      clear HF Hb s. intros ok s b2 HF Hb HL2 _ _ _. destruct (negb ok).
      - unfold token_flush. mstep. apply HQ; auto. rewrite Hb. apply dn_flush, il_dn; auto.
      - apply wp_ret. apply HQ; auto. rewrite Hb. apply il_dn; auto. }
    destruct (Hp1 eq_refl) as (Hc1 & Hlt). clear Hp1 Hp2.
    apply wp_bind. eapply wp_nextc_it; [exact HF|exact Hb|exact HI|exact Hst|].
    clear HF Hb s. intros c b2 s HF Hb HA Pb Pe Pg Pt Pl Pc HN.
    assert (Hc : c <> None) by (eapply nextc_not_none; eauto).
    pose proof (ia_il _ _ _ _ HA) as HL2.
    apply wp_bind. gb. destruct (pend b2 <=? pcur b2) eqn:E1.
    { eapply unterminated_ok; [exact HF|exact Hb|apply il_dn; exact HL2|exact HQ]. }
    apply wp_bind. eapply skip_spaces1_ok; [exact HF|exact Hb|exact HL2|lia|].
    clear HF Hb s. intros c3 s b3 HF Hb HL3. apply wp_bind.
    eapply codepoints_ok; [exact HF|exact Hb|exact HL3|exact Hc| |].
    { clear HF Hb s. intros s HF HD. apply wp_ret. auto. }
    clear HF Hb s. intros c4 second err s b4 HF Hb HL4 Hsec.
    destruct (mbeq c4 "}") eqn:E4; cbn [negb].
    2: { eapply unterminated_ok; [exact HF|exact Hb|apply il_dn; exact HL4|exact HQ]. }
    assert (HK : forall s b, FR s0 s -> buffer s = b -> IL st mu b ->
       wp e (when rl (tokadd "}") ;;; nextc ;;; ret tt) Q s).
    { clear - HQ Hfuel n0 b0. intros s b HF Hb HL. apply wp_bind.
      eapply neut_use; [apply neut_when; apply neut_tokadd|exact HF|exact Hb|]. clear HF Hb s. intros _ s HF Hb.
      apply wp_bind. eapply wp_nextc_rd; [exact HF|exact Hb|apply dn_rd, il_dn; exact HL|].
      clear HF Hb s. intros c b2 s HF Hb HA _. apply wp_ret. apply HQ; auto. rewrite Hb.
      pose proof (dn_mu _ _ _ _ _ _ (il_dn _ _ _ HL)).
      destruct HA. constructor; auto; lia. }
    apply wp_bind. destruct second as [p|].
    2: { apply wp_ret. eapply HK; eauto. }
    destruct err; [|apply wp_ret; eapply HK; eauto].
    specialize (Hsec p eq_refl).
    apply wp_bind. gb. apply wp_bind. mstep. apply wp_bind. unfold token_flush. mstep. apply wp_bind. mstep.
    assert (HL5 : IL st mu (set_ptok p b4)) by (apply il_ptok; auto).
    change (set_pcur (pcur b4) (b_token_flush (set_pcur p b4))) with (set_pcur (pcur (set_ptok p b4)) (set_ptok p b4)) in Hb.
    rewrite set_pcur_same in Hb. nameb b5.
    apply wp_bind. nstep. mstep.
    assert (IL st mu (b_token_flush b5)) by (apply il_ptok; auto). eapply HK; eauto.
  Qed.

  Ltac nxc c HA :=
    match goal with
    | HF : LexInv.FR _ _ ?s, Hb : buffer ?s = ?b, HI : LexInv.InTok _ _ _ ?st _ ?b, Hst : ?st < pcur ?b |- _ =>
        eapply wp_nextc_it; [exact HF|exact Hb|exact HI|exact Hst|];
        clear HF Hb HI Hst; try clear dependent c;
        let b' := fresh "b'" in let s' := fresh "s'" in let HF' := fresh "HF'" in let Hb' := fresh "Hb'" in
        intros c b' s' HF' Hb' HA _ _ _ _ _ _ _;
        try clear dependent s; try clear dependent b;
        rename HF' into HF; rename Hb' into Hb; rename b' into b; rename s' into s
    end.

  Lemma read_escape_eof_ok : forall s0 s b st mu (Q : MaybeByte -> Lexer -> Prop),
    FR s0 s -> buffer s = b -> Dn st mu b ->
    (forall r s', FR s0 s' -> r <> None -> Dn st mu (buffer s') -> Q r s') ->
    wp e read_escape_eof Q s.
  Proof using All.
    intros s0 s b st mu Q HF Hb HD HQ. unfold read_escape_eof. apply wp_bind. nstep.
    apply wp_bind. unfold token_flush. mstep. apply wp_ret. apply HQ; auto; [congruence|]. rewrite Hb. apply dn_flush; auto.
  Qed.

  Lemma tok_hex_ok : forall s0 s b st mu (Q : N * nat -> Lexer -> Prop),
    FR s0 s -> buffer s = b -> InTok st mu b -> st < pcur b ->
    (forall v n s' b', FR s0 s' -> buffer s' = b' -> Dn st mu b' -> (n <> 0 -> pcur b' = pcur b + n) -> Q (v, n) s') ->
    wp e tok_hex Q s.
  Proof using All.
    intros s0 s b st mu Q HF Hb HI Hst HQ. unfold tok_hex. apply wp_bind. gb.
    destruct (scan_hex b (pcur b) 2) as [v n] eqn:Esc. destruct (scan_hex_range _ _ _ _ _ Esc) as (R1 & R2).
    pose proof (it_wf _ _ _ _ _ _ HI) as HW.
    destruct (n =? 0) eqn:En.
    - apply wp_bind, wp_gets. apply wp_bind. unfold current_loc. rewrite Hb. eapply neut_use; [|exact HF|exact Hb|].
      { pose proof (w_tok B _ HW). pose proof (w_pcur2 B _ HW). pose proof (pend_le B _ HW).
        apply neut_emit; cbn [loc_begin loc_end]; lia. }
      clear HF Hb s. intros _ s HF Hb. apply wp_bind. unfold token_flush. mstep. apply wp_ret.
      eapply HQ; [exact HF|exact Hb| |lia]. apply dn_flush, it_dn; auto.
    - assert (R3 : forall i, pcur b <= i -> i < pcur b + n ->
        exists c, nth_error B i = Some c /\ c <> 10%N /\ c <> 13%N).
      { intros i I1 I2. rewrite <- (byte_at_B B b) by auto. auto. }
      apply wp_bind. mstep. apply wp_ret. eapply HQ; [exact HF|exact Hb| |reflexivity].
      apply it_dn; [|cbn [pcur set_pcur]; lia]. apply it_forward; auto; try lia.
      + destruct (it_limit st mu b (pcur b + n)) as [?|?]; auto; try lia.
        intros i I1 I2. destruct (R3 i I1 I2) as (c & C1 & C2 & _). eauto.
      + intros i I1 I2. destruct (R3 i I1 I2) as (c & C1 & C2 & C3). split; congruence.
  Qed.

  (** octal digits from the cursor on *)
  Lemma oct_forward : forall st mu b k v n, InTok st mu b -> st < pcur b -> scan_oct b (pcur b) k = (v, n) ->
    InTok st mu (set_pcur (pcur b + n) b).
  Proof using All.
    intros st mu b k v n HI Hst Esc. destruct (scan_oct_range _ _ _ _ _ Esc) as (R1 & R2).
    pose proof (it_wf _ _ _ _ _ _ HI) as HW.
    assert (R3 : forall i, pcur b <= i -> i < pcur b + n ->
        exists c, nth_error B i = Some c /\ c <> 10%N /\ c <> 13%N).
    { intros i I1 I2. rewrite <- (byte_at_B B b) by auto. auto. }
    apply it_forward; auto; try lia.
    - pose proof (w_pcur2 B b HW). destruct (it_limit st mu b (pcur b + n)) as [?|?]; auto; try lia.
      intros i I1 I2. destruct (R3 i I1 I2) as (c & C1 & C2 & _). eauto.
    - intros i I1 I2. destruct (R3 i I1 I2) as (c & C1 & C2 & C3). split; congruence.
  Qed.

  Definition esc_budget (flags : N) : nat :=
    1 + (if has flags ESCAPE_META then 0 else 1) + (if has flags ESCAPE_CONTROL then 0 else 1).

  Lemma budget_meta : forall f, has f ESCAPE_META = false -> S (esc_budget (N.lor f ESCAPE_META)) <= esc_budget f.
  Proof using All.
    intros f H. unfold esc_budget. rewrite H.
    assert (H1 : has (N.lor f ESCAPE_META) ESCAPE_META = true).
    { unfold has. rewrite N.land_lor_distr_l. destruct (N.eqb _ 0) eqn:E; auto. exfalso.
      apply N.eqb_eq, N.lor_eq_0_iff in E. destruct E as (_ & E). discriminate. }
    assert (H2 : has (N.lor f ESCAPE_META) ESCAPE_CONTROL = has f ESCAPE_CONTROL).
    { unfold has. rewrite N.land_lor_distr_l. change (N.land ESCAPE_META ESCAPE_CONTROL) with 0%N. rewrite N.lor_0_r. auto. }
    rewrite H1, H2. lia.
  Qed.
  Lemma budget_control : forall f, has f ESCAPE_CONTROL = false -> S (esc_budget (N.lor f ESCAPE_CONTROL)) <= esc_budget f.
  Proof using All.
    intros f H. unfold esc_budget. rewrite H.
    assert (H1 : has (N.lor f ESCAPE_CONTROL) ESCAPE_CONTROL = true).
    { unfold has. rewrite N.land_lor_distr_l. destruct (N.eqb _ 0) eqn:E; auto. exfalso.
      apply N.eqb_eq, N.lor_eq_0_iff in E. destruct E as (_ & E). discriminate. }
    assert (H2 : has (N.lor f ESCAPE_CONTROL) ESCAPE_META = has f ESCAPE_META).
    { unfold has. rewrite N.land_lor_distr_l. change (N.land ESCAPE_CONTROL ESCAPE_META) with 0%N. rewrite N.lor_0_r. auto. }
    rewrite H1, H2. lia.
  Qed.

  Lemma mb_map_some : forall c f, c <> None -> (forall x, f x <> None) -> mb_map c f <> None.
  Proof using All. intros [x|] f H1 H2; [apply H2|congruence]. Qed.

  Lemma read_escape_n_ok : forall depth flags, esc_budget flags <= depth ->
    forall s0 s b st mu (Q : MaybeByte -> Lexer -> Prop),
    FR s0 s -> buffer s = b -> InTok st mu b -> st < pcur b ->
    (forall r s', FR s0 s' -> r <> None -> Dn st mu (buffer s') -> Q r s') ->
    wp e (read_escape_n depth flags) Q s.
  Proof using All.
    induction depth as [|depth IH]; intros flags Hd s0 s b st mu Q HF Hb HI Hst HQ.
    { unfold esc_budget in Hd. lia. }
    cbn [read_escape_n]. apply wp_bind.
    nxc c HA.
    pose proof (ia_dn _ _ _ _ _ _ _ HA) as HD. pose proof (ia_st _ _ _ _ _ _ _ HA) as Hst.
    assert (HR : forall x, wp e (ret (Some x)) Q s).
    { intros x. apply wp_ret. apply HQ; auto; [congruence|]. rewrite Hb; auto. }
    assert (HEOF : forall s b, FR s0 s -> buffer s = b -> Dn st mu b -> wp e read_escape_eof Q s).
    { clear - HQ Hfuel n0 b0. intros s b HF Hb HD. eapply read_escape_eof_ok; eauto. }
    destruct (mbeq c "\") eqn:E1. { apply mbeq_iff in E1. subst c. apply HR. }
    destruct (mbeq c "n"); [apply HR|]. destruct (mbeq c "t"); [apply HR|]. destruct (mbeq c "r"); [apply HR|].
    destruct (mbeq c "f"); [apply HR|]. destruct (mbeq c "v"); [apply HR|]. destruct (mbeq c "a"); [apply HR|].
    destruct (mbeq c "e"); [apply HR|].
    destruct (is_digit c) eqn:Ed.
    { apply wp_bind. eapply wp_pushback; [exact HF|exact Hb|intros _; blia|]. clear HF Hb s HR. intros s HF Hb.
      pose proof (ia_back _ _ _ _ _ _ _ HA) as HB. pose proof (ia_back_st _ _ _ _ _ _ _ HA) as HBs. nameb b2.
      apply wp_bind. gb. destruct (scan_oct b2 (pcur b2) 3) as [v n] eqn:Esc.
      apply wp_bind. mstep. apply wp_ret. apply HQ; auto; [congruence|]. rewrite Hb.
      apply it_dn; [eapply oct_forward; eauto|cbn [pcur set_pcur]; blia]. }
    destruct (mbeq c "x") eqn:Ex.
    { assert (HI : InTok st mu b) by (eapply ia_it; eauto; nonl).
      apply wp_bind. eapply tok_hex_ok; [exact HF|exact Hb|exact HI|exact Hst|].
      clear HF Hb s HR. intros v n s b2 HF Hb HD2 _. destruct (n =? 0); apply wp_ret; (apply HQ; auto; [congruence|rewrite Hb; auto]). }
    destruct (mbeq c "b"); [apply HR|]. destruct (mbeq c "s"); [apply HR|].
    destruct (mbeq c "M") eqn:EM.
    { assert (HI : InTok st mu b) by (eapply ia_it; eauto; nonl). clear - EM HI Hst HQ HEOF IH Hd HF Hb HD Hfuel n0 b0.
      destruct (has flags ESCAPE_META) eqn:Eh; [eapply HEOF; eauto|].
      apply wp_bind. nxc c HA.
      pose proof (ia_dn _ _ _ _ _ _ _ HA) as HD. pose proof (ia_st _ _ _ _ _ _ _ HA) as Hst.
      destruct (mbeq c "-") eqn:Em; cbn [negb]; [|eapply HEOF; eauto].
      assert (HI : InTok st mu b) by (eapply ia_it; eauto; nonl).
      apply wp_bind. nxc c HA.
      pose proof (ia_dn _ _ _ _ _ _ _ HA) as HD. pose proof (ia_st _ _ _ _ _ _ _ HA) as Hst.
      destruct (mbeq c "\") eqn:E1.
      { assert (HI : InTok st mu b) by (eapply ia_it; eauto; nonl).
        apply wp_bind. nstep. destruct (mbeq a "u" || mbeq a "U").
        - apply wp_bind. eapply wp_nextc_it; [exact HF|exact Hb|exact HI|exact Hst|].
          clear HF Hb. intros c2 b2 s2 HF2 Hb2 HA2 _ _ _ _ _ _ _. eapply HEOF; [exact HF2|exact Hb2|eapply ia_dn; eauto].
        - apply wp_bind. eapply IH; [pose proof (budget_meta flags Eh); blia|exact HF|exact Hb|exact HI|exact Hst|].
          clear HF Hb. intros r s2 HF2 Hr HD2. apply wp_ret. apply HQ; auto. apply mb_map_some; auto; congruence. }
      destruct (is_eof c || negb (is_ascii c)) eqn:Ea; [eapply HEOF; eauto|].
      assert (Hc : c <> None) by (intros ->; discriminate).
      destruct (escaped_control_code c) as [c2|].
      - apply wp_bind. eapply neut_use; [apply neut_if; apply neut_warn_space_char; eauto with neut|exact HF|exact Hb|].
        clear HF Hb s. intros _ s HF Hb. apply wp_ret. apply HQ; auto; [apply mb_map_some; auto; congruence|rewrite Hb; auto].
      - destruct (is_control c); [eapply HEOF; eauto|]. apply wp_ret.
        apply HQ; auto; [apply mb_map_some; auto; congruence|rewrite Hb; auto]. }
    destruct (mbeq c "C" || mbeq c "c") eqn:EC.
    { assert (HI : InTok st mu b) by (eapply ia_it; eauto; nonl).
      apply wp_bind.
      assert (HK : forall go s b, FR s0 s -> buffer s = b -> Dn st mu b -> (go = true -> InTok st mu b) ->
        wp e (if negb go then read_escape_eof
        else if has flags ESCAPE_CONTROL then read_escape_eof
        else
          c <- nextc ;;
          let finish c := ret (mb_map c (fun c => Some (N.land c 159))) in
          if mbeq c "\" then
            p <- gets (fun s => peekc (buffer s)) ;;
            if mbeq p "u" || mbeq p "U" then
              nextc ;;; read_escape_eof
            else
              c <- read_escape_n depth (N.lor flags ESCAPE_CONTROL) ;;
              finish c
          else if mbeq c "?" then ret (Some 127%N)
          else if is_eof c || negb (is_ascii c) then read_escape_eof
          else
            match escaped_control_code c with
            | Some c2 =>
                (if is_control c then
                   if has flags ESCAPE_META then warn_space_char c2 "\M-" else warn_space_char c2 ""
                 else if has flags ESCAPE_META then warn_space_char c2 "\M-\C-"
                 else warn_space_char c2 "\C-") ;;;
                finish c
            | None => if is_control c then read_escape_eof else finish c
            end) Q s).
      { clear - HQ HEOF IH Hd Hfuel n0 b0. intros go s b HF Hb HD HIgo.
        destruct go; cbn [negb]; [|eapply HEOF; eauto]. specialize (HIgo eq_refl). rename HIgo into HI.
        pose proof (dn_st _ _ _ _ _ _ HD) as Hst.
        destruct (has flags ESCAPE_CONTROL) eqn:Eh; [eapply HEOF; eauto|].
        apply wp_bind. nxc c HA.
        pose proof (ia_dn _ _ _ _ _ _ _ HA) as HD. pose proof (ia_st _ _ _ _ _ _ _ HA) as Hst. cbv zeta.
        destruct (mbeq c "\") eqn:E1.
        { assert (HI : InTok st mu b) by (eapply ia_it; eauto; nonl).
          apply wp_bind. nstep. destruct (mbeq a "u" || mbeq a "U").
          - apply wp_bind. eapply wp_nextc_it; [exact HF|exact Hb|exact HI|exact Hst|].
            clear HF Hb. intros c2 b2 s2 HF2 Hb2 HA2 _ _ _ _ _ _ _. eapply HEOF; [exact HF2|exact Hb2|eapply ia_dn; eauto].
          - apply wp_bind. eapply IH; [pose proof (budget_control flags Eh); blia|exact HF|exact Hb|exact HI|exact Hst|].
            clear HF Hb. intros r s2 HF2 Hr HD2. apply wp_ret. apply HQ; auto. apply mb_map_some; auto; congruence. }
        destruct (mbeq c "?"). { apply wp_ret. apply HQ; auto; [congruence|rewrite Hb; auto]. }
        destruct (is_eof c || negb (is_ascii c)) eqn:Ea; [eapply HEOF; eauto|].
        assert (Hc : c <> None) by (intros ->; discriminate).
        destruct (escaped_control_code c) as [c2|].
        - apply wp_bind. eapply neut_use; [repeat apply neut_if; apply neut_warn_space_char; eauto with neut|exact HF|exact Hb|].
          clear HF Hb s. intros _ s HF Hb. apply wp_ret. apply HQ; auto; [apply mb_map_some; auto; congruence|rewrite Hb; auto].
        - destruct (is_control c); [eapply HEOF; eauto|]. apply wp_ret.
          apply HQ; auto; [apply mb_map_some; auto; congruence|rewrite Hb; auto]. }
      destruct (mbeq c "C").
      - apply wp_bind. eapply wp_nextc_it; [exact HF|exact Hb|exact HI|exact Hst|].
        clear - HK Hfuel n0 b0. intros c2 b2 s2 HF2 Hb2 HA2 _ _ _ _ _ _ _. apply wp_ret.
        eapply HK; [exact HF2|exact Hb2|eapply ia_dn; eauto|]. intros E. eapply ia_it; eauto; nonl.
      - apply wp_ret. eapply HK; eauto. }
    destruct (is_eof c) eqn:Ee; [eapply HEOF; eauto|].
    destruct c as [x|]; [|discriminate]. apply HR.
  Qed.

  Lemma read_escape_ok : forall s0 s b st mu (Q : MaybeByte -> Lexer -> Prop),
    FR s0 s -> buffer s = b -> InTok st mu b -> st < pcur b ->
    (forall r s', FR s0 s' -> r <> None -> Dn st mu (buffer s') -> Q r s') ->
    wp e (read_escape 0) Q s.
  Proof using All. intros. unfold read_escape. eapply read_escape_n_ok; eauto. Qed.

  Lemma tokadd_escape_ok : forall s0 s b st mu (Q : bool -> Lexer -> Prop),
    FR s0 s -> buffer s = b -> InTok st mu b -> st < pcur b ->
    (forall r s', FR s0 s' -> Dn st mu (buffer s') -> Q r s') ->
    wp e tokadd_escape Q s.
  Proof using All.
    intros s0 s b st mu Q HF Hb HI Hst HQ. unfold tokadd_escape. apply wp_bind.
    nxc c HA.
    pose proof (ia_dn _ _ _ _ _ _ _ HA) as HD. pose proof (ia_st _ _ _ _ _ _ _ HA) as Hst.
    destruct c as [ch|].
    2: { apply wp_bind. nstep. apply wp_bind. unfold token_flush. mstep. apply wp_ret. apply HQ; auto. rewrite Hb. apply dn_flush; auto. }
    destruct (N.eqb ch 10) eqn:E1. { apply wp_ret. apply HQ; auto. rewrite Hb; auto. }
    assert (Hst2 : st + 2 <= pcur b).
    { pose proof (ia_back_st _ _ _ _ _ _ _ HA). destruct (ia_some _ _ _ _ _ _ _ HA _ eq_refl) as (_ & _ & _ & K & _).
      rewrite K; [|apply N.eqb_neq; auto]. blia. }
    destruct (in_range "0" "7" ch) eqn:E2.
    { assert (HI : InTok st mu b) by (eapply ia_it; eauto; nonl).
      apply wp_bind. gb. apply wp_bind, wp_sub_ck; [blia|]. apply wp_bind. mstep.
      assert (HI2 : InTok st mu (set_pcur (pcur b - 1) b)) by (apply it_set_pcur; auto; blia).
      assert (HP2 : pcur (set_pcur (pcur b - 1) b) = pcur b - 1) by reflexivity. nameb b2.
      apply wp_bind. gb. destruct (scan_oct b2 (pcur b2) 3) as [v n] eqn:Esc. apply wp_bind. mstep.
      pose proof (oct_forward _ _ _ _ _ _ HI2 ltac:(blia) Esc) as HI3.
      assert (HP3 : pcur (set_pcur (pcur b2 + n) b2) = pcur b2 + n) by reflexivity. nameb b3.
      apply wp_bind. eapply neut_use; [apply (neut_tokcopy _ b3); [eauto with neut|blia]|exact HF|exact Hb|].
      clear HF Hb. intros _ s2 HF Hb. apply wp_ret. apply HQ; auto. rewrite Hb. apply it_dn; auto; blia. }
    destruct (mbeq (Some ch) "x") eqn:E3.
    { assert (HI : InTok st mu b) by (eapply ia_it; eauto; nonl).
      apply wp_bind. eapply tok_hex_ok; [exact HF|exact Hb|exact HI|exact Hst|].
      clear HF Hb s. intros v n s b2 HF Hb HD2 Hn. destruct (n =? 0) eqn:En.
      - apply wp_ret. apply HQ; auto. rewrite Hb; auto.
      - apply wp_bind. eapply neut_use; [apply (neut_tokcopy _ b2); [eauto with neut|rewrite Hn; lia]|exact HF|exact Hb|].
        clear HF Hb s. intros _ s2 HF Hb. apply wp_ret. apply HQ; auto. rewrite Hb; auto. }
    apply wp_bind. nstep. apply wp_bind. nstep. apply wp_ret. apply HQ; auto. rewrite Hb; auto.
  Qed.

  (** what the backslash branch leaves behind *)
  Definition EscPost (func : N) (st mu : nat) (r : EscRes) (b : Buffer) : Prop :=
    Dn st mu b /\
    match r with
    | EscContinue => True
    | EscReturn None => has func STR_FUNC_REGEXP = false -> eofp b = true
    | EscReturn (Some c) => c = Some "\"%bn
    | EscAdd c => c <> None
    end.

  Lemma tokadd_string_other_ok : forall func term paren c s0 s b st mu (Q : EscRes -> Lexer -> Prop),
    FR s0 s -> buffer s = b -> IA st mu c b -> c <> None ->
    (forall r s', FR s0 s' -> EscPost func st mu r (buffer s') -> Q r s') ->
    wp e (tokadd_string_other func term paren c) Q s.
  Proof using All.
    intros func term paren c s0 s b st mu Q HF Hb HA Hc HQ. unfold tokadd_string_other.
    destruct c as [x|]; [|congruence]. pose proof (ia_dn _ _ _ _ _ _ _ HA) as HD.
    assert (H1 : 1 <= pcur b) by (eapply ia_pos; eauto; congruence).
    pose proof (ia_back _ _ _ _ _ _ _ HA) as HB. pose proof (ia_back_st _ _ _ _ _ _ _ HA) as HBs.
    apply wp_bind. eapply neut_use; [apply neut_when; cbn [tokadd_mb]; neut|exact HF|exact Hb|].
    clear HF Hb s. intros _ s HF Hb.
    destruct (has func STR_FUNC_REGEXP) eqn:ER.
    { destruct (mbeq (Some x) "c" || mbeq (Some x) "C" || mbeq (Some x) "M").
      - apply wp_bind. eapply wp_pushback; [exact HF|exact Hb|auto|]. clear HF Hb s. intros s HF Hb.
        apply wp_bind. eapply read_escape_ok; [exact HF|exact Hb|exact HB|exact HBs|].
        clear HF Hb s. intros r s HF Hr HD2. destruct r as [v|]; [|congruence]. apply wp_bind. cbn [expect]. apply wp_ret.
        apply wp_bind, wp_modify, wp_ret. apply HQ; auto. split; auto.
      - destruct (mbeq (Some x) term && negb (simple_re_meta (Some x))).
        + apply wp_bind. cbn [tokadd_mb]. nstep. apply wp_ret. apply HQ; auto. split; auto. rewrite Hb; auto.
        + apply wp_bind. eapply wp_pushback; [exact HF|exact Hb|auto|]. clear HF Hb s. intros s HF Hb.
          apply wp_bind. eapply tokadd_escape_ok; [exact HF|exact Hb|exact HB|exact HBs|].
          clear HF Hb s. intros r s HF HD2. destruct r; cbn [negb]; apply wp_ret; apply HQ; auto; split; auto. congruence. }
    destruct (has func STR_FUNC_EXPAND).
    { apply wp_bind. eapply wp_pushback; [exact HF|exact Hb|auto|]. clear HF Hb s. intros s HF Hb. nameb b2.
      apply wp_bind. eapply neut_use; [apply neut_when; neut|exact HF|exact Hb|]. clear HF Hb s. intros _ s HF Hb.
      apply wp_bind. eapply read_escape_ok; [exact HF|exact Hb|exact HB|exact HBs|].
      clear HF Hb s. intros r s HF Hr HD2. destruct r as [v|]; [|congruence]. cbn [is_eof]. apply wp_ret.
      apply HQ; auto. split; auto. }
    destruct (has func STR_FUNC_QWORDS && is_space (Some x)).
    { apply wp_ret. apply HQ; auto. split; [rewrite Hb; auto|congruence]. }
    destruct (negb (mbeq (Some x) term) && negb (mbeq_opt (Some x) paren)).
    - apply wp_bind. nstep. apply wp_bind. eapply wp_pushback; [exact HF|exact Hb|auto|].
      clear HF Hb. intros s2 HF Hb. apply wp_ret. apply HQ; auto. split; auto. rewrite Hb. apply it_dn; auto.
    - apply wp_ret. apply HQ; auto. split; [rewrite Hb; auto|congruence].
  Qed.

  Lemma tokadd_string_escape_ok : forall func term paren s0 s b mu (Q : EscRes -> Lexer -> Prop),
    FR s0 s -> buffer s = b -> 1 <= pcur b -> InTok (pcur b - 1) mu b ->
    (forall r s', FR s0 s' -> EscPost func (pcur b - 1) mu r (buffer s') -> Q r s') ->
    wp e (tokadd_string_escape func term paren) Q s.
  Proof using All.
    intros func term paren s0 s b mu Q HF Hb H1 HI HQ. unfold tokadd_string_escape.
    apply wp_bind. gb. apply wp_bind, wp_sub_ck; [auto|]. unfold literal_flush. apply wp_bind. mstep.
    assert (HI1 : InTok (pcur b - 1) mu (set_ptok (pcur b - 1) b)) by (eapply it_set_ptok; eauto; lia).
    assert (HP1 : pcur (set_ptok (pcur b - 1) b) = pcur b) by reflexivity.
    remember (pcur b - 1) as st eqn:Est. assert (Hst : st < pcur (set_ptok st b)) by lia. clear HI HP1 Est H1. nameb b1. rename b into b'. rename b1 into b.
    apply wp_bind. nxc c HA.
    pose proof (ia_dn _ _ _ _ _ _ _ HA) as HD. pose proof (ia_st _ _ _ _ _ _ _ HA) as Hst.
    assert (HP : forall s' b', FR s0 s' -> buffer s' = b' -> Dn st mu b' -> forall r,
      match r with EscContinue => True | EscReturn None => False | EscReturn (Some c) => c = Some "\"%bn | EscAdd c => c <> None end ->
      wp e (ret r) Q s').
    { clear - HQ. intros s' b' HF' Hb' HD' r Hr. apply wp_ret. apply HQ; auto. split; [rewrite Hb'; auto|].
      destruct r as [|[?|]|]; auto; contradiction. }
    destruct (mbeq c 10%N) eqn:E1.
    { apply mbeq_iff in E1. subst c.
      destruct (has func STR_FUNC_QWORDS); [eapply HP; eauto; congruence|].
      destruct (has func STR_FUNC_EXPAND).
      - apply wp_bind. gb. destruct (_ || _); [eapply HP; eauto; exact I|].
        destruct (mbeq _ term); [eapply HP; eauto|]. apply wp_bind. nstep. eapply HP; eauto. congruence.
      - apply wp_bind. nstep. eapply HP; eauto. congruence. }
    destruct (mbeq c "\") eqn:E2.
    { apply mbeq_iff in E2. subst c. apply wp_bind. eapply neut_use; [apply neut_when; cbn [tokadd_mb]; neut|exact HF|exact Hb|].
      clear HF Hb. intros _ s2 HF Hb. eapply HP; eauto. congruence. }
    destruct (mbeq c "u") eqn:E3.
    { destruct (has func STR_FUNC_EXPAND); cbn [negb].
      - assert (HI : InTok st mu b) by (eapply ia_it; eauto; nonl).
        assert (Hc : c <> None) by (intros ->; discriminate).
        apply wp_bind. eapply tokadd_utf8_ok; [exact HF|exact Hb|exact HI|exact Hst| |].
        { destruct c as [x|]; [|congruence]. destruct (ia_some _ _ _ _ _ _ _ HA _ eq_refl); auto. }
        clear HF Hb. intros s2 HF Hb. eapply HP; eauto.
      - apply mbeq_iff in E3. subst c. apply wp_bind. nstep. eapply HP; eauto. congruence. }
    destruct (is_eof c) eqn:E4.
    { destruct c; [discriminate|]. apply wp_ret. apply HQ; auto. split; [rewrite Hb; auto|]. intros _. rewrite Hb.
      destruct (ia_none _ _ _ _ _ _ _ HA eq_refl); auto. }
    eapply tokadd_string_other_ok; [exact HF|exact Hb|exact HA| |]; [intros ->; discriminate|].
    intros r s' HF' HE. apply HQ; auto.
  Qed.

  (** *** Updates of the heredoc indentation counters *)
  Definition upd (x y : Z) (b : Buffer) : Buffer := set_heredoc_line_indent x (set_heredoc_indent y b).

  Lemma upd_same : forall b, upd (heredoc_line_indent b) (heredoc_indent b) b = b.
  Proof using. intros []. reflexivity. Qed.

  Lemma update_upd : forall c b, exists x y, b_update_heredoc_indent c b = upd x y b.
  Proof using.
    intros c b. unfold b_update_heredoc_indent.
    assert (H : forall z, exists x y, set_heredoc_line_indent z b = upd x y b).
    { intros z. exists z, (heredoc_indent b). destruct b; reflexivity. }
    destruct (Z.eqb (heredoc_line_indent b) (-1)).
    - destruct (mbeq c 10%N); auto. exists (heredoc_line_indent b), (heredoc_indent b). rewrite upd_same. auto.
    - destruct (mbeq c 32%N); auto. destruct (mbeq c 9%N); auto. destruct (mbeq c 10%N); cbn [negb].
      + exists (heredoc_line_indent b), (heredoc_indent b). rewrite upd_same. auto.
      + destruct (Z.ltb (heredoc_line_indent b) (heredoc_indent b)); auto.
        exists (-1)%Z, (heredoc_line_indent b). reflexivity.
  Qed.

  Lemma upd_wf : forall x y b, BWF B b -> BWF B (upd x y b).
  Proof using. intros x y b []. constructor; auto. Qed.
  Lemma upd_back : forall x y c b, back c (upd x y b) = upd x y (back c b).
  Proof using.
    intros x y [c|] b; [|reflexivity]. unfold back. cbv zeta.
    change (byte_at (upd x y b)) with (byte_at b). change (pcur (upd x y b)) with (pcur b).
    change (pbeg (upd x y b)) with (pbeg b).
    destruct ((pbeg b <? pcur b - 1) && mbeq (byte_at b (pcur b - 1)) 10%N
        && mbeq (byte_at b (pcur b - 1 - 1)) 13%N); reflexivity.
  Qed.
  Lemma upd_rd : forall x y lo mu b, Rd lo mu b -> Rd lo mu (upd x y b).
  Proof using. intros x y lo mu b []. constructor; auto. apply upd_wf; auto. Qed.
  Lemma upd_ar : forall x y lo mu c b, AR lo mu c b -> AR lo mu c (upd x y b).
  Proof using.
    intros x y lo mu c b []. constructor; auto; rewrite ?upd_back; auto.
    - apply upd_wf; auto.
    - apply upd_rd; auto.
  Qed.

  Lemma neutral_update : forall c b s0 s (Q : unit -> Lexer -> Prop), FR s0 s -> buffer s = b ->
    (forall x y s', FR s0 s' -> buffer s' = upd x y b -> Q tt s') ->
    wp e (when (Z.ltb 0 (heredoc_indent b)) (update_heredoc_indent c)) Q s.
  Proof using All.
    intros c b s0 s Q HF Hb HQ. destruct (Z.ltb 0 (heredoc_indent b)); cbn [when].
    - unfold update_heredoc_indent. mstep. destruct (update_upd c b) as (x & y & E). rewrite E in Hb. eauto.
    - apply wp_ret. eapply HQ; [exact HF|]. rewrite upd_same. exact Hb.
  Qed.

  (** Why [tokadd_string] may return without having consumed anything *)
  Definition Stuck (func term : N) (nest : nat) (b : Buffer) (r : option MaybeByte) (b' : Buffer) : Prop :=
    exists c b1 x y, NextPost B b c b1 /\ r = Some c /\ b' = upd x y (back c b1) /\
      (c = None \/ (c = Some term /\ nest = 0) \/ (has func STR_FUNC_EXPAND = true /\ c = Some "#"%bn) \/
       (has func STR_FUNC_QWORDS = true /\ is_space c = true)).

  (** [c] has just been pushed back *)
  Definition Pushed (c : MaybeByte) (b' : Buffer) : Prop :=
    exists b2 b1 x y, NextPost B b2 c b1 /\ b' = upd x y (back c b1).

  Lemma tokadd_string_ok : forall func term paren nest s0 s b lo mu (Q : option MaybeByte * nat -> Lexer -> Prop),
    FR s0 s -> buffer s = b -> Rd lo mu b ->
    (forall r n s' b', FR s0 s' -> buffer s' = b' -> Rd lo mu b' -> Rm b' <= Rm b ->
       Rm b' < Rm b \/ Stuck func term nest b r b' ->
       (forall c, r = Some c -> c <> Some "\"%bn -> Pushed c b') /\
         (r = None -> has func STR_FUNC_REGEXP = false -> eofp b' = true) -> Q (r, n) s') ->
    wp e (tokadd_string func term paren nest) Q s.
  Proof using All.
    intros func term paren nest s0 s b lo mu Q HF Hb HR HQ. unfold tokadd_string.
    apply wp_loop with (I := fun nest1 s1 => FR s0 s1 /\ Rd lo mu (buffer s1) /\
             ((buffer s1 = b /\ nest1 = nest) \/ Rm (buffer s1) < Rm b)) (meas := fun _ s1 => Rm (buffer s1)).
    { splits; auto; rewrite Hb; auto. }
    { rewrite Hb. pose proof (Rm_le B b (rd_wf _ _ _ _ _ _ HR)). lia. }
    clear HF Hb s. intros nest1 s (HF & HR1 & HS). remember (buffer s) as b1 eqn:Hb. symmetry in Hb.
    cbv beta. apply wp_bind. eapply wp_nextc_rd; [exact HF|exact Hb|exact (mkRd B n0 b0 lo (Rm b1) b1 (rd_wf _ _ _ _ _ _ HR1) (rd_lo _ _ _ _ _ _ HR1) (le_n _) (rd_gh _ _ _ _ _ _ HR1))|].
    clear HF Hb s. intros c b2 s HF Hb HA HN.
    assert (Hle : Rm b1 <= Rm b) by (destruct HS as [(-> & _)|?]; lia).
    assert (Hmu : Rm b1 <= mu) by apply (rd_mu _ _ _ _ _ _ HR1).
    assert (Hw : forall b', Rd lo (Rm b1) b' -> Rd lo mu b') by (intros b' []; constructor; auto; lia).
    destruct c as [ch|].
    2: { cbn [is_eof]. apply wp_ret. pose proof (ar_back _ _ _ _ _ _ _ HA) as HRb. cbn [back] in HRb.
      eapply HQ; [exact HF|exact Hb|auto|destruct HRb; lia| |].
      2: { split; [|discriminate]. intros c Ec _. injection Ec as <-. exists b1, b2, (heredoc_line_indent b2), (heredoc_indent b2). rewrite upd_same. auto. }
      destruct HS as [(-> & ->)|HS]; [|left; destruct HRb; lia].
      right. exists None, b2, (heredoc_line_indent b2), (heredoc_indent b2). rewrite upd_same. auto. }
    cbn [is_eof]. apply wp_bind. gb. apply wp_bind.
    eapply neutral_update; [exact HF|exact Hb|]. clear HF Hb s. intros x y s HF Hb.
    pose proof (upd_ar x y _ _ _ _ HA) as HA3. pose proof (upd_back x y (Some ch) b2) as HB3.
    apply wp_bind. gb. nameb b3.
    destruct (ar_some _ _ _ _ _ _ _ HA3 ch eq_refl) as (Q1 & Q2 & Q3 & Q4 & Q5 & Q6).
    assert (HRd : Rd lo mu b3) by (destruct HA3; constructor; auto; lia).
    assert (Hpos : 1 <= pcur b3) by lia.
    assert (HADD : forall n', wp e (tokadd_mb (Some ch);;; ret (inl n')) (fun r s' => match r with
        | inl x' => (FR s0 s' /\ Rd lo mu (buffer s') /\
             ((buffer s' = b /\ x' = nest) \/ Rm (buffer s') < Rm b)) /\ Rm (buffer s') < Rm b1
        | inr r => Q r s' end) s).
    { intros n'. apply wp_bind. cbn [tokadd_mb]. nstep. apply wp_ret. rewrite Hb. splits; auto. right; lia. }
    assert (HPUSH : forall why : (Some ch = None \/ (Some ch = Some term /\ nest1 = 0) \/
       (has func STR_FUNC_EXPAND = true /\ Some ch = Some "#"%bn) \/
       (has func STR_FUNC_QWORDS = true /\ is_space (Some ch) = true)),
       wp e (pushback (Some ch);;; ret (inr (Some (Some ch), nest1))) (fun r s' => match r with
        | inl x' => (FR s0 s' /\ Rd lo mu (buffer s') /\
             ((buffer s' = b /\ x' = nest) \/ Rm (buffer s') < Rm b)) /\ Rm (buffer s') < Rm b1
        | inr r => Q r s' end) s).
    { intros why. apply wp_bind. eapply wp_pushback; [exact HF|exact Hb|auto|]. clear HF Hb HADD. intros s2 HF Hb. apply wp_ret.
      pose proof (ar_back _ _ _ _ _ _ _ HA3) as HRb.
      eapply HQ; [exact HF|exact Hb|auto|destruct HRb; lia| |].
      2: { split; [|discriminate]. intros c Ec _. injection Ec as <-. exists b1, b2, x, y. auto. }
      destruct HS as [(-> & ->)|HS]; [|left; destruct HRb; lia].
      right. exists (Some ch), b2, x, y. auto. }
    destruct (mbeq_opt (Some ch) paren); [apply HADD|].
    destruct (mbeq (Some ch) term) eqn:Et.
    { apply mbeq_iff in Et. destruct (nest1 =? 0) eqn:En.
      - apply HPUSH. right; left. split; [auto|]. apply Nat.eqb_eq; auto.
      - apply wp_bind. apply wp_sub_ck; [apply Nat.eqb_neq in En; lia|]. apply HADD. }
    destruct (has func STR_FUNC_EXPAND && mbeq (Some ch) "#" && (pcur b3 <? pend b3)) eqn:Eh.
    { apply wp_bind. apply wp_gets. destruct (_ || _); [|apply HADD]. apply HPUSH. right; right; left.
      apply andb_prop in Eh. destruct Eh as (Eh & _). apply andb_prop in Eh. destruct Eh as (Eh1 & Eh2).
      apply mbeq_iff in Eh2. auto. }
    destruct (mbeq (Some ch) "\") eqn:Eb.
    { destruct (ar_intok _ _ _ _ _ _ _ HA3) as (K1 & K2 & K3); [nonl|nonl|].
      apply wp_bind. eapply tokadd_string_escape_ok; [exact HF|exact Hb|exact K3|exact K1|].
      clear HF Hb s HADD HPUSH. intros r s HF (HD & HE). remember (buffer s) as b4 eqn:Hb. symmetry in Hb.
      assert (HR4 : Rd lo mu b4) by (destruct HD; constructor; auto; lia).
      pose proof (dn_mu _ _ _ _ _ _ HD) as Hmu4.
      destruct r as [|r|c].
      - apply wp_ret. rewrite Hb. splits; auto. right; lia.
      - apply wp_ret. eapply HQ; [exact HF|exact Hb|auto|lia|left; lia|].
        split; [intros c -> Hc; subst c; congruence|]. intros -> Hreg. apply HE. exact Hreg.
      - apply wp_bind. destruct c as [c|]; [|congruence]. cbn [tokadd_mb]. nstep. apply wp_ret. rewrite Hb.
        splits; auto. right; lia. }
    apply wp_bind. unfold is_ascii_cur. apply wp_bind. gb. apply wp_bind, wp_sub_ck; [auto|]. apply wp_ret.
    destruct (negb _); [apply HADD|].
    destruct (has func STR_FUNC_QWORDS && is_space (Some ch)) eqn:Eq; [|apply HADD].
    apply HPUSH. right; right; right. apply andb_prop in Eq. auto.
  Qed.
End Str.
