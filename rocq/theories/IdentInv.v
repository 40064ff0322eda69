(** * Invariant of identifiers, variables, character literals and percent literals *)
Require Import Verif.Base Verif.MaybeByteM Verif.Utf8M Verif.InputM Verif.DiagnosticM Verif.LexStateM
  Verif.StackStateM Verif.ScopesM Verif.TokensM Verif.ReservedM Verif.BufferM Verif.LexerM Verif.LexNumericM Verif.LexStringM
  Verif.LexIdentM
  Verif.SourceSpec Verif.SourceProofs Verif.Wp Verif.BufInv Verif.LexInv Verif.NumInv Verif.StrInv Verif.TokInv.
Require Import ZifyBool ZifyNat ZifyN.

Definition lead_len (c1 : N) : option nat :=
  if N.eqb (N.land c1 128) 0 then Some 1
  else if N.eqb (N.land c1 224) 192 then Some 2
  else if N.eqb (N.land c1 240) 224 then Some 3
  else if N.eqb (N.land c1 248) 240 then Some 4
  else None.

Lemma lead_len_range : forall c1, (128 <= c1)%N -> (c1 <= 244)%N ->
  lead_len c1 = if (c1 <? 192)%N then None else if (c1 <? 224)%N then Some 2 else if (c1 <? 240)%N then Some 3 else Some 4.
Proof.
  assert (H : forallb (fun i => let c := (128 + N.of_nat i)%N in
     match lead_len c, (if (c <? 192)%N then None else if (c <? 224)%N then Some 2 else if (c <? 240)%N then Some 3 else Some 4) with
     | Some a, Some b => a =? b | None, None => true | _, _ => false end) (seq 0 117) = true) by (vm_compute; reflexivity).
  rewrite forallb_forall in H. intros c1 H1 H2. specialize (H (N.to_nat (c1 - 128))).
  assert (Hin : In (N.to_nat (c1 - 128)) (seq 0 117)) by (apply in_seq; lia). apply H in Hin. clear H.
  cbv zeta in Hin. replace (128 + N.of_nat (N.to_nat (c1 - 128)))%N with c1 in Hin by lia.
  destruct (lead_len c1) as [a|], (if (c1 <? 192)%N then None else if (c1 <? 224)%N then Some 2 else if (c1 <? 240)%N then Some 3 else Some 4) as [b|];
    try discriminate; auto. apply Nat.eqb_eq in Hin. congruence.
Qed.

(** the bytes after the first of a multi-byte character are not ASCII *)
Lemma mb_bytes : forall c1 rest n, lead_len c1 = Some n -> utf8_valid (c1 :: rest) = true -> List.length (c1 :: rest) = n ->
  1 <= n /\ (forall i x, nth_error rest i = Some x -> (128 <= x)%N).
Proof.
  intros c1 rest n H1 H2 H3. split; [cbn in H3; lia|]. cbn [utf8_valid] in H2. cbn [List.length] in H3.
  unfold is_cont, second3_ok, second4_ok, is_cont, in_range in *.
  destruct (c1 <? 128)%N eqn:E1.
  { unfold lead_len in H1. assert (N.land c1 128 = 0%N).
    { change 128%N with (2 ^ 7)%N. destruct (N.eq_dec c1 0) as [->|E]; [reflexivity|].
      apply N.bits_inj. intros i. rewrite N.land_spec, N.bits_0, N.pow2_bits_eqb.
      destruct (N.eqb 7 i) eqn:Ei; [|apply andb_false_r]. apply N.eqb_eq in Ei. subst i.
      rewrite N.bits_above_log2; auto. apply N.log2_lt_pow2; [lia|]. change (2 ^ 7)%N with 128%N. lia. }
    rewrite H in H1. cbn in H1. injection H1 as <-. destruct rest; [|cbn in H3; lia]. intros [|i] x Hx; discriminate. }
  destruct ((194 <=? c1)%N && (c1 <=? 223)%N) eqn:E2.
  { rewrite lead_len_range in H1 by lia. replace (c1 <? 192)%N with false in H1 by lia. replace (c1 <? 224)%N with true in H1 by lia.
    injection H1 as <-. destruct rest as [|c2 [|]]; try (cbn in H3; lia).
    intros [|[|i]] x Hx; try discriminate. injection Hx as <-. lia. }
  destruct ((224 <=? c1)%N && (c1 <=? 239)%N) eqn:E3.
  { rewrite lead_len_range in H1 by lia. replace (c1 <? 192)%N with false in H1 by lia. replace (c1 <? 224)%N with false in H1 by lia.
    replace (c1 <? 240)%N with true in H1 by lia.
    injection H1 as <-. destruct rest as [|c2 [|c3 [|]]]; try (cbn in H3; lia).
    intros [|[|[|i]]] x Hx; try discriminate; injection Hx as <-; destruct (c1 =? 224)%N, (c1 =? 237)%N; lia. }
  destruct ((240 <=? c1)%N && (c1 <=? 244)%N) eqn:E4; [|discriminate].
  rewrite lead_len_range in H1 by lia. replace (c1 <? 192)%N with false in H1 by lia. replace (c1 <? 224)%N with false in H1 by lia.
  replace (c1 <? 240)%N with false in H1 by lia.
  injection H1 as <-. destruct rest as [|c2 [|c3 [|c4 [|]]]]; try (cbn in H3; lia).
  intros [|[|[|[|i]]]] x Hx; try discriminate; injection Hx as <-; destruct (c1 =? 240)%N, (c1 =? 244)%N; lia.
Qed.

Section Id.
  Variables (B : list N) (n0 b0 : nat) (e : Env).
  Hypothesis Hfuel : 4 * List.length B + 20 < fuel e.

  Notation FR := (FR B).
  Notation Rd := (Rd B n0 b0).
  Notation AR := (AR B n0 b0).
  Notation InTok := (InTok B n0 b0).
  Notation IA := (IA B n0 b0).
  Notation Dn := (Dn B n0 b0).
  Notation Rm := (Rm B).
  Notation gh := (gh B n0 b0).
  Notation NextPost := (NextPost B).

  Lemma mb_len_ok : forall b p n, BWF B b -> lstart B (lastline b) <= p -> p < pend b -> multibyte_char_len_pure b p = Some n ->
    1 <= n /\ p + n <= pend b /\
    (forall i, p < i -> i < p + n -> nth_error B i <> Some 10%N /\ nth_error B i <> Some 13%N).
  Proof using All.
    intros b p n HW Hp1 Hp2 H. unfold multibyte_char_len_pure in H.
    rewrite (byte_at_B B) in H by auto. destruct (nth_error B p) as [c1|] eqn:E1; [|discriminate]. cbv zeta in H.
    change (match lead_len c1 with
      | None => None
      | Some len =>
          match b_substr_at b p (p + len) with
          | None => None
          | Some l => if utf8_valid l then Some len else None
          end end = Some n) in H.
    destruct (lead_len c1) as [len|] eqn:El; [|discriminate].
    destruct (b_substr_at b p (p + len)) as [l|] eqn:Es; [|discriminate].
    destruct (utf8_valid l) eqn:Ev; [|discriminate]. injection H as ->.
    unfold b_substr_at, substr_at in Es. pose proof (w_bytes B b HW) as Eb. unfold bytes in Eb. rewrite Eb in Es.
    destruct ((p <=? p + n) && (p + n <=? List.length B)) eqn:Er; [|discriminate]. injection Es as <-.
    assert (Hlen : p + n <= List.length B) by lia.
    assert (Hn1 : 1 <= n). { unfold lead_len in El. clear - El Hfuel. repeat match type of El with (if ?x then _ else _) = _ => destruct x end; try discriminate El; injection El; lia. }
    replace (p + n - p) with n in Ev by lia.
    destruct (firstn n (skipn p B)) as [|y rest] eqn:Ef.
    { exfalso. assert (L : List.length (firstn n (skipn p B)) = 0) by (rewrite Ef; auto).
      rewrite firstn_length, skipn_length in L. lia. }
    assert (Ey : y = c1).
    { assert (L : nth_error (firstn n (skipn p B)) 0 = Some y) by (rewrite Ef; auto).
      rewrite nth_error_firstn in L. destruct (0 <? n) eqn:E0; [|lia].
      rewrite nth_error_skipn in L. replace (p + 0) with p in L by lia. congruence. }
    subst y.
    assert (Hlr : List.length (c1 :: rest) = n).
    { rewrite <- Ef, firstn_length, skipn_length. lia. }
    destruct (mb_bytes _ _ _ El Ev Hlr) as (M1 & M2).
    assert (M3 : forall i, p < i -> i < p + n -> nth_error B i <> Some 10%N /\ nth_error B i <> Some 13%N).
    { intros i I1 I2. assert (L : nth_error (firstn n (skipn p B)) (i - p) = nth_error B i).
      { rewrite nth_error_firstn. destruct (i - p <? n) eqn:E0; [|lia]. rewrite nth_error_skipn. f_equal. lia. }
      rewrite Ef in L. replace (i - p) with (S (i - p - 1)) in L by lia. cbn [nth_error] in L.
      rewrite <- L. destruct (nth_error rest (i - p - 1)) as [x|] eqn:Ex; [|split; discriminate].
      pose proof (M2 _ _ Ex). split; intros C; injection C as ->; lia. }
    splits; auto.
    destruct (Nat.le_gt_cases (p + n) (pend b)) as [|G]; auto. exfalso.
    pose proof (w_pend B b HW) as W1. pose proof (w_last B b HW). pose proof (w_count B b HW).
    destruct (Nat.eq_dec (lastline b + 1) (NL B)) as [El2|El2].
    - destruct (line_last B _ El2) as (L1 & _). lia.
    - destruct (line_newline B (lastline b)) as (_ & A & _); [lia|].
      rewrite <- W1 in A. destruct (Nat.eq_dec (pend b) (p + 1)) as [Ep|Ep].
      + replace (pend b - 1) with p in A by lia. rewrite E1 in A. injection A as ->. cbn in El. injection El as <-. lia.
      + destruct (M3 (pend b - 1)); try lia. congruence.
  Qed.

  Lemma neut_multibyte_char_len : forall p b, BWF B b -> Neut B e b (multibyte_char_len p).
  Proof using All.
    intros p b HW. unfold multibyte_char_len. apply neut_bind; [apply neut_getb|]. intros b'.
    destruct (multibyte_char_len_pure b' p); neut.
  Qed.

  Lemma multibyte_char_len_ok : forall p b s0 s (Q : option nat -> Lexer -> Prop), FR s0 s -> buffer s = b -> BWF B b ->
    (forall s' r, FR s0 s' -> buffer s' = b -> r = multibyte_char_len_pure b p -> Q r s') ->
    wp e (multibyte_char_len p) Q s.
  Proof using All.
    intros p b s0 s Q HF Hb HW HQ. unfold multibyte_char_len. apply wp_bind. gb.
    destruct (multibyte_char_len_pure b p) as [n|].
    - apply wp_ret. apply HQ; auto.
    - apply wp_bind. nstep. apply wp_ret. apply HQ; auto.
  Qed.

  (** [b] after skipping the rest of the character whose first byte was just read *)
  Definition MbAdv (b b' : Buffer) : Prop :=
    b' = b \/ exists n, b' = set_pcur (pcur b + n) b /\ pcur b + n <= pend b /\ BWF B b'.

  Lemma mbadv_rd : forall lo mu b b', MbAdv b b' -> Rd lo mu b -> nextline b = 0 -> Rd lo mu b'.
  Proof using All.
    intros lo mu b b' [->|(n & -> & H1 & H2)] HR Hn; auto. destruct HR as [W1 W2 W3 W4]. constructor; auto.
    - cbn [pcur set_pcur]. lia.
    - unfold BufInv.Rm in *. cbn [eofp nextline pend pcur line_count set_pcur]. rewrite Hn in *. cbn [Nat.eqb] in *.
      destruct (eofp b); lia.
  Qed.

  Lemma mb_skip_wf : forall b n, BWF B b -> pbeg b < pcur b -> multibyte_char_len_pure b (pcur b - 1) = Some n ->
    1 <= n /\ pcur b + (n - 1) <= pend b /\ BWF B (set_pcur (pcur b + (n - 1)) b).
  Proof using All.
    intros b n HW Hp Hm. pose proof (w_pcur1 B b HW). pose proof (w_pcur2 B b HW). pose proof (w_pbeg B b HW).
    destruct (mb_len_ok b (pcur b - 1) n HW) as (M1 & M2 & M3); auto; try lia.
    splits; auto; try lia. pose proof (w_tok B b HW). apply BWF_set_pcur; auto; try lia.
    intros _ C1 C2. destruct (Nat.eq_dec n 1) as [->|E].
    - replace (pcur b + (1 - 1)) with (pcur b) in * by lia. eapply (w_nosplit B b); eauto.
    - destruct (M3 (pcur b + (n - 1) - 1)); try lia. congruence.
  Qed.

  Lemma tokadd_mbchar_ok : forall c s0 s b (Q : bool -> Lexer -> Prop),
    FR s0 s -> buffer s = b -> BWF B b -> pbeg b < pcur b ->
    (forall r s' b', FR s0 s' -> buffer s' = b' -> MbAdv b b' -> Q r s') ->
    wp e (tokadd_mbchar c) Q s.
  Proof using All.
    intros c s0 s b Q HF Hb HW Hp HQ. unfold tokadd_mbchar. apply wp_bind. gb. apply wp_bind, wp_sub_ck; [lia|].
    apply wp_bind. eapply multibyte_char_len_ok; [exact HF|exact Hb|exact HW|].
    clear HF Hb s. intros s r HF Hb Hr. destruct r as [n|].
    2: { apply wp_ret. eapply HQ; eauto. left; auto. }
    destruct c as [c|]; [|apply wp_ret; eapply HQ; eauto; left; auto].
    destruct (mb_skip_wf b n HW Hp (eq_sym Hr)) as (M1 & M2 & M3).
    apply wp_bind. nstep. apply wp_bind, wp_sub_ck; [lia|]. apply wp_bind. mstep.
    apply wp_bind. eapply neut_use; [apply (neut_tokcopy B 0 0 e Hfuel _ (set_pcur (pcur b + (n - 1)) b)); [auto|cbn; lia]|exact HF|exact Hb|].
    clear HF Hb. intros _ s2 HF Hb. apply wp_ret. eapply HQ; [exact HF|exact Hb|]. right. exists (n - 1). auto.
  Qed.

  Lemma is_identchar_ok : forall s0 s b (Q : bool -> Lexer -> Prop),
    FR s0 s -> buffer s = b -> BWF B b -> (eofp b = false -> 1 <= pcur b) ->
    (forall r s', FR s0 s' -> buffer s' = b -> r = negb (eofp b) && b_is_identchar b (pcur b - 1) -> Q r s') ->
    wp e is_identchar Q s.
  Proof using All.
    intros s0 s b Q HF Hb HW Hp HQ. unfold is_identchar. apply wp_bind. gb. destruct (eofp b) eqn:Ee.
    - apply wp_ret. apply HQ; auto.
    - apply wp_bind, wp_sub_ck; [auto|]. apply wp_ret. apply HQ; auto.
  Qed.

  Lemma identchar_byte : forall b p, BWF B b -> b_is_identchar b p = true ->
    exists x, nth_error B p = Some x /\ x <> 10%N /\ x <> 13%N.
  Proof using All.
    intros b p HW H. unfold b_is_identchar in H. pose proof (byte_at_B B b p HW) as E. unfold byte_at in E. rewrite E in H.
    destruct (nth_error B p) as [x|]; [|discriminate]. exists x. split; auto.
    split; intros ->; vm_compute in H; discriminate.
  Qed.

  (** The loop shared by [tokadd_ident] and [parse_ident] *)
  Lemma ident_loop_ok : forall c s0 s b lo mu (Q : option MaybeByte -> Lexer -> Prop),
    FR s0 s -> buffer s = b -> Rd lo mu b -> 1 <= lo -> nextline b = 0 -> pbeg b < pcur b ->
    (forall s' b', FR s0 s' -> buffer s' = b' -> Rd lo mu b' -> Q None s') ->
    (forall c s' b', FR s0 s' -> buffer s' = b' -> AR lo mu c b' -> Q (Some c) s') ->
    wp e (loop (fun c =>
         ok <- tokadd_mbchar c ;;
         if negb ok then ret (inr None)
         else
           c <- nextc ;;
           i <- is_identchar ;;
           if i : bool then ret (inl c) else ret (inr (Some c))) c) Q s.
  Proof using All.
    intros c s0 s b lo mu Q HF Hb HR Hlo Hn Hp HQ1 HQ2.
    apply wp_loop with (I := fun _ s => FR s0 s /\ Rd lo mu (buffer s) /\ nextline (buffer s) = 0 /\ pbeg (buffer s) < pcur (buffer s))
      (meas := fun _ s => Rm (buffer s)).
    { rewrite Hb. splits; auto. }
    { rewrite Hb. pose proof (Rm_le B b (rd_wf _ _ _ _ _ _ HR)). lia. }
    clear HF Hb s HR Hn Hp b c. intros c s (HF & HR & Hn & Hp). remember (buffer s) as b eqn:Hb. symmetry in Hb.
    apply wp_bind. eapply tokadd_mbchar_ok; [exact HF|exact Hb|eapply rd_wf; eauto|exact Hp|].
    clear HF Hb s. intros ok s b1 HF Hb HM.
    assert (HR1 : Rd lo (Rm b) b1).
    { eapply mbadv_rd; eauto. destruct HR; constructor; auto. }
    assert (Hmu : Rm b <= mu) by apply (rd_mu _ _ _ _ _ _ HR).
    destruct ok; cbn [negb].
    2: { apply wp_ret. eapply HQ1; eauto. eapply rd_mono; eauto. }
    apply wp_bind. eapply wp_nextc_rd; [exact HF|exact Hb|eapply rd_mono; [exact Hfuel|exact HR1|exact Hmu]|].
    clear HF Hb s. intros c1 b2 s HF Hb HA HN.
    apply wp_bind. eapply is_identchar_ok; [exact HF|exact Hb|eapply ar_wf; eauto| |].
    { intros _. pose proof (ar_lo _ _ _ _ _ _ _ HA). lia. }
    clear HF Hb s. intros i s HF Hb Hi. destruct i.
    - symmetry in Hi. apply andb_prop in Hi. destruct Hi as (Hi1 & Hi2).
      destruct (identchar_byte b2 _ (ar_wf _ _ _ _ _ _ _ HA) Hi2) as (x & X1 & X2 & X3).
      destruct c1 as [y|].
      + apply wp_ret. rewrite Hb. destruct (n_some B _ _ _ HN y eq_refl) as (_ & _ & Y3 & _ & Y5 & _).
        pose proof (rd_mu _ _ _ _ _ _ HR1).
        splits; auto; [|apply (ar_next _ _ _ _ _ _ _ HA)|lia].
        destruct HA; constructor; auto.
      + exfalso. destruct (n_none B _ _ _ HN eq_refl) as [G|(_ & _ & _ & _ & [G|G])].
        * rewrite G in Hi1. discriminate.
        * pose proof (ar_lo _ _ _ _ _ _ _ HA). lia.
        * rewrite G in X1. congruence.
    - apply wp_ret. eapply HQ2; eauto.
  Qed.

  Lemma tokadd_ident_ok : forall c s0 s b lo mu (Q : bool -> Lexer -> Prop),
    FR s0 s -> buffer s = b -> Rd lo mu b -> 1 <= lo -> nextline b = 0 -> pbeg b < pcur b ->
    (forall r s' b', FR s0 s' -> buffer s' = b' -> Rd lo mu b' -> Q r s') ->
    wp e (tokadd_ident c) Q s.
  Proof using All.
    intros c s0 s b lo mu Q HF Hb HR Hlo Hn Hp HQ. unfold tokadd_ident. apply wp_bind.
    eapply ident_loop_ok; [exact HF|exact Hb|exact HR|exact Hlo|exact Hn|exact Hp| |].
    - clear HF Hb s. intros s b1 HF Hb HR1. apply wp_ret. eapply HQ; eauto.
    - clear HF Hb s. intros c1 s b1 HF Hb HA. apply wp_bind.
      eapply wp_pushback; [exact HF|exact Hb|intros; eapply ar_pos; eauto|].
      clear HF Hb s. intros s HF Hb. apply wp_ret. eapply HQ; [exact HF|exact Hb|]. eapply ar_back; eauto.
  Qed.

  Lemma ar_rd : forall lo mu c b, AR lo mu c b -> Rd lo mu b.
  Proof using All. intros lo mu c b []. constructor; auto. Qed.

  Lemma neut_tokenize_ident : forall b, Neut B e b tokenize_ident.
  Proof using All. intros b. unfold tokenize_ident. neut. Qed.

  Lemma neut_ident_keyword : forall kw b, Neut B e b (ident_keyword kw).
  Proof using All. intros kw b. unfold ident_keyword. neut. Qed.

  Lemma neut_ask : forall b, Neut B e b ask.
  Proof using All. intros b s0 s Q HF Hb HQ. apply wp_ask. auto. Qed.

  Lemma neut_ident_plain : forall r l cs b, BWF B b -> Neut B e b (ident_plain r l cs).
  Proof using All.
    intros r l cs b HW. unfold ident_plain. apply neut_bind; [neut|intros _].
    apply neut_bind; [apply neut_tokenize_ident|intros id]. destruct id as [id|]; [|neut].
    apply neut_bind; [apply neut_ask|intros e']. neut.
  Qed.

  Lemma ident_suffix_ok : forall c s0 s b lo mu (Q : Tok -> Lexer -> Prop),
    FR s0 s -> buffer s = b -> AR lo mu c b ->
    (forall t s' b', FR s0 s' -> buffer s' = b' -> Rd lo mu b' -> Q t s') ->
    wp e (ident_suffix c) Q s.
  Proof using All.
    intros c s0 s b lo mu Q HF Hb HA HQ. unfold ident_suffix.
    pose proof (ar_rd _ _ _ _ HA) as HRd. pose proof (ar_wf _ _ _ _ _ _ _ HA) as HW.
    assert (Hfin : forall s, FR s0 s -> buffer s = b -> wp e
      (s <- get ;;
       setter <- (if mbeq c "=" && ls_is_some (lex_state s) EXPR_FNAME then
                 p1 <- peek "~" ;;
                 if p1 : bool then ret false
                 else
                   p2 <- peek ">" ;;
                   if p2 : bool then ret false
                   else
                     p3 <- peek "=" ;;
                     if negb p3 then ret true else peek_n ">" 1
               else ret false) ;;
       if setter : bool then tokadd_mb c ;;; ret tIDENTIFIER
       else pushback c ;;; ret tCONSTANT) Q s).
    { clear HF Hb s. intros s HF Hb.
      assert (Hpb : forall s, FR s0 s -> buffer s = b -> wp e (pushback c ;;; ret tCONSTANT) Q s).
      { clear HF Hb s. intros s HF Hb. apply wp_bind. eapply wp_pushback; [exact HF|exact Hb|intros; eapply ar_pos; eauto|].
        clear HF Hb s. intros s HF Hb. apply wp_ret. eapply HQ; [exact HF|exact Hb|]. eapply ar_back; eauto. }
      apply wp_bind, wp_get. apply wp_bind. destruct (mbeq c "=" && ls_is_some (lex_state s) EXPR_FNAME) eqn:E.
      - nstep. destruct a; [|apply Hpb; auto]. destruct c as [x|]; [|discriminate E].
        apply wp_bind. nstep. apply wp_ret. eapply HQ; eauto.
      - apply wp_ret. apply Hpb; auto. }
    apply wp_bind. destruct (mbeq c "!" || mbeq c "?") eqn:E.
    - nstep. destruct a; [|apply Hfin; auto]. destruct c as [x|]; [|discriminate E].
      apply wp_bind. nstep. apply wp_ret. eapply HQ; eauto.
    - apply wp_ret. apply Hfin; auto.
  Qed.

  Lemma parse_ident_ok : forall c cs s0 s b lo mu (Q : Tok -> Lexer -> Prop),
    FR s0 s -> buffer s = b -> Rd lo mu b -> 1 <= lo -> nextline b = 0 -> pbeg b < pcur b ->
    (forall t s' b', FR s0 s' -> buffer s' = b' -> Rd lo mu b' -> Q t s') ->
    wp e (parse_ident c cs) Q s.
  Proof using All.
    intros c cs s0 s b lo mu Q HF Hb HR Hlo Hn Hp HQ. unfold parse_ident. apply wp_bind, wp_gets.
    generalize (lex_state s) as ls. intros ls. apply wp_bind.
    eapply ident_loop_ok; [exact HF|exact Hb|exact HR|exact Hlo|exact Hn|exact Hp| |].
    - clear HF Hb s. intros s b1 HF Hb HR1. apply wp_ret. eapply HQ; eauto.
    - clear HF Hb s. intros c1 s b1 HF Hb HA. apply wp_bind.
      eapply ident_suffix_ok; [exact HF|exact Hb|exact HA|]. clear HF Hb s HA. intros res s b2 HF Hb HR2.
      apply wp_bind, wp_get. pose (sx := s). change s with sx at 1 2 3. clearbody sx.
      apply wp_bind. nstep. destruct a.
      + apply wp_bind. nstep. apply wp_bind. eapply wp_nextc_rd; [exact HF|exact Hb|exact HR2|].
        clear HF Hb. intros c2 b3 s2 HF Hb HA _. apply wp_bind. nstep. apply wp_ret.
        eapply HQ; [exact HF|exact Hb|eapply ar_rd; eauto].
      + destruct (if negb (ls_is_some (lex_state sx) EXPR_DOT) then reserved_word (tokenbuf sx) else None) as [kw|].
        * eapply neut_use; [apply (neut_ident_keyword _ b2)|exact HF|exact Hb|]. intros; eapply HQ; eauto.
        * eapply neut_use; [apply (neut_ident_plain _ _ _ b2); eauto with neut|exact HF|exact Hb|]. intros; eapply HQ; eauto.
  Qed.

  (** *** Inside a token *)
  Lemma ia_ident : forall st mu c b, IA st mu c b -> negb (eofp b) && b_is_identchar b (pcur b - 1) = true ->
    exists x, c = Some x /\ InTok st mu b /\ nextline b = 0 /\ pbeg b < pcur b.
  Proof using All.
    intros st mu c b HA Hi. apply andb_prop in Hi. destruct Hi as (Hi1 & Hi2).
    destruct (identchar_byte b _ (ia_wf _ _ _ _ _ _ _ HA) Hi2) as (x & X1 & X2 & X3).
    destruct c as [y|].
    - destruct (ia_some _ _ _ _ _ _ _ HA y eq_refl) as (A1 & A2 & A3 & _). exists y. split; auto.
      assert (y = x) by congruence. subst y. pose proof (ia_st _ _ _ _ _ _ _ HA). pose proof (ia_pbeg _ _ _ _ _ _ _ HA).
      split; [auto|]. split; [apply (ia_next _ _ _ _ _ _ _ HA)|lia].
    - destruct (ia_none _ _ _ _ _ _ _ HA eq_refl) as (_ & A). rewrite A in Hi1. discriminate.
  Qed.

  Lemma mbeq_some : forall c x, mbeq c x = true -> c = Some x.
  Proof using All. intros [y|] x H; [|discriminate]. cbn in H. apply N.eqb_eq in H. congruence. Qed.

  Lemma ident_tok_ok : forall c s0 s b st mu (Q : bool -> Lexer -> Prop),
    FR s0 s -> buffer s = b -> InTok st mu b -> st < pcur b ->
    (forall r s' b', FR s0 s' -> buffer s' = b' -> Dn st mu b' -> Q r s') ->
    wp e (tokadd_ident c) Q s.
  Proof using All.
    intros c s0 s b st mu Q HF Hb HI Hst HQ. pose proof (it_Rm _ _ _ _ _ _ HI Hst) as Hm.
    eapply tokadd_ident_ok with (lo := S st) (mu := mu - 1); [exact HF|exact Hb|apply dn_rd, it_dn; auto|lia| | |].
    - apply (it_next _ _ _ _ _ _ HI).
    - pose proof (it_pbeg _ _ _ _ _ _ HI). lia.
    - intros r s' b' HF' Hb' []. eapply HQ; eauto. constructor; auto; lia.
  Qed.

  Lemma gvar_ident_ok : forall c s0 s b st mu (Q : Tok -> Lexer -> Prop),
    FR s0 s -> buffer s = b -> InTok st mu b -> st < pcur b ->
    (forall t s', FR s0 s' -> Dn st mu (buffer s') -> Q t s') ->
    wp e (gvar_ident c) Q s.
  Proof using All.
    intros c s0 s b st mu Q HF Hb HI Hst HQ. unfold gvar_ident. apply wp_bind.
    eapply ident_tok_ok; [exact HF|exact Hb|exact HI|exact Hst|]. clear HF Hb s. intros t s b2 HF Hb HD. destruct t.
    - apply wp_ret. apply HQ; auto. rewrite Hb; auto.
    - apply wp_bind. nstep. apply wp_bind.
      eapply neut_use; [apply (neut_tokenize_ident b2)|exact HF|exact Hb|]. clear HF Hb. intros _ s2 HF Hb.
      apply wp_ret. apply HQ; auto. rewrite Hb; auto.
  Qed.

  Lemma mbchar_tok_ok : forall c s0 s b st mu (Q : bool -> Lexer -> Prop),
    FR s0 s -> buffer s = b -> Dn st mu b -> pbeg b < pcur b -> nextline b = 0 ->
    (forall r s', FR s0 s' -> Dn st mu (buffer s') -> Q r s') ->
    wp e (tokadd_mbchar c) Q s.
  Proof using All.
    intros c s0 s b st mu Q HF Hb HD Hp Hn HQ. eapply tokadd_mbchar_ok; [exact HF|exact Hb|eapply dn_wf; eauto|exact Hp|].
    intros r s' b' HF' Hb' HM. apply HQ; auto. rewrite Hb'.
    pose proof (mbadv_rd _ _ _ _ HM (dn_rd _ _ _ _ _ _ HD) Hn) as []. pose proof (dn_mu _ _ _ _ _ _ HD). constructor; auto; lia.
  Qed.

  Lemma back_two : forall x b, BWF B b -> pcur b = pcur (back (Some x) b) + 2 -> nth_error B (pcur (back (Some x) b)) = Some 13%N.
  Proof using All.
    intros x b HW. unfold back. cbv zeta.
    destruct ((pbeg b <? pcur b - 1) && mbeq (byte_at b (pcur b - 1)) 10%N
        && mbeq (byte_at b (pcur b - 1 - 1)) 13%N) eqn:E; cbn [pcur set_pcur]; intros P; [|lia].
    apply andb_prop in E. destruct E as (E & E3). apply mbeq_iff in E3. rewrite byte_at_B with (B := B) in E3 by auto.
    rewrite <- E3. f_equal; lia.
  Qed.

  (** what [nextc] returns when the next byte of the line is known *)
  Lemma next_known : forall b c b' x, BWF B b -> NextPost b c b' -> eofp b = false -> nextline b = 0 ->
    pcur b < pend b -> nth_error B (pcur b) = Some x -> x <> 10%N -> x <> 13%N -> c = Some x /\ pcur b' = pcur b + 1.
  Proof using All.
    intros b c b' x HW HN He Hn Hp Hx H1 H2. destruct c as [y|].
    2: { destruct (n_end B _ _ _ HN eq_refl He). lia. }
    assert (Hpc : pcur (back (Some y) b') = pcur b).
    { destruct (n_line B _ _ _ HN) as [L|L]; [apply L|]. destruct L as (_ & _ & _ & _ & _ & _ & _ & _ & [L|(L & _)]); lia. }
    destruct (n_some B _ _ _ HN y eq_refl) as (_ & _ & _ & Y4 & _ & Y6 & Y7 & Y8).
    assert (pcur b' = pcur b + 1).
    { destruct (Nat.eq_dec (pcur b') (pcur b + 2)) as [E|E]; [|lia].
      rewrite <- Hpc in E. apply back_two in E; [|apply (n_wf B _ _ _ HN)]. rewrite Hpc in E. congruence. }
    split; auto. replace (pcur b' - 1) with (pcur b) in Y4 by lia. congruence.
  Qed.

  Ltac nxi c HA :=
    match goal with
    | HF : LexInv.FR _ _ ?s, Hb : buffer ?s = ?b, HI : LexInv.InTok _ _ _ ?st _ ?b, Hst : ?st < pcur ?b |- _ =>
        eapply wp_nextc_it; [exact HF|exact Hb|exact HI|exact Hst|];
        clear HF Hb;
        let b' := fresh "b" in let s' := fresh "s" in
        intros c b' s' HF Hb HA; intros
    end.

  Lemma ident_b : forall s0 s b st mu c (Q : bool -> Lexer -> Prop),
    FR s0 s -> buffer s = b -> IA st mu c b ->
    (forall s' x, FR s0 s' -> buffer s' = b -> c = Some x -> InTok st mu b -> Q true s') ->
    (forall s', FR s0 s' -> buffer s' = b -> Q false s') ->
    wp e is_identchar Q s.
  Proof using All.
    intros s0 s b st mu c Q HF Hb HA HQ1 HQ2.
    eapply is_identchar_ok; [exact HF|exact Hb|eauto with neut| |].
    { intros _. pose proof (ia_st _ _ _ _ _ _ _ HA). lia. }
    intros r s' HF' Hb' Hr. destruct r; [|apply HQ2; auto].
    destruct (ia_ident _ _ _ _ HA (eq_sym Hr)) as (x & -> & HI & _). eapply HQ1; eauto.
  Qed.

  Lemma parse_gvar_ok : forall ls s0 s b st mu (Q : Tok -> Lexer -> Prop),
    FR s0 s -> buffer s = b -> InTok st mu b -> st < pcur b ->
    (forall t s', FR s0 s' -> Dn st mu (buffer s') -> Q t s') ->
    wp e (parse_gvar ls) Q s.
  Proof using All.
    intros ls s0 s b st0 mu Q HF Hb HI0 Hst0 HQ0. unfold parse_gvar. apply wp_bind. gb.
    apply wp_bind. nstep. apply wp_bind, wp_sub_ck; [lia|]. apply wp_bind. mstep.
    assert (HI : InTok (pcur b - 1) mu (set_ptok (pcur b - 1) b)) by (eapply it_set_ptok; eauto; lia).
    set (st := pcur b - 1) in *. assert (Hst : st < pcur (set_ptok st b)) by (cbn; lia).
    assert (HQ : forall t s', FR s0 s' -> Dn st mu (buffer s') -> Q t s').
    { intros t s' HF' []. apply HQ0; auto. constructor; auto; lia. }
    assert (Hpc : pcur (set_ptok st b) = S st) by (cbn; lia). clear HQ0.
    clearbody st. set (b1 := set_ptok st b) in *. clearbody b1. clear HI0 Hst0 b st0. rename b1 into b.
    apply wp_bind. nstep. apply wp_bind. nxi c HA.
    assert (Hdn : forall s, FR s0 s -> buffer s = b1 -> Dn st mu (buffer s)).
    { intros s' _ ->. eapply ia_dn; eauto. }
    destruct (mbeq c "_") eqn:E1.
    { apply mbeq_some in E1. subst c. assert (HI1 : InTok st mu b1) by (apply (ia_it _ _ _ _ _ _ _ HA); discriminate).
      assert (Hst1 : st < pcur b1) by (apply (ia_st _ _ _ _ _ _ _ HA)).
      apply wp_bind. clear Hst HI. nxi c HA2. apply wp_bind. eapply ident_b; [exact HF|exact Hb|exact HA2| |]; clear HF Hb s.
      - intros s x HF Hb -> HI2. apply wp_bind. nstep. apply wp_bind. nstep.
        eapply gvar_ident_ok; [exact HF|exact Hb|exact HI2|apply (ia_st _ _ _ _ _ _ _ HA2)|exact HQ].
      - intros s HF Hb. apply wp_bind. eapply wp_pushback; [exact HF|exact Hb|intros; eapply ia_pos; eauto|].
        clear HF Hb s. intros s HF Hb. apply wp_bind. nstep. apply wp_bind. nstep. apply wp_ret. apply HQ; auto.
        rewrite Hb. eapply ia_back_dn; eauto. }
    assert (Hst1 : st < pcur b1) by (apply (ia_st _ _ _ _ _ _ _ HA)).
    destruct (mb_test (fun x => existsb (N.eqb x) gvar_special) c) eqn:E2.
    { destruct c as [x|]; [|discriminate E2]. apply wp_bind. nstep. apply wp_bind. nstep. apply wp_ret. apply HQ; auto. }
    destruct (mbeq c "-") eqn:E3.
    { apply mbeq_some in E3. subst c. assert (HI1 : InTok st mu b1) by (apply (ia_it _ _ _ _ _ _ _ HA); discriminate).
      destruct (ia_some _ _ _ _ _ _ _ HA _ eq_refl) as (_ & _ & _ & G & _). specialize (G ltac:(discriminate)).
      assert (Hpc1 : pcur b1 = S (S st)) by lia.
      apply wp_bind. nstep. apply wp_bind. nstep. apply wp_bind. clear Hst HI. nxi c HA2.
      apply wp_bind. eapply ident_b; [exact HF|exact Hb|exact HA2| |]; clear HF Hb.
      - intros s' x HF Hb -> HI2. apply wp_bind.
        eapply mbchar_tok_ok; [exact HF|exact Hb|eapply ia_dn; eauto| |apply (it_next _ _ _ _ _ _ HI2)|].
        { pose proof (ia_st _ _ _ _ _ _ _ HA2). pose proof (ia_pbeg _ _ _ _ _ _ _ HA2). lia. }
        clear HF Hb. intros r s3 HF HD. destruct r; cbn [negb]; apply wp_ret; apply HQ; auto.
      - intros s' HF Hb. apply wp_bind. eapply wp_pushback; [exact HF|exact Hb|intros; eapply ia_pos; eauto|].
        clear HF Hb s'. intros s' HF Hb.
        pose proof (ia_back _ _ _ _ _ _ _ HA2) as HI2. pose proof (ia_back_st _ _ _ _ _ _ _ HA2) as Hst2.
        apply wp_bind. eapply wp_pushback; [exact HF|exact Hb|intros; lia|]. clear HF Hb s'. intros s' HF Hb.
        destruct (it_push _ _ _ _ _ _ "-"%bn HI2 Hst2) as (_ & K2 & K3).
        apply wp_ret. apply HQ; auto. rewrite Hb. apply it_dn; auto. lia. }
    destruct (mb_test (fun x => existsb (N.eqb x) gvar_backref) c) eqn:E4.
    { destruct c as [x|]; [|discriminate E4]. dif.
      - apply wp_bind. nstep. apply wp_bind. nstep. apply wp_ret. apply HQ; auto.
      - apply wp_ret. apply HQ; auto. }
    destruct (mb_ge c "1" && mb_le c "9") eqn:E5.
    { apply wp_bind. nstep. apply wp_bind.
      apply wp_loop with (I := fun c s => FR s0 s /\ InTok st mu (buffer s) /\ st < pcur (buffer s) /\ c <> None)
        (meas := fun _ s => Rm (buffer s)).
      - rewrite Hb. destruct c as [x|]; [|discriminate E5]. splits; auto; [|discriminate].
        apply (ia_it _ _ _ _ _ _ _ HA); intros C; injection C as ->; discriminate E5.
      - rewrite Hb. pose proof (Rm_le B b1 (ia_wf _ _ _ _ _ _ _ HA)). lia.
      - clear - HQ Hfuel. intros c s (HF & HI & Hst & Hc). remember (buffer s) as b eqn:Hb. symmetry in Hb.
        apply wp_bind. eapply neut_use; [apply (neut_tokadd_mb B e c b Hc)|exact HF|exact Hb|]. clear HF Hb.
        intros _ s2 HF Hb. apply wp_bind. nxi c2 HA2. destruct (is_eof c2 || negb (is_digit c2)) eqn:Ed.
        + apply wp_ret. apply wp_bind. eapply wp_pushback; [exact HF|exact Hb|intros; eapply ia_pos; eauto|].
          clear HF Hb. intros s3 HF Hb. dif; apply wp_ret; apply HQ; auto; rewrite Hb; eapply ia_back_dn; eauto.
        + apply wp_ret. rewrite Hb. destruct c2 as [x|]; [|discriminate Ed].
          match goal with HN : BufInv.NextPost _ _ _ _ |- _ => pose proof (n_some B _ _ _ HN x eq_refl) as (_ & _ & _ & _ & Hm & _) end.
          splits; auto; try discriminate; [|apply (ia_st _ _ _ _ _ _ _ HA2)].
          apply (ia_it _ _ _ _ _ _ _ HA2); intros C; injection C as ->; discriminate Ed. }
    apply wp_bind. eapply ident_b; [exact HF|exact Hb|exact HA| |]; clear HF Hb.
    - intros s' x HF Hb -> HI1. cbn [negb]. apply wp_bind. nstep.
      eapply gvar_ident_ok; [exact HF|exact Hb|exact HI1|exact Hst1|exact HQ].
    - intros s' HF Hb. cbn [negb]. pose proof (ia_wf _ _ _ _ _ _ _ HA) as HW. apply wp_bind. nstep. apply wp_ret. apply HQ; auto.
  Qed.

  Lemma back_set_ptok : forall c p b, back c (set_ptok p b) = set_ptok p (back c b).
  Proof using All.
    intros [x|] p b; [|reflexivity]. unfold back. cbv zeta. cbn [pbeg pcur set_ptok].
    change (byte_at (set_ptok p b)) with (byte_at b).
    destruct ((pbeg b <? pcur b - 1) && mbeq (byte_at b (pcur b - 1)) 10%N
      && mbeq (byte_at b (pcur b - 1 - 1)) 13%N); reflexivity.
  Qed.

  Lemma ia_set_ptok : forall st mu c b, IA st mu c b -> IA st mu c (set_ptok st b).
  Proof using All.
    intros st mu c b HA. pose proof HA as HA0. destruct HA0.
    assert (K : InTok st mu (back c (set_ptok st b))).
    { rewrite back_set_ptok. eapply it_set_ptok; eauto. lia. }
    constructor; auto; try (rewrite back_set_ptok; auto).
    - apply BWF_set_ptok; auto. lia.
    - intros x Ex. destruct (ia_some x Ex) as (A1 & A2 & A3 & A4 & A5). splits; auto.
      intros H1 H2. eapply it_set_ptok; eauto; cbn; lia.
    - intros Ec. destruct (ia_none Ec) as (A1 & A2). splits; auto. eapply it_set_ptok; eauto; lia.
  Qed.

  Lemma parse_atmark_ok : forall ls s0 s b st mu (Q : Tok -> Lexer -> Prop),
    FR s0 s -> buffer s = b -> InTok st mu b -> st < pcur b ->
    (forall t s', FR s0 s' -> Dn st mu (buffer s') -> Q t s') ->
    wp e (parse_atmark ls) Q s.
  Proof using All.
    intros ls s0 s b st0 mu Q HF Hb HI0 Hst0 HQ0. unfold parse_atmark. apply wp_bind. gb.
    assert (HI : InTok (pcur b - 1) mu b) by (eapply it_raise; eauto; lia).
    assert (HQ : forall t s', FR s0 s' -> Dn (pcur b - 1) mu (buffer s') -> Q t s').
    { intros t s' HF' []. apply HQ0; auto. constructor; auto; lia. }
    set (st := pcur b - 1) in *. assert (Hst : st < pcur b) by (unfold st; lia). clear HQ0.
    apply wp_bind. clear HI0 Hst0. nxi c HA. apply wp_bind, wp_sub_ck; [lia|]. fold st. apply wp_bind. mstep.
    apply ia_set_ptok in HA. set (b2 := set_ptok st b1) in *. clearbody b2. clearbody st.
    apply wp_bind. nstep. apply wp_bind. nstep.
    assert (HK : forall c res s b, FR s0 s -> buffer s = b -> IA st mu c b -> wp e
      (lex_state_set (if ls_is_some ls EXPR_FNAME then EXPR_ENDFN else EXPR_END) ;;;
       i <- (if is_eof c then ret false else is_identchar) ;;
       if negb i then
        pushback c ;;;
        compile_error0 (if tok_eqb res tIVAR then IvarWithoutId else CvarWithoutId) ;;;
        lex_state_set EXPR_END ;;;
        ret res
       else if is_digit c then
        ch <- expect c "c is a digit" ;;
        compile_error0 (if tok_eqb res tIVAR then InvalidIvarName ch else InvalidCvarName ch) ;;;
        lex_state_set EXPR_END ;;;
        ret res
       else
        t <- tokadd_ident c ;;
        if t : bool then ret END_OF_INPUT
        else tokenize_ident ;;; ret res) Q s).
    { clear - HQ Hfuel. intros c res s b HF Hb HA. apply wp_bind. nstep. apply wp_bind.
      assert (HP : forall s, FR s0 s -> buffer s = b -> wp e
         (pushback c ;;; compile_error0 (if tok_eqb res tIVAR then IvarWithoutId else CvarWithoutId) ;;;
          lex_state_set EXPR_END ;;; ret res) Q s).
      { clear - HQ Hfuel HA. intros s HF Hb. apply wp_bind. eapply wp_pushback; [exact HF|exact Hb|intros; eapply ia_pos; eauto|].
        clear HF Hb s. intros s HF Hb. pose proof (ia_back_dn _ _ _ _ _ _ _ HA) as HD. apply wp_bind. nstep. apply wp_bind. nstep.
        apply wp_ret. apply HQ; auto. rewrite Hb. auto. }
      destruct c as [x|]; cbn [is_eof].
      2: { apply wp_ret. cbn [negb]. apply HP; auto. }
      eapply ident_b; [exact HF|exact Hb|exact HA| |]; clear HF Hb.
      - intros s' y HF Hb _ HI. cbn [negb]. pose proof (ia_st _ _ _ _ _ _ _ HA) as Hst. dif.
        + apply wp_bind. eapply wp_expect; [reflexivity|]. apply wp_bind. nstep. apply wp_bind. nstep. apply wp_ret.
          apply HQ; auto. rewrite Hb. apply it_dn; auto.
        + apply wp_bind. eapply ident_tok_ok; [exact HF|exact Hb|exact HI|exact Hst|]. clear HF Hb. intros t s3 b3 HF Hb HD.
          destruct t; [apply wp_ret; apply HQ; auto; rewrite Hb; auto|].
          apply wp_bind. eapply neut_use; [apply (neut_tokenize_ident b3)|exact HF|exact Hb|]. clear HF Hb. intros _ s4 HF Hb.
          apply wp_ret. apply HQ; auto. rewrite Hb; auto.
      - intros s' HF Hb. cbn [negb]. apply HP; auto. }
    apply wp_bind. destruct (mbeq c "@") eqn:E1.
    - apply mbeq_some in E1. subst c.
      assert (HI2 : InTok st mu b2) by (apply (ia_it _ _ _ _ _ _ _ HA); discriminate).
      pose proof (ia_st _ _ _ _ _ _ _ HA) as Hst2.
      apply wp_bind. nstep. apply wp_bind. clear HI Hst. nxi c HA2. apply wp_ret. eapply HK; [exact HF|exact Hb|exact HA2].
    - apply wp_ret. eapply HK; [exact HF|exact Hb|exact HA].
  Qed.

  Lemma neut_qmark_char : forall b, Neut B e b qmark_char.
  Proof using All. intros b. unfold qmark_char. neut. Qed.

  Lemma qmark_char_dn : forall s0 s st mu (Q : Tok -> Lexer -> Prop),
    FR s0 s -> Dn st mu (buffer s) -> (forall t s', FR s0 s' -> Dn st mu (buffer s') -> Q t s') -> wp e qmark_char Q s.
  Proof using All.
    intros s0 s st mu Q HF HD HQ. eapply neut_use; [apply (neut_qmark_char (buffer s))|exact HF|reflexivity|].
    intros t s' HF' Hb'. apply HQ; auto. rewrite Hb'. auto.
  Qed.

  Lemma ternary_ok : forall c s0 s b st mu (Q : Tok -> Lexer -> Prop),
    FR s0 s -> buffer s = b -> IA st mu c b -> (forall t s', FR s0 s' -> Dn st mu (buffer s') -> Q t s') ->
    wp e (parse_qmark_ternary c) Q s.
  Proof using All.
    intros c s0 s b st mu Q HF Hb HA HQ. unfold parse_qmark_ternary.
    apply wp_bind. eapply wp_pushback; [exact HF|exact Hb|intros; eapply ia_pos; eauto|].
    clear HF Hb s. intros s HF Hb. apply wp_bind. nstep. apply wp_ret. apply HQ; auto. rewrite Hb. eapply ia_back_dn; eauto.
  Qed.

  Lemma neut_qmark_warn : forall b, BWF B b -> pbeg b + 1 < pcur b -> pcur b < pend b -> Neut B e b qmark_warn_ternary.
  Proof using All.
    intros b HW Hp1 Hp2 s0 s Q HF Hb HQ. unfold qmark_warn_ternary. apply wp_bind. gb.
    apply wp_bind, wp_sub_ck; [lia|]. apply wp_bind.
    pose proof (w_pbeg B b HW). pose proof (pend_le B b HW).
    apply wp_loop with (I := fun p s => FR s0 s /\ buffer s = b /\ pcur b - 1 <= p /\ p < pend b) (meas := fun p _ => pend b - p).
    - splits; auto; lia.
    - lia.
    - clear HF Hb s. intros p s (HF & Hb & P1 & P2). apply wp_bind.
      eapply multibyte_char_len_ok; [exact HF|exact Hb|exact HW|]. clear HF Hb s. intros s r HF Hb Hr.
      destruct r as [n|].
      2: { apply wp_ret. apply wp_ret. apply HQ; auto. }
      destruct (mb_len_ok b p n HW) as (M1 & M2 & _); auto; try lia.
      destruct ((p + n <? pend b) && b_is_identchar b (p + n)) eqn:Ei; cbn [negb].
      + apply wp_ret. splits; auto; lia.
      + apply wp_ret. apply wp_bind.
        assert (Hs : exists l, b_substr_at b (pcur b - 1) (p + n) = Some l).
        { unfold b_substr_at, substr_at. pose proof (w_bytes B b HW) as Eb. unfold bytes in Eb. rewrite Eb.
          replace ((pcur b - 1 <=? p + n) && (p + n <=? List.length B)) with true by lia. eauto. }
        destruct Hs as (l & Hl). eapply wp_expect; [exact Hl|]. apply wp_bind, wp_sub_ck; [lia|].
        apply wp_bind. eapply neut_use; [apply (neut_emit B e Warning _ (mkLoc (pcur b - 1 - 1) (pcur b - 1)) b); cbn; lia|exact HF|exact Hb|].
        clear HF Hb s. intros _ s HF Hb. apply wp_ret. apply HQ; auto.
  Qed.

  Lemma parse_qmark_ok : forall sp s0 s b st mu (Q : Tok -> Lexer -> Prop),
    FR s0 s -> buffer s = b -> InTok st mu b -> st < pcur b ->
    (forall t s', FR s0 s' -> Dn st mu (buffer s') -> Q t s') ->
    wp e (parse_qmark sp) Q s.
  Proof using All.
    intros sp s0 s b st mu Q HF Hb HI Hst HQ. unfold parse_qmark. apply wp_bind, wp_get.
    generalize (ls_is_end (lex_state s)) as en. intros en. destruct en.
    { apply wp_bind. nstep. apply wp_ret. apply HQ; auto. rewrite Hb. apply it_dn; auto. }
    apply wp_bind. nxi c HA. pose proof (ia_wf _ _ _ _ _ _ _ HA) as HW. pose proof (ia_dn _ _ _ _ _ _ _ HA) as HD.
    pose proof (ia_st _ _ _ _ _ _ _ HA) as Hst1. pose proof (ia_pbeg _ _ _ _ _ _ _ HA) as Hpb1.
    pose proof (ia_next _ _ _ _ _ _ _ HA) as Hn1.
    destruct c as [x|]; cbn [is_eof].
    2: { apply wp_bind. nstep. apply wp_ret. apply HQ; auto. rewrite Hb. auto. }
    destruct (is_space (Some x)) eqn:Esp.
    { apply wp_bind, wp_get. apply wp_bind. nstep. eapply ternary_ok; [exact HF|exact Hb|exact HA|exact HQ]. }
    apply wp_bind. nstep.
    assert (HI1 : InTok st mu b1).
    { apply (ia_it _ _ _ _ _ _ _ HA); intros C; injection C as ->; discriminate Esp. }
    unfold is_ascii_cur. apply wp_bind. apply wp_bind. gb. apply wp_bind, wp_sub_ck; [lia|]. apply wp_ret.
    apply wp_bind. gb. match goal with |- context [negb ?t] => destruct t eqn:Ea end; cbn [negb].
    2: { apply wp_bind. eapply mbchar_tok_ok; [exact HF|exact Hb|exact HD|lia|exact Hn1|].
      clear HF Hb. intros r s3 HF HD3. destruct r; cbn [negb]; [|apply wp_ret; apply HQ; auto].
      eapply qmark_char_dn; eauto. }
    destruct ((is_alnum (Some x) || mbeq (Some x) "_") && (pcur b1 <? pend b1) && b_is_identchar b1 (pcur b1)) eqn:Et.
    { apply andb_prop in Et. destruct Et as (Et & _). apply andb_prop in Et. destruct Et as (_ & Et).
      dif; [|eapply ternary_ok; [exact HF|exact Hb|exact HA|exact HQ]].
      apply wp_bind. assert (Hp : pbeg b1 + 1 < pcur b1).
      { pose proof (ia_back_st _ _ _ _ _ _ _ HA). destruct (ia_some _ _ _ _ _ _ _ HA x eq_refl) as (_ & _ & _ & _ & G). lia. }
      apply Nat.ltb_lt in Et.
      eapply neut_use; [apply (neut_qmark_warn b1 HW Hp Et)|exact HF|exact Hb|].
      clear HF Hb. intros ok s3 HF Hb. destruct ok; cbn [negb]; [|apply wp_ret; apply HQ; auto; rewrite Hb; auto].
      eapply ternary_ok; [exact HF|exact Hb|exact HA|exact HQ]. }
    destruct (mbeq (Some x) "\") eqn:Eb.
    2: { apply wp_bind. nstep. eapply qmark_char_dn; [exact HF|rewrite Hb; exact HD|exact HQ]. }
    apply wp_bind. eapply wp_peek; [exact HF|exact Hb|exact HW|]. clear HF Hb. intros s4 p HF Hb Hp1 Hp2.
    clear HI Hst. destruct p.
    { destruct (Hp1 eq_refl) as (P1 & P2). apply wp_bind. nxi c2 HA2.
      match goal with HN : BufInv.NextPost _ b1 c2 _ |- _ =>
        destruct (next_known _ _ _ _ HW HN (proj1 (ia_some _ _ _ _ _ _ _ HA x eq_refl)) Hn1 P2 P1) as (-> & _); [discriminate|discriminate|] end.
      destruct (ia_some _ _ _ _ _ _ _ HA2 _ eq_refl) as (Z1 & _ & Z2 & _).
      apply wp_bind. eapply tokadd_utf8_ok; [exact Hfuel|exact HF|exact Hb|apply Z2; discriminate|apply (ia_st _ _ _ _ _ _ _ HA2)|exact Z1|].
      clear HF Hb. intros s6 HF HD6. eapply qmark_char_dn; [exact HF|exact HD6|exact HQ]. }
    match goal with |- context [if ?t then _ else _] => destruct t eqn:Eu end.
    { apply andb_prop in Eu. destruct Eu as (Eu1 & Eu2). unfold is_eol, is_eol_n in Eu1.
      assert (Plt : pcur b1 < pend b1) by lia. rewrite (byte_at_B B b1 _ HW) in *.
      destruct (bwf_byte B b1 (pcur b1) HW) as (y & Hy); [lia|].
      assert (Hy2 : y <> 10%N /\ y <> 13%N).
      { rewrite Hy in Eu2. split; intros ->; discriminate Eu2. }
      apply wp_bind. nxi c2 HA2.
      match goal with HN : BufInv.NextPost _ b1 c2 _ |- _ =>
        destruct (next_known _ _ _ _ HW HN (proj1 (ia_some _ _ _ _ _ _ _ HA x eq_refl)) Hn1 Plt Hy) as (-> & _); [apply Hy2|apply Hy2|] end.
      apply wp_bind. eapply mbchar_tok_ok; [exact HF|exact Hb|eapply ia_dn; eauto| |apply (ia_next _ _ _ _ _ _ _ HA2)|].
      { pose proof (ia_st _ _ _ _ _ _ _ HA2). pose proof (ia_pbeg _ _ _ _ _ _ _ HA2). lia. }
      clear HF Hb. intros r s6 HF HD6. destruct r; cbn [negb]; [|apply wp_ret; apply HQ; auto].
      eapply qmark_char_dn; eauto. }
    apply wp_bind. eapply read_escape_ok; [exact Hfuel|exact HF|exact Hb|exact HI1|exact Hst1|].
    clear HF Hb. intros r s5 HF Hr HD5. apply wp_bind.
    eapply neut_use; [apply (neut_tokadd_mb B e r (buffer s5) Hr)|exact HF|reflexivity|]. clear HF.
    intros _ s6 HF Hb. eapply qmark_char_dn; [exact HF|rewrite Hb; exact HD5|exact HQ].
  Qed.

  (** The state after a token that may start a string literal *)
  Definition FRt (s0 s : Lexer) : Prop :=
    FRn B s0 s /\ (strterm s = strterm s0 \/ exists func term paren, strterm s = new_strterm func term paren None).

  Lemma FR_FRt : forall s0 s, FR s0 s -> FRt s0 s.
  Proof using. intros s0 s (H1 & H2). split; auto. Qed.

  Lemma percent_error_ok : forall s0 s b st mu (Q : Tok -> Lexer -> Prop),
    FR s0 s -> buffer s = b -> Dn st mu b -> ptok b <= st ->
    (forall t s', FRt s0 s' -> Dn st mu (buffer s') -> Q t s') ->
    wp e percent_unknown_error Q s.
  Proof using All.
    intros s0 s b st mu Q HF Hb HD Ht HQ. unfold percent_unknown_error. apply wp_bind, wp_gets.
    unfold current_loc. rewrite Hb. pose proof (dn_st _ _ _ _ _ _ HD). pose proof (dn_wf _ _ _ _ _ _ HD) as HW.
    pose proof (w_pcur2 B b HW). pose proof (pend_le B b HW).
    apply wp_bind. unfold adjust_end_m1. cbn [loc_begin loc_end]. apply wp_bind, wp_sub_ck; [lia|]. apply wp_ret.
    apply wp_bind. eapply neut_use; [apply (neut_emit B e Error _ (mkLoc (ptok b) (pcur b - 1)) b); cbn; lia|exact HF|exact Hb|].
    clear HF Hb s. intros _ s HF Hb. apply wp_ret. apply HQ; [apply FR_FRt; auto|rewrite Hb; auto].
  Qed.

  Lemma percent_unterminated_ok : forall s0 s b st mu (Q : Tok -> Lexer -> Prop),
    FR s0 s -> buffer s = b -> Dn st mu b ->
    (forall t s', FRt s0 s' -> Dn st mu (buffer s') -> Q t s') ->
    wp e percent_unterminated Q s.
  Proof using All.
    intros s0 s b st mu Q HF Hb HD HQ. unfold percent_unterminated. apply wp_bind. nstep. apply wp_ret.
    apply HQ; [apply FR_FRt; auto|rewrite Hb; auto].
  Qed.

  Lemma percent_unknown_ok : forall x s0 s b st mu (Q : Tok -> Lexer -> Prop),
    FR s0 s -> buffer s = b -> IA st mu (Some x) b -> x <> 10%N -> x <> 13%N ->
    (forall t s', FRt s0 s' -> Dn st mu (buffer s') -> Q t s') ->
    wp e (percent_unknown (Some x)) Q s.
  Proof using All.
    intros x s0 s b st mu Q HF Hb HA Hx Hx2 HQ. unfold percent_unknown.
    apply wp_bind. eapply wp_pushback; [exact HF|exact Hb|intros; eapply ia_pos; eauto|].
    clear HF Hb s. intros s HF Hb. pose proof (ia_back _ _ _ _ _ _ _ HA) as HI.
    pose proof (ia_back_st _ _ _ _ _ _ _ HA) as Hst. pose proof (ia_back_dn _ _ _ _ _ _ _ HA) as HD.
    destruct (ia_some _ _ _ _ _ _ _ HA x eq_refl) as (Z1 & Z0 & _ & Z2 & _). specialize (Z2 Hx).
    destruct (back_fields (Some x) b) as (K1 & K2 & K3 & K4 & K5 & K6 & K7).
    pose proof (ia_wf _ _ _ _ _ _ _ HA) as HW. pose proof (w_pcur2 B b HW) as PW.
    set (b1 := back (Some x) b) in *. assert (Plt : pcur b1 < pend b1) by lia.
    pose proof (ia_next _ _ _ _ _ _ _ HA) as Hn. rewrite <- K1 in Hn. clearbody b1.
    apply wp_bind. gb. apply wp_bind. pose proof (it_wf _ _ _ _ _ _ HI) as HW1.
    eapply multibyte_char_len_ok; [exact HF|exact Hb|exact HW1|]. clear HF Hb s. intros s r HF Hb Hr.
    destruct r as [n|]; [|apply wp_ret; apply HQ; [apply FR_FRt; auto|rewrite Hb; auto]].
    pose proof (w_pbeg B _ HW1). pose proof (w_pcur1 B _ HW1). pose proof (w_tok B _ HW1).
    destruct (mb_len_ok b1 (pcur b1) n HW1) as (M1 & M2 & M3); auto; try lia.
    apply wp_bind. mstep.
    assert (HW2 : BWF B (set_pcur (pcur b1 + n) b1)).
    { apply BWF_set_pcur; auto; try lia. intros _ C1 C2. destruct (Nat.eq_dec n 1) as [->|En].
      - rewrite Z2 in Z0. replace (pcur b1 + 1 - 1) with (pcur b1) in * by lia. congruence.
      - destruct (M3 (pcur b1 + n - 1)); try lia. congruence. }
    eapply percent_error_ok with (st := st) (mu := mu); [exact HF|exact Hb| |cbn; pose proof (it_tok _ _ _ _ _ _ HI); lia|exact HQ].
    destruct HD. constructor; auto; [cbn; lia|].
    unfold BufInv.Rm in *. cbn [eofp nextline pend pcur line_count set_pcur]. rewrite Hn in *. cbn [Nat.eqb] in *.
    destruct (eofp b1); lia.
  Qed.

  Lemma percent_begin_ok : forall c term p s0 s b st mu (Q : Tok -> Lexer -> Prop),
    FR s0 s -> buffer s = b -> Dn st mu b -> p = S st ->
    (forall t s', FRt s0 s' -> Dn st mu (buffer s') -> Q t s') ->
    wp e (percent_begin c term p) Q s.
  Proof using All.
    intros c term p s0 s b st mu Q HF Hb HD -> HQ. unfold percent_begin. destruct (percent_parens term) as (tm & paren).
    apply wp_bind, wp_sub_ck; [lia|]. apply wp_bind. mstep. replace (S st - 1) with st in * by lia.
    assert (HD2 : Dn st mu (set_ptok st b)).
    { destruct HD. constructor; auto. apply BWF_set_ptok; auto. lia. }
    assert (HS : forall f ts, wp e (start_strterm f tm paren ;;; ret ts) Q s1).
    { intros f ts. apply wp_bind. apply wp_modify. apply wp_ret. apply HQ; [|cbn; rewrite Hb; auto].
      destruct HF as (HF & _). split; [exact HF|]. right. eexists _, _, _. reflexivity. }
    repeat (dif; [apply HS|]). dif; [|eapply percent_error_ok; [exact HF|exact Hb|exact HD2|cbn; lia|exact HQ]].
    apply wp_bind. apply wp_modify. apply wp_bind. apply wp_modify. apply wp_ret. apply HQ; [|cbn; rewrite Hb; auto].
    destruct HF as (HF & _). split; [exact HF|]. right. eexists _, _, _. reflexivity.
  Qed.

  Lemma percent_quotation_ok : forall c p s0 s b st mu (Q : Tok -> Lexer -> Prop),
    FR s0 s -> buffer s = b -> IA st mu c b -> p = S st ->
    (forall t s', FRt s0 s' -> Dn st mu (buffer s') -> Q t s') ->
    wp e (percent_quotation c p) Q s.
  Proof using All.
    intros c p s0 s b st mu Q HF Hb HA Hp HQ. unfold percent_quotation. pose proof (ia_dn _ _ _ _ _ _ _ HA) as HD.
    destruct c as [x|]; cbn [is_eof]; [|eapply percent_unterminated_ok; [exact HF|exact Hb|exact HD|exact HQ]].
    destruct (is_alnum (Some x)) eqn:Ea; cbn [negb].
    2: { destruct (is_ascii (Some x)) eqn:Es; cbn [negb].
      - eapply percent_begin_ok; [exact HF|exact Hb|exact HD|exact Hp|exact HQ].
      - eapply percent_unknown_ok; [exact HF|exact Hb|exact HA| | |exact HQ]; intros ->; discriminate Es. }
    assert (HI : InTok st mu b).
    { apply (ia_it _ _ _ _ _ _ _ HA); intros C; injection C as ->; discriminate Ea. }
    pose proof (ia_st _ _ _ _ _ _ _ HA) as Hst. apply wp_bind. nxi t HA2.
    destruct t as [y|].
    2: { cbn [is_alnum mb_test]. eapply percent_unterminated_ok; [exact HF|exact Hb|eapply ia_dn; eauto|exact HQ]. }
    destruct (is_alnum (Some y)) eqn:Ea2.
    - eapply percent_unknown_ok; [exact HF|exact Hb|exact HA2| | |exact HQ]; intros ->; discriminate Ea2.
    - eapply percent_begin_ok; [exact HF|exact Hb|eapply ia_dn; eauto|exact Hp|exact HQ].
  Qed.

  Lemma parse_percent_ok : forall sp ls s0 s b st mu (Q : Tok -> Lexer -> Prop),
    FR s0 s -> buffer s = b -> InTok st mu b -> pcur b = S st ->
    (forall t s', FRt s0 s' -> Dn st mu (buffer s') -> Q t s') ->
    wp e (parse_percent sp ls) Q s.
  Proof using All.
    intros sp ls s0 s b st mu Q HF Hb HI Hp HQ. unfold parse_percent. apply wp_bind, wp_get. rewrite Hb.
    assert (Hst : st < pcur b) by lia. pose (sx := s). change s with sx at 1 2 3. clearbody sx.
    apply wp_bind. nxi c HA. pose proof (ia_dn _ _ _ _ _ _ _ HA) as HD.
    dif; [eapply percent_quotation_ok; [exact HF|exact Hb|exact HA|exact Hp|exact HQ]|].
    dif. { apply wp_bind. nstep. apply wp_bind. nstep. apply wp_ret. apply HQ; [apply FR_FRt; auto|rewrite Hb; auto]. }
    dif; [eapply percent_quotation_ok; [exact HF|exact Hb|exact HA|exact Hp|exact HQ]|].
    apply wp_bind. nstep. apply wp_bind. eapply wp_pushback; [exact HF|exact Hb|intros; eapply ia_pos; eauto|].
    clear HF Hb. intros s3 HF Hb. pose proof (ia_back_dn _ _ _ _ _ _ _ HA) as HD2.
    nstep. apply HQ; [apply FR_FRt; auto|rewrite Hb; auto].
  Qed.
End Id.
