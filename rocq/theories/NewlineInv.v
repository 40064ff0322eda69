(** * Invariant of newlines, comments and embedded documents *)
Require Import Verif.Base Verif.MaybeByteM Verif.Utf8M Verif.InputM Verif.DiagnosticM Verif.LexStateM
  Verif.StackStateM Verif.ScopesM Verif.TokensM Verif.ReservedM Verif.BufferM Verif.LexerM Verif.LexNumericM Verif.LexStringM
  Verif.LexIdentM Verif.LexHeredocM Verif.LexMagicM Verif.LexMainM
  Verif.SourceSpec Verif.SourceProofs Verif.Wp Verif.BufInv Verif.LexInv Verif.NumInv Verif.StrInv Verif.TokInv Verif.IdentInv
  Verif.HereInv Verif.MagicInv Verif.LexSpec.
Require Import ZifyBool ZifyNat ZifyN.

Section Newline.
  Variables (B : list N) (n0 b0 : nat) (e : Env).
  Hypothesis Hfuel : 4 * List.length B + 20 < fuel e.

  Notation FR := (FR B).
  Notation Rd := (Rd B n0 b0).
  Notation AR := (AR B n0 b0).
  Notation InTok := (InTok B n0 b0).
  Notation IA := (IA B n0 b0).
  Notation Dn := (Dn B n0 b0).
  Notation Rm := (Rm B).
  Notation BWF := (BWF B).
  Notation gh := (gh B n0 b0).
  Notation NextPost := (NextPost B).
  Notation lstart := (lstart B).
  Notation lend := (lend B).
  Notation bonus := (bonus B).
  Notation NL := (NL B).

  (** The length of the line terminator that [eof_no_decrement] puts back, or 1 *)
  Definition tlen (k : nat) : nat :=
    if (lstart k <? lend k - 1) && mbeq (nth_error B (lend k - 1)) 10%N && mbeq (nth_error B (lend k - 2)) 13%N
    then 2 else 1.

  (** The state after [eof_no_decrement] has gone back to line [k] *)
  Record AtNl (k : nat) (b b' : Buffer) : Prop := mkAtNl {
    an_wf : BWF b';
    an_last : lastline b' = k;
    an_pbeg : pbeg b' = lstart k;
    an_pcur : pcur b' + tlen k = pend b';
    an_ptok : ptok b' = pcur b';
    an_count : line_count b' = line_count b;
    an_next : nextline b' = nextline b;
    an_eofp : eofp b' = eofp b
  }.

  Lemma eof_no_decrement_ok : forall k s0 s b (Q : unit -> Lexer -> Prop),
    FR s0 s -> buffer s = b -> bytes b = B -> d_lines (input b) = LN B ->
    k = match prevline b with Some p => if eofp b then lastline b else p | None => lastline b end ->
    k < line_count b -> line_count b <= NL -> lstart k < lend k ->
    (forall p, prevline b = Some p -> p < line_count b) ->
    (nextline b <> 0 -> k < nextline b /\ nextline b < line_count b /\ lstart (nextline b) < lend (nextline b)) ->
    (eofp b = true -> nextline b = 0) ->
    (forall s', FR s0 s' -> AtNl k b (buffer s') -> Q tt s') ->
    wp e (inb eof_no_decrement) Q s.
  Proof using All.
    intros k s0 s b Q HF Hb HB HL Hk K1 K2 K3 K4 K5 K6 HQ. unfold inb. apply wp_zoom. rewrite Hb.
    unfold eof_no_decrement. apply wp_bind, wp_get. apply wp_bind.
    match goal with |- wp e ?m ?P b => assert (HK : P tt (set_lastline k b)) end.
    { destruct (line_some B k) as (l & L1 & L2 & L3); [lia|].
      apply wp_bind, wp_get. apply wp_bind. eapply wp_expect.
      { unfold line_at. cbn [input set_lastline lastline]. rewrite HL. exact L1. }
      do 3 (apply wp_bind, wp_modify). set (b1 := set_pcur _ _).
      assert (P1 : pbeg b1 = lstart k) by (cbn; auto).
      assert (P2 : pend b1 = lend k) by (cbn; unfold line_len; lia).
      assert (P3 : pcur b1 = lend k) by (cbn; unfold line_len; lia).
      assert (P4 : lastline b1 = k) by reflexivity.
      assert (P5 : line_count b1 = line_count b) by reflexivity.
      assert (P6 : nextline b1 = nextline b) by reflexivity.
      assert (P7 : eofp b1 = eofp b) by reflexivity.
      assert (P8 : prevline b1 = prevline b) by reflexivity.
      assert (P9 : bytes b1 = B) by exact HB.
      assert (P10 : d_lines (input b1) = LN B) by exact HL.
      clearbody b1. apply wp_bind.
      change pushback_byte with (b_pushback (Some 0%N)).
      apply pushback_back; [intros; lia|]. apply wp_modify. apply HQ; [exact HF|]. cbn [buffer set_buffer].
      set (b2 := back (Some 0%N) b1).
      assert (Q1 : pcur b2 + tlen k = lend k /\ b2 = set_pcur (pcur b2) b1).
      { unfold b2, back, tlen, byte_at, in_byte_at. unfold bytes in P9. rewrite P9, P1, P3.
        replace (lend k - 1 - 1) with (lend k - 2) by lia.
        destruct ((lstart k <? lend k - 1) && mbeq (nth_error B (lend k - 1)) 10%N && mbeq (nth_error B (lend k - 2)) 13%N) eqn:E;
          cbn [pcur set_pcur]; (split; [lia|reflexivity]). }
      destruct Q1 as (Q1 & Q2). clearbody b2. rewrite Q2. cbn [pcur set_pcur].
      assert (HT : 1 <= tlen k <= 2) by (unfold tlen; destruct (_ && _ && _); lia).
      constructor; cbn [lastline pbeg pcur pend ptok line_count nextline eofp set_pcur set_ptok]; auto; try lia.
      assert (T2 : tlen k = 2 -> lstart k + 2 <= lend k).
      { unfold tlen. destruct (_ && _ && _) eqn:E; lia. }
      constructor; cbn [lastline pbeg pcur pend ptok line_count nextline eofp prevline set_pcur set_ptok]; auto; try lia.
      - rewrite P4. lia.
      - rewrite P4. lia.
      - rewrite P8, P5. exact K4.
      - rewrite P6, P4, P5. exact K5.
      - rewrite P1. intros C1 C2 C3.
        destruct (Nat.eq_dec (tlen k) 2) as [T|T].
        + pose proof T as T9. unfold tlen in T. match type of T with (if ?x then _ else _) = _ => destruct x eqn:E end; [|lia].
          apply andb_prop in E. destruct E as (E & E3). apply mbeq_iff in E3.
          replace (pcur b2) with (lend k - 2) in C3 by lia. congruence.
        + assert (T1 : tlen k = 1) by lia. 
          replace (pcur b2) with (lend k - 1) in * by lia.
          replace (lend k - 1 - 1) with (lend k - 2) in C2 by lia.
          revert T1. unfold tlen. rewrite C2, C3. replace (lstart k <? lend k - 1) with true by lia. cbn. lia. }
    destruct (prevline b) as [p|].
    - destruct (eofp b); cbn [negb when].
      + apply wp_ret. rewrite Hk in HK. destruct b; exact HK.
      + apply wp_modify. rewrite Hk in HK. exact HK.
    - apply wp_ret. rewrite Hk in HK. destruct b; exact HK.
  Qed.

  (** How much closer to the end of the input a token has brought the reader; [mu] bounds [Rm] at its start *)
  Definition Meas (mu : nat) (b' : Buffer) : Prop :=
    Rm b' < mu \/
    (bonus b' = 0 /\ (Rm b' < mu + b0 \/
       (Rm b' <= mu + b0 /\ (eofp b' = true \/ n0 < NL /\ line_count b' = NL)))).

  Record NlPost (mu : nat) (s0 s' : Lexer) : Prop := mkNlPost {
    np_frame : FR s0 s';
    np_wf : BWF (buffer s');
    np_gh : gh (buffer s');
    np_meas : Meas mu (buffer s');
    np_ptok : ptok (buffer s') < List.length B
  }.

  (** Inside the loop over blank lines *)
  Definition rest (b : Buffer) : nat := List.length B - lstart (line_count b).
  Record NI (mu : nat) (b : Buffer) : Prop := mkNI {
    ni_wf : BWF b;
    ni_gh : gh b;
    ni_next : nextline b = 0;
    ni_eofp : eofp b = false;
    ni_ne : pbeg b < pend b;
    ni_mu : Rm b < mu;
    ni_pos : 1 <= pcur b;
    ni_line : (pcur b = pend b /\ tlen (lastline b) + rest b <= mu + b0) \/
      (exists p, prevline b = Some p /\ p < lastline b /\ lstart p < lend p /\ 1 <= ruby_sourceline b /\
         pbeg b = lstart (lastline b) /\ pend b - pbeg b + rest b < mu + b0)
  }.

  Lemma tlen_le : forall k, lstart k < lend k -> tlen k <= lend k - lstart k.
  Proof using. clear Hfuel. intros k H. unfold tlen. destruct (_ && _ && _) eqn:E; lia. Qed.

  Lemma ni_some : forall mu b x b', NI mu b -> NextPost b (Some x) b' ->
    Rm b' < Rm b /\ NI mu b' /\
    (exists p, prevline b' = Some p /\ p < lastline b' /\ lstart p < lend p /\ 1 <= ruby_sourceline b' /\
         pbeg b' = lstart (lastline b') /\ pend b' - pbeg b' + rest b' < mu + b0).
  Proof using All.
    intros mu b x b' [] HN. pose proof (gh_next _ _ _ _ _ _ HN ni_gh0) as HG.
    destruct (n_some _ _ _ _ HN x eq_refl) as (S1 & S2 & S3 & S4 & S5 & S6 & S7 & S8).
    pose proof (n_wf _ _ _ _ HN) as HW. pose proof (w_pcur2 B b' HW) as P2.
    split; [exact S5|].
    assert (HE : exists p, prevline b' = Some p /\ p < lastline b' /\ lstart p < lend p /\ 1 <= ruby_sourceline b' /\
         pbeg b' = lstart (lastline b') /\ pend b' - pbeg b' + rest b' < mu + b0).
    { destruct (n_line _ _ _ _ HN) as [L|L].
      - destruct L as (L1 & L2 & L3 & L4 & L5 & L6 & L7 & L8 & L9 & L10 & L11).
        destruct ni_line0 as [(A1 & A2)|(p & A1 & A2 & A3 & A4 & A5 & A6)].
        + exfalso. lia.
        + exists p. unfold rest in *. rewrite L1, L2, L3, L4, L6, L7. splits; auto.
      - destruct L as (L1 & L2 & L3 & L4 & L5 & L6 & L7 & L8 & L9).
        exists (lastline b). splits; auto.
        + pose proof (w_pbeg B b ni_wf0). pose proof (w_pend B b ni_wf0). lia.
        + pose proof (n_Rback _ _ _ _ HN) as HR. destruct (back_fields (Some x) b') as (K1 & K2 & K3 & K4 & K5 & K6 & K7).
          unfold BufInv.Rm at 1 in HR. rewrite K7, S2, K1, (n_nextline _ _ _ _ HN), K4, K5 in HR. cbn [Nat.eqb] in HR.
          unfold rest. lia. }
    split; [|exact HE]. constructor; auto; try lia. apply (n_nextline _ _ _ _ HN).
  Qed.

  Lemma newline_loop_ok : forall sp s0 s b mu (Q : Step -> Lexer -> Prop),
    FR s0 s -> buffer s = b -> NI mu b ->
    (forall sp' s' lo', FR s0 s' -> Rd lo' (mu - 1) (buffer s') -> Q (Retry sp') s') ->
    (forall t s', NlPost mu s0 s' -> Q (Tk t) s') ->
    wp e (lex_newline_loop sp) Q s.
  Proof using All.
    intros sp s0 s b mu Q HF Hb HN HQr HQ. unfold lex_newline_loop.
    apply wp_loop with (I := fun _ s1 => exists b1, FR s0 s1 /\ buffer s1 = b1 /\ NI mu b1)
      (meas := fun _ s1 => Rm (buffer s1)).
    { eauto. }
    { rewrite Hb. pose proof (Rm_fuel B n0 b0 e Hfuel b (ni_wf _ _ HN)). lia. }
    clear sp s b HF Hb HN. intros sp s (b & HF & Hb & HN).
    apply wp_bind. unfold nextc, inb. apply wp_zoom. rewrite Hb. apply (b_nextc_ok B); [apply (ni_wf _ _ HN)|].
    intros c b1 HN1. set (s1 := set_buffer b1 s).
    assert (HF1 : FR s0 s1) by exact HF. assert (Hb1 : buffer s1 = b1) by reflexivity.
    assert (Hlt : forall x, c = Some x -> Rm b1 < Rm b /\ NI mu b1).
    { intros x ->. destruct (ni_some _ _ _ _ HN HN1) as (H1 & H2 & _). auto. }
    assert (Hpos : c <> None -> 1 <= pcur b1).
    { destruct c as [x|]; [|congruence]. intros _. destruct (Hlt x eq_refl) as (_ & []). auto. }
    clearbody s1.
    pose proof (gh_next _ _ _ _ _ _ HN1 (ni_gh _ _ HN)) as HG1.
    assert (HRT : forall sp' s' , FR s0 s' -> buffer s' = back c b1 -> Q (Retry sp') s').
    { intros sp' s' HF' Hb'. apply (HQr sp' s' 0); auto. rewrite Hb'. constructor.
      - apply (n_back _ _ _ _ HN1).
      - lia.
      - pose proof (n_Rback _ _ _ _ HN1). pose proof (ni_mu _ _ HN). lia.
      - apply gh_back. auto. }
    clear HF Hb s. rename s1 into s, HF1 into HF, Hb1 into Hb.
    assert (HIL : forall (y : bool) s', c <> None -> FR s0 s' -> buffer s' = b1 ->
      (exists b1, FR s0 s' /\ buffer s' = b1 /\ NI mu b1) /\ Rm (buffer s') < Rm b).
    { intros y s' Hc HF' Hb'. rewrite Hb'. destruct c as [x|]; [|congruence]. destruct (Hlt x eq_refl). eauto. }
    match goal with |- context [if ?x then _ else _] => destruct x eqn:E1 end.
    { apply wp_ret. apply (HIL true); auto. intros ->. discriminate. }
    clear E1. pose proof (n_wf _ _ _ _ HN1) as HW1.
    destruct (mbeq c "#") eqn:E2.
    { apply wp_bind. eapply wp_pushback; [exact HF|exact Hb|exact Hpos|]. intros s' HF' Hb'. apply wp_ret. apply HRT; auto. }
    clear E2. apply wp_bind.
    match goal with |- wp e ?m ?P s => assert (HK : forall lead s', FR s0 s' -> buffer s' = b1 -> P lead s') end.
    2: { match goal with |- wp _ _ ?P _ => set (PP := P) in * end. clearbody PP.
         destruct (mbeq c "&" || mbeq c "."); [|apply wp_ret; auto]. apply wp_bind. nstep. apply wp_ret. auto. }
    clear HF Hb s. intros lead s HF Hb. cbv beta. destruct lead.
    { apply wp_bind. eapply wp_pushback; [exact HF|exact Hb|exact Hpos|]. intros s' HF' Hb'. apply wp_ret. apply HRT; auto. }
    assert (HEND : forall k b2 s', FR s0 s' -> AtNl k b2 (buffer s') -> line_count b1 <= line_count b2 ->
      Meas mu (buffer s') -> wp e (t <- normal_newline_leaf_label ;; ret (inr (Tk t)))
       (fun (r : bool + Step) s' => match r with
          | inl _ => (exists b1, FR s0 s' /\ buffer s' = b1 /\ NI mu b1) /\ Rm (buffer s') < Rm b
          | inr r => Q r s' end) s').
    { clear - HQ HG1. intros k b2 s' HF HA HC HM. remember (buffer s') as b' eqn:Hb. symmetry in Hb.
      apply wp_bind. nstep. apply wp_ret. apply HQ. destruct HA. constructor; rewrite ?Hb; auto.
      - destruct HG1 as (G1 & _). split; [lia|]. left. unfold BufInv.bonus. rewrite an_last0. lia.
      - pose proof (pend_le B _ an_wf0). pose proof (w_pcur2 B _ an_wf0). 
        assert (1 <= tlen k) by (unfold tlen; destruct (_ && _ && _); lia). lia. }
    assert (HB0 : forall k b2 b', AtNl k b2 b' -> bonus b' = 0).
    { intros k b2 b' []. unfold BufInv.bonus. rewrite an_last0. lia. }
    destruct HN as [W1 W2 W3 W4 W5 W6 W7 W8]. pose proof (w_pbeg B b W1) as PB. pose proof (w_pend B b W1) as PE.
    destruct (is_eof c) eqn:E3.
    - destruct c as [x|]; [discriminate|]. clear E3.
      destruct (n_end _ _ _ _ HN1 eq_refl W4) as (D1 & D2 & D3 & D4 & D5).
      destruct (n_line _ _ _ _ HN1) as [L|L].
      + destruct L as (L1 & L2 & L3 & L4 & L5 & L6 & L7 & L8 & L9 & L10 & L11). specialize (L11 eq_refl).
        apply wp_bind. eapply eof_no_decrement_ok with (k := lastline b1); [exact HF|exact Hb|apply HW1|apply HW1| | | | | | | |].
        * rewrite L11. destruct (prevline b1); auto.
        * apply (w_last B b1 HW1).
        * apply (w_count B b1 HW1).
        * rewrite L1. lia.
        * apply (w_prev B b1 HW1).
        * apply (w_next B b1 HW1).
        * apply (w_eof B b1 HW1).
        * intros s' HF' HA. eapply HEND; [exact HF'|exact HA|lia|]. right. split; [eapply HB0; eauto|].
          right. rewrite (an_eofp _ _ _ HA). split; [|auto].
          unfold BufInv.Rm. rewrite (an_eofp _ _ _ HA), L11, (an_count _ _ _ HA), L7.
          unfold BufInv.Rm in W6. rewrite W4, W3 in W6. cbn [Nat.eqb] in W6. lia.
      + destruct L as (L1 & L2 & L3 & L4 & L5 & L6 & L7 & L8 & L9).
        apply wp_bind. eapply eof_no_decrement_ok with (k := lastline b); [exact HF|exact Hb|apply HW1|apply HW1| | | | | | | |].
        * rewrite L8, L2. auto.
        * pose proof (w_last B b W1). pose proof (n_count _ _ _ _ HN1). lia.
        * apply (w_count B b1 HW1).
        * lia.
        * apply (w_prev B b1 HW1).
        * intros C. rewrite (n_nextline _ _ _ _ HN1) in C. congruence.
        * intros C. congruence.
        * intros s' HF' HA. eapply HEND; [exact HF'|exact HA|lia|]. right. split; [eapply HB0; eauto|].
          right. rewrite (an_eofp _ _ _ HA), (an_count _ _ _ HA).
          assert (HR : Rm (buffer s') = tlen (lastline b)).
          { unfold BufInv.Rm. rewrite (an_eofp _ _ _ HA), L8, (an_count _ _ _ HA), (an_next _ _ _ HA), (n_nextline _ _ _ _ HN1), D4.
            rewrite (lstart_out B NL) by lia. cbn [Nat.eqb]. pose proof (an_pcur _ _ _ HA). lia. }
          rewrite HR. split.
          { destruct W8 as [(A1 & A2)|(p & A1 & A2 & A3 & A4 & A5 & A6)]; [lia|].
            pose proof (tlen_le (lastline b)). lia. }
          { right. split; auto. destruct D5 as [D5|D5]; [congruence|]. destruct W2. lia. }
    - destruct c as [x|]; [|discriminate]. clear E3.
      assert (W : NI mu b) by (constructor; auto).
      destruct (ni_some _ _ _ _ W HN1) as (R1 & R2 & p & R3 & R4 & R5 & R6 & R7 & R8).
      apply wp_bind. gb. apply wp_bind, wp_sub_ck; [lia|]. apply wp_bind. mstep. apply wp_bind. mstep. apply wp_bind.
      pose proof (w_pend B b1 HW1) as PE1. pose proof (w_last B b1 HW1) as PL1. pose proof (ni_ne _ _ R2) as PN.
      eapply eof_no_decrement_ok with (k := p); [exact HF|exact Hb|apply HW1|apply HW1| | | | | | | |];
        cbn [prevline eofp lastline line_count nextline set_nextline set_ruby_sourceline].
      * rewrite R3, (ni_eofp _ _ R2). auto.
      * lia.
      * apply (w_count B b1 HW1).
      * lia.
      * apply (w_prev B b1 HW1).
      * intros _. splits; auto. lia.
      * rewrite (ni_eofp _ _ R2). discriminate.
      * intros s' HF' HA. eapply HEND; [exact HF'|exact HA|cbn; lia|]. right. split; [eapply HB0; eauto|]. left.
        unfold BufInv.Rm. rewrite (an_eofp _ _ _ HA), (an_count _ _ _ HA), (an_next _ _ _ HA).
        cbn [prevline eofp lastline line_count nextline set_nextline set_ruby_sourceline]. rewrite (ni_eofp _ _ R2).
        replace (lastline b1 =? 0) with false by lia. unfold rest in R8. lia.
  Qed.

  (** *** Frames that allow new comments *)
  Definition FRx (s0 s : Lexer) : Prop :=
    (exists cs, comments s = comments s0 ++ cs /\ Forall (comment_ok B) cs) /\
    (exists ms, magic_comments s = magic_comments s0 ++ ms /\ Forall (magic_ok B) ms) /\
    (exists ds, diagnostics s = diagnostics s0 ++ ds /\ Forall (diag_ok B) ds).
  Definition FRm (s0 s : Lexer) : Prop :=
    FRx s0 s /\ lval_start s = lval_start s0 /\ lval_end s = lval_end s0 /\ strterm s = strterm s0.

  Lemma FRd_FRx : forall s0 s, FRd B s0 s -> FRx s0 s.
  Proof using.
    intros s0 s (H1 & H2 & H3). unfold FRx. splits; auto; exists []; rewrite app_nil_r; auto.
  Qed.
  Lemma FR_FRm : forall s0 s, FR s0 s -> FRm s0 s.
  Proof using.
    intros s0 s H. split; [apply FRd_FRx, FR_FRd; auto|]. destruct H as ((H1 & H2 & _) & H3). auto.
  Qed.
  Lemma FRx_trans : forall a b c, FRx a b -> FRx b c -> FRx a c.
  Proof using.
    intros a b c ((l1 & A1 & A2) & (l2 & A3 & A4) & (l3 & A5 & A6)) ((m1 & C1 & C2) & (m2 & C3 & C4) & (m3 & C5 & C6)).
    unfold FRx. splits.
    - exists (l1 ++ m1). rewrite C1, A1, app_assoc. split; auto. apply Forall_app; auto.
    - exists (l2 ++ m2). rewrite C3, A3, app_assoc. split; auto. apply Forall_app; auto.
    - exists (l3 ++ m3). rewrite C5, A5, app_assoc. split; auto. apply Forall_app; auto.
  Qed.
  Lemma FRm_trans : forall a b c, FRm a b -> FRm b c -> FRm a c.
  Proof using.
    intros a b c (A1 & A2 & A3 & A4) (C1 & C2 & C3 & C4). split; [eapply FRx_trans; eauto|]. splits; congruence.
  Qed.

  Lemma line_end_of : forall b p, BWF b -> pbeg b <= p -> p < pend b -> to_line_end B p (pend b).
  Proof using.
    clear Hfuel. intros b p HW H1 H2. pose proof (pend_le B b HW) as HL. unfold to_line_end. splits; auto.
    - intros i I1 I2 C. destruct (bwf_newline B b i HW ltac:(lia) ltac:(lia) C). lia.
    - pose proof (w_last B b HW). pose proof (w_count B b HW). rewrite (w_pend B b HW).
      destruct (Nat.eq_dec (lastline b + 1) NL) as [E|E].
      + left. apply (line_last B _ E).
      + right. destruct (line_newline B (lastline b)) as (_ & A & _); [lia|]. exact A.
  Qed.

  Lemma magic_of : forall lo hi m, mg_ok B lo hi m -> forall st, st < lo -> inline_comment B (mkLoc st hi) -> magic_ok B m.
  Proof using.
    clear Hfuel. intros lo hi m (M1 & M2 & M3 & M4 & M5 & M6) st Hst Hc. exists (mkLoc st hi). cbn [loc_begin loc_end].
    splits; auto; try lia. unfold underscored, slice. unfold dash_to_underscore in M6.
    destruct M6 as [M6|[M6|[M6|[M6|[M6|[]]]]]]; injection M6 as M6 M7; rewrite <- M7, <- M6; cbn; auto.
  Qed.

  Hypothesis Hdec : safe_decoder e B.

  Lemma nth_skipn : forall (l : list N) i x, nth_error l i = Some x -> exists r, skipn i l = x :: r.
  Proof using.
    clear. induction l as [|y l IH]; intros [|i] x H; try discriminate; cbn in *.
    - injection H as <-. eauto.
    - auto.
  Qed.

  Lemma comment_inline : forall b l, BWF b -> inline_comment B l -> comment_ok B (comment_new l (input b)).
  Proof using.
    clear Hfuel Hdec. intros b l HW HI. pose proof HI as ((C1 & C2 & _) & C3).
    unfold comment_new. change (loc_source l (input b)) with (b_substr_at b (loc_begin l) (loc_end l)).
    rewrite (MagicInv.substr_some B) by (auto; lia).
    destruct (nth_skipn _ _ _ C3) as (r & ->).
    replace (loc_end l - loc_begin l) with (S (loc_end l - loc_begin l - 1)) by lia. cbn [firstn].
    unfold comment_ok. cbn. exact HI.
  Qed.

  Lemma lex_comment_ok : forall seen s0 s b st mu (Q : bool -> Lexer -> Prop),
    FR s0 s -> buffer s = b -> InTok st mu b -> pcur b = S st -> ptok b = st -> eofp b = false ->
    nth_error B st = Some 35%N ->
    (forall s', FRm s0 s' -> NI mu (buffer s') -> ptok (buffer s') = st -> Q true s') ->
    (forall s', FRx s0 s' -> Q false s') ->
    wp e (lex_comment seen) Q s.
  Proof using All.
    intros seen s0 s b st mu Q HF Hb HI Hpc Hpt He Hx HQ HQe. unfold lex_comment.
    pose proof (it_wf _ _ _ _ _ _ HI) as HW. pose proof (it_pbeg _ _ _ _ _ _ HI) as HPB.
    pose proof (w_pcur2 B b HW) as P2. pose proof (pend_le B b HW) as PL.
    assert (HIC : inline_comment B (mkLoc st (pend b))).
    { split; [|exact Hx]. cbn. apply line_end_of; auto. lia. }
    apply wp_bind. nstep. apply wp_bind. gb. apply wp_bind, wp_sub_ck; [auto|]. apply wp_bind.
    eapply magic_comment_ok; [exact Hfuel|exact Hdec|exact Hb|exact HW|lia|lia| |].
    - intros found s2 HM HS. destruct HS as (HW1 & i & Ei).
      assert (HFm : FRm s0 s2 /\ comments s2 = comments s0).
      { destruct HM as (M1 & M2 & M3 & M4 & M5 & (ms & M6 & M7)).
        pose proof (FR_FRm _ _ HF) as HF'. destruct HF as ((F1 & F2 & F3 & F4 & (ds & F5 & F6)) & F7). split; [|congruence].
        split; [|splits; congruence]. unfold FRx. splits.
        - exists []. rewrite app_nil_r. split; [congruence|auto].
        - exists ms. split; [congruence|]. eapply Forall_impl; [|exact M7]. intros m Hm. eapply magic_of; [exact Hm| |].
          2: { replace (pcur b + (pend b - pcur b)) with (pend b) by lia. exact HIC. } lia.
        - destruct M5 as (ds' & M5 & M5'). exists (ds ++ ds'). rewrite M5, F5, app_assoc. split; auto. apply Forall_app; auto. }
      destruct HFm as (HFm & HCs). clear HF Hb HM.
      assert (Hb : buffer s2 = set_input i b) by exact Ei.
      apply wp_bind.
      match goal with |- wp e ?m ?P s2 => assert (HK : P tt s2) end.
      { apply wp_bind. unfold modb. apply wp_modify. apply wp_bind, wp_modify. apply wp_ret. apply HQ.
        - destruct HFm as (((cs & C1 & C2) & X2 & X3) & Y1 & Y2 & Y3). split; [|auto]. unfold FRx. splits; auto.
          exists (cs ++ [comment_new (mkLoc st (pend b)) (input (buffer s2))]). split.
          + cbn [comments set_comments]. unfold current_loc. cbn [buffer set_buffer comments]. rewrite Hb, C1, <- app_assoc. unfold goto_eol.
            cbn. rewrite Hpt. reflexivity.
          + apply Forall_app. split; auto. constructor; [|constructor]. apply comment_inline; auto.
        - cbn [buffer set_buffer set_comments]. rewrite Hb. rewrite Ei in HW1.
          constructor; cbn [nextline eofp pbeg pend pcur goto_eol set_pcur set_input lastline]; auto; try lia.
          + apply BWF_goto_eol. exact HW1.
          + apply (it_gh _ _ _ _ _ _ HI).
          + apply (it_next _ _ _ _ _ _ HI).
          + pose proof (it_mu _ _ _ _ _ _ HI) as Hmu. unfold BufInv.Rm, goto_eol. cbn. rewrite He, (it_next _ _ _ _ _ _ HI). cbn. lia.
          + left. split; [auto|]. pose proof (it_mu _ _ _ _ _ _ HI) as Hmu. unfold rest. cbn [goto_eol set_pcur set_input line_count].
            assert (tlen (lastline b) <= pend b - st); [|lia].
            unfold tlen. destruct (_ && _ && _) eqn:E; [|lia].
            apply andb_prop in E. destruct E as (E & _). apply andb_prop in E. destruct E as (E1 & E2). apply mbeq_iff in E2.
            rewrite <- (w_pend B b HW) in E1, E2. destruct (Nat.eq_dec st (pend b - 1)) as [Es|Es]; [|lia].
            rewrite <- Es in E2. congruence.
        - cbn [buffer set_buffer set_comments]. rewrite Hb. cbn. auto. }
      match goal with |- wp _ _ ?P _ => set (PP := P) in * end. clearbody PP.
      destruct found; cbn [negb]; [apply wp_ret; exact HK|].
      apply wp_bind. apply comment_at_top_ok; [rewrite Hb; cbn; lia|]. intros top. apply wp_bind. gb.
      destruct top; cbn [when]; [|apply wp_ret; exact HK].
      apply (set_file_encoding_ok B e); auto; cbn; lia.
    - intros s2 HM. apply wp_ret. apply HQe.
      destruct HM as (M1 & M2 & M3 & M4 & (ds' & M5 & M5') & (ms & M6 & M7)).
      destruct HF as ((F1 & F2 & F3 & F4 & (ds & F5 & F6)) & F7). unfold FRx. splits.
      + exists []. rewrite app_nil_r. split; [congruence|auto].
      + exists ms. split; [congruence|]. eapply Forall_impl; [|exact M7]. intros m Hm. eapply magic_of; [exact Hm| |].
        2: { replace (pcur b + (pend b - pcur b)) with (pend b) by lia. exact HIC. } lia.
      + exists (ds ++ ds'). rewrite M5, F5, app_assoc. split; auto. apply Forall_app; auto.
  Qed.

  (** A newline token *)
  Record NlOk (mu : nat) (s0 s' : Lexer) : Prop := mkNlOk {
    no_frame : FRm s0 s';
    no_wf : BWF (buffer s');
    no_gh : gh (buffer s');
    no_meas : Meas mu (buffer s');
    no_ptok : ptok (buffer s') < List.length B
  }.

  Lemma lex_newline_ok : forall c sp seen s0 s b st mu (Q : Step -> Lexer -> Prop),
    FR s0 s -> buffer s = b -> ptok b < List.length B ->
    (mbeq c 35%N = true -> InTok st mu b /\ pcur b = S st /\ ptok b = st /\ eofp b = false /\ nth_error B st = Some 35%N) ->
    (mbeq c 35%N = false -> NI mu b) ->
    (forall sp' s' lo', FRm s0 s' -> Rd lo' (mu - 1) (buffer s') -> Q (Retry sp') s') ->
    (forall s', FRx s0 s' -> Q (Tk END_OF_INPUT) s') ->
    (forall t s', NlOk mu s0 s' -> Q (Tk t) s') ->
    wp e (lex_newline c sp seen) Q s.
  Proof using All.
    intros c sp seen s0 s b st mu Q HF Hb Hpt Hc1 Hc2 HQr HQe HQ. unfold lex_newline. apply wp_bind.
    match goal with |- wp e ?m ?P s => assert (HK : forall s', FRm s0 s' -> NI mu (buffer s') -> ptok (buffer s') < List.length B -> P true s') end.
    2: { match type of HK with context [?P true _] => set (PP := P) in * end.
         assert (HK2 : forall s', FRx s0 s' -> PP false s').
         { intros s' H. unfold PP. cbn [negb]. apply wp_ret. auto. }
         clearbody PP. destruct (mbeq c 35%N) eqn:Ec.
         - destruct (Hc1 eq_refl) as (H1 & H2 & H3 & H4 & H5).
           eapply lex_comment_ok; eauto. intros s' K1 K2 K3. apply HK; auto. lia.
         - apply wp_ret. apply HK; [apply FR_FRm; auto|rewrite Hb; auto|rewrite Hb; auto]. }
    clear s b HF Hb Hpt Hc1 Hc2. intros s1 HF1 HN Hpt. cbn [negb].
    assert (HF : FR s1 s1) by apply FR_refl. remember (buffer s1) as b eqn:Hb. symmetry in Hb.
    assert (HFm : forall s', FR s1 s' -> FRm s0 s').
    { intros s' H. eapply FRm_trans; [exact HF1|apply FR_FRm; auto]. }
    clear HF1. revert HF Hb HFm. generalize s1 at 1 4 as sx. intros sx HF Hb HFm.
    apply wp_bind. nstep. apply wp_bind, wp_get. cbv beta zeta.
    destruct (_ || _).
    - destruct (_ && _).
      + unfold as_tk. apply wp_bind. nstep. apply wp_ret. apply HQ. destruct HN. constructor; rewrite ?Hb; auto.
        left. lia.
      + apply wp_ret. apply HQr with (lo' := 0); auto. rewrite Hb. destruct HN. constructor; auto; lia.
    - eapply newline_loop_ok; [exact HF|exact Hb|exact HN| |].
      + intros sp' s' lo' K1 K2. eapply HQr; eauto.
      + intros t s' []. apply HQ. constructor; auto.
  Qed.

  (** Having read a newline *)
  Lemma ni_entry : forall b b' mu, NextPost b (Some 10%N) b' -> gh b -> Rm b <= mu -> NI mu b'.
  Proof using.
    clear Hfuel Hdec. intros b b' mu HN HG Hmu. pose proof (gh_next _ _ _ _ _ _ HN HG) as HG'.
    destruct (n_some _ _ _ _ HN _ eq_refl) as (S1 & S2 & S3 & S4 & S5 & S6 & S7 & S8).
    pose proof (n_wf _ _ _ _ HN) as HW. pose proof (w_pcur2 B _ HW) as P2.
    destruct (bwf_newline B b' (pcur b' - 1) HW ltac:(lia) ltac:(lia) S4) as (E1 & E2).
    constructor; auto; try lia.
    - apply (n_nextline _ _ _ _ HN).
    - left. split; [lia|].
      pose proof (n_Rback _ _ _ _ HN) as HR. destruct (back_fields (Some 10%N) b') as (K1 & K2 & K3 & K4 & K5 & K6 & K7).
      unfold BufInv.Rm at 1 in HR. rewrite K7, S2, K1, (n_nextline _ _ _ _ HN), K4, K5 in HR. cbn [Nat.eqb] in HR.
      fold (rest b') in HR. revert HR. unfold tlen. rewrite <- (w_pend B b' HW).
      destruct ((_ <? _) && _ && _) eqn:E; [|lia].
      apply andb_prop in E. destruct E as (E & E4). apply andb_prop in E. destruct E as (E5 & E3).
      unfold back. cbv zeta. rewrite !(byte_at_B B) by auto.
      replace (pcur b' - 1) with (pend b' - 1) in * by lia. replace (pend b' - 1 - 1) with (pend b' - 2) by lia.
      rewrite E3, E4, !andb_true_r. destruct (pbeg b' <? pend b' - 1) eqn:E6; cbn [pcur set_pcur]; [lia|].
      destruct HG' as (_ & [G|(G & _)]); unfold BufInv.bonus in G; lia.
  Qed.

  Hypothesis Hbom : b0 = 0 \/ (b0 = 3 /\ text_at B 0 [239; 187; 191]%N).

  Lemma text_length : forall p w, w <> [] -> text_at B p w -> p + List.length w <= List.length B.
  Proof using.
    clear. intros p w Hw H. unfold text_at in H. apply (f_equal (@List.length N)) in H.
    rewrite firstn_length, skipn_length in H. destruct w; [congruence|]. cbn [List.length] in *. lia.
  Qed.
  Lemma text_nth : forall p w i x, text_at B p w -> nth_error w i = Some x -> nth_error B (p + i) = Some x.
  Proof using.
    clear. intros p w i x H Hi. unfold text_at in H. rewrite <- H in Hi.
    assert (L : i < List.length w).
    { apply nth_error_Some. rewrite <- H. congruence. }
    rewrite nth_error_firstn, nth_error_skipn in Hi. replace (i <? List.length w) with true in Hi by lia. exact Hi.
  Qed.
  Lemma text_cons : forall p x w, nth_error B p = Some x -> text_at B (p + 1) w -> text_at B p (x :: w).
  Proof using.
    clear. intros p x w H H'. unfold text_at in *. destruct (nth_skipn _ _ _ H) as (r & Hr).
    rewrite Hr. cbn [List.length firstn]. f_equal. etransitivity; [|exact H']. f_equal.
    replace (p + 1) with (S p) by lia. clear - Hr. revert Hr. generalize B as l. induction p as [|p IH]; intros [|y l] Hr; try discriminate; cbn in *.
    - congruence.
    - apply IH in Hr. exact Hr.
  Qed.
  Lemma word_match_text : forall b w, BWF b -> w <> [] -> is_word_match b w = true -> text_at B (pcur b) w.
  Proof using.
    clear Hfuel Hdec Hbom. intros b w HW Hw H. unfold is_word_match in H.
    destruct (opt_bytes_eqb _ w) eqn:E; [|discriminate]. clear H.
    unfold opt_bytes_eqb in E. destruct (b_substr_at _ _ _) as [x|] eqn:Ex; [|discriminate].
    apply ScopeProofs.bytes_eqb_eq in E. subst x.
    unfold b_substr_at, substr_at in Ex. destruct (_ && _); [|discriminate]. injection Ex as Ex.
    pose proof (w_bytes B b HW) as Eb. unfold bytes in Eb. rewrite Eb in Ex.
    replace (pcur b + List.length w - pcur b) with (List.length w) in Ex by lia. exact Ex.
  Qed.

  Lemma comment_document : forall b l, BWF b -> document_comment B l -> comment_ok B (comment_new l (input b)).
  Proof using.
    clear Hfuel Hdec Hbom. intros b l HW HI. pose proof HI as (C1 & C2 & q & C3 & C4 & C5 & C6).
    assert (Hx : nth_error B (loc_begin l) = Some 61%N).
    { rewrite <- (Nat.add_0_r (loc_begin l)). eapply text_nth; [exact C2|reflexivity]. }
    destruct C6 as (C6 & C7 & _).
    assert (HS : b_substr_at b (loc_begin l) (loc_end l) = Some (bs "=begin" ++ skipn 6 (firstn (loc_end l - loc_begin l) (skipn (loc_begin l) B)))).
    { rewrite (MagicInv.substr_some B) by (auto; lia). f_equal. unfold text_at in C2. change (List.length (bs "=begin")) with 6 in C2.
      rewrite <- C2 at 1. replace (firstn 6 (skipn (loc_begin l) B)) with (firstn 6 (firstn (loc_end l - loc_begin l) (skipn (loc_begin l) B))).
      - symmetry. apply firstn_skipn.
      - rewrite firstn_firstn. f_equal. lia. }
    unfold comment_new. change (loc_source l (input b)) with (b_substr_at b (loc_begin l) (loc_end l)).
    rewrite HS. cbn. exact HI.
  Qed.

  Lemma begins_line_pbeg : forall b, BWF b -> gh b -> begins_line B (pbeg b).
  Proof using Hbom.
    clear Hfuel Hdec. intros b HW (_ & [G|(G & L)]).
    - unfold BufInv.bonus in G. pose proof (w_pbeg B b HW). replace (pbeg b) with (lstart (lastline b)) by lia.
      destruct (lastline b) as [|k] eqn:E; [left; apply lstart_0|]. right. left.
      pose proof (w_last B b HW). pose proof (w_count B b HW).
      destruct (line_newline B k) as (A1 & A2 & _); [lia|]. rewrite (lend_next B k) in A2 by lia.
      replace (k + 1) with (S k) in A2 by lia. exact A2.
    - unfold BufInv.bonus in G. rewrite L in G. rewrite lstart_0 in G. replace (pbeg b) with b0 by lia.
      destruct Hbom as [->|(-> & H)]; [left; auto|right; right; auto].
  Qed.

  Lemma lex_embdoc_ok : forall sp s0 s b st mu (Q : Step -> Lexer -> Prop),
    FR s0 s -> buffer s = b -> InTok st mu b -> pcur b = S st ->
    nth_error B st = Some 61%N -> was_bol b = true -> is_word_match b (bs "begin") = true ->
    (forall sp' s' lo', FRm s0 s' -> Rd lo' (mu - 1) (buffer s') -> Q (Retry sp') s') ->
    (forall s', FRx s0 s' -> Q (Tk END_OF_INPUT) s') ->
    wp e (lex_embdoc sp) Q s.
  Proof using All.
    intros sp s0 s b st mu Q HF Hb HI Hpc Hx Hbol Hw HQ HQe. unfold lex_embdoc.
    pose proof (it_wf _ _ _ _ _ _ HI) as HW. pose proof (it_gh _ _ _ _ _ _ HI) as HG.
    assert (Est : st = pbeg b) by (unfold was_bol in Hbol; lia).
    pose proof (begins_line_pbeg b HW HG) as HBL. rewrite <- Est in HBL.
    pose proof (word_match_text b (bs "begin") HW ltac:(discriminate) Hw) as HT.
    assert (HT6 : text_at B st (bs "=begin")).
    { change (bs "=begin") with (61%N :: bs "begin"). apply text_cons; auto. replace (st + 1) with (pcur b) by lia. exact HT. }
    pose proof (text_length st (bs "=begin") ltac:(discriminate) HT6) as HL6. change (List.length (bs "=begin")) with 6 in HL6.
    pose proof (w_last B b HW) as WL. pose proof (w_count B b HW) as WC.
    assert (HP6 : st + 6 <= pend b).
    { rewrite (w_pend B b HW). destruct (Nat.eq_dec (lastline b + 1) NL) as [E|E].
      - destruct (line_last B _ E) as (A & _). lia.
      - destruct (line_newline B (lastline b)) as (_ & A & _); [lia|].
        rewrite <- (w_pend B b HW) in *. destruct (Nat.le_gt_cases (st + 6) (pend b)) as [C|C]; [exact C|exfalso].
        pose proof (w_pcur2 B b HW) as P2.
        assert (exists x, nth_error (bs "=begin") (pend b - 1 - st) = Some x /\ x <> 10%N) as (x & X1 & X2).
        { assert (K : pend b - 1 - st < 6) by lia. destruct (pend b - 1 - st) as [|[|[|[|[|[|?]]]]]]; try lia; (eexists; split; [reflexivity|discriminate]). }
        pose proof (text_nth _ _ _ _ HT6 X1) as X3. replace (st + (pend b - 1 - st)) with (pend b - 1) in X3 by lia. congruence. }
    pose proof (it_Rm _ _ _ _ _ _ HI ltac:(lia)) as HR. pose proof (it_next _ _ _ _ _ _ HI) as HN0.
    apply wp_bind. gb. apply wp_bind, wp_sub_ck; [lia|]. cbv zeta.
    replace (pcur b - 1) with st by lia. replace (pcur b + 5) with (st + 6) by lia.
    apply wp_bind. mstep. apply wp_bind.
    assert (HRe : forall x, BWF x -> nextline x = 0 -> Rm (goto_eol x) <= Rm x /\ (pcur x < pend x -> eofp x = false -> Rm (goto_eol x) < Rm x)).
    { intros x HWx Hnx. unfold BufInv.Rm, goto_eol. cbn. rewrite Hnx. cbn. pose proof (w_pcur2 B x HWx). destruct (eofp x); split; intros; try discriminate; lia. }
    assert (HEL : forall x, gh x -> gh (goto_eol x)) by (intros x Hgx; exact Hgx).
    match goal with |- wp e _ ?P _ => assert (HK : (forall s', FR s0 s' -> P false s') /\
      (forall s' b', FR s0 s' -> buffer s' = b' -> BWF b' -> gh b' -> nextline b' = 0 -> Rm b' < mu ->
         st + 6 <= pbeg b' -> pbeg b' < pend b' -> nth_error B (pbeg b' - 1) = Some 10%N -> text_at B (pbeg b') (bs "=end") -> P true s')) end.
    { split.
      - intros s' H. cbn [negb]. apply wp_ret. apply HQe. apply FRd_FRx, FR_FRd. auto.
      - clear HF Hb s1. intros s b' HF Hb W1 W2 W3 W4 W5 W6 W7 W8. cbn [negb]. apply wp_bind. mstep.
        apply wp_bind, wp_modify. apply wp_ret.
        destruct (FR_FRm _ _ HF) as (((cs & C1 & C2) & X2 & X3) & Y1 & Y2 & Y3).
        apply (HQ sp _ 0).
        + split; [|auto]. unfold FRx. splits; auto.
          eexists (cs ++ [comment_new (mkLoc st (pend b')) (input (goto_eol b'))]). split.
          * cbn [comments set_comments]. rewrite Hb, C1, <- app_assoc. reflexivity.
          * apply Forall_app. split; auto. constructor; [|constructor]. apply comment_document; [apply BWF_goto_eol; auto|].
            split; [exact HBL|]. split; [exact HT6|]. cbn [loc_begin loc_end]. exists (pbeg b'). splits; auto.
            apply line_end_of; auto.
        + cbn [buffer set_comments]. rewrite Hb. destruct (HRe b' W1 W3). constructor; [apply BWF_goto_eol; auto|lia|lia|auto]. }
    match goal with |- wp e _ ?P _ => set (PP := P) in * end. clearbody PP. destruct HK as (HK1 & HK2).
    apply wp_loop with (I := fun _ s1 => exists b1, FR s0 s1 /\ buffer s1 = b1 /\ BWF b1 /\ gh b1 /\ nextline b1 = 0 /\
         Rm b1 < mu /\ st + 6 <= pend b1 /\ lastline b <= lastline b1)
      (meas := fun _ s1 => 2 * Rm (buffer s1) + (if pcur (buffer s1) =? pend (buffer s1) then 1 else 0)).
    { exists (goto_eol b). destruct (HRe b HW HN0). splits; auto; try lia; try (cbn; lia). apply BWF_goto_eol; auto. }
    { rewrite Hb. pose proof (Rm_le B (goto_eol b) (BWF_goto_eol B b HW)). destruct (_ =? _); lia. }
    clear HF Hb s1. intros [] s (b1 & HF & Hb & W1 & W2 & W3 & W4 & W5 & W6). rewrite Hb.
    destruct (HRe b1 W1 W3) as (R1 & R2).
    apply wp_bind. mstep. apply wp_bind. unfold nextc, inb. apply wp_zoom. rewrite Hb.
    pose proof (BWF_goto_eol B b1 W1) as W1'.
    apply (b_nextc_ok B); [exact W1'|]. intros c b2 HN. 
    match goal with |- wp _ _ _ ?x => assert (HF2 : FR s0 x) by exact HF; assert (Hb2 : buffer x = b2) by reflexivity; generalize dependent x end.
    intros s3 HF3 Hb3. clear HF Hb. rename HF3 into HF, Hb3 into Hb.
    clear Hbom Hbol HBL HT HRe HEL. pose proof (gh_next _ _ _ _ _ _ HN W2) as HG2. pose proof (n_wf _ _ _ _ HN) as HW2.
    destruct c as [x|]; cbn [is_eof].
    - destruct (n_some _ _ _ _ HN x eq_refl) as (S1 & S2 & S3 & S4 & S5 & S6 & S7 & S8).
      destruct (n_line _ _ _ _ HN) as [L|L].
      { exfalso. destruct L as (L1 & L2 & L3 & L4 & L5 & L6 & L7 & L8 & L9 & L10 & L11).
        unfold goto_eol in L10, L4. cbn [pcur pend set_pcur] in L10, L4. pose proof (w_pcur2 B b2 HW2). lia. }
      destruct L as (L1 & L2 & L3 & L4 & L5 & L6 & L7 & L8 & L9). cbn [lastline goto_eol set_pcur] in L1. clear L9 L2 L6 L7 L8.
      pose proof (w_last B b2 HW2) as WL2. pose proof (w_count B b2 HW2) as WC2.
      apply wp_bind. gb. destruct (mbeq (Some x) 61%N && is_word_match b2 (bs "end")) eqn:E.
      + apply andb_prop in E. destruct E as (E1 & E2). apply mbeq_iff in E1. injection E1 as ->.
        apply wp_ret. rewrite S6 in L5 by discriminate.
        assert (HE : st + 6 <= pbeg b2).
        { rewrite L3. pose proof (lstart_mono B (lastline b2) ltac:(lia) (lastline b1) ltac:(lia)).
          rewrite (w_pend B b1 W1) in W5. lia. }
        eapply HK2; [exact HF|exact Hb|auto|auto|apply (n_nextline _ _ _ _ HN)|lia|auto| | |].
        * pose proof (w_pcur2 B b2 HW2). lia.
        * rewrite L3. destruct (lastline b2) as [|k] eqn:Ek; [lia|].
          destruct (line_newline B k) as (A1 & A2 & _); [lia|]. rewrite (lend_next B k) in A2 by lia.
          replace (k + 1) with (S k) in A2 by lia. exact A2.
        * change (bs "=end") with (61%N :: bs "end"). apply text_cons; [rewrite <- L5; auto|].
          replace (pbeg b2 + 1) with (pcur b2) by lia. apply word_match_text; auto. discriminate.
      + clear E S6. apply wp_bind. eapply wp_pushback; [exact HF|exact Hb|lia|]. intros s4 HF4 Hb4. apply wp_ret.
        pose proof (n_Rback _ _ _ _ HN) as HRb. pose proof (n_back _ _ _ _ HN) as HWb.
        destruct (back_fields (Some x) b2) as (K1 & K2 & K3 & K4 & K5 & K6 & K7). pose proof (w_pcur2 B b2 HW2).
        assert (R2' : pcur b1 =? pend b1 = false -> Rm (goto_eol b1) < Rm b1).
        { pose proof (w_pcur2 B b1 W1). cbn [goto_eol set_pcur eofp] in S1. intros. apply R2; auto. clear R2. lia. }
        clear R2. split.
        * clear R2'. exists (back (Some x) b2). splits; auto; try lia.
          -- apply gh_back; auto.
          -- rewrite K1. apply (n_nextline _ _ _ _ HN).
          -- rewrite K4, (w_pend B b2 HW2). pose proof (lstart_mono B (lastline b2) ltac:(lia) (lastline b1) ltac:(lia)).
             pose proof (line_bounds B (lastline b2) ltac:(lia)). rewrite (w_pend B b1 W1) in W5. lia.
        * rewrite Hb4. replace (pcur (back (Some x) b2) =? pend (back (Some x) b2)) with false by lia.
          destruct (pcur b1 =? pend b1) eqn:Ep; [clear R2'; lia|]. specialize (R2' eq_refl). lia.
    - apply wp_bind. eapply neut_use; [apply neut_emit with (loc := mkLoc st (st + 6)); cbn [loc_begin loc_end]; [lia|eapply Nat.le_trans; [|exact HL6]; apply Nat.le_add_r]|exact HF|exact Hb|]. intros a s4 HF4 Hb4.
      apply wp_ret. auto.
  Qed.
End Newline.
