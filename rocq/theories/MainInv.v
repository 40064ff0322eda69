(** * Invariant of parser_yylex and yylex *)
Require Import Verif.Base Verif.MaybeByteM Verif.Utf8M Verif.InputM Verif.DiagnosticM Verif.LexStateM
  Verif.StackStateM Verif.ScopesM Verif.TokensM Verif.ReservedM Verif.BufferM Verif.LexerM Verif.LexNumericM Verif.LexStringM
  Verif.LexIdentM Verif.LexHeredocM Verif.LexMagicM Verif.LexMainM
  Verif.SourceSpec Verif.SourceProofs Verif.Wp Verif.BufInv Verif.LexInv Verif.NumInv Verif.StrInv Verif.TokInv Verif.IdentInv
  Verif.HereInv Verif.HereDocInv Verif.MagicInv Verif.LexSpec Verif.OpInv Verif.NewlineInv Verif.Rets.
Require Import ZifyBool ZifyNat ZifyN.

Section Main.
  Variables (B : list N) (n0 b0 : nat) (e : Env).
  Hypothesis Hfuel : 4 * List.length B + 20 < fuel e.
  Hypothesis Hdec : safe_decoder e B.
  Hypothesis Hbom : b0 = 0 \/ (b0 = 3 /\ text_at B 0 [239; 187; 191]%N).

  Notation FR := (FR B).
  Notation FRt := (FRt B).
  Notation FRd := (FRd B).
  Notation FRx := (FRx B).
  Notation FRm := (FRm B).
  Notation Rd := (Rd B n0 b0).
  Notation AR := (AR B n0 b0).
  Notation InTok := (InTok B n0 b0).
  Notation Dn := (Dn B n0 b0).
  Notation Rm := (Rm B).
  Notation BWF := (BWF B).
  Notation gh := (gh B n0 b0).
  Notation NextPost := (NextPost B).
  Notation Meas := (Meas B n0 b0).
  Notation HereBeg := (HereBeg B n0 b0).

  Lemma Hb0 : b0 <= 3.
  Proof using Hbom. destruct Hbom as [->|(-> & _)]; auto. Qed.

  (** A token that is neither the end of input nor the start of a heredoc *)
  Record Reg (mu : nat) (s0 : Lexer) (t : Tok) (s' : Lexer) : Prop := mkReg {
    rg_lvals : lval_start s' = lval_start s0 /\ lval_end s' = lval_end s0;
    rg_wf : BWF (buffer s');
    rg_gh : gh (buffer s');
    rg_meas : (Rm (buffer s') < mu /\
               (strterm s' = strterm s0 \/ exists func term paren, strterm s' = new_strterm func term paren None)) \/
              (Meas mu (buffer s') /\ strterm s' = strterm s0);
    rg_nl : t = tNL -> ptok (buffer s') < List.length B
  }.

  (** The start of a heredoc *)
  Definition HBeg (mu : nat) (s' : Lexer) : Prop :=
    (exists h, strterm s' = Some (HeredocLit h) /\ HV B (line_count (buffer s')) h /\
       Rm (buffer s') + credit B h < mu + b0) /\
    (exists p1 p2, lval_start s' = Some p1 /\ lval_end s' = Some p2 /\ p1 <= p2 /\ p2 <= List.length B) /\
    BWF (buffer s') /\ gh (buffer s').

  Definition TkOk (mu : nat) (s0 : Lexer) (t : Tok) (s' : Lexer) : Prop :=
    FRx s0 s' /\ (t <> END_OF_INPUT -> Reg mu s0 t s' \/ (t <> tNL /\ HBeg mu s')).

  Lemma FRt_FRx : forall s0 s, FRt s0 s -> FRx s0 s.
  Proof using. intros s0 s ((H1 & H2 & H3 & H4 & H5) & _). apply FRd_FRx. unfold TokInv.FRd. auto. Qed.

  Lemma tk_dn : forall mu s0 t s' st, FRt s0 s' -> Dn st mu (buffer s') -> t <> tNL -> TkOk mu s0 t s'.
  Proof using.
    intros mu s0 t s' st HF [] Ht. split; [apply FRt_FRx; auto|]. intros _. left.
    destruct HF as ((H1 & H2 & _) & H3). constructor; auto. congruence.
  Qed.

  Lemma BWF_cr : forall b v, BWF b -> BWF (set_cr_seen v b).
  Proof using. intros b v []. constructor; auto. Qed.

  Lemma lex_char_ok : forall c cs sp seen ls s0 s b1 b lo mu (Q : Step -> Lexer -> Prop),
    FR s0 s -> buffer s = b -> Rd lo mu b1 -> NextPost b1 c b -> AR lo mu c b -> ptok b = pcur (back c b) ->
    (forall sp' s' lo', FRm s0 s' -> Rd lo' (mu - 1) (buffer s') -> Q (Retry sp') s') ->
    (forall c' s' b' lo', FR s0 s' -> buffer s' = b' -> Rd lo' (mu - 1) b' -> 1 <= lo' -> nextline b' = 0 -> pbeg b' < pcur b' ->
       Q (Ident c') s') ->
    (forall t s', TkOk mu s0 t s' -> Q (Tk t) s') ->
    wp e (lex_char c cs sp seen ls) Q s.
  Proof using All.
    intros c cs sp seen ls s0 s b1 b lo mu Q HF Hb HR HN HA Hpt HQr HQi HQ.
    assert (HE : forall s', FR s0 s' -> Q (Tk END_OF_INPUT) s').
    { intros s' H. apply HQ. split; [apply FRd_FRx, FR_FRd; auto|congruence]. }
    destruct c as [x|]; [|apply wp_ret; auto].
    pose proof (ar_wf _ _ _ _ _ _ _ HA) as HW. pose proof (ar_gh _ _ _ _ _ _ _ HA) as HG.
    pose proof (ar_next _ _ _ _ _ _ _ HA) as Hnx.
    destruct (ar_some _ _ _ _ _ _ _ HA x eq_refl) as (S1 & S2 & S3 & S4 & S5 & S6).
    assert (HRm : forall b', b' = b -> Rd (pcur b) (mu - 1) b').
    { intros b' ->. constructor; auto. lia. }
    destruct (mbeq (Some x) 35%N || N.eqb x 10) eqn:Enl.
    { assert (Elt : ptok b < List.length B).
      { rewrite Hpt. destruct (n_some _ _ _ _ HN x eq_refl) as (_ & _ & _ & _ & _ & _ & K & _).
        pose proof (w_pcur2 B b HW). pose proof (pend_le B b HW). lia. }
      unfold lex_char. rewrite Enl.
      assert (Hx : x = 35%N \/ x = 10%N).
      { apply orb_prop in Enl. destruct Enl as [E|E]; [left; apply mbeq_iff in E; congruence|right; lia]. }
      replace (N.eqb x 0 || N.eqb x 4 || N.eqb x 26) with false by lia.
      replace (N.eqb x 13) with false by lia. replace (N.eqb x 32 || N.eqb x 9 || N.eqb x 12 || N.eqb x 11) with false by lia.
      clear Enl.
      eapply (lex_newline_ok B n0 b0 e Hfuel Hdec) with (st := pcur b - 1) (mu := mu); [exact HF|exact Hb|exact Elt| | |exact HQr| |].
      - intros E. apply mbeq_iff in E. injection E as ->.
        destruct (ar_intok _ _ _ _ _ _ _ HA ltac:(discriminate) ltac:(discriminate)) as (HI & _ & _).
        splits; auto; lia.
      - intros E. destruct Hx as [-> | ->]; [discriminate|]. eapply ni_entry; [exact HN|apply HR|apply HR].
      - intros s' H. apply HQ. split; [auto|congruence].
      - intros t s' []. apply HQ. destruct no_frame as (Fx & F1 & F2 & F3). split; [auto|]. intros _. left.
        constructor; auto. }
    apply orb_false_elim in Enl. destruct Enl as (Eh & En).
    eapply wp_rets; [apply rets_lex_char; [exact Eh|exact En]|].
    unfold lex_char. rewrite Eh, En. cbn [orb].
    dif. { apply wp_ret. auto. }
    destruct (N.eqb x 13) eqn:E13.
    { unfold lex_cr. apply wp_bind. gb. apply wp_bind.
      match goal with |- wp e _ ?P _ => assert (HK : forall s', FR s0 s' -> (buffer s' = b \/ buffer s' = set_cr_seen true b) -> P tt s') end.
      { intros s' HF' Hb'. apply wp_ret. intros _. destruct Hb' as [Hb'|Hb'].
        - eapply HQi with (lo' := pcur b); [exact HF'|exact Hb'|apply HRm; auto|lia|auto|auto].
        - eapply HQi with (lo' := pcur b); [exact HF'|exact Hb'| |lia|exact Hnx|exact S4]. destruct (HRm b eq_refl). constructor; auto.
          apply BWF_cr; auto. }
      match goal with |- wp e _ ?P _ => set (PP := P) in * end. clearbody PP.
      unfold when. destruct (negb (cr_seen b)); [|apply wp_ret; apply HK; auto].
      apply wp_bind. mstep. eapply neut_use; [apply neut_warn0; apply BWF_cr; exact HW|exact HF|exact Hb|]. intros [] s'. auto. }
    destruct (ar_intok _ _ _ _ _ _ _ HA ltac:(lia) ltac:(lia)) as (HI & Hlo & Hp1).
    set (st := pcur b - 1) in *. assert (Hst : st < pcur b) by (unfold st; lia). assert (Hpc : pcur b = S st) by (unfold st; lia).
    dif. { apply wp_ret. intros _. eapply HQr; [apply FR_FRm; exact HF|apply HRm; auto]. }
    assert (HT : forall t s', FRt s0 s' -> Dn st mu (buffer s') -> (tin_step (Tk t) -> Q (Tk t) s')).
    { intros t s' H1 H2 H3. apply HQ. eapply tk_dn; eauto. }
    assert (HTf : forall t s', FR s0 s' -> Dn st mu (buffer s') -> wp e (ret (Tk t)) (fun a s => tin_step a -> Q a s) s').
    { intros t s' H1 H2. apply wp_ret. intros H3. apply HT; auto. apply FR_FRt; auto. }
    assert (HTt : forall t s', FRt s0 s' -> Dn st mu (buffer s') -> wp e (ret (Tk t)) (fun a s => tin_step a -> Q a s) s').
    { intros t s' H1 H2. apply wp_ret. intros H3. apply HT; auto. }
    pose proof Hb0 as Hb0.
    Ltac br L := eapply L; eauto.
    destruct (mbeq (Some x) "*"). { br lex_star_ok. }
    destruct (mbeq (Some x) "!"). { br lex_bang_ok. }
    destruct (mbeq (Some x) "=") eqn:Eeq.
    { eapply lex_eq_ok; eauto. intros W1 W2. apply mbeq_iff in Eeq. injection Eeq as ->.
      eapply (lex_embdoc_ok B n0 b0 e Hfuel Hdec Hbom); [exact HF|exact Hb|exact HI|exact Hpc|exact S5|exact W1|exact W2| |].
      - intros sp' s' lo' K1 K2 _. eapply HQr; eauto.
      - intros s' K1 _. apply HQ. split; [auto|congruence]. }
    destruct (mbeq (Some x) "<").
    { eapply lex_lt_ok; eauto. intros t s' K1 K2 K3. apply HQ. split.
      - apply FRd_FRx. apply (hb_frame _ _ _ _ _ _ K2).
      - intros _. right. split; [exact K3|]. destruct K2. unfold HBeg. auto. }
    dif. { br lex_gt_ok. }
    dif. { br lex_quote_ok. }
    dif. { br lex_backtick_ok. }
    dif. { br lex_quote_ok. }
    dif. { apply wp_bind. br parse_qmark_ok. }
    dif. { br lex_amp_ok. }
    dif. { br lex_pipe_ok. }
    dif. { br lex_plus_ok. }
    dif. { br lex_minus_ok. }
    assert (HRr : forall sp s', FR s0 s' -> Dn st mu (buffer s') -> (tin_step (Retry sp) -> Q (Retry sp) s')).
    { intros sp' s' K1 K2 _. eapply HQr with (lo' := 0); [apply FR_FRm; auto|]. destruct K2. constructor; auto; lia. }
    dif. { br lex_dot_ok. }
    destruct (b_is_digit x) eqn:Ed. { apply wp_bind. br parse_numeric_ok. }
    dif. { br lex_close_ok. }
    dif. { br lex_close_ok. }
    dif. { br lex_rcurly_ok. }
    dif. { br lex_colon_ok. }
    dif. { br lex_slash_ok. }
    dif. { br lex_caret_ok. }
    dif. { br lex_semi_ok. }
    dif. { br lex_comma_ok. }
    dif. { br lex_tilde_ok. }
    dif. { br lex_lparen_ok. }
    dif. { br lex_lbrack_ok. }
    dif. { br lex_lcurly_ok. }
    dif. { br lex_backslash_ok. }
    dif. { apply wp_bind. br parse_percent_ok. }
    dif. { apply wp_bind. br parse_gvar_ok. }
    dif. { apply wp_bind. br parse_atmark_ok. }
    dif.
    { unfold lex_underscore. apply wp_bind. gb. dif.
      - apply wp_bind. mstep. apply wp_ret. auto.
      - apply wp_bind. nstep. apply wp_ret. intros _. eapply HQi with (lo' := pcur b); [exact HF|exact Hb|apply HRm; auto|lia|auto|auto]. }
    unfold lex_other. apply wp_bind. eapply is_identchar_ok; eauto. clear HF Hb. intros i s' HF Hb _.
    destruct i; cbn [negb].
    - apply wp_bind. nstep. apply wp_ret. intros _. eapply HQi with (lo' := pcur b); [exact HF|exact Hb|apply HRm; auto|lia|auto|auto].
    - apply wp_bind. eapply neut_use; [apply neut_compile_error0; exact HW|exact HF|exact Hb|]. clear HF Hb. intros _ s2 HF Hb.
      apply wp_bind. unfold token_flush. mstep. apply wp_ret. intros _. eapply HQr with (lo' := 0); [apply FR_FRm; auto|].
      rewrite Hb. destruct (HRm b eq_refl). constructor; auto. 2: lia. 
      apply BWF_set_ptok; auto.
  Qed.

  Lemma Meas_mono : forall mu mu' b, Meas mu b -> mu <= mu' -> Meas mu' b.
  Proof using. clear. intros mu mu' b [H|(H0 & [H|(H & H1)])] L; unfold NewlineInv.Meas; [left; lia|right; split; auto; left; lia|right; split; auto; right; split; auto; lia]. Qed.

  Lemma tk_trans : forall mu mu' s0 s1 t s', FRm s0 s1 -> mu <= mu' -> TkOk mu s1 t s' -> TkOk mu' s0 t s'.
  Proof using.
    clear Hfuel Hdec Hbom. intros mu mu' s0 s1 t s' (Fx & F1 & F2 & F3) Hmu (Hx & HT). split; [eapply FRx_trans; eauto|].
    intros Hn. destruct (HT Hn) as [[]|(H1 & H2)].
    - left. constructor; auto.
      + destruct rg_lvals0. split; congruence.
      + rewrite <- F3. destruct rg_meas0 as [(M1 & M2)|(M1 & M2)]; [left; split; auto; lia|right].
        split; auto. eapply Meas_mono; eauto.
    - right. split; auto. destruct H2 as ((h & A1 & A2 & A3) & A4). split; auto. exists h. splits; auto. lia.
  Qed.

  (** Lexing outside of a literal *)
  Lemma yylex_none_ok : forall s b (Q : Tok -> Lexer -> Prop),
    strterm s = None -> buffer s = b -> BWF b -> gh b ->
    (forall t s', TkOk (Rm b) s t s' -> (t <> END_OF_INPUT -> eofp b = false) -> Q t s') ->
    wp e parser_yylex Q s.
  Proof using All.
    intros s b Q Hst Hb HW HG HQ. unfold parser_yylex. apply wp_bind, wp_get. rewrite Hst. cbv zeta.
    apply wp_bind, wp_modify. apply wp_bind, wp_modify.
    generalize (command_start s) as cs. generalize (token_seen s) as seen. intros seen cs.
    set (s1 := set_token_seen true (set_command_start false s)).
    assert (HF1 : FRm s s1) by (apply FR_FRm; exact (FR_refl B s)).
    assert (Hb1 : buffer s1 = b) by exact Hb. clearbody s1. apply wp_bind.
    apply wp_loop with (I := fun _ s2 => FRm s s2 /\ Rd 0 (Rm b) (buffer s2) /\ (eofp (buffer s2) = false -> eofp b = false))
      (meas := fun _ s2 => Rm (buffer s2)).
    { rewrite Hb1. splits; auto. constructor; auto; lia. }
    { rewrite Hb1. pose proof (Rm_fuel B n0 b0 e Hfuel b HW). lia. }
    clear s1 HF1 Hb1. intros sp s2 (HF & HR & HE).
    unfold lex_step. apply wp_bind, wp_gets. generalize (lex_state s2) as ls. intros ls.
    apply wp_bind, wp_modify.
    set (b2 := b_token_flush (buffer s2)).
    assert (HR2 : Rd 0 (Rm (buffer s2)) b2).
    { destruct HR. constructor; auto. apply BWF_set_ptok; auto. }
    set (s3 := set_buffer b2 s2). assert (HF3 : FR s3 s3) by apply FR_refl.
    assert (Hb3 : buffer s3 = b2) by reflexivity. assert (HM3 : FRm s s3) by exact HF.
    assert (Hpt : ptok b2 = pcur b2) by reflexivity. assert (He2 : eofp b2 = eofp (buffer s2)) by reflexivity.
    pose proof (rd_mu _ _ _ _ _ _ HR) as HRmu. clearbody s3 b2. clear HF.
    apply wp_bind. eapply wp_nextc_rd; [exact HF3|exact Hb3|exact HR2|].
    intros c b4 s4 HF4 Hb4 HA HN. apply wp_bind.
    destruct c as [x|].
    2: { cbn [lex_char]. apply wp_ret. apply wp_ret. apply wp_ret. apply HQ; [|congruence]. split; [|congruence].
      apply FR_FRm in HF4. destruct (FRm_trans B _ _ _ HM3 HF4) as (Fx & _). exact Fx. }
    destruct (n_some _ _ _ _ HN x eq_refl) as (S1 & S2 & _ & _ & S5 & _ & _).
    rewrite He2 in S1. specialize (HE S1).
    pose proof (rd_mu _ _ _ _ _ _ HR2) as HR2mu.
    eapply lex_char_ok; [exact HF4|exact Hb4|exact HR2|exact HN|exact HA| | | |].
    - destruct (n_line _ _ _ _ HN) as [L|L].
      + destruct L as (L1 & L2 & L3 & L4 & L5 & L6 & L7 & L8 & L9 & L10 & L11). congruence.
      + destruct L as (L1 & L2 & L3 & L4 & L5 & L6 & L7 & L8 & L9). congruence.
    - intros sp' s' lo' K1 K2. apply wp_ret. splits; auto.
      + eapply FRm_trans; [exact HM3|]. exact K1.
      + destruct K2. constructor; auto; lia.
      + destruct K2. lia.
    - intros c' s' b' lo' K1 K2 K3 K4 K5 K6. apply wp_ret.
      eapply wp_rets; [apply rets_parse_ident|].
      eapply (parse_ident_ok B n0 b0 e Hfuel); [exact K1|exact K2|exact K3|exact K4|exact K5|exact K6|].
      intros t s5 b5 G1 G2 G3 Ht. apply HQ; [|auto]. eapply tk_trans; [exact HM3|exact HRmu|].
      split; [apply FRd_FRx, FR_FRd; auto|]. intros _. left. rewrite <- G2 in G3. destruct G3.
      destruct G1 as ((E1 & E2 & _) & E3). constructor; auto; [|congruence]. left. split; auto. lia.
    - intros t s' HT. apply wp_ret. apply wp_ret. apply HQ; [|auto]. eapply tk_trans; [exact HM3|exact HRmu|exact HT].
  Qed.
End Main.

(** ** The state between two tokens *)
Section Yylex.
  Variables (B : list N) (e : Env).
  Hypothesis Hfuel : 4 * List.length B + 20 < fuel e.
  Hypothesis Hdec : safe_decoder e B.

  Notation FRx := (FRx B).
  Notation Rm := (Rm B).
  Notation BWF := (BWF B).

  Definition StrOk (s : Lexer) : Prop :=
    match strterm s with
    | Some (HeredocLit h) => HV B (line_count (buffer s)) h
    | Some (StringLit q) =>
        match sl_heredoc_end q with Some he => he_start he <= he_end he /\ he_end he <= List.length B | None => True end
    | None => True
    end.

  Record LInv (s : Lexer) : Prop := mkLInv {
    li_wf : BWF (buffer s);
    li_bonus : bonus B (buffer s) = 0 \/
      (bonus B (buffer s) = 3 /\ lastline (buffer s) = 0 /\ text_at B 0 [239; 187; 191]%N);
    li_str : StrOk s;
    li_lval : lval_start s = None /\ lval_end s = None
  }.

  (** What decreases from token to token *)
  Definition Phi (s : Lexer) : nat :=
    Rm (buffer s) + match strterm s with Some (HeredocLit h) => credit B h | _ => bonus B (buffer s) end.
  Definition Lc (b : Buffer) : nat := if line_count b =? NL B then 0 else 1.
  Definition TM (s : Lexer) : nat := 9 * Phi s + Eo B (buffer s) + Lc (buffer s) + To (strterm s).

  Definition range_ok (t : Token) : Prop :=
    loc_begin (token_loc t) <= loc_end (token_loc t) /\ loc_end (token_loc t) <= List.length B.

  (** The next token will report an unterminated heredoc *)
  Definition doomed (s : Lexer) : Prop := exists h, strterm s = Some (HeredocLit h) /\ Rm (buffer s) = 0.

  Lemma Lc_mono : forall b b', BWF b' -> line_count b <= line_count b' -> Lc b' <= Lc b.
  Proof using.
    clear. intros b b' HW H. pose proof (w_count B b' HW). unfold Lc. destruct (line_count b =? NL B) eqn:E1; destruct (line_count b' =? NL B) eqn:E2; lia.
  Qed.
  Lemma Eo_2 : forall b, Eo B b <= 2.
  Proof using. clear. intros b. unfold Eo. destruct (eofp b); [lia|]. destruct (_ && _ && _); lia. Qed.
  Lemma Lc_1 : forall b, Lc b <= 1.
  Proof using. clear. intros b. unfold Lc. destruct (_ =? _); lia. Qed.
  Lemma To_str : forall q, To (Some (StringLit q)) <= 3.
  Proof using. clear. intros q. unfold To. destruct (has _ _); [lia|]. destruct (has _ _); lia. Qed.

  Definition YPost (s : Lexer) (tok : Token) (s' : Lexer) : Prop :=
    FRx s s' /\
    (token_type tok <> END_OF_INPUT ->
       LInv s' /\ TM s' < TM s /\ (range_ok tok \/ unterm s' \/ doomed s') /\
       line_count (buffer s) <= line_count (buffer s')) /\
    (doomed s -> unterm s').

  Lemma yylex_ok : forall s (Q : Token -> Lexer -> Prop), LInv s -> (forall t s', YPost s t s' -> Q t s') -> wp e yylex Q s.
  Proof using All.
    intros s Q HL HQ. destruct HL as [HW HBo HS (HL1 & HL2)]. unfold yylex. apply wp_bind, wp_modify.
    set (n0 := line_count (buffer s)). set (b0 := bonus B (buffer s)).
    assert (Hbom : b0 = 0 \/ (b0 = 3 /\ text_at B 0 [239; 187; 191]%N)) by (destruct HBo as [H|(H1 & _ & H2)]; auto).
    assert (Hb03 : b0 <= 3) by (destruct Hbom as [->|(-> & _)]; lia).
    assert (HG : gh B n0 b0 (buffer s)).
    { split; [unfold n0; lia|]. fold b0. destruct HBo as [H|(H1 & H2 & _)]; auto. }
    assert (HGB : forall b', gh B n0 b0 b' -> n0 <= line_count b' /\ bonus B b' <= b0 /\
       (bonus B b' = 0 \/ (bonus B b' = 3 /\ lastline b' = 0 /\ text_at B 0 [239; 187; 191]%N))).
    { intros b' (G1 & G2). split; auto. destruct G2 as [G2|(G2 & G3)]; [split; [lia|auto]|].
      split; [lia|]. destruct Hbom as [H|(H & H')]; [left; lia|right; splits; auto; lia]. }
    assert (HLc : forall b', BWF b' -> gh B n0 b0 b' -> Lc b' <= Lc (buffer s)).
    { intros b' W (G1 & _). apply Lc_mono; auto. }
    set (s1 := set_lval None s).
    assert (Hfr : forall s', FRx s1 s' -> FRx s s') by (intros s' H; exact H).
    apply wp_bind.
    set (P := fun (t : Tok) (s' : Lexer) =>
      FRx s s' /\
      (t <> END_OF_INPUT -> BWF (buffer s') /\ gh B n0 b0 (buffer s') /\ StrOk s' /\ TM s' < TM s /\
         ((t = tNL -> lval_start s' = None /\ ptok (buffer s') < List.length B) /\
          (let p := match lval_start s' with Some p => p | None => ptok (buffer s') end in
           let q := match lval_end s' with Some q => q | None => pcur (buffer s') end in p <= q /\ q <= List.length B) \/
          unterm s' \/ doomed s')) /\
      (doomed s -> unterm s')).
    apply wp_conseq with (P := P).
    2: { intros t s' (P1 & P2 & P3). apply wp_bind, wp_get. cbv zeta. apply wp_bind, wp_modify.
      match goal with |- wp e (if _ then ret ?a else ret ?b) _ ?z => set (ta := a); set (tb := b); set (sz := z) end.
      assert (HK : forall tk, token_type tk = t ->
        ((t = tNL -> lval_start s' = None /\ ptok (buffer s') < List.length B) /\
          (let p := match lval_start s' with Some p => p | None => ptok (buffer s') end in
           let q := match lval_end s' with Some q => q | None => pcur (buffer s') end in p <= q /\ q <= List.length B) -> range_ok tk) ->
        Q tk sz).
      { intros tk Ht Hr. apply HQ. unfold YPost. splits; auto. rewrite Ht. intros Hn. destruct (P2 Hn) as (W1 & W2 & W3 & W4 & W5).
        splits.
        - destruct (HGB _ W2) as (_ & _ & G). constructor; auto.
        - exact W4.
        - destruct W5 as [W5|W5]; auto.
        - apply (HGB _ W2). }
      destruct (tok_eqb t tNL) eqn:Et; apply wp_ret; apply HK; try reflexivity.
      - intros (R1 & R2). unfold range_ok, ta. cbn [token_loc loc_begin loc_end].
        assert (Ht : t = tNL) by (clear -Et; destruct t; try reflexivity; discriminate Et).
        destruct (R1 Ht) as (R3 & R4).
        rewrite R3. lia.
      - intros (_ & R2). exact R2. }
    unfold P. clear P HQ Q.
    destruct (strterm s) as [[q|h]|] eqn:Est.
    - (* string *)
      unfold parser_yylex. apply wp_bind, wp_get. replace (strterm s1) with (Some (StringLit q)) by auto.
      apply wp_bind, wp_modify. change (buffer s1) with (buffer s).
      set (b := b_token_flush (buffer s)). set (s2 := set_buffer b s1).
      assert (HWb : BWF b) by (apply BWF_set_ptok; auto).
      eapply wp_rets; [apply rets_parse_string|].
      eapply (parse_string_ok B n0 b0 e Hfuel) with (q := q) (b := b); [exact Est|reflexivity|exact HWb|exact HG|].
      intros t s' [] Ht. splits.
      + apply Hfr. apply FRd_FRx. exact st_frame.
      + intros _. destruct st_rd. destruct (HGB _ rd_gh) as (G1 & G2 & G3). splits; auto.
        * unfold StrOk. destruct st_term as [E|(q' & E & E2 & _)]; rewrite E; auto. rewrite E2. unfold StrOk in HS. rewrite Est in HS. exact HS.
        * unfold TM, Phi. rewrite Est.
          change (Rm b) with (Rm (buffer s)) in *. change (Eo B b) with (Eo B (buffer s)) in *.
          pose proof (HLc _ rd_wf rd_gh). pose proof (Eo_2 (buffer s')).
          assert (To (strterm s') <= 3) by (destruct st_term as [E|(q' & E & E2 & _)]; rewrite E; [cbn; lia|apply To_str]).
          assert (HE : match strterm s' with Some (HeredocLit h) => credit B h | _ => bonus B (buffer s') end = bonus B (buffer s')).
          { destruct st_term as [E|(q' & E & _)]; rewrite E; reflexivity. }
          rewrite HE. fold b0. destruct st_meas; lia.
        * left. split; [congruence|]. cbv zeta.
          pose proof (w_pcur2 B _ rd_wf). pose proof (pend_le B _ rd_wf).
          destruct st_lval as [(E1 & E2)|(he & E0 & E1 & E2 & _)].
          -- rewrite E1. replace (lval_end s') with (@None nat) by (rewrite E2; symmetry; exact HL2). lia.
          -- rewrite E1, E2. unfold StrOk in HS. rewrite Est, E0 in HS. exact HS.
      + intros (h & E & _). congruence.
    - (* heredoc *)
      unfold parser_yylex. apply wp_bind, wp_get. replace (strterm s1) with (Some (HeredocLit h)) by auto.
      eapply wp_rets; [apply rets_here_document|].
      assert (HH : HV B n0 h) by (unfold StrOk in HS; rewrite Est in HS; exact HS).
      eapply (here_document_ok B n0 b0 e Hfuel Hb03) with (h := h) (b := buffer s); [exact Est|reflexivity|exact HW|exact HG|exact HH|exact HL2|].
      intros t s' [] Hd Ht. splits.
      + apply Hfr. apply FRd_FRx. exact ht_frame.
      + intros _. destruct (HGB _ ht_gh) as (G1 & G2 & G3). splits; auto.
        * unfold StrOk. destruct ht_state as [(E & _)|([E|(f & he & E & E2)] & _)]; rewrite E; auto.
          eapply HV_mono; [exact HH|exact G1].
        * unfold TM, Phi. rewrite Est. pose proof (HLc _ ht_wf ht_gh). pose proof (Eo_2 (buffer s')).
          destruct ht_state as [(E & E1)|([E|(f & he & E & E2)] & E1 & E3)]; rewrite E.
          -- lia.
          -- cbn [To]. lia.
          -- cbn [new_strterm]. assert (HT : To (new_strterm (N.lor f STR_FUNC_TERM) 0 (Some 0%N) (Some he)) = 1).
             { unfold new_strterm, To. cbn [sl_func]. erewrite has_term_lor; first [reflexivity | eassumption]. }
             unfold new_strterm in HT |- *. rewrite HT. cbn [To]. lia.
        * destruct ht_lval as (p & E1 & E2 & [(q & E3 & E4 & E5)|E3]).
          -- left. split; [congruence|]. cbv zeta. rewrite E1. destruct E3 as [E3|(E3 & ->)]; rewrite E3; lia.
          -- right. destruct E3 as [E3|(E3 & E4)]; [auto|]. right. exists h. auto.
      + intros (h' & E & E'). rewrite E in Est. injection Est as ->. auto.
    - (* outside *)
      eapply (yylex_none_ok B n0 b0 e Hfuel Hdec Hbom) with (b := buffer s); [exact Est|reflexivity|exact HW|exact HG|].
      intros t s' (T1 & T2) He. splits.
      + apply Hfr. exact T1.
      + intros Hn. specialize (He Hn). destruct (T2 Hn) as [[rg_lvals rg_wf rg_gh rg_meas rg_nl]|(Htn & (h & A1 & A2 & A3) & (p1 & p2 & A4 & A5 & A6 & A7) & A8 & A9)].
        * destruct (HGB _ rg_gh) as (G1 & G2 & G3). destruct rg_lvals as (V1 & V2).
          change (strterm s1) with (strterm s) in rg_meas. rewrite Est in rg_meas. pose proof (HLc _ rg_wf rg_gh) as HLc'. splits; auto.
          -- unfold StrOk. destruct rg_meas as [(_ & [E|(f & te & pa & E)])|(_ & E)]; rewrite E; cbn; auto.
          -- unfold TM, Phi. rewrite Est. fold b0. pose proof (Eo_2 (buffer s')) as HE2.
             destruct rg_meas as [(M & M2)|(M & M2)].
             ++ assert (To (strterm s') <= 3 /\ match strterm s' with Some (HeredocLit h) => credit B h | _ => bonus B (buffer s') end = bonus B (buffer s')) as (HT & HT').
                { destruct M2 as [E|(f & te & pa & E)]; rewrite E; [cbn; lia|]. split; [apply To_str|reflexivity]. }
                rewrite HT'. lia.
             ++ rewrite M2. destruct M as [M|(M0 & [M|(M & M3)])]; [lia|lia|].
                unfold Eo at 2. rewrite He. destruct M3 as [M3|(M3 & M4)].
                ** unfold Eo. rewrite M3. destruct (_ && _ && _); lia.
                ** replace (line_count (buffer s) =? NL B) with false by (fold n0; lia). cbn [andb].
                   assert (Lc (buffer s') = 0) by (unfold Lc; rewrite M4, Nat.eqb_refl; auto).
                   assert (Lc (buffer s) = 1) by (unfold Lc; replace (line_count (buffer s) =? NL B) with false by (fold n0; lia); auto). lia.
          -- left. split.
             ++ intros Hnl. split; [rewrite V1; exact HL1|auto].
             ++ cbv zeta. rewrite V1, V2. change (lval_start s1) with (lval_start s). change (lval_end s1) with (lval_end s). rewrite HL1, HL2.
                pose proof (w_tok B _ rg_wf). pose proof (w_pcur2 B _ rg_wf). pose proof (pend_le B _ rg_wf). lia.
        * destruct (HGB _ A9) as (G1 & G2 & G3). pose proof (HLc _ A8 A9). pose proof (Eo_2 (buffer s')). splits; auto.
          -- unfold StrOk. rewrite A1. exact A2.
          -- unfold TM, Phi. rewrite Est, A1. fold b0. cbn [To]. lia.
          -- left. split; [congruence|]. cbv zeta. rewrite A4, A5. auto.
      + intros (h & E & _). congruence.
  Qed.
End Yylex.
