(** * The tokens of a regular expression: content and end *)
Require Import Verif.Base Verif.MaybeByteM Verif.Utf8M Verif.InputM Verif.DiagnosticM Verif.TokensM Verif.BufferM Verif.LexStateM
  Verif.LexerM Verif.LexStringM Verif.LexIdentM Verif.LexMainM
  Verif.SourceSpec Verif.SourceProofs Verif.Wp Verif.BufInv Verif.LexSpec Verif.NewlineInv Verif.MainInv
  Verif.ReadSpec Verif.YylexSpec Verif.Reach Verif.NumberSpec Verif.NumRead Verif.IdentRead Verif.IdentStep Verif.Prop_Ident Verif.Prop_Crlf
  Verif.StringSpec Verif.StrNum Verif.StrRead Verif.StrStep Verif.StrOpen Verif.StrMore Verif.StrOpens Verif.RegexpSpec.
Require Verif.RegexpRead.
Require Import ZifyBool ZifyNat ZifyN.

(** The first byte of a piece *)
Lemma re_piece_first : forall opn cls nxt p n txt v d n', re_piece opn cls nxt p n txt v d n' -> opn <> Some cls -> ~ delim opn cls 35%N ->
  exists x w, txt = x :: w /\ x <> 13%N /\ (x = cls -> 0 < n) /\
    (x = 35%N -> w = [] /\ v = [35%N] /\ d = [] /\ n' = n /\ (nxt <> 36 /\ nxt <> 64 /\ nxt <> 123)%N).
Proof.
  intros opn cls nxt p n txt v d n' H HP HI.
  assert (B92 : forall w, ~ delim opn cls 92%N -> exists x w', (92%N :: w) = x :: w' /\ x <> 13%N /\ (x = cls -> 0 < n) /\
    (x = 35%N -> w' = [] /\ v = [35%N] /\ d = [] /\ n' = n /\ (nxt <> 36 /\ nxt <> 64 /\ nxt <> 123)%N)).
  { intros w H92. exists 92%N, w. splits; auto; try discriminate. intros E. exfalso. apply H92. left. exact E. }
  destruct H; try (apply B92; assumption).
  - exists c, []. splits; auto.
    + intros E. exfalso. apply H1. left. exact E.
    + intros E2. destruct (H2 E2) as (K1 & K2 & K3). splits; auto; congruence.
  - exists c, []. splits; auto.
    + intros E. congruence.
    + intros E2. exfalso. apply HI; auto. right. congruence.
  - exists cls, []. splits; auto.
    + intros _. lia.
    + intros E2. exfalso. apply HI; auto. left. auto.
Qed.

Lemma re_body_hd : forall opn cls fin p n txt v dg n2, re_body opn cls fin p n txt v dg n2 -> opn <> Some cls -> ~ delim opn cls 35%N -> fin <> 13%N -> hd fin txt <> 13%N.
Proof.
  intros opn cls fin p n txt v dg n2 H D1 D3 HF. destruct H as [|p n txt v d n1 rest v' d' n2 H1 H2]; [exact HF|].
  destruct (re_piece_first _ _ _ _ _ _ _ _ _ H1 D1 D3) as (x & w & -> & A & _). exact A.
Qed.

Lemma re_body_first : forall opn cls fin p n txt v dg n2, re_body opn cls fin p n txt v dg n2 -> txt <> [] -> opn <> Some cls -> ~ delim opn cls 35%N -> fin <> 13%N ->
  exists x w, txt = x :: w /\ x <> 13%N /\ (x = cls -> 0 < n) /\
    (x = 35%N -> exists v', v = 35%N :: v' /\ re_body opn cls fin (p + 1) n w v' dg n2 /\ (hd fin w <> 36 /\ hd fin w <> 64 /\ hd fin w <> 123 /\ hd fin w <> 13)%N).
Proof.
  intros opn cls fin p n txt v dg n2 H Hne D1 D3 HF. destruct H as [|p n txt v d n1 rest v' d' n2 H1 H2]; [congruence|].
  destruct (re_piece_first _ _ _ _ _ _ _ _ _ H1 D1 D3) as (x & w & -> & A1 & A2 & A4).
  exists x, (w ++ rest). splits; auto. intros E2. destruct (A4 E2) as (-> & -> & -> & -> & K1 & K2 & K3). exists v'. cbn [app] in *.
  splits; auto. eapply re_body_hd; eauto.
Qed.

(** The flags of a regular expression *)
Record ReFlags (func : N) : Prop := mkReFlags {
  rf_expand : has func STR_FUNC_EXPAND = true;
  rf_words : has func STR_FUNC_QWORDS = false;
  rf_regexp : has func STR_FUNC_REGEXP = true;
  rf_escape : has func STR_FUNC_ESCAPE = true;
  rf_indent : has func STR_FUNC_INDENT = false;
  rf_term : has func STR_FUNC_TERM = false
}.

Section Step.
  Variables (B : list N) (order : Prop) (e : Env).
  Hypothesis Hfuel : List.length B < fuel e.

  (** The end of the text before a number sign *)
  Lemma re_end_hash : forall s1 func paren term, ReFlags func -> delimiter term ->
    forall p n t d (Q : option MaybeByte * nat -> Lexer -> Prop), ~ delim paren term 35%N -> hash_at B p ->
    (forall b', Line B order b' p -> pcur b' = p -> Q (Some (Some 35%N), n) (Sx s1 t d b')) -> Cont B order e s1 func paren term 1 n p t d Q.
  Proof using All.
    intros s1 func paren term [F1 F2 F3 F4 F5 F6] HTm p n t d Q HD (Hx & Hy) HQ m b Hm HC. destruct m as [|m]; [exfalso; clear - Hm; lia|].
    destruct (delim_paren B order e s1 STR_FUNC_EXPAND paren term true false eq_refl eq_refl eq_refl eq_refl eq_refl Hfuel _ HD) as (D1 & D2).
    eapply (RegexpRead.ts_first B order e s1 func paren term F1 F2 F3 F4 F5 Hfuel HTm); eauto; [discriminate|]. intros b1 HL HP. rewrite D1, D2.
    assert (HY : exists y, nth_error B (p + 1) = Some y /\ (y = 36 \/ y = 64 \/ y = 123)%N) by (destruct Hy as [->|[->| ->]]; eauto).
    destruct HY as (y & Ty & HY).
    assert (HL1 : Line B order (set_pcur (p + 1) b1) (p + 1)) by (eapply line_step; eauto; split; discriminate).
    pose proof (ln_lt _ _ _ _ HL1) as K. cbn in K. replace (p + 1 <? pend b1) with true by (clear - K; lia).
    change (mbeq (Some 35%N) "#") with true. cbn [andb]. ws. ws.
    change (char_at (Sx s1 t d (set_pcur (p + 1) b1)) (pcur (buffer (Sx s1 t d (set_pcur (p + 1) b1))))) with (byte_at b1 (p + 1)).
    rewrite (line_bytes _ _ _ _ _ HL), Ty.
    replace (mbeq (Some y) "$" || mbeq (Some y) "@" || mbeq (Some y) "{") with true.
    2:{ symmetry. cbn. destruct HY as [->|[->| ->]]; reflexivity. }
    ws. eapply (sx_push B order e s1 STR_FUNC_EXPAND paren term true false eq_refl eq_refl eq_refl eq_refl eq_refl Hfuel); eauto. ws.
    apply HQ; [apply line_rebase; exact HL|reflexivity].
  Qed.

  Lemma re_run : forall s1 func paren term fin p n txt v dg n2 t d b (K : option MaybeByte * nat -> Lexer -> Prop),
    ReFlags func -> delimiter term -> paren <> Some term -> ~ delim paren term 35%N ->
    re_body paren term fin p n txt v dg n2 -> text_at B p txt -> nth_error B (p + List.length txt) = Some fin -> (In 10%N txt -> order) ->
    fin <> 13%N -> text_ends B true false paren term (p + List.length txt) n2 fin -> Cur B order b p ->
    (forall b', Line B order b' (p + List.length txt) -> pcur b' = p + List.length txt -> K (Some (Some fin), n2) (Sx s1 (t ++ v) (d ++ dg) b')) ->
    wp e (tokadd_string func term paren n) K (Sx s1 t d b).
  Proof using All.
    intros s1 func paren term fin p n txt v dg n2 t d b K HFl HTm D1 D3 HB HT Hfin HO H13 HE HC HK.
    pose proof HFl as [F1 F2 F3 F4 F5 F6].
    assert (Hl : p + List.length txt < List.length B) by (apply nth_error_Some; congruence).
    eapply (RegexpRead.string_run B order e s1 func paren term F1 F2 F3 F4 F5 Hfuel HTm (1 + List.length txt) n p t d b K); [|clear - Hl Hfuel; lia|exact HC].
    eapply (RegexpRead.body_step B order e s1 func paren term F1 F2 F3 F4 F5 Hfuel HTm); eauto.
    destruct HE as [E1 E2|E1 E2 E3|E1 E2 E3].
    - subst fin n2. eapply (RegexpRead.body_end_term B order e s1 func paren term F1 F2 F3 F4 F5 Hfuel HTm); eauto.
    - discriminate.
    - subst fin. eapply re_end_hash; eauto.
  Qed.

  Lemma re_content_wp : forall s p n func paren term he txt v dg n2 fin (Q : Token -> Lexer -> Prop),
    lval_start s = None -> lval_end s = None -> ReFlags func -> has func STR_FUNC_LIST = false -> delimiter term -> paren <> Some term -> ~ delim paren term 35%N ->
    Cur B order (buffer s) p -> strterm s = Some (StringLit (mkStringLiteral n func paren term he)) ->
    re_content paren term B fin p n txt v dg n2 -> text_at B p txt -> nth_error B (p + List.length txt) = Some fin -> (In 10%N txt -> order) ->
    fin <> 13%N -> text_ends B true false paren term (p + List.length txt) n2 fin ->
    (forall s', InString B order s s' (p + List.length txt) (mkStringLiteral n2 func paren term he) -> diagnostics s' = diagnostics s ++ dg ->
      Q (mkToken tSTRING_CONTENT v (mkLoc p (p + List.length txt))) s') ->
    wp e yylex Q s.
  Proof using All.
    intros s p n func paren term he txt v dg n2 fin Q S1 S2 HFl HLi HTm D1 D3 HC HS HCt HT Hfin HO H13 HEnd HQ.
    pose proof HFl as [F1 F2 F3 F4 F5 F6].
    eapply (string_start B order e Hfuel); [exact (cu_pos _ _ _ _ HC)|exact HS|]. set (s1 := string_state s p). cbn [sl_func sl_term]. rewrite F6. ws.
    assert (HC1 : Cur B order (buffer s1) p) by (apply cur_flush; exact HC).
    assert (HLast : forall b' (t : list N) (q' : nat), q' = p + List.length txt -> t = v -> Line B order b' q' -> pcur b' = q' ->
      wp e (yytail tSTRING_CONTENT) Q (set_strterm (Some (StringLit (mkStringLiteral n2 func paren term he))) (set_lval (Some t) (Sx s1 t (diagnostics s ++ dg) b')))).
    { intros b' t q' -> -> HL HP. unfold yytail. ws. ws. ws. ws. cbn. rewrite S2, HP. apply HQ; [|reflexivity].
      constructor; try reflexivity; try (split; reflexivity). apply line_cur0; auto. }
    (* a number sign that is text, and what follows *)
    assert (HHash : forall b1 y w v', Line B order b1 p -> pcur b1 = p -> txt = 35%N :: w -> v = 35%N :: v' -> nth_error B (p + 1) = Some y ->
      y <> 123%N -> ~ variable_at B (p + 1) -> y <> 13%N -> re_body paren term fin (p + 1) n w v' dg n2 ->
      wp e (parse_string_content (mkStringLiteral n func paren term he) func (Some 35%N)) (fun t s' => wp e (yytail t) Q s') (set_buffer (set_pcur (p + 1) b1) s1)).
    { intros b1 y w v' L1 P1 Etxt Ev Ty Y3 HV Y4 HB'. unfold parse_string_content. cbn [sl_term sl_paren sl_nest]. ws. ws. rewrite F1.
      change (mbeq (Some 35%N) "#") with true. cbn [andb].
      rewrite Etxt in HT, Hfin, HO, HEnd. apply text_at_cons in HT. destruct HT as (Tx & HT). cbn [List.length] in Hfin, HEnd.
      replace (p + S (List.length w)) with (p + 1 + List.length w) in * by (clear; lia).
      ws. ws. eapply (peek_none B order e Hfuel _ b1 p y); eauto. ws. ws. ws.
      eapply (cur_nx B order e _ (p + 1) y); [|exact Ty|exact Y4|].
      { apply (line_after B order b1 p 35%N); auto; discriminate. }
      intros b2 L2 P2. ws. ws. eapply (line_push B order e _ b2 (p + 1) y); [reflexivity|exact L2|exact Ty|]. ws.
      match goal with |- wp e _ _ ?S => change S with (Sx s1 [35%N] (diagnostics s) (set_pcur (p + 1) b2)) end.
      eapply re_run; eauto. { intros K. apply HO. right. exact K. } { apply line_cur. exact L2. }
      intros b' HL HP. ws. ws. pose proof (ln_rd _ _ _ _ HL) as (_ & _ & Ee).
      change (eofp (buffer (Sx s1 ([35%N] ++ v') (diagnostics s ++ dg) b'))) with (eofp b'). rewrite Ee. cbn [andb]. repeat ws. unfold restore_strterm. repeat ws.
      apply (HLast b' ([35%N] ++ v') (p + 1 + List.length w)); auto. rewrite Etxt. cbn [List.length]. clear. lia. }
    destruct HCt as [txt v dg n2 Hne HB|txt v dg n2 Hy HV HB].
    - destruct (re_body_first _ _ _ _ _ _ _ _ _ HB Hne D1 D3 H13) as (x & w & Etxt & X1 & X2 & X4).
      assert (Tx : nth_error B p = Some x) by (rewrite Etxt in HT; apply text_at_cons in HT; apply HT).
      eapply (cur_nx B order e s1 p x); eauto. intros b1 L1 P1. ws. rewrite F2. cbn [andb].
      ws. rewrite HLi. cbn [orb sl_nest]. replace (mbeq (Some x) term && (n =? 0)) with false.
      2:{ symmetry. destruct (mbeq (Some x) term) eqn:E; [|reflexivity]. apply mbeq_iff in E. injection E as ->. specialize (X2 eq_refl). cbn [andb]. clear - X2. lia. }
      destruct (mbeq (Some x) "#") eqn:EH.
      + apply mbeq_iff in EH. injection EH as EH. destruct (X4 EH) as (v' & Ev & HB' & Y1 & Y2 & Y3 & Y4).
        subst x. rewrite Etxt in HT, Hfin. apply text_at_cons in HT. destruct HT as (_ & HT). cbn [List.length] in Hfin.
        replace (p + S (List.length w)) with (p + 1 + List.length w) in Hfin by (clear; lia).
        pose proof (hd_text B (p + 1) w fin HT Hfin) as Ty. apply (HHash b1 (hd fin w) w v'); auto.
        intros V. destruct V; congruence.
      + unfold parse_string_content. cbn [sl_term sl_paren sl_nest]. ws. ws. rewrite F1, EH. cbn [andb].
        ws. ws. ws. eapply (line_push B order e _ b1 p x); [reflexivity|exact L1|exact Tx|]. ws.
        match goal with |- wp e _ _ ?S => change S with (Sx s1 [] (diagnostics s) (set_pcur p b1)) end.
        eapply re_run; eauto. { apply line_cur. exact L1. }
        intros b' HL HP. ws. ws. pose proof (ln_rd _ _ _ _ HL) as (_ & _ & Ee).
        change (eofp (buffer (Sx s1 ([] ++ v) (diagnostics s ++ dg) b'))) with (eofp b'). rewrite Ee. cbn [andb]. repeat ws. unfold restore_strterm. repeat ws.
        apply (HLast b' v (p + List.length txt)); auto.
    - assert (Tx : nth_error B p = Some 35%N) by (apply text_at_cons in HT; apply HT).
      eapply (cur_nx B order e s1 p 35%N); eauto; [discriminate|]. intros b1 L1 P1. ws. rewrite F2. cbn [andb].
      ws. rewrite HLi. cbn [orb sl_nest]. replace (mbeq (Some 35%N) term) with false.
      2:{ symmetry. apply N.eqb_neq. intros K. apply D3. left. exact K. }
      cbn [andb]. destruct Hy as [Hy|Hy]; eapply HHash; eauto; discriminate.
  Qed.

  (** ** The closing delimiter and the options *)
  (** The closing delimiter is the first byte of its token *)
  Lemma first_nx : forall s p x (Q : MaybeByte -> Lexer -> Prop), Cur B order (buffer s) p -> nth_error B p = Some x -> x <> 13%N ->
    (forall b1, Line B order b1 p -> pcur b1 = p -> ptok b1 = p -> Q (Some x) (set_buffer (set_pcur (p + 1) b1) (string_state s p))) -> wp e nextc Q (string_state s p).
  Proof using.
    clear Hfuel. intros s p x Q [W P U QQ O] Hx H13 HQ. assert (Hp : p < List.length B) by (apply nth_error_Some; congruence).
    destruct (flush_nextc B _ p W (U Hp) Hp) as (b1 & R1 & R2 & R3 & R4 & R5 & R6 & R7).
    assert (L1 : Line B order b1 p).
    { constructor; auto; [lia| |congruence]. intros A1 A2 A3. rewrite <- R2 in A1, A2, A3. destruct R1 as (W1 & _). exact (w_nosplit B b1 W1 A1 A2 A3). }
    unfold nextc, inb. apply wp_zoom. unfold wp. change (buffer (string_state s p)) with (b_token_flush (buffer s)).
    rewrite R7, <- (rd_here e b1 p R2), (line_read B order e b1 p x L1 Hx H13). apply HQ; auto.
  Qed.

  Definition not_letter (q : nat) : Prop := forall c, nth_error B q = Some c -> ~ option_letter c.

  Lemma letter_alpha : forall c, is_alpha (Some c) = true <-> option_letter c.
  Proof using. clear. intros c. unfold option_letter, is_alpha. cbn [mb_test]. unfold b_is_alpha, b_is_lower, b_is_upper, in_range. lia. Qed.

  (** Behind the last letter: one byte is read, and put back *)
  Lemma options_stop : forall s b p x (Q : Lexer -> Prop), buffer s = set_pcur (p + 1) b -> Line B order b p -> pcur b = p -> nth_error B p = Some x -> (x <> 10 /\ x <> 13)%N ->
    not_letter (p + 1) -> (forall b', Cur B order b' (p + 1) -> ptok b' = ptok b -> Q (set_buffer b' s)) ->
    wp e nextc (fun c s1 => is_alpha c = false /\ wp e (pushback c) (fun _ => Q) s1) s.
  Proof using.
    clear Hfuel. intros s b p x Q Hb HL HP Hx (H10 & H13) HN HQ. pose proof (ln_rd _ _ _ _ HL) as HR. pose proof HR as (W & N1 & N2).
    assert (HI : InL B b (p + 1)).
    { apply (inl_text B b HR p [x]).
      - rewrite <- HP. apply (w_pcur1 B b W).
      - apply text_at_cons. split; [exact Hx|reflexivity].
      - pose proof (ln_lt _ _ _ _ HL). cbn. lia.
      - intros [K|[]]. congruence.
      - intros [K|[]]. congruence.
      - discriminate. }
    assert (HC : Cur B order (set_pcur (p + 1) b) (p + 1)) by (eapply line_after; eauto; congruence).
    assert (HA : forall y, nth_error B (p + 1) = Some y -> is_alpha (Some y) = false).
    { intros y Ey. destruct (is_alpha (Some y)) eqn:E; auto. exfalso. apply letter_alpha in E. exact (HN y Ey E). }
    destruct (N.eq_dec (match nth_error B (p + 1) with Some y => y | None => 13 end) 13) as [Hy|Hy].
    - eapply (wp_nx_follow B e b HR s (p + 1)); auto. { left. exact Hb. } intros c b' K1 K2 K3 _. split.
      + destruct K1 as [->|[->|(-> & _)]]; auto. destruct (nth_error B (p + 1)); auto.
      + apply wp_push; [exact K3|]. change (buffer (set_buffer b' s)) with b'.
        destruct K2 as [->|(K2 & ->)]; [apply HQ; auto|]. apply HQ; [|reflexivity]. destruct HC as [C1 C2 C3 C4 C5]. constructor; auto.
        * destruct C1. constructor; auto.
        * intros Hp. exfalso. destruct K2 as [K2|K2].
          -- destruct HI as (_ & [I2|(I2 & I3)] & _); [clear - K2 I2; lia|]. destruct (line_last B _ I3) as (A & _). rewrite <- (w_pend B b W) in A. clear - Hp K2 A. lia.
          -- rewrite (byte_at_B B) in K2 by exact W. rewrite K2 in Hy. discriminate Hy.
    - destruct (nth_error B (p + 1)) as [y|] eqn:Ey; [|congruence].
      assert (L1 : Line B order (set_pcur (p + 1) b) (p + 1)) by (eapply line_step; eauto).
      eapply (line_nx B order e s (set_pcur (p + 1) b) (p + 1) y); auto. split; [auto|].
      eapply (line_push B order e _ (set_pcur (p + 1) b) (p + 1) y); [reflexivity|exact L1|exact Ey|].
      apply HQ; [exact HC|reflexivity].
  Qed.

  (** The loop over the letters *)
  Lemma options_loop : forall m w b p x s res (Q : list N -> Lexer -> Prop), List.length w < m ->
    buffer s = set_pcur (p + 1) b -> Line B order b p -> pcur b = p -> nth_error B p = Some x -> (x <> 10 /\ x <> 13)%N -> text_at B (p + 1) w -> Forall option_letter w ->
    not_letter (p + 1 + List.length w) ->
    (forall b', Cur B order b' (p + 1 + List.length w) -> ptok b' = ptok b -> Q (res ++ known_options w) (set_buffer b' (set_tokenbuf (tokenbuf s ++ unknown_options w) s))) ->
    wp e (loop_n m (fun result =>
       c <- nextc ;;
       match c with
       | None => ret (inr (c, result))
       | Some ch =>
           if negb (is_alpha c) then ret (inr (c, result))
           else if existsb (N.eqb ch) (bs "onesuixm") then ret (inl (result ++ [ch]))
           else tokadd ch ;;; ret (inl result)
       end) res) (fun '(c, r) => wp e (pushback c) (fun _ => Q r)) s.
  Proof using.
    clear Hfuel. induction m as [|m IH]; intros w b p x s res Q Hm Hb HL HP Hx Hc HT HW HN HQ; [exfalso; lia|]. cbn [loop_n]. ws. ws.
    destruct w as [|y w].
    - cbn [List.length] in *. rewrite Nat.add_0_r in *.
      eapply wp_conseq; [eapply (options_stop s b p x); eauto|].
      + intros b' K1 K2. specialize (HQ b' K1 K2). cbn [known_options unknown_options filter] in HQ. rewrite !app_nil_r in HQ.
        replace (set_tokenbuf (tokenbuf s) s) with s in HQ by (destruct s; reflexivity). exact HQ.
      + intros c s1 (A1 & A2). cbn beta in A2. destruct c as [ch|]; [rewrite A1; cbn [negb]|]; repeat ws; exact A2.
    - apply text_at_cons in HT. destruct HT as (Ty & HT). inversion HW as [|y' w' W1 W2]; subst y' w'.
      assert (L1 : Line B order (set_pcur (p + 1) b) (p + 1)) by (eapply line_step; eauto).
      assert (Y : (y <> 10 /\ y <> 13)%N) by (unfold option_letter in W1; clear - W1; lia).
      eapply (line_nx B order e s (set_pcur (p + 1) b) (p + 1) y); auto; [apply Y|].
      rewrite (proj2 (letter_alpha y) W1). cbn [negb].
      change (existsb (N.eqb y) (bs "onesuixm")) with (known_option y). cbn [List.length] in *.
      replace (p + 1 + S (List.length w)) with (p + 1 + 1 + List.length w) in * by (clear; lia).
      destruct (known_option y) eqn:EK; repeat ws.
      + eapply (IH w (set_pcur (p + 1) b) (p + 1) y); eauto; [clear - Hm; lia|].
        intros b' K1 K2. specialize (HQ b' K1 K2). unfold known_options, unknown_options in *. cbn [filter] in HQ. rewrite EK in HQ. cbn [negb] in HQ.
        rewrite <- app_assoc. exact HQ.
      + eapply (IH w (set_pcur (p + 1) b) (p + 1) y); eauto; [clear - Hm; lia|].
        intros b' K1 K2. specialize (HQ b' K1 K2). unfold known_options, unknown_options in *. cbn [filter] in HQ. rewrite EK in HQ. cbn [negb] in HQ.
        change (tokenbuf (set_tokenbuf (tokenbuf (set_buffer (set_pcur (p + 1 + 1) (set_pcur (p + 1) b)) s) ++ [y]) (set_buffer (set_pcur (p + 1 + 1) (set_pcur (p + 1) b)) s))) with (tokenbuf s ++ [y]).
        rewrite <- app_assoc. exact HQ.
  Qed.

  Lemma utf8_small : forall w, Forall option_letter w -> utf8_valid w = true.
  Proof using.
    clear. induction 1 as [|x l Hx Hl IH]; [reflexivity|]. unfold option_letter in Hx. destruct l; cbn [utf8_valid]; replace (x <? 128)%N with true by lia; auto.
  Qed.

  Lemma re_end_wp : forall s p func paren term he w (Q : Token -> Lexer -> Prop),
    lval_start s = None -> lval_end s = None -> ReFlags func -> has func STR_FUNC_LIST = false -> delimiter term -> term <> 10%N -> term <> 13%N -> (term < 128)%N ->
    Cur B order (buffer s) p -> strterm s = Some (StringLit (mkStringLiteral 0 func paren term he)) ->
    text_at B p (term :: w) -> Forall option_letter w -> not_letter (p + 1 + List.length w) ->
    (forall s', Behind B order s s' (p + 1 + List.length w) (options_report p w) -> Q (mkToken tREGEXP_END (term :: known_options w) (mkLoc p (p + 1 + List.length w))) s') ->
    wp e yylex Q s.
  Proof using All.
    intros s p func paren term he w Q S1 S2 HFl HLi HTm H10 H13 H128 HC HS HT HW HN HQ. pose proof HFl as [F1 F2 F3 F4 F5 F6].
    apply text_at_cons in HT. destruct HT as (Tx & HT).
    eapply (string_start B order e Hfuel); [exact (cu_pos _ _ _ _ HC)|exact HS|]. cbn [sl_func sl_term]. rewrite F6. ws.
    eapply first_nx; eauto. intros b1 L1 P1 P2. set (s1 := string_state s p). ws. rewrite F2. cbn [andb]. ws.
    rewrite HLi. cbn [sl_nest]. replace (mbeq (Some term) term) with true by (symmetry; apply N.eqb_refl). cbn [andb Nat.eqb].
    ws. unfold restore_strterm. ws. unfold string_term. ws. ws. rewrite F3. ws. unfold regx_options. ws. ws. ws. unfold loop.
    match goal with |- wp e (fun e1 s1 => loop_n (fuel e1) ?body ?x e1 s1) ?Q ?s => change (wp e (loop_n (fuel e) body x) Q s) end.
    set (REST := fun (r : list N) (s' : Lexer) => wp e (len <- gets toklen ;;
        when (0 <? len) (t <- gets tokenbuf ;; opts <- expect (if utf8_valid t then Some t else None) "expected buffer to have only utf-8 chars" ;;
          compile_error0 (UnknownRegexOptions opts)) ;;; ret r)
        (fun a0 s'0 => wp e (set_yylval (utf8_encode term ++ a0) ;;; lex_state_set EXPR_END ;;; ret tREGEXP_END) (fun t s'1 => wp e (yytail t) Q s'1) s'0) s').
    apply (wp_conseq e _ _ (fun '(c, r) => wp e (pushback c) (fun _ => REST r))); [|intros (c & r) s' K; ws; exact K].
    eapply (options_loop (fuel e) w b1 p term); eauto; [|unfold REST].
    - assert (K : List.length w <= List.length B); [|clear - K Hfuel; lia].
      destruct w as [|y w]; [cbn; lia|]. assert (K : p + 1 + List.length (y :: w) <= List.length B) by (apply text_at_len; auto; discriminate). lia.
    - intros b' K1 K2. cbn [app].
      match goal with |- wp e _ _ ?S => set (s2 := S) end.
      assert (HLast : forall s3 d, s3 = set_diagnostics (diagnostics s ++ d) s2 -> d = options_report p w ->
        wp e (set_yylval (utf8_encode term ++ known_options w) ;;; lex_state_set EXPR_END ;;; ret tREGEXP_END) (fun t s' => wp e (yytail t) Q s') s3).
      { intros s3 d -> ->. repeat ws. unfold yytail. ws. ws. ws. ws. cbn. rewrite S2. rewrite (cu_pos _ _ _ _ K1).
        replace (utf8_encode term) with [term] by (unfold utf8_encode; replace (term <? 128)%N with true by (clear - H128; lia); reflexivity).
        apply HQ. constructor; try reflexivity; try (split; reflexivity). exact K1. }
      ws. ws. change (toklen s2) with (List.length (unknown_options w)). unfold options_report in HLast. 
      destruct (unknown_options w) as [|y u] eqn:EU; cbn [List.length].
      + ws. change (0 <? 0) with false. unfold when. repeat ws. eapply HLast; [|reflexivity]. rewrite app_nil_r. reflexivity.
      + ws. change (0 <? S (List.length u)) with true. unfold when. repeat ws. change (tokenbuf s2) with (y :: u).
        rewrite <- EU, (utf8_small (unknown_options w)).
        2:{ unfold unknown_options. apply Forall_forall. intros z Hz. apply filter_In in Hz. rewrite Forall_forall in HW. apply HW. apply Hz. }
        cbn [expect]. ws. unfold compile_error0, compile_error. repeat ws. eapply HLast; [|reflexivity].
        assert (EL : current_loc s2 = mkLoc p (p + 1 + List.length w)).
        { unfold current_loc. change (buffer s2) with b'. rewrite K2, P2, (cu_pos _ _ _ _ K1). reflexivity. }
        rewrite EL, EU. reflexivity.
  Qed.
End Step.
