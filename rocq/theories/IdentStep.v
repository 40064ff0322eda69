(** * From the first byte of a word to its token *)
Require Import Verif.Base Verif.MaybeByteM Verif.Utf8M Verif.InputM Verif.DiagnosticM Verif.BufferM Verif.TokensM Verif.LexStateM Verif.StackStateM Verif.ScopesM Verif.LexerM
  Verif.ReservedM Verif.LexIdentM Verif.LexMainM
  Verif.SourceSpec Verif.SourceProofs Verif.Wp Verif.BufInv Verif.LexSpec Verif.MainInv Verif.Prop_Lexer Verif.ReadSpec Verif.YylexSpec Verif.Reach
  Verif.NumRead Verif.NewlineInv Verif.ScopeProofs Verif.IdentSpec Verif.IdentRead.
Require Import ZifyBool ZifyNat ZifyN.

Lemma word_bytes : forall w sfx c, word w sfx -> In c w -> nb c \/ c = 33%N \/ c = 63%N.
Proof.
  intros w sfx c H HI. destruct H as [w Hw|w m Hw Hm].
  - destruct (name_split _ Hw) as (u & r' & -> & Hu & Hr & _). left. apply (chars_bytes (u ++ r')); auto. apply ch_cons; auto.
  - apply in_app_or in HI. destruct HI as [HI|[<-|[]]]; [|lia].
    destruct (name_split _ Hw) as (u & r' & -> & Hu & Hr & _). left. apply (chars_bytes (u ++ r')); auto. apply ch_cons; auto.
Qed.
Lemma name_first : forall w, name w -> exists c r, w = c :: r /\ (letter c \/ (194 <= c)%N).
Proof.
  intros w [c r H _|u r H _].
  - eauto.
  - destruct H; eexists; eexists; (split; [reflexivity|]); right; lia.
Qed.
Lemma word_first : forall w sfx, word w sfx -> exists c r, w = c :: r /\ (letter c \/ (194 <= c)%N).
Proof.
  intros w sfx [w' H|w' m H _]; [apply name_first; auto|]. destruct (name_first _ H) as (c & r & -> & Hc). exists c, (r ++ [m]). auto.
Qed.
Lemma word_no : forall w sfx, word w sfx -> ~ In 10%N w /\ ~ In 13%N w.
Proof. intros w sfx H. split; intros A; destruct (word_bytes _ _ _ H A) as [K|K]; try lia; apply nb_range in K; lia. Qed.

(** Two maximal runs at the same place are the same *)
Lemma max_run : forall B u v p, Forall nb u -> Forall nb v -> text_at B p u -> text_at B p v ->
  (forall c, nth_error B (p + List.length u) = Some c -> ~ nb c) -> (forall c, nth_error B (p + List.length v) = Some c -> ~ nb c) -> u = v.
Proof.
  intros B. induction u as [|x u IH]; intros [|y v] p Hu Hv Tu Tv Eu Ev; auto.
  - exfalso. apply text_at_cons in Tv. destruct Tv as (Tv & _). inversion Hv; subst. cbn [List.length] in Eu. rewrite Nat.add_0_r in Eu. apply (Eu y); auto.
  - exfalso. apply text_at_cons in Tu. destruct Tu as (Tu & _). inversion Hu; subst. cbn [List.length] in Ev. rewrite Nat.add_0_r in Ev. apply (Ev x); auto.
  - apply text_at_cons in Tu, Tv. destruct Tu as (Tu1 & Tu2), Tv as (Tv1 & Tv2). inversion Hu; inversion Hv; subst.
    assert (x = y) by congruence. subst y. f_equal. apply (IH v (p + 1)); auto; cbn [List.length] in *; intros c Hc.
    + apply Eu. replace (p + S (List.length u)) with (p + 1 + List.length u) by lia. exact Hc.
    + apply Ev. replace (p + S (List.length v)) with (p + 1 + List.length v) by lia. exact Hc.
Qed.

Section Step.
  Variables (B : list N) (e : Env) (b : Buffer) (s1 : Lexer).
  Hypothesis HR : Ready B b.
  Local Notation St := (NumRead.St b s1).
  Local Notation Sb := (NumRead.Sb s1).

  Lemma label_no : forall w (sfx cmd : bool) b' q (Q : Tok -> Lexer -> Prop), Fin b q b' -> InL B b q ->
    (ls_is_label_possible (lex_state s1) cmd = true -> ~ single_colon B q) ->
    wp e (match (if negb (ls_is_some (lex_state s1) EXPR_DOT) then reserved_word w else None) with
          | Some kw => ident_keyword kw
          | None => ident_plain (if sfx then tFID else tCONSTANT) (lex_state s1) cmd
          end) Q (Sb w b') ->
    wp e (ident_rest s1 w sfx cmd) Q (Sb w b').
  Proof using HR.
    intros w sfx cmd b' q Q HF HI Hl HQ. unfold ident_rest. ws.
    destruct (ls_is_label_possible (lex_state s1) cmd); [|ws; exact HQ].
    specialize (Hl eq_refl). unfold is_label_suffix. ws. eapply (wp_peek_fin B e b HR); [exact HF|].
    destruct ((q + 0 <? pend b) && mbeq (nth_error B (q + 0)) ":") eqn:E1; [|ws; exact HQ].
    ws. cbn [Nat.add]. eapply (wp_peek_fin B e b HR); [exact HF|].
    apply andb_prop in E1. destruct E1 as (E0 & E1). rewrite Nat.add_0_r in E1. apply -> mbeq_iff in E1.
    assert (HB1 : nth_error B (q + 1) = Some 58%N).
    { destruct (nth_error B (q + 1)) as [y|] eqn:E2; [destruct (N.eq_dec y 58); [congruence|]|]; exfalso; apply Hl; split; auto; congruence. }
    rewrite HB1. replace (q + 1 <? pend b) with true.
    2: { symmetry. apply Nat.ltb_lt. pose proof HI as (I & _). eapply (on_line2 B b HR); eauto; lia. }
    ws. exact HQ.
  Qed.

  Lemma label_yes : forall w sfx cmd b' q (Q : Tok -> Lexer -> Prop), Fin b q b' -> InL B b q ->
    ls_is_label_possible (lex_state s1) cmd = true -> single_colon B q ->
    Q tLABEL (set_lval (Some w) (set_lex_state (N.lor EXPR_ARG EXPR_LABELED) (Sb w (set_pcur (q + 1) b)))) ->
    wp e (ident_rest s1 w sfx cmd) Q (Sb w b').
  Proof using HR.
    intros w sfx cmd b' q Q HF HI Hl (Hc1 & Hc2) HQ. unfold ident_rest. ws. rewrite Hl. unfold is_label_suffix. ws.
    eapply (wp_peek_fin B e b HR); [exact HF|]. rewrite Nat.add_0_r, Hc1.
    pose proof (on_line B b HR q 58%N HI Hc1) as Hon. replace (q <? pend b) with true by lia. change (true && mbeq (Some 58%N) ":") with true. cbv iota.
    ws. cbn [Nat.add]. eapply (wp_peek_fin B e b HR); [exact HF|].
    replace (mbeq (nth_error B (q + 1)) ":") with false.
    2: { symmetry. destruct (mbeq _ _) eqn:EM; auto. apply -> mbeq_iff in EM. contradiction. }
    rewrite andb_false_r. ws. cbn [negb]. ws. ws. ws.
    assert (Hb' : b' = set_pcur q b).
    { destruct HF as [->|([HF|HF] & _)]; [reflexivity|lia|]. rewrite (byte_at_B B) in HF by apply HR. congruence. }
    subst b'. eapply (wp_nx B e b HR) with (p := q) (x := 58%N); [reflexivity|exact Hon|exact Hc1|lia|]. ws. ws. ws. exact HQ.
  Qed.

  Lemma name_dispatch : forall w sfx c r q cmd sp seen last (R : Step -> Lexer -> Prop), word w sfx -> w = c :: r ->
    text_at B q w -> pbeg b <= q -> q + List.length w <= pend b -> word_ends B (q + List.length w) sfx -> w <> bs "__END__" ->
    R (Ident (Some c)) (St [] (q + 1)) -> wp e (lex_char (Some c) cmd sp seen last) R (set_buffer (set_pcur (q + 1) b) s1).
  Proof using HR.
    intros w sfx c r q cmd sp seen last R Hw Ew Ht Hb Hl He Hend HQ.
    assert (Hc : letter c \/ (194 <= c)%N). { destruct (word_first _ _ Hw) as (c' & r' & E & H). rewrite Ew in E. injection E as -> ->. exact H. }
    assert (Hn : forall x, (x < 65 \/ 90 < x < 95 \/ x = 96 \/ 122 < x < 194)%N -> mbeq (Some c) x = false).
    { intros x Hx. cbn. unfold letter in Hc. lia. }
    assert (Hcq : nth_error B q = Some c) by (rewrite Ew in Ht; apply text_at_cons in Ht; apply Ht).
    pose proof HR as (W & N1 & N2).
    unfold lex_char. rewrite !Hn by lia.
    replace (N.eqb c 0 || N.eqb c 4 || N.eqb c 26) with false by (unfold letter in *; lia).
    replace (N.eqb c 13) with false by (unfold letter in *; lia).
    replace (N.eqb c 32 || N.eqb c 9 || N.eqb c 12 || N.eqb c 11) with false by (unfold letter in *; lia).
    replace (N.eqb c 10) with false by (unfold letter in *; lia).
    replace (b_is_digit c) with false by (symmetry; unfold b_is_digit, in_range, letter in *; lia).
    destruct (mbeq (Some c) "_") eqn:EU; cbn [orb]; cbv iota.
    - apply -> mbeq_iff in EU. injection EU as EU. unfold lex_underscore. ws. ws.
      destruct (was_bol _ && is_whole_match _ _ _) eqn:EW; [|ws; ws; ws; rewrite EU; rewrite EU in HQ; exact HQ].
      exfalso. apply andb_prop in EW. destruct EW as (E1 & E2).
      unfold was_bol in E1. cbn [buffer set_buffer pcur set_pcur pbeg] in E1.
      assert (Hq : q = pbeg b) by lia. unfold is_whole_match in E2. cbn [buffer set_buffer set_pcur pbeg pend] in E2.
      change (List.length (bs "__END__")) with 7 in E2. 
      destruct (pend b <? pbeg b + 7) eqn:E3; [discriminate|].
      destruct (_ && _ && _) eqn:E4 in E2; [discriminate|].
      assert (HT : text_at B q (bs "__END__")).
      { unfold b_substr_at, substr_at in E2. cbn [input set_buffer set_pcur buffer] in E2. pose proof (w_bytes B b W) as WB. unfold bytes in WB. rewrite WB in E2.
        destruct (_ && _) in E2; [|discriminate]. cbn [opt_bytes_eqb] in E2. apply -> ScopeProofs.bytes_eqb_eq in E2. unfold text_at. rewrite Hq.
        replace (pbeg b + 7 - pbeg b) with 7 in E2 by lia. exact E2. }
      assert (HA : q + 7 < pend b -> nth_error B (q + 7) = Some 10%N \/ nth_error B (q + 7) = Some 13%N).
      { intros HA. unfold byte_at in E4. cbn [input set_buffer set_pcur buffer] in E4. rewrite !(rd_at B b HR), <- Hq in E4.
        replace (0 <? pend b - (q + 7)) with true in E4 by (clear E4; lia). cbn [andb] in E4.
        destruct (mbeq (nth_error B (q + 7)) 10%N) eqn:E5; [left; apply mbeq_iff; exact E5|].
        destruct (mbeq (nth_error B (q + 7)) 13%N) eqn:E6; [right; apply mbeq_iff; exact E6|]. discriminate E4. }
      assert (HE : forall c, nth_error B (q + 7) = Some c -> q + 7 < pend b -> ~ nb c).
      { clear E4. intros x Hx H7. destruct (HA H7) as [A|A]; rewrite A in Hx; injection Hx as <-; intros A'; apply nb_range in A'; lia. }
      clear E4.
      assert (HEN : Forall nb (bs "__END__")). { clear. change (bs "__END__") with [95; 95; 69; 78; 68; 95; 95]%N. repeat (apply Forall_cons; [left; unfold letter; lia|]). constructor. }
      (* the name in w *)
      assert (HM : forall v, name v -> text_at B q v -> q + List.length v <= pend b -> name_ends B (q + List.length v) -> v = bs "__END__").
      { intros v Hv Tv Lv Ev. destruct (name_split _ Hv) as (u & r' & E & Hu & Hr & _).
        assert (Fv : Forall nb v). { apply Forall_forall. intros x Hx. rewrite E in Hx. apply (chars_bytes (u ++ r')); auto. apply ch_cons; auto. }
        assert (Ev' : forall c, nth_error B (q + List.length v) = Some c -> ~ nb c).
        { intros x Hx. destruct (Ev x Hx) as (A1 & A2 & A3). unfold nb. intros [A|[A|A]]; auto. lia. }
        apply (max_run B v (bs "__END__") q); auto. change (List.length (bs "__END__")) with 7. intros x Hx Hnx.
        destruct (Nat.lt_ge_cases (q + 7) (pend b)) as [H7|H7]; [apply (HE x Hx H7 Hnx)|].
        destruct (Nat.lt_trichotomy (List.length v) 7) as [G|[G|G]].
        - assert (HX : exists y, nth_error B (q + List.length v) = Some y /\ In y (bs "__END__")).
          { destruct (nth_error (bs "__END__") (List.length v)) as [y|] eqn:Ey.
            - exists y. split; [exact (text_nth _ _ _ _ _ HT Ey)|eapply nth_error_In; eauto].
            - apply nth_error_None in Ey. change (List.length (bs "__END__")) with 7 in Ey. lia. }
          destruct HX as (y & Y1 & Y2). apply (Ev' y Y1). rewrite Forall_forall in HEN. apply HEN. exact Y2.
        - rewrite <- G in Hx. apply (Ev' x Hx Hnx).
        - lia. }
      destruct Hw as [v Hv|v m Hv Hm].
      + apply Hend. apply HM; auto. apply He.
      + rewrite app_length in *. cbn [List.length] in *. apply text_at_app in Ht. destruct Ht as (Ht & Htm). apply text_at_cons in Htm. destruct Htm as (Htm & _).
        assert (v = bs "__END__"). { apply HM; auto; [lia|]. intros x Hx. rewrite Htm in Hx. injection Hx as <-. unfold letter, digit. lia. }
        subst v. change (List.length (bs "__END__")) with 7 in *. destruct (HA ltac:(lia)) as [A|A]; rewrite Htm in A; injection A as A; lia.
    - clear EU. unfold lex_other. ws. unfold is_identchar. ws. ws. change (buffer (set_buffer (set_pcur (q + 1) b) s1)) with (set_pcur (q + 1) b).
      cbn [eofp set_pcur pcur]. rewrite N2. ws. apply wp_sub_ck; [lia|]. ws. replace (q + 1 - 1) with q by lia.
      replace (b_is_identchar (set_pcur (q + 1) b) q) with true.
      2: { symmetry. apply (identchar_nb B b q c HR Hcq). unfold nb. destruct Hc; auto. right. right. lia. }
      cbn [negb]. ws. ws. ws. exact HQ.
  Qed.
End Step.

(** A word as the next token *)
Lemma word_start : forall B n upper s p sp w sfx (Q : Token -> Lexer -> Prop),
  LInv B s -> strterm s = None -> upcoming (buffer s) p -> text_at B p (sp ++ w) -> spacing (buffer s) sp -> word w sfx ->
  word_ends B (p + List.length sp + List.length w) sfx -> w <> bs "__END__" ->
  (ls_is_some (lex_state s) EXPR_FNAME = true -> nth_error B (p + List.length sp + List.length w) <> Some 61%N) ->
  List.length B < n ->
  (forall b b' s1, s1 = set_token_seen true (set_command_start false (set_lval None s)) -> Ready B b -> ptok b = p + List.length sp ->
     Fin b (p + List.length sp + List.length w) b' ->
     InL B b (p + List.length sp + List.length w) -> (in_order (buffer s) -> in_order b) ->
     wp (plain_env n upper) (ident_rest s1 w sfx (command_start s)) (fun t s'' => wp (plain_env n upper) (yytail t) Q s'') (NumRead.Sb s1 w b')) ->
  wp (plain_env n upper) yylex Q s.
Proof.
  intros B n upper s p sp w sfx Q HL ST HU HT HS HW HE Hend Hfn Hn HQ. pose proof HL as [L1 L2 L3 (L4 & L5)].
  destruct (word_first w sfx HW) as (d & r & Hw & Hd). destruct (word_no w sfx HW) as (Hn10 & Hn13).
  set (q := p + List.length sp) in *.
  assert (HT2 : text_at B q w) by (apply text_at_app in HT; apply HT).
  assert (HLen : q + List.length w <= List.length B) by (apply text_at_len; auto; rewrite Hw; discriminate).
  apply (yylex_start B (plain_env n upper) s p sp d r); auto.
  - rewrite <- Hw. exact HT.
  - intros ->. apply Hn13. rewrite Hw. left. reflexivity.
  - cbn [plain_env fuel]. unfold q in *. lia.
  - fold q. intros b HR HP1 HP2 HP3 HH HO.
    pose proof HR as (W & N1 & N2). pose proof (w_pcur1 B b W) as WP. pose proof (w_pbeg B b W) as WB.
    assert (HF : q + List.length w <= pend b) by (apply fits with (B := B); auto; lia).
    eapply (name_dispatch B (plain_env n upper) b _ HR w sfx d r q); eauto; [lia|].
    eapply (parse_ident_ok B (plain_env n upper) b _ HR w sfx d r q); eauto; try lia; try (cbn [plain_env fuel]; lia).
Qed.

(** The end of a token *)
Lemma tail_ok : forall e t (Q : Token -> Lexer -> Prop) s a z v, lval_start s = None -> lval_end s = None -> tok_eqb t tNL = false ->
  ptok (buffer s) = a -> pcur (buffer s) = z -> (lval s = Some v \/ (lval s = None /\ b_substr_at (buffer s) a z = Some v)) ->
  Q (mkToken t v (mkLoc a z)) (set_lval None (set_lval_end None (set_lval_start None s))) -> wp e (yytail t) Q s.
Proof.
  intros e t Q s a z v H1 H2 H3 H4 H5 H6 HQ. unfold yytail. ws. ws. ws. ws. rewrite H1, H2, H3, H4, H5. ws.
  destruct H6 as [->|(-> & ->)]; exact HQ.
Qed.
