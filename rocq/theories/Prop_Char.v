(** * C56: character literals *)
Require Import Verif.Base Verif.MaybeByteM Verif.Utf8M Verif.InputM Verif.DiagnosticM Verif.TokensM Verif.BufferM Verif.LexStateM
  Verif.LexerM Verif.LexStringM Verif.LexIdentM Verif.LexMainM Verif.ParserClientM
  Verif.SourceSpec Verif.SourceProofs Verif.Wp Verif.BufInv Verif.LexSpec Verif.NewlineInv Verif.MainInv Verif.RunInv Verif.Prop_Lexer
  Verif.ReadSpec Verif.YylexSpec Verif.Reach Verif.NumberSpec Verif.NumRead Verif.IdentSpec Verif.IdentRead Verif.IdentStep Verif.Prop_Ident
  Verif.OpSpec Verif.OpStep Verif.OpMore Verif.StringSpec Verif.StrNum Verif.StrRead Verif.CharSpec.
Require Verif.Prop_String.
Require Import ZifyBool ZifyNat ZifyN.

(** ** From the question mark to the token *)

(** What the reading of the token that starts at [q] leaves: the token goes up to [z], and starts at [a] *)
Record Read (B : list N) (s : Lexer) (k : Tok) (v : list N) (a z : nat) (st : N) (ds : list Diagnostic) (t : Tok) (s' : Lexer) : Prop := mkRead {
  re_tok : t = k; re_from : ptok (buffer s') = a; re_pos : pcur (buffer s') = z; re_next : z < List.length B -> upcoming (buffer s') z;
  re_order : in_order (buffer s) -> in_order (buffer s');
  re_lval : lval s' = Some v \/ (lval s' = None /\ b_substr_at (buffer s') a z = Some v);
  re_state : lex_state s' = st; re_diags : diagnostics s' = diagnostics s ++ ds;
  re_rest : strterm s' = strterm s /\ command_start s' = false /\ comments s' = comments s /\ lval_start s' = lval_start s /\ lval_end s' = lval_end s /\
    (paren_nest s' = paren_nest s /\ brace_nest s' = brace_nest s /\ lpar_beg s' = lpar_beg s) /\ (cond s' = cond s /\ cmdarg s' = cmdarg s) /\
    (context s' = context s /\ static_env s' = static_env s)
}.

Lemma mark_step : forall B n upper s p sp r k v z st ds (R : nat -> Prop),
  Prop_String.Place B n upper s p sp (63%N :: r) -> tok_eqb k tNL = false ->
  (forall b s1, s1 = set_token_seen true (set_command_start false (set_lval None s)) -> Ready B b -> pcur b = p + List.length sp -> ptok b = p + List.length sp -> pbeg b <= p + List.length sp ->
     p + List.length sp < pend b -> Z.ltb 0 (heredoc_indent b) = false -> (in_order (buffer s) -> in_order b) ->
     wp (plain_env n upper) (parse_qmark (nonempty sp)) (fun t s' => exists a, R a /\ Read B (set_command_start false s) k v a z st ds t s')
       (set_buffer (set_pcur (p + List.length sp + 1) b) s1)) ->
  exists a s', R a /\ yylex (plain_env n upper) s = Ok (mkToken k v (mkLoc a z)) s' /\ Passed B s s' z st false ds.
Proof.
  intros B n upper s p sp r k v z st ds R [P1 P2 P3 P4 P5 P6 P7 P8] Hk HM.
  pose proof (reached_inv B n upper s P1) as [L1 L2 L3 (L4 & L5)]. unfold Prop_String.no_squiggly in P6.
  set (q := p + List.length sp) in *.
  assert (HB : q < List.length B) by (apply text_at_app in P4; destruct P4 as (_ & P4); apply text_at_cons in P4; destruct P4 as (P4 & _); apply nth_error_Some; unfold q; congruence).
  enough (HG : wp (plain_env n upper) yylex (fun t s' => exists a, R a /\ t = mkToken k v (mkLoc a z) /\ Passed B s s' z st false ds) s).
  { unfold wp in HG. destruct (yylex (plain_env n upper) s) as [t s'|msg|]; try contradiction. destruct HG as (a & H1 & -> & H2). exists a, s'. auto. }
  apply (yylex_start B (plain_env n upper) s p sp 63%N r); auto; [discriminate|cbn [plain_env fuel]; unfold q in *; lia|].
  fold q. intros b HR HP1 HP2 HP3 HH HO. pose proof HR as (W & N1 & N2). pose proof (w_pcur1 B b W) as WP.
  cbv beta iota zeta delta [lex_char mbeq N.eqb Pos.eqb orb b_is_digit in_range N.leb N.compare Pos.compare Pos.compare_cont andb]. repeat go.
  eapply wp_conseq; [eapply HM; eauto; lia|]. cbv beta. intros t s' (a & Ra & [E1 E2 E3 E4 E5 E6 E7 E8 (E9 & E10 & E11 & E12 & E13 & E14 & E15 & E16)]). subst t. ws.
  apply (tail_ok _ k _ s' a z v); auto.
  - rewrite E12. exact L4.
  - rewrite E13. exact L5.
  - exists a. splits; auto. constructor; auto. rewrite <- P2. exact E9.
Qed.

(** ** Reading the literal *)
Lemma escaped_head : forall nxt m k w v, escaped_byte nxt m k w v -> exists x r, w = x :: r /\ x <> 117%N /\ (x < 128)%N.
Proof.
  intros nxt m k w v H. assert (P : forall pre u, control_prefix pre -> exists x r, pre ++ u = x :: r /\ x <> 117%N /\ (x < 128)%N).
  { intros pre u K. destruct K; cbn [app]; eexists; eexists; splits; [reflexivity|discriminate|reflexivity|reflexivity|discriminate|reflexivity]. }
  destruct H; try (apply P; assumption).
  - eexists; eexists; splits; [reflexivity|discriminate|reflexivity].
  - eexists; eexists; splits; [reflexivity| |]; destruct H; (discriminate || reflexivity).
  - destruct H as ((_ & _ & _ & _ & K & _) & _). eauto.
  - destruct ds as [|x r]; [cbn in H0; lia|]. exists x, r. inversion H; subst. unfold octal in *. splits; auto; lia.
  - eexists; eexists; splits; [reflexivity|discriminate|reflexivity].
  - eexists; eexists; splits; [reflexivity|discriminate|reflexivity].
  - eexists; eexists; splits; [reflexivity|discriminate|reflexivity].
Qed.

Section Mark.
  Variables (B : list N) (n : nat) (upper : N -> bool) (s s1 : Lexer) (b : Buffer) (q : nat) (sp : bool).
  Hypothesis Hs1 : s1 = set_token_seen true (set_command_start false (set_lval None s)).
  Hypothesis HR : Ready B b.
  Hypothesis Hq : ptok b = q.
  Hypothesis Hb : pbeg b <= q.
  Hypothesis HF : q < pend b.
  Hypothesis HH : Z.ltb 0 (heredoc_indent b) = false.
  Hypothesis HO : in_order (buffer s) -> in_order b.
  Hypothesis Hn : List.length B < n.
  Hypothesis Hmark : nth_error B q = Some 63%N.
  Hypothesis Hend : ~ end_place (lex_state s).
  Local Notation e := (plain_env n upper).
  Local Notation St := (NumRead.St b s1).
  Local Notation Line := (StrRead.Line B (in_order (buffer s))).

  Lemma inl_fits : forall z, InL B b z -> z <= pend b.
  Proof using. clear. intros z (_ & [H|(H & _)] & _); lia. Qed.

  Lemma up_z : forall z, InL B b z -> z < List.length B -> upcoming (set_pcur z b) z.
  Proof using HR. clear -HR.
    intros z (I1 & I2 & _) Hz. pose proof HR as (W & N1 & N2). split; [exact N2|]. left. splits; auto. cbn.
    destruct I2 as [I2|(I2 & I3)]; [exact I2|exfalso]. destruct (line_last B _ I3) as (A & _). rewrite <- (w_pend B b W) in A. lia.
  Qed.

  Lemma finish : forall v z, InL B b z ->
    wp e qmark_char (fun t s' => exists a, a = q /\ Read B (set_command_start false s) tCHAR v a z EXPR_END [] t s') (St v z).
  Proof using All.
    intros v z HI. unfold qmark_char, tokenbuf_take. repeat go. unfold set_yylval. repeat go. unfold lex_state_set. repeat go.
    exists q. split; auto. constructor.
    - reflexivity.
    - exact Hq.
    - reflexivity.
    - intros Hz. exact (up_z z HI Hz).
    - exact HO.
    - left. reflexivity.
    - reflexivity.
    - rewrite Hs1. cbn. rewrite app_nil_r. reflexivity.
    - rewrite Hs1. splits; reflexivity.
  Qed.

  (** Up to the first character *)
  Lemma first : forall x (Q : Tok -> Lexer -> Prop), nth_error B (q + 1) = Some x -> ~ white_byte x -> q + 1 < pend b ->
    wp e (let c := Some x in
      a <- is_ascii_cur ;;
      b <- getb ;;
      if negb a then
        ok <- tokadd_mbchar c ;;
        if negb ok then ret END_OF_INPUT else qmark_char
      else if (is_alnum c || mbeq c "_") && (pcur b <? pend b) && b_is_identchar b (pcur b) then
        if sp then
          ok <- qmark_warn_ternary ;;
          if negb ok then ret END_OF_INPUT else parse_qmark_ternary c
        else parse_qmark_ternary c
      else if mbeq c "\" then
        p <- peek "u" ;;
        if p : bool then
          nextc ;;;
          tokadd_utf8 None false ;;;
          qmark_char
        else if negb (is_eol b) && negb (is_ascii (byte_at b (pcur b))) then
          let c := byte_at b (pcur b) in
          nextc ;;;
          ok <- tokadd_mbchar c ;;
          if negb ok then ret END_OF_INPUT else qmark_char
        else
          byte <- read_escape 0 ;;
          tokadd_mb byte ;;;
          qmark_char
      else
        tokadd_mb c ;;;
        qmark_char) Q (St [] (q + 2)) ->
    wp e (parse_qmark sp) Q (set_buffer (set_pcur (q + 1) b) s1).
  Proof using All.
    intros x Q Hx Hw Hl HQ. assert (H13 : x <> 13%N) by (intros ->; apply Hw; unfold white_byte; lia).
    unfold parse_qmark. ws. ws. change (lex_state (set_buffer (set_pcur (q + 1) b) s1)) with (lex_state s1).
    replace (ls_is_end (lex_state s1)) with false.
    2:{ symmetry. apply Bool.not_true_is_false. intros A. apply end_bits in A. rewrite Hs1 in A. exact (Hend A). }
    ws. eapply (wp_nx B e b HR _ (q + 1)); try reflexivity; eauto. cbn [is_eof].
    replace (is_space (Some x)) with false by (symmetry; cbn; unfold b_is_space, in_range, white_byte in *; lia).
    ws. unfold newtok. ws. replace (q + 1 + 1) with (q + 2) by lia. exact HQ.
  Qed.

  Lemma sx_st : forall t z, Sx s1 t (diagnostics s1) (set_pcur z b) = St t z.
  Proof using. clear. intros t z. unfold Sx, NumRead.St. destruct s1; reflexivity. Qed.
  Lemma line_z : forall z, InL B b z -> pcur b <= z -> z < List.length B -> Line (set_pcur z b) z.
  Proof using HR HH HO. clear -HR HH HO.
    intros z HI Hc Hz. pose proof HI as (I1 & I2 & I3). apply line_rebase. constructor; auto.
    destruct (up_z z HI Hz) as (_ & [(_ & A & _)|(l & _ & _ & A)]); [exact A|]. pose proof HR as (W & N1 & N2). specialize (A N1). cbn in A.
    destruct I2 as [I2|(I2 & I2')]; [exact I2|]. exfalso. destruct (line_last B _ I2') as (K & _). rewrite <- (w_pend B b W) in K. lia.
  Qed.
  Lemma ascii_at : forall t z x (Q : bool -> Lexer -> Prop), nth_error B z = Some x -> Q (x <? 128)%N (St t (z + 1)) -> wp e is_ascii_cur Q (St t (z + 1)).
  Proof using HR. clear -HR.
    intros t z x Q Hx HQ. unfold is_ascii_cur. ws. ws. ws. apply wp_sub_ck; [cbn; lia|]. ws.
    change (pcur (buffer (St t (z + 1)))) with (z + 1). replace (z + 1 - 1) with z by lia.
    change (byte_at (buffer (St t (z + 1))) z) with (byte_at b z). pose proof HR as (W & _). rewrite (byte_at_B B b z W), Hx. exact HQ.
  Qed.

  Lemma character_run : forall txt v z, z = q + 1 + List.length txt -> text_at B (q + 1) txt -> ~ In 10%N txt -> ~ In 13%N txt -> InL B b z -> pcur b <= q -> character B z txt v ->
    wp e (parse_qmark sp) (fun t s' => exists a, a = q /\ Read B (set_command_start false s) tCHAR v a z EXPR_END [] t s') (set_buffer (set_pcur (q + 1) b) s1).
  Proof using All.
    intros txt v z Hz HT H10 H13 HI Hpc HC. pose proof (inl_fits z HI) as HZ.
    assert (HX : exists x r, txt = x :: r /\ ~ white_byte x).
    { destruct HC as [c C1 C2 C3 C4|u C1|w v nxt C1 C2|u C1]; [eauto| | |].
      - destruct C1; eexists; eexists; (split; [reflexivity|]); unfold white_byte; lia.
      - eexists; eexists; (split; [reflexivity|]); unfold white_byte; lia.
      - eexists; eexists; (split; [reflexivity|]); unfold white_byte; lia. }
    destruct HX as (x & r & Etxt & Hw). pose proof HT as HT0. rewrite Etxt in HT0. apply text_at_cons in HT0. destruct HT0 as (Hx & HTr).
    apply (first x); auto; [rewrite Etxt in Hz; cbn in Hz; lia|]. cbv zeta. ws.
    replace (q + 2) with (q + 1 + 1) in * by lia. eapply ascii_at; eauto. ws. ws. change (buffer (St [] (q + 1 + 1))) with (set_pcur (q + 1 + 1) b).
    cbn [pcur set_pcur].
    destruct HC as [c C1 C2 C3 C4|u C1|w v nxt C1 C2|u C1].
    - injection Etxt as <- <-. replace (c <? 128)%N with true by lia. cbn [negb].
      replace ((is_alnum (Some c) || mbeq (Some c) "_") && (q + 1 + 1 <? pend (set_pcur (q + 1 + 1) b)) && b_is_identchar (set_pcur (q + 1 + 1) b) (q + 1 + 1)) with false.
      2:{ symmetry. apply Bool.not_true_is_false. intros A. apply andb_prop in A. destruct A as (A & A3). apply andb_prop in A. destruct A as (A1 & A2).
          assert (L : letter c \/ digit c). { revert A1. cbn. unfold b_is_alnum, b_is_alpha, b_is_upper, b_is_lower, b_is_digit, in_range, letter, digit. clear. lia. }
          specialize (C4 L). cbn [List.length] in Hz. replace (q + 1 + 1) with z in A3 by lia.
          destruct (nth_error B z) as [y|] eqn:Ey; [|unfold b_is_identchar in A3; cbn [input set_pcur] in A3; rewrite (rd_at B b HR), Ey in A3; discriminate].
          change (b_is_identchar b z = true) in A3. apply (identchar_nb B b z y HR Ey) in A3. destruct (C4 y Ey) as (D1 & D2 & D3). unfold nb in A3. intuition lia. }
      replace (mbeq (Some c) "\") with false by (symmetry; apply N.eqb_neq; exact C3). ws. ws.
      subst z. cbn [List.length] in *. apply (finish [c]). exact HI.
    - replace (x <? 128)%N with false by (destruct C1; injection Etxt as <- _; lia). cbn [negb]. ws.
      rewrite Etxt in *. apply (mbchar_ok B e b s1 HR x r (q + 1) []); auto.
      + apply nch_wide. exact C1.
      + cbn [List.length] in Hz. lia.
      + cbn [negb app]. subst z. cbn [List.length] in *. apply finish. exact HI.
    - injection Etxt as <- <-. change (92 <? 128)%N with true. cbn [negb].
      change ((is_alnum (Some 92%N) || mbeq (Some 92%N) "_")) with false. cbn [andb]. change (mbeq (Some 92%N) "\") with true. cbv iota. ws.
      destruct (escaped_head _ _ _ _ _ C2) as (y & r & Ew & Hy1 & Hy2).
      assert (Hyn : nth_error B (q + 1 + 1) = Some y). { rewrite Ew in HTr. apply text_at_cons in HTr. apply HTr. }
      assert (HI2 : InL B b (q + 1 + 1)). { replace (q + 1 + 1) with (q + 1 + List.length [92%N]) by (cbn; lia). apply inl_text; auto; try lia; [apply text_at_cons; split; [exact Hx|reflexivity]|cbn in *; lia|intros [A|[]]; discriminate..|discriminate]. }
      assert (HL2 : Line (set_pcur (q + 1 + 1) b) (q + 1 + 1)). { apply line_z; auto; [lia|apply nth_error_Some; congruence]. }
      rewrite <- sx_st.
      assert (E2 : has STR_FUNC_EXPAND STR_FUNC_EXPAND = true) by reflexivity.
      eapply (sx_peek B (in_order (buffer s)) e s1 STR_FUNC_EXPAND None 34 true false eq_refl eq_refl eq_refl eq_refl eq_refl Hn); [exact HL2|reflexivity|exact Hyn|].
      replace (N.eqb "u"%bn y) with false by (symmetry; apply N.eqb_neq; change ("u"%bn) with 117%N; congruence).
      pose proof HR as (W & _).
      replace (negb (is_ascii (byte_at (set_pcur (q + 1 + 1) b) (q + 1 + 1)))) with false.
      2:{ change (byte_at (set_pcur (q + 1 + 1) b) (q + 1 + 1)) with (byte_at b (q + 1 + 1)). rewrite (byte_at_B B b _ W), Hyn. cbn. unfold b_is_ascii. lia. }
      rewrite andb_false_r. ws. subst z. cbn [List.length] in *. replace (q + 1 + S (List.length w)) with (q + 1 + 1 + List.length w) in * by lia.
      eapply wp_conseq; [apply (re_byte B (in_order (buffer s)) e s1 STR_FUNC_EXPAND None 34 true false eq_refl eq_refl eq_refl eq_refl eq_refl Hn nxt false false w v C2 3 (Nat.le_refl 3) [] (diagnostics s1) (set_pcur (q + 1 + 1) b) (q + 1 + 1) HL2 eq_refl HTr C1)|].
      cbv beta. intros r' s' (-> & ->). ws. ws. change (set_pcur (q + 1 + 1 + List.length w) (set_pcur (q + 1 + 1) b)) with (set_pcur (q + 1 + 1 + List.length w) b).
      rewrite sx_st. apply (finish [v]). exact HI.
    - injection Etxt as <- <-. change (92 <? 128)%N with true. cbn [negb].
      change ((is_alnum (Some 92%N) || mbeq (Some 92%N) "_")) with false. cbn [andb]. change (mbeq (Some 92%N) "\") with true. cbv iota. ws.
      destruct (char_ne u (nch_wide u C1)) as (y & r & Eu). assert (Hy : (128 <= y)%N) by (destruct C1; injection Eu as <- _; lia).
      assert (Hyn : nth_error B (q + 1 + 1) = Some y). { rewrite Eu in HTr. apply text_at_cons in HTr. apply HTr. }
      assert (HI2 : InL B b (q + 1 + 1)). { replace (q + 1 + 1) with (q + 1 + List.length [92%N]) by (cbn; lia). apply inl_text; auto; try lia; [apply text_at_cons; split; [exact Hx|reflexivity]|cbn in *; lia|intros [A|[]]; discriminate..|discriminate]. }
      assert (HL2 : Line (set_pcur (q + 1 + 1) b) (q + 1 + 1)). { apply line_z; auto; [lia|apply nth_error_Some; congruence]. }
      rewrite <- sx_st.
      eapply (sx_peek B (in_order (buffer s)) e s1 STR_FUNC_EXPAND None 34 true false eq_refl eq_refl eq_refl eq_refl eq_refl Hn); [exact HL2|reflexivity|exact Hyn|].
      replace (N.eqb "u"%bn y) with false by (symmetry; apply N.eqb_neq; change ("u"%bn) with 117%N; lia). rewrite sx_st.
      pose proof HR as (W & _). change (byte_at (set_pcur (q + 1 + 1) b) (q + 1 + 1)) with (byte_at b (q + 1 + 1)). rewrite (byte_at_B B b _ W), Hyn.
      assert (HL3 : q + 1 + 1 < pend b) by (apply (ln_lt _ _ _ _ HL2)).
      replace (negb (is_eol (set_pcur (q + 1 + 1) b)) && negb (is_ascii (Some y))) with true.
      2:{ symmetry. unfold is_eol, is_eol_n. cbn. unfold b_is_ascii. lia. }
      ws. eapply (st_nx B e b s1 HR); eauto; [lia|]. ws. subst z. rewrite Eu in *. cbn [List.length] in *.
      apply (mbchar_ok B e b s1 HR y r (q + 1 + 1) []); auto.
      + apply nch_wide. exact C1.
      + lia.
      + cbn [negb app]. replace (q + 1 + 1 + S (List.length r)) with (q + 1 + S (S (List.length r))) by lia. apply finish. exact HI.
  Qed.
  (** *** Code points *)
  Local Notation Cur := (StrRead.Cur B (in_order (buffer s))).
  Lemma finish_at : forall v z b', Cur b' z ->
    wp e qmark_char (fun t s' => exists a, True /\ Read B (set_command_start false s) tCHAR v a z EXPR_END [] t s') (Sx s1 v (diagnostics s1) b').
  Proof using All.
    intros v z b' [W P U Q O]. unfold qmark_char, tokenbuf_take. repeat go. unfold set_yylval. repeat go. unfold lex_state_set. repeat go.
    exists (ptok b'). split; [exact I|]. constructor.
    - reflexivity.
    - reflexivity.
    - exact P.
    - exact U.
    - exact O.
    - left. reflexivity.
    - reflexivity.
    - rewrite Hs1. cbn. rewrite app_nil_r. reflexivity.
    - rewrite Hs1. splits; reflexivity.
  Qed.

  Lemma code_run : forall txt cp z nxt, z = q + 1 + List.length txt -> text_at B (q + 1) txt -> pcur b <= q -> code_escape txt cp -> scalar cp -> q + 1 + List.length txt <= pend b ->
    nth_error B z = Some nxt ->
    wp e (parse_qmark sp) (fun t s' => exists a, True /\ Read B (set_command_start false s) tCHAR (utf8 cp) a z EXPR_END [] t s') (set_buffer (set_pcur (q + 1) b) s1).
  Proof using All.
    intros txt cp z nxt Hz HT Hpc HC Hcp HP Hnxt.
    assert (HX : exists r, txt = 92%N :: 117%N :: r /\ r <> []).
    { destruct HC as [ds D1 D2|gap ds gap' D1 D2 D3 D4]; [|eexists; split; [reflexivity|discriminate]]. exists ds. split; [reflexivity|]. intros ->. discriminate. }
    destruct HX as (r & Etxt & Hr). pose proof HT as HT0. rewrite Etxt in HT0. apply text_at_cons in HT0. destruct HT0 as (Hx & HT0). apply text_at_cons in HT0. destruct HT0 as (Hu & HT0).
    destruct r as [|y r]; [congruence|]. apply text_at_cons in HT0. destruct HT0 as (Hy & HT0). rewrite Etxt in HP. cbn [List.length] in HP.
    assert (Hw : ~ white_byte 92) by (unfold white_byte; lia).
    apply (first 92%N); auto; [lia|]. cbv zeta. ws.
    replace (q + 2) with (q + 1 + 1) in * by lia. eapply ascii_at; eauto. ws. ws.
    change (92 <? 128)%N with true. cbn [negb].
    change ((is_alnum (Some 92%N) || mbeq (Some 92%N) "_")) with false. cbn [andb]. change (mbeq (Some 92%N) "\") with true. cbv iota. ws.
    assert (HI2 : InL B b (q + 1 + 1)). { replace (q + 1 + 1) with (q + 1 + List.length [92%N]) by (cbn; lia). apply inl_text; auto; try lia; [apply text_at_cons; split; [exact Hx|reflexivity]|cbn in *; lia|intros [A|[]]; discriminate..|discriminate]. }
    assert (HL2 : Line (set_pcur (q + 1 + 1) b) (q + 1 + 1)). { apply line_z; auto; [lia|apply nth_error_Some; congruence]. }
    rewrite <- sx_st.
    eapply (sx_peek B (in_order (buffer s)) e s1 STR_FUNC_EXPAND None 34 true false eq_refl eq_refl eq_refl eq_refl eq_refl Hn); [exact HL2|reflexivity|exact Hu|].
    change (N.eqb "u"%bn 117) with true. cbv iota. ws.
    eapply (sx_line B (in_order (buffer s)) e s1 STR_FUNC_EXPAND None 34 true false eq_refl eq_refl eq_refl eq_refl eq_refl Hn); [exact HL2|reflexivity|exact Hu|discriminate|].
    change (set_pcur (q + 1 + 1 + 1) (set_pcur (q + 1 + 1) b)) with (set_pcur (q + 1 + 1 + 1) b).
    assert (HL3 : Line (set_pcur (q + 1 + 1 + 1) b) (q + 1 + 1 + 1)).
    { apply (line_step B _ (set_pcur (q + 1 + 1) b) (q + 1 + 1) 117%N y HL2 eq_refl Hu); [split; discriminate|exact Hy]. }
    ws. unfold tokadd_utf8. ws. cbn [when]. ws. ws.
    eapply (sx_peek B (in_order (buffer s)) e s1 STR_FUNC_EXPAND None 34 true false eq_refl eq_refl eq_refl eq_refl eq_refl Hn); [exact HL3|reflexivity|exact Hy|].
    destruct HC as [ds D1 D2|gap ds gap' D1 D2 D3 D4].
    - injection Etxt as ->. assert (Hhy : hexadecimal y) by (inversion D1; assumption).
      replace (N.eqb "{"%bn y) with false. 2:{ symmetry. apply N.eqb_neq. change ("{"%bn) with 123%N. clear - Hhy. intros <-. unfold hexadecimal in Hhy. lia. }
      cbv iota. ws. subst z. cbn [List.length] in *.
      destruct (cp_narrow B (in_order (buffer s)) e s1 STR_FUNC_EXPAND None 34 true false eq_refl eq_refl eq_refl eq_refl eq_refl Hn [] (diagnostics s1)
        (set_pcur (q + 1 + 1 + 1) b) (q + 1 + 1 + 1) (y :: r) nxt D1 D2 HL3 eq_refl) as (C1 & _).
      { apply text_at_cons. split; auto. }
      { rewrite <- Hnxt. f_equal. cbn [List.length] in D2. lia. }
      eapply wp_conseq; [exact (C1 Hcp)|]. cbv beta. intros ok s' (-> & (b3 & -> & HL4 & HP4)). cbn [negb]. ws.
      cbn [app]. cbn [List.length] in D2. replace (q + 1 + S (S (S (List.length r)))) with (q + 1 + 1 + 1 + 4) by lia.
      apply finish_at. apply line_here; auto.
    - injection Etxt as <- <-. change (N.eqb "{"%bn 123) with true. cbv iota. ws.
      assert (HCP : code_point (q + 1 + 1 + 1 + 1 + List.length gap) ds (utf8 (hex_number ds)) []) by (constructor; auto).
      destruct ds as [|x ds]; [cbn in D3; lia|]. assert (Hhx : hexadecimal x) by (inversion D2; assumption).
      apply text_at_app in HT0. destruct HT0 as (TG & HT0). pose proof HT0 as HT1. apply text_at_app in HT0. destruct HT0 as (TD & HT0).
      apply text_at_app in HT0. destruct HT0 as (TG' & HT0). apply text_at_cons in HT0. destruct HT0 as (TE & _).
      pose proof TD as TX. apply text_at_cons in TX. destruct TX as (TX & _).
      assert (TY : exists c, nth_error B (q + 1 + 1 + 1 + 1) = Some c).
      { destruct gap as [|g gap]; [cbn [List.length] in TX; rewrite Nat.add_0_r in TX; eauto|]. apply text_at_cons in TG. exists g. apply TG. }
      destruct TY as (c & TY).
      eapply (sx_line B (in_order (buffer s)) e s1 STR_FUNC_EXPAND None 34 true false eq_refl eq_refl eq_refl eq_refl eq_refl Hn); [exact HL3|reflexivity|exact Hy|discriminate|].
      change (set_pcur (q + 1 + 1 + 1 + 1) (set_pcur (q + 1 + 1 + 1) b)) with (set_pcur (q + 1 + 1 + 1 + 1) b).
      assert (HL4 : Line (set_pcur (q + 1 + 1 + 1 + 1) b) (q + 1 + 1 + 1 + 1)).
      { apply (line_step B _ (set_pcur (q + 1 + 1 + 1) b) (q + 1 + 1 + 1) 123%N c HL3 eq_refl Hy); [split; discriminate|exact TY]. }
      ws. ws. match goal with |- context [pend ?x <=? pcur ?y] => replace (pend x <=? pcur y) with false end.
      2:{ symmetry. pose proof (ln_lt _ _ _ _ HL4) as K. change (q + 1 + 1 + 1 + 1 < pend b) in K. change (pend b <=? q + 1 + 1 + 1 + 1 = false). clear - K. lia. }
      ws. eapply wp_conseq; [apply (skip1 B (in_order (buffer s)) e s1 STR_FUNC_EXPAND None 34 true false eq_refl eq_refl eq_refl eq_refl eq_refl Hn gap _ (q + 1 + 1 + 1 + 1) [] (diagnostics s1) x D1 TG TX); [apply hex_not_space; exact Hhx|exact HL4|reflexivity]|].
      cbv beta. intros c' s' (-> & (b5 & -> & HL5 & HP5)). ws. unfold utf8_codepoints. unfold loop.
      match goal with |- wp ?ee (fun e1 s1 => loop_n (fuel e1) ?body ?x e1 s1) ?Q ?s => change (wp ee (loop_n (fuel ee) body x) Q s) end.
      assert (EF : exists m, fuel e = S (S m)). { exists (n - 2). apply in_file in Hx. change (fuel e) with n. lia. }
      destruct EF as (m & EF). rewrite EF.
      cbn [loop_n]. ws. replace (mbeq (Some x) "}") with false. 2:{ symmetry. apply N.eqb_neq. clear - Hhx. unfold hexadecimal in Hhx. lia. }
      cbn [mbeq_opt]. ws. ws. ws. cbn [when]. ws. ws.
      assert (HN : exists nx, nth_error B (q + 1 + 1 + 1 + 1 + List.length gap + List.length (x :: ds)) = Some nx /\ ~ hexadecimal nx).
      { destruct gap' as [|g gap']; [exists 125%N; split; [|unfold hexadecimal; clear; lia]; rewrite <- TE; f_equal; cbn; clear; lia|]. apply text_at_cons in TG'. destruct TG' as (T1 & _).
        exists g. split; [exact T1|]. inversion D4. apply gap_not_hex. assumption. }
      destruct HN as (nx & HN & Hnx).
      eapply wp_conseq; [apply (cp_wide B (in_order (buffer s)) e s1 STR_FUNC_EXPAND None 34 true false eq_refl eq_refl eq_refl eq_refl eq_refl Hn [] (diagnostics s1) b5 _ (x :: ds) _ _ nx HCP HL5 HP5 TD HN Hnx)|].
      cbv beta. intros ok s' (-> & (b6 & -> & HL6 & HP6)). cbn [negb]. ws.
      eapply wp_conseq; [apply (skip2 B (in_order (buffer s)) e s1 STR_FUNC_EXPAND None 34 true false eq_refl eq_refl eq_refl eq_refl eq_refl Hn gap' b6 _ _ _ 125%N _ D4 TG' TE eq_refl HL6 HP6)|].
      cbv beta. intros r' s' ((l & ->) & (b7 & -> & HL7 & HP7)). ws. change (mbeq (Some 125%N) "}") with true. cbv iota. ws. ws. cbn [negb]. ws. change (negb (mbeq (Some 125%N) "}")) with false. cbv iota. ws. ws. ws. ws. ws.
      eapply (sx_line B (in_order (buffer s)) e s1 STR_FUNC_EXPAND None 34 true false eq_refl eq_refl eq_refl eq_refl eq_refl Hn); [exact HL7|exact HP7|exact TE|discriminate|].
      ws. cbn [app]. rewrite app_nil_r. subst z.
      match goal with |- context [Read _ _ _ _ _ ?z] => replace z with (q + 1 + 1 + 1 + 1 + List.length gap + List.length (x :: ds) + List.length gap' + 1) end.
      2:{ cbn [List.length app]. rewrite !app_length. cbn [List.length]. rewrite !app_length. cbn [List.length]. lia. }
      apply finish_at. eapply line_after; eauto; discriminate.
  Qed.

  (** *** The mark of a conditional *)
  Lemma finish_eh : forall t ds s2, q + 1 < pend b -> s2 = set_diagnostics (diagnostics s1 ++ ds) (St t (q + 2)) -> forall c, nth_error B (q + 1) = Some c -> c <> 10%N ->
    wp e (parse_qmark_ternary (Some c)) (fun t s' => exists a, a = q /\ Read B (set_command_start false s) tEH [63%N] a (q + 1) EXPR_BEG ds t s') s2.
  Proof using All.
    intros t ds s2 Hl -> c Hc H10. unfold parse_qmark_ternary. ws.
    eapply (wp_push_byte B e b HR _ (q + 1) c); auto. { cbn. replace (q + 1 + 1) with (q + 2) by lia. reflexivity. }
    ws. unfold lex_state_set. repeat go. exists q. split; auto. constructor.
    - reflexivity.
    - exact Hq.
    - reflexivity.
    - intros Hz. split; [apply HR|]. left. splits; [apply HR|exact Hl|reflexivity].
    - exact HO.
    - right. split; [rewrite Hs1; reflexivity|]. apply (substr_text B b HR q [63%N]); [reflexivity| |].
      + apply text_at_cons. split; [exact Hmark|reflexivity].
      + pose proof Hmark as K. apply in_file in K. cbn. lia.
    - reflexivity.
    - rewrite Hs1. reflexivity.
    - rewrite Hs1. splits; reflexivity.
  Qed.

  Lemma diags_none : forall t p, set_diagnostics (diagnostics s1 ++ []) (St t p) = St t p.
  Proof using. clear. intros t p. rewrite app_nil_r. unfold NumRead.St. destruct s1; reflexivity. Qed.

  Lemma white_ternary : forall c l, nth_error B (q + 1) = Some c -> space_letter c l -> is_space (Some c) = true /\ c <> 10%N /\ c <> 13%N /\
    exists x, escaped_control_code (Some c) = Some x /\ show_N x = l.
  Proof using. clear. intros c l _ H. destruct H; splits; try reflexivity; try discriminate; eexists; (split; [reflexivity|]); vm_compute; reflexivity. Qed.

  Lemma ident_first : forall c x, q + 2 < pend b -> nth_error B (q + 1) = Some c -> letter c \/ digit c -> nth_error B (q + 2) = Some x -> letter x \/ digit x \/ (128 <= x)%N ->
    forall Q, wp e (if sp then
          ok <- qmark_warn_ternary ;;
          if negb ok then ret END_OF_INPUT else parse_qmark_ternary (Some c)
        else parse_qmark_ternary (Some c)) Q (St [] (q + 2)) -> wp e (parse_qmark sp) Q (set_buffer (set_pcur (q + 1) b) s1).
  Proof using All.
    intros c x Hl Hc Lc Hx Lx Q HQ. apply (first c); auto; [unfold white_byte, letter, digit in *; lia|lia|]. cbv zeta. ws.
    replace (q + 2) with (q + 1 + 1) in * by lia. eapply ascii_at; eauto. ws. ws. change (buffer (St [] (q + 1 + 1))) with (set_pcur (q + 1 + 1) b). cbn [pcur set_pcur].
    replace (c <? 128)%N with true by (unfold letter, digit in Lc; lia). cbn [negb].
    replace (is_alnum (Some c) || mbeq (Some c) "_") with true by (symmetry; cbn; unfold b_is_alnum, b_is_alpha, b_is_upper, b_is_lower, b_is_digit, in_range, letter, digit in *; lia).
    change (pend (set_pcur (q + 1 + 1) b)) with (pend b). replace (q + 1 + 1 <? pend b) with true by lia.
    change (b_is_identchar (set_pcur (q + 1 + 1) b) (q + 1 + 1)) with (b_is_identchar b (q + 1 + 1)).
    replace (b_is_identchar b (q + 1 + 1)) with true. 2:{ symmetry. apply (identchar_nb B b _ x HR Hx). unfold nb. tauto. }
    cbn [andb]. exact HQ.
  Qed.

  Definition warn_body : nat -> M Lexer (nat + option nat) := fun ptr =>
         n <- multibyte_char_len ptr ;;
         match n with
         | None => ret (inr None)
         | Some n =>
             let ptr := ptr + n in
             if negb ((ptr <? pend (set_pcur (q + 2) b)) && b_is_identchar (set_pcur (q + 2) b) ptr) then ret (inr (Some ptr))
             else ret (inl ptr)
         end.

  Lemma warn_loop : forall w, chars w -> forall u p m t (Q : option nat -> Lexer -> Prop), name_char u -> text_at B p (u ++ w) -> p + List.length (u ++ w) <= pend b ->
    name_ends B (p + List.length (u ++ w)) -> List.length w < m -> Q (Some (p + List.length (u ++ w))) (St t (q + 2)) -> wp e (loop_n m warn_body p) Q (St t (q + 2)).
  Proof using All.
    intros w Hw. induction Hw as [|u' w Hu' Hw IH]; intros u p m t Q Hu HT HP HE Hm HQ; (destruct m as [|m]; [exfalso; clear - Hm; lia|]).
    - rewrite app_nil_r in *. cbn [loop_n]. ws. unfold warn_body at 1. ws. unfold multibyte_char_len. ws. ws.
      change (buffer (St t (q + 2))) with (set_pcur (q + 2) b). rewrite (char_len B b HR u) by auto. ws. cbv zeta.
      change (b_is_identchar (set_pcur (q + 2) b) (p + List.length u)) with (b_is_identchar b (p + List.length u)).
      replace (b_is_identchar b (p + List.length u)) with false.
      2:{ symmetry. apply Bool.not_true_is_false. intros A. unfold name_ends in HE. destruct (nth_error B (p + List.length u)) as [x|] eqn:Ex.
          - apply (identchar_nb B b _ x HR Ex) in A. specialize (HE x eq_refl). unfold nb in A. clear - A HE. destruct HE as (H1 & H2 & H3). intuition lia.
          - unfold b_is_identchar in A. rewrite (rd_at B b HR), Ex in A. discriminate. }
      rewrite andb_false_r. cbn [negb]. ws. ws. exact HQ.
    - destruct (char_ne u' Hu') as (c & r & Eu'). pose proof HT as HT0. apply text_at_app in HT0. destruct HT0 as (HT1 & HT2).
      rewrite app_length in HP, HE, HQ. cbn [loop_n]. ws. unfold warn_body at 1. ws. unfold multibyte_char_len. ws. ws.
      assert (HU : p + List.length u <= pend b) by (clear - HP; lia).
      change (buffer (St t (q + 2))) with (set_pcur (q + 2) b). rewrite (char_len B b HR u) by auto. ws. cbv zeta.
      change (b_is_identchar (set_pcur (q + 2) b) (p + List.length u)) with (b_is_identchar b (p + List.length u)).
      assert (Hc : nth_error B (p + List.length u) = Some c) by (rewrite Eu' in HT2; apply text_at_cons in HT2; apply HT2).
      replace (b_is_identchar b (p + List.length u)) with true. 2:{ symmetry. apply (identchar_nb B b _ c HR Hc). apply (char_bytes u'); auto. rewrite Eu'. left. reflexivity. }
      change (pend (set_pcur (q + 2) b)) with (pend b).
      replace (p + List.length u <? pend b) with true. 2:{ symmetry. apply Nat.ltb_lt. clear - HP Eu'. rewrite Eu', app_length in HP. cbn in HP. lia. }
      cbn [andb negb]. ws. apply (IH u'); auto.
      + clear - HP. lia.
      + rewrite <- Nat.add_assoc. exact HE.
      + clear - Hm Eu'. rewrite Eu', app_length in Hm. cbn in Hm. lia.
      + rewrite <- Nat.add_assoc. exact HQ.
  Qed.

  Lemma cond_run : forall ds, pcur b = q -> conditional B q (sp = true) (argument_place (lex_state s)) ds ->
    wp e (parse_qmark sp) (fun t s' => exists a, a = q /\ Read B (set_command_start false s) tEH [63%N] a (q + 1) EXPR_BEG ds t s') (set_buffer (set_pcur (q + 1) b) s1).
  Proof using All.
    intros ds HPC HC. pose proof HR as (W & _). pose proof (w_pbeg B b W) as WB.
    assert (HFit : forall w, text_at B q w -> ~ In 10%N w -> q + List.length w <= pend b) by (intros w H1 H2; apply (fits B b q w); auto; lia).
    destruct HC as [c x C1 C2 C3 C4 C5|c w C1 C2 C3 C4 C5 C6|c l C1 C2 C3|c l C1 C2 C3].
    - assert (HL3 : q + 2 < pend b).
      { specialize (HFit [63; c; x]%N). cbn in HFit. assert (q + 3 <= pend b); [|lia]. apply HFit.
        - apply text_at_cons. split; auto. apply text_at_cons. split; auto. apply text_at_cons. replace (q + 1 + 1) with (q + 2) by lia. split; auto. reflexivity.
        - unfold letter, digit in *. intuition lia. }
      apply (ident_first c x); auto. destruct sp; [congruence|]. apply (finish_eh [] [] _); auto; [lia|symmetry; apply diags_none|unfold letter, digit in *; lia].
    - assert (HT0 : text_at B q (63%N :: c :: w)) by (apply text_at_cons; split; auto).
      pose proof (tail_chars w C2) as HCh.
      assert (H10 : ~ In 10%N w). { intros A. apply (chars_bytes w) in A; auto. unfold nb, letter, digit in A. clear - A. lia. }
      assert (HL3 : q + 2 + List.length w <= pend b).
      { specialize (HFit _ HT0). cbn [List.length] in HFit. assert (q + S (S (List.length w)) <= pend b); [|lia]. apply HFit.
        intros [A|[A|A]]; [discriminate|unfold letter, digit in *; clear - A C1; lia|exact (H10 A)]. }
      destruct w as [|x w]; [congruence|]. pose proof C4 as C4'. apply text_at_cons in C4'. destruct C4' as (D1 & C4'). apply text_at_cons in C4'. destruct C4' as (D2 & D3).
      replace (q + 1 + 1) with (q + 2) in * by lia. cbn [List.length] in HL3.
      assert (Nx : nb x) by (apply (chars_bytes (x :: w)); auto; left; reflexivity).
      assert (HLt : q + 2 < pend b) by (clear - HL3; lia). apply (ident_first c x HLt D1 C1 D2 Nx).
      rewrite C6. ws. unfold qmark_warn_ternary. ws. ws. change (buffer (St [] (q + 2))) with (set_pcur (q + 2) b). cbn [pcur set_pcur]. ws. apply wp_sub_ck; [lia|].
      replace (q + 2 - 1) with (q + 1) by lia. ws. apply wp_loop_fuel. match goal with |- wp _ (loop_n _ ?f _) _ _ => change f with warn_body end.
      assert (EN : q + 1 + List.length ([c] ++ x :: w) = q + 2 + List.length (x :: w)) by (cbn; lia).
      apply (warn_loop (x :: w) HCh [c] (q + 1)); auto.
      + constructor. exact C1.
      + rewrite EN. cbn [List.length]. exact HL3.
      + rewrite EN. exact C5.
      + apply in_file in D2. apply text_at_len in C4; [|discriminate]. cbn [List.length] in *. change (fuel e) with n. lia.
      + ws. rewrite (substr_text B b HR (q + 1) ([c] ++ x :: w)); [|reflexivity|exact C4|apply text_at_len; [exact C4|discriminate]]. unfold expect. ws. ws. apply wp_sub_ck; [lia|].
        ws. unfold warn, emit. repeat go. cbn [negb]. replace (q + 1 - 1) with q by lia.
        apply (finish_eh [] [mkDiag Warning (AmbiguousTernaryOperator (c :: x :: w)) (mkLoc q (q + 1))]); auto; [lia|unfold letter, digit in *; lia].
    - destruct (white_ternary c l C1 C2) as (W1 & W2 & W3 & x & W4 & W5).
      assert (HL3 : q + 1 < pend b).
      { specialize (HFit [63; c]%N). cbn in HFit. assert (q + 2 <= pend b); [|lia]. apply HFit.
        - apply text_at_cons. split; auto. apply text_at_cons. split; auto. reflexivity.
        - intros [A|[A|[]]]; congruence. }
      unfold parse_qmark. ws. ws. change (lex_state (set_buffer (set_pcur (q + 1) b) s1)) with (lex_state s1).
      replace (ls_is_end (lex_state s1)) with false.
      2:{ symmetry. apply Bool.not_true_is_false. intros A. apply end_bits in A. rewrite Hs1 in A. exact (Hend A). }
      ws. eapply (wp_nx B e b HR _ (q + 1)); try reflexivity; eauto. cbn [is_eof]. rewrite W1. ws. ws.
      match goal with |- context [ls_is_arg (lex_state ?x)] => change (lex_state x) with (lex_state s1) end.
      replace (ls_is_arg (lex_state s1)) with true by (symmetry; apply arg_bits; rewrite Hs1; exact C3). cbn [negb when]. ws. ws.
      apply (finish_eh (tokenbuf s1) [] _); auto. rewrite diags_none. replace (q + 1 + 1) with (q + 2) by lia. unfold NumRead.St. destruct s1; reflexivity.
    - destruct (white_ternary c l C1 C2) as (W1 & W2 & W3 & x & W4 & W5).
      assert (HL3 : q + 1 < pend b).
      { specialize (HFit [63; c]%N). cbn in HFit. assert (q + 2 <= pend b); [|lia]. apply HFit.
        - apply text_at_cons. split; auto. apply text_at_cons. split; auto. reflexivity.
        - intros [A|[A|[]]]; congruence. }
      unfold parse_qmark. ws. ws. change (lex_state (set_buffer (set_pcur (q + 1) b) s1)) with (lex_state s1).
      replace (ls_is_end (lex_state s1)) with false.
      2:{ symmetry. apply Bool.not_true_is_false. intros A. apply end_bits in A. rewrite Hs1 in A. exact (Hend A). }
      ws. eapply (wp_nx B e b HR _ (q + 1)); try reflexivity; eauto. cbn [is_eof]. rewrite W1. ws. ws.
      match goal with |- context [ls_is_arg (lex_state ?x)] => change (lex_state x) with (lex_state s1) end.
      replace (ls_is_arg (lex_state s1)) with false. 2:{ symmetry. apply Bool.not_true_is_false. intros A. apply arg_bits in A. rewrite Hs1 in A. exact (C3 A). }
      cbn [negb when]. rewrite W4. unfold warn_space_char, warn0, warn, emit. rewrite W5. repeat go.
      apply (finish_eh (tokenbuf s1) [mkDiag Warning (InvalidCharacterSyntax (63 :: 92 :: l)%N) (mkLoc q (q + 2))] _); auto.
      replace (q + 1 + 1) with (q + 2) by lia. unfold NumRead.St, current_loc. cbn. rewrite Hq. destruct s1; reflexivity.
  Qed.
End Mark.

Lemma character_bytes : forall B z txt v, character B z txt v -> ~ In 10%N txt /\ ~ In 13%N txt /\ txt <> [].
Proof.
  intros B z txt v H. destruct H as [c C1 C2 C3 C4|u C1|w v nxt C1 C2|u C1].
  - unfold white_byte in C2. splits; [intros [A|[]]; lia..|discriminate].
  - assert (K : forall c, In c u -> nb c) by (intros c; apply (char_bytes u); apply nch_wide; exact C1).
    splits; [intros A; apply K in A; unfold nb, letter, digit in A; lia..|]. destruct C1; discriminate.
  - assert (K := escaped_plain nxt false false w v C2). rewrite Forall_forall in K.
    splits; [intros [A|A]; [discriminate|apply K in A; lia]..|discriminate].
  - assert (K : forall c, In c u -> nb c) by (intros c; apply (char_bytes u); apply nch_wide; exact C1).
    splits; [intros [A|A]; [discriminate|apply K in A; unfold nb, letter, digit in A; lia]..|discriminate].
Qed.
Lemma code_bytes : forall txt cp, code_escape txt cp -> ~ In 10%N txt /\ ~ In 13%N txt.
Proof.
  assert (K : forall ds, Forall hexadecimal ds -> ~ In 10%N ds /\ ~ In 13%N ds).
  { intros ds H. rewrite Forall_forall in H. split; intros A; apply H in A; unfold hexadecimal in A; lia. }
  assert (G : forall ds, Forall gap_byte ds -> ~ In 10%N ds /\ ~ In 13%N ds).
  { intros ds H. rewrite Forall_forall in H. split; intros A; apply H in A; unfold gap_byte in A; lia. }
  intros txt cp [ds H1 H2|gap ds gap' H1 H2 H3 H4].
  - destruct (K ds H1) as (K1 & K2). split; (intros [A|[A|A]]; [discriminate|discriminate|auto]).
  - destruct (K ds H2) as (K1 & K2). destruct (G gap H1) as (G1 & G2). destruct (G gap' H4) as (G3 & G4).
    split; (intros A; cbn [app In] in A; rewrite !in_app_iff in A; cbn [In] in A; intuition discriminate).
Qed.

(** ** Character literals *)

(** A question mark outside an end of an expression with a character behind it - a byte, a wide character, or an escape that stands for one - is
    one token over exactly that text, whose value is the byte or the character, whatever stands around it.  Nothing is reported. *)
Theorem C56_characters : forall B n upper s p sp txt v,
  Prop_String.Place B n upper s p sp (63%N :: txt) -> ~ end_place (lex_state s) -> character B (p + List.length sp + 1 + List.length txt) txt v ->
  exists s', yylex (plain_env n upper) s = Ok (mkToken tCHAR v (mkLoc (p + List.length sp) (p + List.length sp + 1 + List.length txt))) s' /\
    Passed B s s' (p + List.length sp + 1 + List.length txt) EXPR_END false [].
Proof.
  intros B n upper s p sp txt v HP HE HC. set (q := p + List.length sp) in *. set (z := q + 1 + List.length txt) in *.
  destruct (character_bytes B z txt v HC) as (N10 & N13 & Hne).
  pose proof HP as [P1 P2 P3 P4 P5 P6 P7 P8]. apply text_at_app in P4. destruct P4 as (_ & P4). fold q in P4.
  destruct (mark_step B n upper s p sp txt tCHAR v z EXPR_END [] (fun a => a = q) HP eq_refl) as (a & s' & -> & H); [|eauto].
  fold q. intros b s1 Es1 HR Hpc Hpt Hpb Hpe HH HO. pose proof HR as (W & _). pose proof (w_pbeg B b W) as WB. pose proof (w_pcur1 B b W) as WP.
  pose proof P4 as P4'. apply text_at_cons in P4'. destruct P4' as (M1 & M2).
  assert (HF : q + List.length (63%N :: txt) <= pend b) by (apply (fits B b q (63%N :: txt)); auto; [lia|intros [A|A]; [discriminate|auto]]).
  cbn [List.length] in HF.
  assert (HI : InL B b z). { apply (inl_text B b HR (q + 1) txt); auto; lia. }
  eapply character_run; eauto; lia.
Qed.

(** The same for an escape that names a code point: the value is the UTF-8 form of the character.  The range of the token should start at the
    question mark; it does not ([C56_range_refuted]), and this theorem says nothing of where it starts. *)
Theorem C56_code_points_partial : forall B n upper s p sp txt cp nxt,
  Prop_String.Place B n upper s p sp (63%N :: txt) -> ~ end_place (lex_state s) -> code_escape txt cp -> scalar cp ->
  nth_error B (p + List.length sp + 1 + List.length txt) = Some nxt ->
  exists a s', yylex (plain_env n upper) s = Ok (mkToken tCHAR (utf8 cp) (mkLoc a (p + List.length sp + 1 + List.length txt))) s' /\
    Passed B s s' (p + List.length sp + 1 + List.length txt) EXPR_END false [].
Proof.
  intros B n upper s p sp txt cp nxt HP HE HC HS Hn. set (q := p + List.length sp) in *. set (z := q + 1 + List.length txt) in *.
  destruct (code_bytes txt cp HC) as (N10 & N13).
  pose proof HP as [P1 P2 P3 P4 P5 P6 P7 P8]. apply text_at_app in P4. destruct P4 as (_ & P4). fold q in P4.
  destruct (mark_step B n upper s p sp txt tCHAR (utf8 cp) z EXPR_END [] (fun a => True) HP eq_refl) as (a & s' & _ & H); [|eauto].
  fold q. intros b s1 Es1 HR Hpc Hpt Hpb Hpe HH HO. pose proof HR as (W & _). pose proof (w_pbeg B b W) as WB. pose proof (w_pcur1 B b W) as WP.
  pose proof P4 as P4'. apply text_at_cons in P4'. destruct P4' as (M1 & M2).
  assert (HF : q + List.length (63%N :: txt) <= pend b) by (apply (fits B b q (63%N :: txt)); auto; [lia|intros [A|A]; [discriminate|auto]]).
  cbn [List.length] in HF. eapply code_run; eauto; lia.
Qed.

(** A question mark that starts no character is the mark of a conditional, with a warning where the text could have been meant as a character *)
Theorem C56_conditional : forall B n upper s p sp ds,
  Prop_String.Place B n upper s p sp [63%N] -> ~ end_place (lex_state s) -> conditional B (p + List.length sp) (sp <> []) (argument_place (lex_state s)) ds ->
  exists s', yylex (plain_env n upper) s = Ok (mkToken tEH [63%N] (mkLoc (p + List.length sp) (p + List.length sp + 1))) s' /\
    Passed B s s' (p + List.length sp + 1) EXPR_BEG false ds.
Proof.
  intros B n upper s p sp ds HP HE HC. set (q := p + List.length sp) in *.
  pose proof HP as [P1 P2 P3 P4 P5 P6 P7 P8]. apply text_at_app in P4. destruct P4 as (_ & P4). fold q in P4.
  destruct (mark_step B n upper s p sp [] tEH [63%N] (q + 1) EXPR_BEG ds (fun a => a = q) HP eq_refl) as (a & s' & -> & H); [|eauto].
  fold q. intros b s1 Es1 HR Hpc Hpt Hpb Hpe HH HO. apply text_at_cons in P4. destruct P4 as (M1 & M2).
  eapply cond_run; eauto.
  assert (E : sp <> [] <-> nonempty sp = true) by (destruct sp; cbn; intuition congruence).
  destruct HC; [eapply co_name|eapply co_spaced_name|eapply co_space|eapply co_odd_space]; eauto; tauto.
Qed.

(** ** What is false of the code *)

(** The range of a character literal with a code point starts behind the escape prefix instead of at the question mark *)
Theorem C56_range_refuted : exists B n upper s p sp txt cp nxt,
  Prop_String.Place B n upper s p sp (63%N :: txt) /\ ~ end_place (lex_state s) /\ code_escape txt cp /\ scalar cp /\
  nth_error B (p + List.length sp + 1 + List.length txt) = Some nxt /\
  exists a s', yylex (plain_env n upper) s = Ok (mkToken tCHAR (utf8 cp) (mkLoc a (p + List.length sp + 1 + List.length txt))) s' /\ a <> p + List.length sp.
Proof.
  exists (bs "x = ?\u{41} "), 200, (fun _ => false).
  cut (exists s, Prop_String.Place (bs "x = ?\u{41} ") 200 (fun _ => false) s 3 [32%N] (63%N :: bs "\u{41}") /\ ~ end_place (lex_state s) /\
    exists a s', yylex (plain_env 200 (fun _ => false)) s = Ok (mkToken tCHAR (utf8 65) (mkLoc a 11)) s' /\ a <> 4).
  - intros (s & H1 & H2 & H3). exists s, 3, [32%N], (bs "\u{41}"), 65%N, 32%N. splits; auto.
    + apply (ce_braces [] (bs "41") []); repeat constructor; unfold hexadecimal; cbn; lia.
    + left. lia.
  - reach_state (bs "x = ?\u{41} ") [PNext; PNext]. splits; [Prop_String.place|intros A; apply end_bits in A; vm_compute in A; discriminate|].
    exists 8. eexists. split; [vm_compute; reflexivity|discriminate].
Qed.

(** The warning about white space behind the question mark shows a number where the letter of the escape belongs *)
Theorem C56_suggestion_refuted : exists B n upper s p sp,
  Prop_String.Place B n upper s p sp [63%N] /\ ~ end_place (lex_state s) /\ ~ argument_place (lex_state s) /\ nth_error B (p + List.length sp + 1) = Some 32%N /\
  exists t s' d, yylex (plain_env n upper) s = Ok t s' /\ diagnostics s' = diagnostics s ++ [d] /\
    dg_message d = InvalidCharacterSyntax (bs "?\115") /\ dg_message d <> InvalidCharacterSyntax (bs "?\s").
Proof.
  exists (bs "x = ? "), 200, (fun _ => false).
  reach_state (bs "x = ? ") [PNext; PNext]. exists 3, [32%N].
  splits; [Prop_String.place|intros A; apply end_bits in A; vm_compute in A; discriminate|intros A; apply arg_bits in A; vm_compute in A; discriminate|reflexivity|].
  eexists. eexists. eexists. splits; [vm_compute; reflexivity|vm_compute; reflexivity|reflexivity|discriminate].
Qed.

Print Assumptions C56_characters.
Print Assumptions C56_code_points_partial.
Print Assumptions C56_conditional.
Print Assumptions C56_range_refuted.
Print Assumptions C56_suggestion_refuted.

(** ** Examples *)
Example C56_values : Prop_String.shown (bs "[?a, ?\n, ?\C-a, ?], ?\u{41} ]") =
  Some ([(tLBRACK, bs "[", 0, 1); (tCHAR, bs "a", 1, 3); (tCOMMA, bs ",", 3, 4); (tCHAR, [10%N], 5, 8); (tCOMMA, bs ",", 8, 9); (tCHAR, [1%N], 10, 15);
    (tCOMMA, bs ",", 15, 16); (tCHAR, bs "]", 17, 19); (tCOMMA, bs ",", 19, 20); (tCHAR, bs "A", 25, 28); (tRBRACK, bs "]", 29, 30)], []).
Proof. vm_compute. reflexivity. Qed.
Ltac not_end := let A := fresh in intros A; apply end_bits in A; vm_compute in A; discriminate.
Example C56_characters_at : let src := bs "x = ?\C-a + ?a" in
  (exists s, Prop_String.Place src 200 (fun _ => false) s 3 [32%N] (63%N :: bs "\C-a") /\ ~ end_place (lex_state s) /\ character src 9 (bs "\C-a") [1%N]) /\
  (exists s, Prop_String.Place src 200 (fun _ => false) s 11 [32%N] (63%N :: bs "a") /\ ~ end_place (lex_state s) /\ character src 14 (bs "a") (bs "a")).
Proof.
  set (src := bs "x = ?\C-a + ?a"). cbn zeta. split.
  - reach_state src [PNext; PNext]. splits; [Prop_String.place|not_end|].
    apply (ch_escape src 9 (bs "C-a") 1 32); [reflexivity|]. apply (eb_control 32 false [67; 45]%N 97); [constructor|unfold visible; lia|discriminate..].
  - reach_state src [PNext; PNext; PNext; PNext]. splits; [Prop_String.place|not_end|].
    apply (ch_plain src 14 97); [lia|unfold white_byte; lia|discriminate|]. intros _ c Hc. discriminate.
Qed.
Example C56_wide_characters : let src := (bs "x = ?" ++ [195; 169]%N ++ bs " + ?\" ++ [226; 130; 172]%N)%list in
  (exists s, Prop_String.Place src 200 (fun _ => false) s 3 [32%N] (63 :: [195; 169])%N /\ ~ end_place (lex_state s) /\ character src 7 [195; 169]%N [195; 169]%N) /\
  (exists s, Prop_String.Place src 200 (fun _ => false) s 9 [32%N] (63 :: 92 :: [226; 130; 172])%N /\ ~ end_place (lex_state s) /\
    character src 15 [92; 226; 130; 172]%N [226; 130; 172]%N).
Proof.
  set (src := (bs "x = ?" ++ [195; 169]%N ++ bs " + ?\" ++ [226; 130; 172]%N)%list). cbn zeta. split.
  - reach_state src [PNext; PNext]. splits; [Prop_String.place|not_end|]. apply ch_wide. constructor; unfold cont; lia.
  - reach_state src [PNext; PNext; PNext; PNext]. splits; [Prop_String.place|not_end|]. apply (ch_escaped_wide src 15 [226; 130; 172]%N). constructor; unfold cont; lia.
Qed.
Example C56_code_points_at : let src := bs "[ ?\u00e9, ?\u{ 1F600 }]" in
  (exists s, Prop_String.Place src 200 (fun _ => false) s 1 [32%N] (63%N :: bs "\u00e9") /\ ~ end_place (lex_state s) /\ code_escape (bs "\u00e9") 233 /\ scalar 233) /\
  (exists s, Prop_String.Place src 200 (fun _ => false) s 10 [32%N] (63%N :: bs "\u{ 1F600 }") /\ ~ end_place (lex_state s) /\ code_escape (bs "\u{ 1F600 }") 128512 /\ scalar 128512).
Proof.
  set (src := bs "[ ?\u00e9, ?\u{ 1F600 }]"). cbn zeta. split.
  - reach_state src [PNext]. splits; [Prop_String.place|not_end| |unfold scalar; lia]. apply (ce_four (bs "00e9")); [repeat constructor; unfold hexadecimal; cbn; lia|reflexivity].
  - reach_state src [PNext; PNext; PNext]. splits; [Prop_String.place|not_end| |unfold scalar; lia].
    apply (ce_braces [32%N] (bs "1F600") [32%N]); [repeat constructor|repeat constructor; unfold hexadecimal; cbn; lia|cbn; lia|repeat constructor].
Qed.
Example C56_conditionals : Prop_String.shown (bs "f ?abc") = Some ([(tIDENTIFIER, bs "f", 0, 1); (tEH, bs "?", 2, 3); (tIDENTIFIER, bs "abc", 3, 6)], [(AmbiguousTernaryOperator (bs "abc"), 2, 3)]).
Proof. vm_compute. reflexivity. Qed.
Example C56_conditional_at : let src := bs "f ?abc" in
  exists s, Prop_String.Place src 200 (fun _ => false) s 1 [32%N] [63%N] /\ ~ end_place (lex_state s) /\
    conditional src 2 ([32%N] <> []) (argument_place (lex_state s)) [mkDiag Warning (AmbiguousTernaryOperator (bs "abc")) (mkLoc 2 3)].
Proof.
  set (src := bs "f ?abc"). cbn zeta. reach_state src [PNext]. splits; [Prop_String.place|not_end|].
  apply (co_spaced_name src 2 _ _ 97 (bs "bc")); [unfold letter; lia| |discriminate|reflexivity|intros c Hc; discriminate|discriminate].
  repeat (apply nt_ascii; [unfold letter; cbn; lia|]). constructor.
Qed.
Example C56_conditional_space : let src := bs "f ? 1" in
  exists s, Prop_String.Place src 200 (fun _ => false) s 1 [32%N] [63%N] /\ ~ end_place (lex_state s) /\ conditional src 2 ([32%N] <> []) (argument_place (lex_state s)) [].
Proof.
  set (src := bs "f ? 1"). cbn zeta. reach_state src [PNext]. splits; [Prop_String.place|not_end|].
  eapply co_space; [reflexivity|constructor|]. apply arg_bits. vm_compute. reflexivity.
Qed.
