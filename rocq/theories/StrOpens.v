(** * The openings of all literals *)
Require Import Verif.Base Verif.MaybeByteM Verif.Utf8M Verif.InputM Verif.DiagnosticM Verif.TokensM Verif.BufferM Verif.LexStateM
  Verif.LexerM Verif.LexStringM Verif.LexIdentM Verif.LexMainM
  Verif.SourceSpec Verif.SourceProofs Verif.Wp Verif.BufInv Verif.LexSpec Verif.NewlineInv Verif.MainInv Verif.RunInv Verif.Prop_Lexer
  Verif.ReadSpec Verif.YylexSpec Verif.Reach Verif.NumberSpec Verif.NumRead Verif.IdentRead Verif.IdentStep Verif.Prop_Ident Verif.Prop_Crlf
  Verif.StringSpec Verif.StrNum Verif.StrRead Verif.StrStep Verif.StrOpen Verif.StrMore.
Require Import ZifyBool ZifyNat ZifyN.

(** The flags that the lexer keeps for a kind of literal *)
Record Kept (func : N) (k : Kind) : Prop := mkKept {
  kp_expand : has func STR_FUNC_EXPAND = k_interp k;
  kp_words : has func STR_FUNC_QWORDS = k_words k;
  kp_list : has func STR_FUNC_LIST = k_words k;
  kp_regexp : has func STR_FUNC_REGEXP = k_regexp k;
  kp_escape : has func STR_FUNC_ESCAPE = k_regexp k;
  kp_label : has func STR_FUNC_LABEL = k_label k;
  kp_indent : has func STR_FUNC_INDENT = false;
  kp_term : has func STR_FUNC_TERM = false
}.

Lemma set_ptok_same : forall q b, ptok b = q -> set_ptok q b = b.
Proof. intros q [] H. cbn in *. subst. reflexivity. Qed.

Lemma line_nx : forall B order e s b p x (Q : MaybeByte -> Lexer -> Prop), buffer s = b -> Line B order b p -> pcur b = p -> nth_error B p = Some x -> x <> 13%N ->
  Q (Some x) (set_buffer (set_pcur (p + 1) b) s) -> wp e nextc Q s.
Proof.
  intros B order e s b p x Q Hb HL HP Hx H13 HQ. unfold nextc, inb. apply wp_zoom. unfold wp.
  rewrite Hb, <- (rd_here e b p HP), (line_read B order e b p x HL Hx H13). exact HQ.
Qed.

Section Opens.
  Variables (B : list N) (order : Prop) (e : Env).
  Hypothesis Hfuel : List.length B < fuel e.

  Lemma opens_wp : forall s p sp op k kd opn cls st' (Q : Token -> Lexer -> Prop),
    opens (lex_state s) (command_start s) sp op k kd opn cls st' ->
    BWF B (buffer s) -> lval_start s = None -> lval_end s = None -> strterm s = None -> upcoming (buffer s) p -> text_at B p (sp ++ op) -> spacing (buffer s) sp ->
    Z.ltb 0 (heredoc_indent (buffer s)) = false -> (order -> in_order (buffer s)) -> (In 10%N op -> order) ->
    (forall s' func, Kept func kd -> At B order s' (p + List.length sp + List.length op) (mkStringLiteral 0 func opn cls None) ->
      lex_state s' = st' -> diagnostics s' = diagnostics s -> comments s' = comments s ->
      Q (tok_at k op (p + List.length sp) (List.length op)) s') -> wp e yylex Q s.
  Proof using All.
    intros s p sp op k kd opn cls st' Q HOp HW S1 S2 ST HU HT HS HI HO H10 HQ.
    assert (HQuote : forall x fn label, (x = 39 /\ fn = str_squote \/ x = 34 /\ fn = str_dquote)%N -> op = [x] -> (label = true <-> IdentSpec.label_allowed (lex_state s) (command_start s)) ->
      (forall s', At B order s' (p + List.length sp + List.length op) (mkStringLiteral 0 (N.lor fn (if label then str_label else 0%N)) None x None) ->
        lex_state s' = lex_state s -> diagnostics s' = diagnostics s -> comments s' = comments s -> Q (tok_at tSTRING_BEG op (p + List.length sp) (List.length op)) s') ->
      wp e yylex Q s).
    { intros x fn label Hx -> Hlb HQ'. eapply (open_marks B order e Hfuel s p sp x [] tSTRING_BEG (N.lor fn (if label then str_label else 0%N)) x None); auto.
      - clear - Hx. lia.
      - cbn [List.length]. rewrite Nat.add_0_r. intros b s1 -> HL HP HPt.
        assert (HX : forall cmd, cmd = command_start s -> wp e (lex_quote fn x cmd) (fun t s' => t = Tk tSTRING_BEG /\ exists b2, Line B order b2 (p + List.length sp) /\
           s' = set_state None (set_strterm (new_strterm (N.lor fn (if label then str_label else 0%N)) x None None) (set_buffer (set_ptok (p + List.length sp) (set_pcur (p + List.length sp + 1) b2))
             (set_token_seen true (set_command_start false (set_lval None s)))))) (set_buffer (set_pcur (p + List.length sp + 1) b) (set_token_seen true (set_command_start false (set_lval None s))))).
        { intros cmd ->. unfold lex_quote. ws. ws. unfold start_strterm. ws. ws. ws. ws. apply wp_bind. apply wp_sub_ck; [cbn; clear; lia|].
          unfold tk. repeat ws. split; [reflexivity|]. exists b. split; [exact HL|].
          change (lex_state (set_buffer _ _)) with (lex_state s).
          replace (ls_is_label_possible (lex_state s) (command_start s)) with label.
          2:{ pose proof (is_label (lex_state s) (command_start s)) as K. destruct label, (ls_is_label_possible _ _); auto; [symmetry; apply K, Hlb; reflexivity|]. apply Hlb, K. reflexivity. }
          cbn [pcur buffer set_strterm set_buffer set_pcur]. replace (p + List.length sp + 1 - 1) with (p + List.length sp) by (clear; lia). reflexivity. }
        destruct Hx as [(-> & ->)|(-> & ->)]; apply HX; reflexivity. }
    destruct HOp as [label Hlb|label Hlb|N1 N2|c Hc N1 N2 N3|HV|l k interp words c opn cls K1 K2 K3 K4|c opn cls K2 K3 K4|c opn cls K2 K3 K4].
    - apply (HQuote 39%N str_squote label); auto. intros s' A1 A2 A3 A4. eapply HQ; eauto. destruct label; constructor; reflexivity.
    - apply (HQuote 34%N str_dquote label); auto. intros s' A1 A2 A3 A4. eapply HQ; eauto. destruct label; constructor; reflexivity.
    - eapply (open_marks B order e Hfuel s p sp 96%N [] tXSTRING_BEG str_xquote 96%N None); auto; [lia| |].
      + cbn [List.length]. rewrite Nat.add_0_r. intros b s1 -> HL HP HPt.
        change (lex_char (Some 96%N) (command_start s) (nonempty sp) (token_seen s) (lex_state s)) with (lex_backtick (command_start s)).
        unfold lex_backtick. ws. ws. change (lex_state (set_buffer _ _)) with (lex_state s).
        change EXPR_FNAME with (2 ^ IdentSpec.b_fname)%N. change EXPR_DOT with (2 ^ IdentSpec.b_dot)%N. rewrite !some_pow.
        destruct (N.testbit (lex_state s) IdentSpec.b_fname) eqn:E1; [exfalso; apply N1; exact E1|].
        destruct (N.testbit (lex_state s) IdentSpec.b_dot) eqn:E2; [exfalso; apply N2; exact E2|].
        unfold start_strterm, tk. repeat ws. split; [reflexivity|]. exists b. split; [exact HL|]. rewrite set_ptok_same; [reflexivity|exact HPt].
      + intros s' A1 A2 A3 A4. eapply HQ; eauto. constructor; reflexivity.
    - assert (Hc13 : c <> 13%N /\ c <> 10%N) by (clear - Hc; lia).
      assert (Tc : nth_error B (p + List.length sp + 1) = Some c).
      { apply text_at_app in HT. destruct HT as (_ & HT). apply text_at_cons in HT. destruct HT as (_ & HT). apply text_at_cons in HT. apply HT. }
      assert (Tx : nth_error B (p + List.length sp) = Some 58%N).
      { apply text_at_app in HT. destruct HT as (_ & HT). apply text_at_cons in HT. apply HT. }
      eapply (open_marks B order e Hfuel s p sp 58%N [c] tSYMBEG (if N.eqb c 34 then str_dsym else str_ssym) c (Some EXPR_FNAME)); auto; [lia| | |].
      + right. exists c. auto.
      + cbn [List.length]. intros b s1 -> HL HP HPt.
        change (lex_char (Some 58%N) (command_start s) (nonempty sp) (token_seen s) (lex_state s)) with (lex_colon (nonempty sp) (lex_state s)).
        unfold lex_colon. ws.
        assert (HL1 : Line B order (set_pcur (p + List.length sp + 1) b) (p + List.length sp + 1)) by (eapply line_step; eauto; split; discriminate).
        eapply (line_nx B order e _ (set_pcur (p + List.length sp + 1) b) (p + List.length sp + 1) c); [reflexivity|exact HL1|reflexivity|exact Tc|apply Hc13|].
        ws. ws. change (lex_state (set_buffer _ _)) with (lex_state s).
        replace (ls_is_end (lex_state s)) with false.
        2:{ symmetry. unfold ls_is_end, EXPR_END_ANY. rewrite !some_lor. change EXPR_END with (2 ^ 1)%N. change EXPR_ENDARG with (2 ^ 2)%N. change EXPR_ENDFN with (2 ^ 3)%N.
            rewrite !some_pow. unfold IdentSpec.in_state in *. destruct (N.testbit _ 1), (N.testbit _ 2), (N.testbit _ 3); auto; exfalso; auto. }
        assert (HE : forall fn, fn = (if N.eqb c 34 then str_dsym else str_ssym) ->
          exists b2, Line B order b2 (p + List.length sp + 1) /\
            set_lex_state EXPR_FNAME (set_strterm (new_strterm fn c None None) (set_buffer (set_pcur (p + List.length sp + 1 + 1) (set_pcur (p + List.length sp + 1) b))
              (set_buffer (set_pcur (p + List.length sp + 1) b) (set_token_seen true (set_command_start false (set_lval None s)))))) =
            set_state (Some EXPR_FNAME) (set_strterm (new_strterm (if N.eqb c 34 then str_dsym else str_ssym) c None None)
              (set_buffer (set_ptok (p + List.length sp) (set_pcur (p + List.length sp + 1 + 1) b2)) (set_token_seen true (set_command_start false (set_lval None s)))))).
        { intros fn ->. exists (set_pcur (p + List.length sp + 1) b). split; [exact HL1|]. rewrite set_ptok_same; [reflexivity|exact HPt]. }
        unfold start_strterm, tk. destruct Hc as [-> | ->]; cbn [mbeq N.eqb Pos.eqb is_space mb_test b_is_space in_range N.leb N.compare Pos.compare Pos.compare_cont andb orb];
          repeat ws; (split; [reflexivity|]); apply HE; reflexivity.
      + intros s' A1 A2 A3 A4. eapply HQ; eauto. destruct Hc as [-> | ->]; constructor; reflexivity.
    - eapply (open_marks B order e Hfuel s p sp 47%N [] tREGEXP_BEG str_regexp 47%N None); auto; [lia| |].
      + cbn [List.length]. rewrite Nat.add_0_r. intros b s1 -> HL HP HPt.
        change (lex_char (Some 47%N) (command_start s) (nonempty sp) (token_seen s) (lex_state s)) with (lex_slash (nonempty sp) (lex_state s)).
        unfold lex_slash. ws. ws. change (lex_state (set_buffer _ _)) with (lex_state s).
        apply (starts_beg (lex_state s)) in HV. rewrite HV.
        unfold start_strterm, tk. repeat ws. split; [reflexivity|]. exists b. split; [exact HL|]. rewrite set_ptok_same; [reflexivity|exact HPt].
      + intros s' A1 A2 A3 A4. eapply HQ; eauto. constructor; reflexivity.
    - assert (El : List.length (37%N :: l ++ [c]) = 2 + List.length l) by (cbn; rewrite app_length; cbn; clear; lia). rewrite El in HQ.
      eapply (open_pct B order e Hfuel s p sp l k (flags_of interp words) None c opn cls); auto; [constructor; auto| |].
      + intros ->. apply H10. right. apply in_or_app. right. left. reflexivity.
      + intros s' A1 A2 A3 A4. eapply HQ; eauto. destruct K1; constructor; reflexivity.
    - eapply (open_pct B order e Hfuel s p sp [115%N] tSYMBEG str_ssym (Some (N.lor EXPR_FNAME EXPR_FITEM)) c opn cls); auto; [constructor| |].
      + intros ->. apply H10. right. right. left. reflexivity.
      + intros s' A1 A2 A3 A4. eapply HQ; eauto. constructor; reflexivity.
    - eapply (open_pct B order e Hfuel s p sp [114%N] tREGEXP_BEG str_regexp None c opn cls); auto; [constructor| |].
      + intros ->. apply H10. right. right. left. reflexivity.
      + intros s' A1 A2 A3 A4. eapply HQ; eauto. constructor; reflexivity.
  Qed.

  (** The end of a literal that is not one *)
  Lemma end2_wp : forall s p func paren term he interp (Q : Token -> Lexer -> Prop),
    lval_start s = None -> lval_end s = None -> Flags func interp false -> has func STR_FUNC_LIST = false ->
    Cur B order (buffer s) p -> strterm s = Some (StringLit (mkStringLiteral 0 func paren term he)) ->
    nth_error B p = Some term -> term <> 13%N -> (term = 10%N -> order) -> (has func STR_FUNC_LABEL = true -> term <> 10%N /\ ~ IdentSpec.single_colon B (p + 1)) ->
    (forall s', Closed B order s s' (p + 1) -> Q (mkToken tSTRING_END [term] (mkLoc p (p + 1))) s') ->
    wp e yylex Q s.
  Proof using All.
    intros s p func paren term he interp Q S1 S2 HFl HLi HC HS Tx H13 H10 HLb HQ. pose proof HFl as [F1 F2 F3 F4 F5 F6].
    eapply (string_start B order e Hfuel); [exact (cu_pos _ _ _ _ HC)|exact HS|]. set (s1 := string_state s p). cbn [sl_func sl_term]. rewrite F6. ws.
    eapply (cur_nx B order e s1 p term); auto; [apply cur_flush; exact HC|]. intros b1 L1 P1. ws. rewrite F2. cbn [andb]. ws.
    rewrite HLi. cbn [sl_nest]. replace (mbeq (Some term) term) with true by (symmetry; apply N.eqb_refl). cbn [andb Nat.eqb].
    ws. unfold restore_strterm. ws. unfold string_term. ws. ws. rewrite F3.
    assert (HLast : wp e (yytail tSTRING_END) Q (set_lex_state EXPR_END (set_strterm None (set_buffer (set_pcur (p + 1) b1) s1)))).
    { unfold yytail. ws. ws. ws. ws. cbn. rewrite S2.
      replace (b_substr_at (set_pcur (p + 1) b1) p (p + 1)) with (Some [term]).
      2:{ symmetry. apply (substr_text B b1 (ln_rd _ _ _ _ L1) p [term]); [reflexivity| |].
          - apply text_at_cons. split; [exact Tx|reflexivity].
          - assert (p < List.length B) by (apply nth_error_Some; congruence). cbn. lia. }
      apply HQ. constructor; try reflexivity; try (split; reflexivity). cbn. eapply line_after; eauto. }
    destruct (has func STR_FUNC_LABEL) eqn:EL; repeat ws.
    - unfold is_label_suffix. ws. eapply (wp_peek_at B e b1 (ln_rd _ _ _ _ L1) _ 58%N 0 (p + 1)); [reflexivity|].
      rewrite Nat.add_0_r. destruct ((p + 1 <? pend b1) && mbeq (nth_error B (p + 1)) 58%N) eqn:E1; [|repeat ws; exact HLast].
      apply andb_prop in E1. destruct E1 as (E1 & E2). apply mbeq_iff in E2.
      ws. eapply (wp_peek_at B e b1 (ln_rd _ _ _ _ L1) _ 58%N (0 + 1) (p + 1)); [reflexivity|]. cbn [Nat.add].
      destruct ((p + 1 + 1 <? pend b1) && mbeq (nth_error B (p + 1 + 1)) 58%N) eqn:E3; [repeat ws; exact HLast|].
      exfalso. apply (proj2 (HLb eq_refl)). split; [exact E2|]. intros E4. rewrite E4 in E3. change (mbeq (Some 58%N) 58%N) with true in E3. rewrite andb_true_r in E3.
      assert (L2 : Line B order (set_pcur (p + 1) b1) (p + 1)) by (eapply line_step; eauto; split; [apply HLb|]; auto).
      assert (L3 : Line B order (set_pcur (p + 1 + 1) (set_pcur (p + 1) b1)) (p + 1 + 1)) by (eapply line_step; eauto; split; discriminate).
      pose proof (ln_lt _ _ _ _ L3) as K. cbn in K. clear - K E3. lia.
    - exact HLast.
  Qed.

  (** The end of a literal that is a label *)
  Lemma label_wp : forall s p func paren term he interp (Q : Token -> Lexer -> Prop),
    lval_start s = None -> lval_end s = None -> Flags func interp false -> has func STR_FUNC_LIST = false ->
    Cur B order (buffer s) p -> strterm s = Some (StringLit (mkStringLiteral 0 func paren term he)) ->
    nth_error B p = Some term -> term <> 13%N -> term <> 10%N -> has func STR_FUNC_LABEL = true -> IdentSpec.single_colon B (p + 1) ->
    (forall s', Cur B order (buffer s') (p + 2) -> strterm s' = None -> lex_state s' = N.lor EXPR_BEG EXPR_LABEL -> lval_start s' = None /\ lval_end s' = None ->
      diagnostics s' = diagnostics s -> comments s' = comments s -> Q (mkToken tLABEL_END [term; 58%N] (mkLoc p (p + 2))) s') ->
    wp e yylex Q s.
  Proof using All.
    intros s p func paren term he interp Q S1 S2 HFl HLi HC HS Tx H13 H10 HLb (Tc & Tc2) HQ. pose proof HFl as [F1 F2 F3 F4 F5 F6].
    eapply (string_start B order e Hfuel); [exact (cu_pos _ _ _ _ HC)|exact HS|]. set (s1 := string_state s p). cbn [sl_func sl_term]. rewrite F6. ws.
    eapply (cur_nx B order e s1 p term); auto; [apply cur_flush; exact HC|]. intros b1 L1 P1. ws. rewrite F2. cbn [andb]. ws.
    rewrite HLi. cbn [sl_nest]. replace (mbeq (Some term) term) with true by (symmetry; apply N.eqb_refl). cbn [andb Nat.eqb].
    ws. unfold restore_strterm. ws. unfold string_term. ws. ws. rewrite F3, HLb. ws. unfold is_label_suffix. ws. cbn [Nat.add]. 
    eapply (wp_peek_at B e b1 (ln_rd _ _ _ _ L1) _ 58%N 0 (p + 1)); [reflexivity|].
    assert (L2 : Line B order (set_pcur (p + 1) b1) (p + 1)) by (eapply line_step; eauto). pose proof (ln_lt _ _ _ _ L2) as K. cbn in K.
    rewrite Nat.add_0_r, Tc. change (mbeq (Some 58%N) 58%N) with true. replace (p + 1 <? pend b1) with true by (clear - K; lia). cbn [andb].
    ws. eapply (wp_peek_at B e b1 (ln_rd _ _ _ _ L1) _ 58%N 1 (p + 1)); [reflexivity|].
    ws. replace (mbeq (nth_error B (p + 1 + 1)) 58%N) with false.
    2:{ symmetry. destruct (mbeq _ _) eqn:E; auto. apply mbeq_iff in E. congruence. }
    rewrite andb_false_r. cbn [negb]. ws.
    eapply (line_nx B order e _ (set_pcur (p + 1) b1) (p + 1) 58%N); [reflexivity|exact L2|reflexivity|exact Tc|discriminate|]. repeat ws.
    unfold yytail. ws. ws. ws. ws.
    cbn [lval_start lval_end lval set_lval set_strterm set_lex_state set_buffer set_tokenbuf s1 string_state set_lval_start buffer pcur set_pcur tok_eqb]. rewrite S2.
    replace (b_substr_at (set_pcur (p + 1 + 1) (set_pcur (p + 1) b1)) p (p + 1 + 1)) with (Some [term; 58%N]).
    2:{ symmetry. replace (p + 1 + 1) with (p + List.length [term; 58%N]) by (cbn; clear; lia). apply (substr_text B b1 (ln_rd _ _ _ _ L1) p [term; 58%N]); [reflexivity| |].
        - apply text_at_cons. split; [exact Tx|]. apply text_at_cons. split; [exact Tc|reflexivity].
        - assert (p + 1 < List.length B) by (apply nth_error_Some; congruence). cbn. lia. }
    replace (p + 1 + 1) with (p + 2) by (clear; lia). apply HQ; try reflexivity; try (split; reflexivity).
    cbn. replace (p + 2) with (p + 1 + 1) by (clear; lia). eapply line_after; eauto; discriminate.
  Qed.
End Opens.
