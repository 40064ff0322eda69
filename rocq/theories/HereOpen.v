(** * Heredocs without interpolation: the opening, and all tokens of a heredoc *)
Require Import Verif.Base Verif.MaybeByteM Verif.Utf8M Verif.InputM Verif.DiagnosticM Verif.TokensM Verif.BufferM Verif.LexStateM
  Verif.LexerM Verif.LexStringM Verif.LexIdentM Verif.LexHeredocM Verif.LexMainM Verif.Prop_Lexer
  Verif.SourceSpec Verif.SourceProofs Verif.Wp Verif.BufInv Verif.LexSpec Verif.NewlineInv Verif.MainInv
  Verif.ReadSpec Verif.YylexSpec Verif.Reach Verif.NumRead Verif.IdentRead Verif.IdentStep Verif.Prop_Ident Verif.Prop_Crlf
  Verif.StringSpec Verif.StrStep Verif.StrOpen Verif.HereSpec Verif.HereStep Verif.HereBody.
Require Import ZifyBool ZifyNat ZifyN.

Lemma opener_length : forall pre ql id, List.length (here_opener pre ql id) = 2 + List.length pre + 2 * List.length ql + List.length id.
Proof. intros pre ql id. unfold here_opener. rewrite !app_length. cbn. lia. Qed.

Lemma allowed_test : forall st sp, here_allowed st sp ->
  negb (ls_is_some st (N.lor EXPR_DOT EXPR_CLASS)) && negb (ls_is_end st) && (negb (ls_is_arg st) || ls_is_some st EXPR_LABELED || nonempty sp) = true.
Proof.
  intros st sp (H1 & H2 & H3 & H4 & H5 & H6). unfold ls_is_end, EXPR_END_ANY. rewrite !some_lor.
  change EXPR_DOT with (2 ^ IdentSpec.b_dot)%N. change EXPR_CLASS with (2 ^ IdentSpec.b_class)%N. change EXPR_END with (2 ^ b_end)%N.
  change EXPR_ENDARG with (2 ^ b_endarg)%N. change EXPR_ENDFN with (2 ^ IdentSpec.b_endfn)%N. change EXPR_LABELED with (2 ^ IdentSpec.b_labeled)%N.
  rewrite !some_pow. unfold IdentSpec.in_state in *. pose proof (starts_arg st) as HA.
  destruct (N.testbit st IdentSpec.b_dot); [congruence|]. destruct (N.testbit st IdentSpec.b_class); [congruence|]. destruct (N.testbit st b_end); [congruence|].
  destruct (N.testbit st b_endarg); [congruence|]. destruct (N.testbit st IdentSpec.b_endfn); [congruence|]. cbn [orb negb andb].
  destruct (ls_is_arg st); [|reflexivity]. cbn [negb orb]. destruct (H6 (proj1 HA eq_refl)) as [H|H]; [rewrite H; reflexivity|]. destruct sp; [congruence|]. apply orb_true_r.
Qed.

Section Open.
  Variables (B : list N) (e : Env).
  Hypothesis Hfuel : List.length B < fuel e.

  (** The name, up to its quote *)
  Lemma id_scan : forall b s0 t id n p (Q : bool -> Lexer -> Prop), Ready B b -> text_at B p (id ++ [t]) -> ~ In 10%N id -> ~ In 13%N id -> ~ In t id -> t <> 13%N ->
    p + List.length id < pend b -> List.length id < n ->
    Q true (set_buffer (set_pcur (p + List.length id + 1) b) s0) ->
    wp e (loop_n n (fun _ : unit =>
        c <- nextc ;;
        if mbeq_opt c (Some t) then ret (inr true)
        else if is_eof c || mbeq c 13%N || mbeq c 10%N then
          yyerror0 UnterminatedHeredocId ;;; ret (inr false)
        else ret (inl tt)) tt) Q (set_buffer (set_pcur p b) s0).
  Proof using All.
    intros b s0 t id. induction id as [|c id IH]; intros n p Q HR HT H10 H13 H39 Ht HP Hn HQ; (destruct n as [|n]; [exfalso; cbn in Hn; lia|]); cbn [loop_n]; ws.
    - cbn [app] in HT. apply text_at_cons in HT. destruct HT as (T1 & _). ws. cbn [List.length] in *. rewrite Nat.add_0_r in *.
      eapply (wp_nx B e b HR _ p t); [reflexivity|exact HP|exact T1|exact Ht|]. cbn [mbeq_opt]. rewrite N.eqb_refl. ws. exact HQ.
    - cbn [app] in HT. apply text_at_cons in HT. destruct HT as (T1 & T2). ws. cbn [List.length In] in *.
      eapply (wp_nx B e b HR _ p c); [reflexivity|lia|exact T1|intros ->; apply H13; auto|]. cbn [mbeq_opt is_eof mbeq orb].
      replace (N.eqb c t) with false by (symmetry; apply N.eqb_neq; intros ->; apply H39; auto).
      replace (N.eqb c 13) with false by (symmetry; apply N.eqb_neq; intros ->; apply H13; auto).
      replace (N.eqb c 10) with false by (symmetry; apply N.eqb_neq; intros ->; apply H10; auto). cbn [orb]. ws.
      change (set_buffer (set_pcur (p + 1) b) (set_buffer (set_pcur p b) s0)) with (set_buffer (set_pcur (p + 1) b) s0).
      apply IH; auto; try lia. replace (p + 1 + List.length id + 1) with (p + S (List.length id) + 1) by lia. exact HQ.
  Qed.

  (** A name without quotes, up to the byte behind it *)
  Lemma bare_scan : forall w, chars w -> forall b s0 u c r y n p (Q : option MaybeByte -> Lexer -> Prop), Ready B b -> u = c :: r -> name_char u -> text_at B p (u ++ w ++ [y]) -> ~ nb y -> y <> 13%N ->
    p + List.length u + List.length w < pend b -> List.length w < n ->
    Q (Some (Some y)) (set_buffer (set_pcur (p + List.length u + List.length w + 1) b) s0) ->
    wp e (loop_n n (fun _ : unit =>
        b <- getb ;;
        p <- sub_ck (pcur b) 1 ;;
        n <- multibyte_char_len p ;;
        match n with
        | None => ret (inr None)
        | Some n =>
            n1 <- sub_ck n 1 ;;
            modb (fun b => set_pcur (pcur b + n1) b) ;;;
            c <- nextc ;;
            i <- (if is_eof c then ret false else is_identchar) ;;
            if negb i then ret (inr (Some c)) else ret (inl tt)
        end) tt) Q (set_buffer (set_pcur (p + 1) b) s0).
  Proof using All.
    intros w Hw. induction Hw as [|u' w' Hu' Hw' IH]; intros b s0 u c r y n p Q HR Eu Hu Ht Hy H13 Hl Hn HQ; (destruct n as [|n]; [lia|]); cbn [loop_n]; apply wp_bind; apply wp_bind; ws.
    all: apply wp_bind; change (pcur (buffer (set_buffer (set_pcur (p + 1) b) s0))) with (p + 1); apply wp_sub_ck; [lia|]; replace (p + 1 - 1) with p by lia.
    all: unfold multibyte_char_len; ws; ws; ws; change (buffer (set_buffer (set_pcur (p + 1) b) s0)) with (set_pcur (p + 1) b).
    all: assert (Htu : text_at B p u) by (apply text_at_app in Ht; apply Ht).
    all: rewrite (char_len B b HR u p (p + 1) Hu Htu) by lia; ws; apply wp_bind.
    all: assert (Hul : 1 <= List.length u) by (rewrite Eu; cbn; lia).
    all: apply wp_sub_ck; [lia|]; ws; ws; change (pcur (buffer (set_buffer (set_pcur (p + 1) b) s0))) with (p + 1); replace (p + 1 + (List.length u - 1)) with (p + List.length u) by lia; ws.
    all: apply text_at_app in Ht; destruct Ht as (_ & Ht).
    - cbn [app] in Ht. apply text_at_cons in Ht. destruct Ht as (T1 & _). cbn [List.length] in *. rewrite Nat.add_0_r in *.
      eapply (wp_nx B e b HR _ (p + List.length u) y); [reflexivity|exact Hl|exact T1|exact H13|]. cbn [is_eof]. ws. unfold is_identchar. ws. ws.
      match goal with |- context [buffer (set_buffer ?x ?y)] => change (buffer (set_buffer x y)) with x end. cbn [eofp set_pcur pcur]. replace (eofp b) with false by (symmetry; apply HR). ws. apply wp_sub_ck; [lia|]. ws.
      match goal with |- context [negb ?t] => replace t with false end; [cbn [negb]; ws; ws; exact HQ|].
      symmetry. apply not_true_is_false. replace (p + List.length u + 1 - 1) with (p + List.length u) by lia.
      intros K. apply Hy. apply (identchar_nb B b _ y HR T1). exact K.
    - destruct (char_ne u' Hu') as (c' & r' & E'). rewrite app_length in *.
      assert (Hc' : nth_error B (p + List.length u) = Some c') by (rewrite E' in Ht; cbn [app] in Ht; apply text_at_cons in Ht; apply Ht).
      assert (Hnb : nb c') by (apply (char_bytes u'); [exact Hu'|rewrite E'; left; reflexivity]).
      pose proof (nb_range c' Hnb) as Hr'.
      eapply (wp_nx B e b HR _ (p + List.length u) c'); [reflexivity|rewrite E' in Hl; cbn in Hl; lia|exact Hc'|apply Hr'|]. cbn [is_eof]. ws. unfold is_identchar. ws. ws.
      match goal with |- context [buffer (set_buffer ?x ?y)] => change (buffer (set_buffer x y)) with x end. cbn [eofp set_pcur pcur]. replace (eofp b) with false by (symmetry; apply HR). ws. apply wp_sub_ck; [lia|]. ws.
      match goal with |- context [negb ?t] => replace t with true end.
      2: { symmetry. replace (p + List.length u + 1 - 1) with (p + List.length u) by lia. apply (identchar_nb B b _ c' HR Hc'). exact Hnb. }
      cbn [negb]. ws.
      match goal with |- wp e _ Q ?s' => change s' with (set_buffer (set_pcur (p + List.length u + 1) b) s0) end.
      apply (IH b s0 u' c' r' y n (p + List.length u) Q); auto; try lia.
      + rewrite <- app_assoc in Ht. exact Ht.
      + rewrite E' in Hn. cbn in Hn. lia.
      + replace (p + List.length u + List.length u' + List.length w' + 1) with (p + List.length u + (List.length u' + List.length w') + 1) by lia. exact HQ.
  Qed.

  Lemma here_open : forall s p sp pre indent z ql beg expand id rest, here_mark pre indent z -> here_quote ql beg expand -> ~ In 10%N id -> ~ In 13%N id -> name_fits ql id (rest ++ [10%N]) -> here_allowed (lex_state s) sp ->
    BWF B (buffer s) -> lval_start s = None -> lval_end s = None -> strterm s = None -> upcoming (buffer s) p -> in_order (buffer s) -> spacing (buffer s) sp ->
    text_at B p (sp ++ here_opener pre ql id ++ rest ++ [10%N]) -> ~ In 10%N rest ->
    exists s1 b, yylex e s = Ok (tok_at beg (here_opener pre ql id) (p + List.length sp) (List.length (here_opener pre ql id))) s1 /\
      Ready B b /\ pcur b = p + List.length sp /\ pend b = p + List.length sp + List.length (here_opener pre ql id) + List.length rest + 1 /\ line_count b = lastline b + 1 /\ line_count b < NL B /\
      buffer s1 = set_heredoc_line_indent 0 (set_heredoc_indent z (set_ptok (pend b) (set_pcur (pend b) b))) /\
      strterm s1 = Some (HeredocLit (mkHeredocLiteral (lastline b) (p + List.length sp - pbeg b + 2 + List.length pre + List.length ql) (ruby_sourceline b) (List.length id) (List.length ql) (N.lor (if indent then STR_FUNC_INDENT else 0%N) (if expand then STR_FUNC_EXPAND else 0%N)))) /\
      lval_start s1 = None /\ lval_end s1 = None /\ diagnostics s1 = diagnostics s /\ comments s1 = comments s.
  Proof using All.
    intros s p sp pre indent z ql beg expand id rest HM HQ I10 I13 (If1 & If2) HA HW V1 V2 ST HU HO HS HT HR10.
    set (op := here_opener pre ql id) in *. pose proof (opener_length pre ql id) as Hop. fold op in Hop.
    assert (Eop : op = 60%N :: 60%N :: pre ++ ql ++ id ++ ql) by reflexivity.
    assert (HT' : text_at B p (sp ++ 60%N :: (60%N :: pre ++ ql ++ id ++ ql) ++ rest ++ [10%N])) by (rewrite Eop in HT; exact HT).
    assert (Hq10 : ~ In 10%N ql /\ ~ In 13%N ql) by (destruct HQ; cbn; split; intros K; repeat (destruct K as [K|K]; try discriminate); auto).
    assert (Hx : exists x0 r0, ql ++ id ++ ql = x0 :: r0 /\ x0 <> 13%N /\ x0 <> 45%N /\ x0 <> 126%N).
    { destruct HQ; cbn [app]; try (eexists; eexists; split; [reflexivity|splits; discriminate]).
      destruct (If2 eq_refl) as (K1 & K2 & _). rewrite app_nil_r. destruct (tail_chars id K2) as [|u w Hu _]; [congruence|].
      destruct (char_ne u Hu) as (c & v & ->). exists c, (v ++ w). split; [reflexivity|].
      assert (K : nb c) by (apply (char_bytes _ c Hu); left; reflexivity). clear - K. unfold nb, IdentSpec.letter, IdentSpec.digit in K. splits; lia. }
    destruct Hx as (x0 & r0 & Ex0 & X13 & X45 & X126).
    pose proof HT as HTq. apply text_at_app in HTq. destruct HTq as (HTs & HTq). set (q := p + List.length sp) in *.
    assert (Hlen : q + List.length op + List.length rest < List.length B).
    { pose proof (text_at_len B _ _ HTq ltac:(rewrite Eop; discriminate)) as K. rewrite !app_length in K. cbn [List.length] in K. lia. }
    match goal with |- ?G => destruct (wp_ok _ _ e yylex (fun t s1 => t = tok_at beg op q (List.length op) /\ exists b, 
      Ready B b /\ pcur b = q /\ pend b = q + List.length op + List.length rest + 1 /\ line_count b = lastline b + 1 /\ line_count b < NL B /\
      buffer s1 = set_heredoc_line_indent 0 (set_heredoc_indent z (set_ptok (pend b) (set_pcur (pend b) b))) /\
      strterm s1 = Some (HeredocLit (mkHeredocLiteral (lastline b) (q - pbeg b + 2 + List.length pre + List.length ql) (ruby_sourceline b) (List.length id) (List.length ql) (N.lor (if indent then STR_FUNC_INDENT else 0%N) (if expand then STR_FUNC_EXPAND else 0%N)))) /\
      lval_start s1 = None /\ lval_end s1 = None /\ diagnostics s1 = diagnostics s /\ comments s1 = comments s) s) as (t & s1 & E & -> & b & HX) end.
    2: { exists s1, b. split; [exact E|]. exact HX. }
    apply (yylex_start B e s p sp 60%N ((60%N :: pre ++ ql ++ id ++ ql) ++ rest ++ [10%N])); auto; [discriminate|unfold q in Hlen; clear - Hlen Hfuel; lia|].
    fold q. intros b HR HP1 HP2 HP3 HI HO2. specialize (HO2 HO). pose proof HR as (W & N0 & E0).
    (* the line *)
    assert (Tnl : nth_error B (q + List.length op + List.length rest) = Some 10%N).
    { apply text_at_app in HTq. destruct HTq as (_ & K). apply text_at_app in K. destruct K as (_ & K). apply text_at_cons in K. apply K. }
    assert (HLs : lstart B (lastline b) <= q) by (pose proof (w_pbeg B b W); pose proof (w_pcur1 B b W); clear - H H0 HP1; lia).
    pose proof (w_last B b W) as WL. pose proof (w_count B b W) as WC.
    assert (Hpre : ~ In 10%N pre /\ ~ In 13%N pre) by (destruct HM; cbn; split; intros K; repeat (destruct K as [K|K]; try discriminate); auto).
    assert (Hno : ~ In 10%N (op ++ rest)).
    { rewrite Eop. intros K. apply in_app_or in K. destruct K as [K|K]; [|contradiction]. destruct K as [K|[K|K]]; try discriminate. apply in_app_or in K. destruct K as [K|K]; [tauto|].
      apply in_app_or in K. destruct K as [K|K]; [tauto|]. apply in_app_or in K. tauto. }
    assert (HTo : text_at B q (op ++ rest)) by (rewrite app_assoc in HTq; eapply text_prefix; exact HTq).
    pose proof (fits B b q (op ++ rest) W HLs HP3 HTo Hno) as HF. rewrite app_length in HF.
    assert (HF2 : q + List.length op + List.length rest < pend b).
    { destruct (Nat.eq_dec (q + List.length op + List.length rest) (pend b)) as [Eq|Eq]; [exfalso|clear - HF Eq; lia].
      pose proof (w_pend B b W) as WE. destruct (Nat.eq_dec (lastline b + 1) (NL B)) as [El|El]; [destruct (line_last B _ El); clear - Hlen Eq WE H; lia|].
      destruct (line_newline B (lastline b)) as (_ & A & _); [clear - El WL WC; lia|]. rewrite <- WE, <- Eq in A.
      apply Hno. replace (q + List.length op + List.length rest - 1) with (q + (List.length (op ++ rest) - 1)) in A by (rewrite app_length; clear - Hop; lia).
      rewrite (text_nth B (op ++ rest) q) in A by (auto; rewrite app_length; clear - Hop; lia). eapply nth_error_In; exact A. }
    destruct (newline_last B (lastline b) (q + List.length op + List.length rest)) as (HNl & HNn); auto; [clear - WL WC; lia|clear - HLs; lia|rewrite <- (w_pend B b W); exact HF2|].
    rewrite <- (w_pend B b W) in HNl.
    assert (HPd : pend b = q + List.length op + List.length rest + 1) by (clear - HNl HF2; lia).
    assert (HLc : line_count b = lastline b + 1) by (unfold in_order in HO2; rewrite N0 in HO2; exact HO2).
    change (lex_char (Some 60%N) (command_start s) (nonempty sp) (token_seen s) (lex_state s)) with (lex_lt (nonempty sp) (lex_state s)).
    unfold lex_lt.
    (* texts *)
    pose proof HTo as HTb. apply text_prefix in HTb. rewrite Eop in HTb. apply text_at_cons in HTb. destruct HTb as (_ & HTb). apply text_at_cons in HTb. destruct HTb as (Tb & HTb).
    apply text_at_app in HTb. destruct HTb as (HTp & HTi).
    assert (Tq : nth_error B (q + 1 + 1 + List.length pre) = Some x0) by (rewrite Ex0 in HTi; apply text_at_cons in HTi; apply HTi).
    set (s1 := set_token_seen true (set_command_start false (set_lval None s))).
    ws. eapply (wp_nx B e b HR _ (q + 1) 60%N); try reflexivity; try assumption; try discriminate; [clear - HPd Hop; lia|].
    ws. ws. change (lex_state (set_buffer ?x (set_buffer ?y s1))) with (lex_state s).
    change (mbeq (Some 60%N) "<") with true. cbn [andb]. rewrite (allowed_test _ _ HA).
    change (set_buffer (set_pcur (q + 1 + 1) b) (set_buffer (set_pcur (q + 1) b) s1)) with (set_buffer (set_pcur (q + 1 + 1) b) s1).
    assert (HScan : forall off (func : N) ind (Q : (nat * nat * N * Tok) + option Tok -> Lexer -> Prop),
      Q (inl (List.length ql, off + List.length ql, N.lor func (if expand then STR_FUNC_EXPAND else 0%N), beg)) (set_buffer (set_pcur (q + List.length op) b) s1) ->
      wp e (heredoc_id_scan (Some x0) off func ind) Q (set_buffer (set_pcur (q + 1 + 1 + List.length pre + 1) b) s1)).
    { intros off func ind Q HQQ. destruct HQ as [| | |].
      1,2,3: cbn [app] in Ex0; injection Ex0 as <- <-; cbn [app] in HTi; apply text_at_cons in HTi; destruct HTi as (_ & HTi);
        unfold heredoc_id_scan, mbeq; cbn [N.eqb Pos.eqb orb]; cbv zeta; ws; apply wp_loop_fuel;
        (eapply (id_scan b s1 _ id); [exact HR|exact HTi|exact I10|exact I13|apply If1; reflexivity|discriminate|clear - HPd Hop; cbn [List.length] in Hop; lia|clear - Hlen Hop Hfuel; lia|]);
        ws; replace (q + 1 + 1 + List.length pre + 1 + List.length id + 1) with (q + List.length op) by (clear - Hop; cbn [List.length] in Hop; lia); exact HQQ.
      cbn [app List.length] in *. rewrite Nat.add_0_r in HQQ. rewrite app_nil_r in Ex0, HTi.
      destruct (If2 eq_refl) as (K1 & K2 & K3). destruct (tail_chars id K2) as [|u w Hu Hw]; [congruence|].
      assert (Hlu : 1 <= List.length u) by (destruct (char_ne u Hu) as (? & ? & ->); cbn; lia).
      assert (Hnb : nb x0). { destruct (char_ne u Hu) as (c & v & Eu). rewrite Eu in Ex0. cbn in Ex0. injection Ex0 as -> _. apply (char_bytes _ x0 Hu). rewrite Eu. left. reflexivity. }
      unfold heredoc_id_scan. replace (mbeq (Some x0) "'" || mbeq (Some x0) """" || mbeq (Some x0) "`") with false by (clear - Hnb; unfold nb, IdentSpec.letter, IdentSpec.digit in Hnb; cbn [mbeq]; symmetry; lia).
      ws. unfold is_identchar. ws. ws.
      match goal with |- context [buffer (set_buffer ?x ?y)] => change (buffer (set_buffer x y)) with x end. cbn [eofp set_pcur pcur]. rewrite E0. ws. apply wp_sub_ck; [clear; lia|]. ws.
      match goal with |- context [negb ?t] => replace t with true end.
      2: { symmetry. replace (q + 1 + 1 + List.length pre + 1 - 1) with (q + 1 + 1 + List.length pre) by (clear; lia). apply (identchar_nb B b _ x0 HR Tq). exact Hnb. }
      cbn [negb]. cbv zeta. ws. apply wp_loop_fuel.
      assert (Hy : exists y r, rest ++ [10%N] = y :: r) by (clear; destruct rest; cbn; eauto). destruct Hy as (y & r & Ey).
      destruct (K3 y r Ey) as (Y1 & Y2 & Y3 & Y4).
      destruct (char_ne u Hu) as (c & v & Eu).
      assert (Hl2 : List.length op = 2 + List.length pre + List.length u + List.length w) by (rewrite Hop, app_length; lia).
      assert (HTy : text_at B (q + 1 + 1 + List.length pre) (u ++ w ++ [y])).
      { assert (K : text_at B q (op ++ [y] ++ r)) by (cbn [app]; rewrite <- Ey; exact HTq). rewrite app_assoc in K. apply text_prefix in K. rewrite Eop in K. cbn [app] in K.
        apply text_at_cons in K. destruct K as (_ & K). apply text_at_cons in K. destruct K as (_ & K). rewrite <- !app_assoc in K. apply text_at_app in K. destruct K as (_ & K). cbn [app] in K. exact K. }
      eapply (bare_scan w Hw b s1 u c v y); [exact HR|exact Eu|exact Hu|exact HTy| |exact Y4|clear - HPd Hl2; lia|clear - Hlen Hl2 Hfuel; lia|].
      - unfold nb. intros [K|[K|K]]; [auto|auto|lia].
      - cbv iota beta. ws. apply wp_push; [intros _; cbn; clear; lia|]. ws.
        match goal with |- Q _ ?s2 => replace s2 with (set_buffer (set_pcur (q + List.length op) b) s1); [exact HQQ|] end.
        assert (Eb : back (Some y) (set_pcur (q + 1 + 1 + List.length pre + List.length u + List.length w + 1) b) = set_pcur (q + List.length op) b).
        { unfold back. cbn [pcur set_pcur pbeg]. unfold byte_at. cbn [input set_pcur]. rewrite !(rd_at B b HR).
          replace (q + 1 + 1 + List.length pre + List.length u + List.length w + 1 - 1) with (q + List.length op) by (clear - Hl2; lia).
          replace (mbeq (nth_error B (q + List.length op - 1)) 13%N) with false; [rewrite andb_false_r; reflexivity|].
          assert (K : exists x, In x (u ++ w) /\ nth_error B (q + List.length op - 1) = Some x).
          { exists (nth (List.length (u ++ w) - 1) (u ++ w) 0%N). assert (Kl : 0 < List.length (u ++ w)) by (rewrite app_length; clear - Hlu; lia). split; [apply nth_In; clear - Kl; lia|].
            replace (q + List.length op - 1) with (q + 1 + 1 + List.length pre + (List.length (u ++ w) - 1)) by (rewrite app_length; clear - Hl2 Hlu; lia).
            rewrite (text_nth B (u ++ w)) by (auto; clear - Kl; lia). apply nth_error_nth'. clear - Kl. lia. }
          destruct K as (x & Kx1 & Kx2). rewrite Kx2. cbn [mbeq]. symmetry. apply N.eqb_neq. intros ->. contradiction. }
        match goal with |- _ = set_buffer ?bb _ => change bb with (back (Some y) (set_pcur (q + 1 + 1 + List.length pre + List.length u + List.length w + 1) b)) end. rewrite Eb. reflexivity. }
    (* the token *)
    assert (Hpb : pbeg b <= q) by (rewrite <- HP1; apply (w_pcur1 B b W)).
    assert (HRest : forall func off (P : option Tok -> Lexer -> Prop), func = (if indent then STR_FUNC_INDENT else 0%N) -> off = q + 2 - pbeg b + List.length pre ->
      P (Some beg) (set_buffer (set_heredoc_line_indent 0 (set_heredoc_indent z (set_ptok (pend b) (set_pcur (pend b) b))))
        (set_strterm (Some (HeredocLit (mkHeredocLiteral (lastline b) (q - pbeg b + 2 + List.length pre + List.length ql) (ruby_sourceline b) (List.length id) (List.length ql) (N.lor (if indent then STR_FUNC_INDENT else 0%N) (if expand then STR_FUNC_EXPAND else 0%N)))))
          (set_lval_end (Some (q + List.length op)) (set_lval_start (Some q) (set_lval (Some op) s1))))) ->
      wp e (b <- getb ;;
        len <- sub_ck (pcur b) (pbeg b + (off + List.length ql)) ;;
        len <- sub_ck len (List.length ql) ;;
        id <- expect (b_substr_at b (ptok b) (pcur b)) "failed to get heredoc id" ;;
        set_yylval id ;;;
        modify (set_lval_start (Some (ptok b))) ;;;
        modify (set_lval_end (Some (pcur b))) ;;;
        modb goto_eol ;;;
        modify (set_strterm (Some (HeredocLit
          (mkHeredocLiteral (lastline b) (off + List.length ql) (ruby_sourceline b) len (List.length ql) (N.lor func (if expand then STR_FUNC_EXPAND else 0%N)))))) ;;;
        token_flush ;;;
        modb (set_heredoc_indent z) ;;;
        modb (set_heredoc_line_indent 0%Z) ;;;
        ret (Some beg)) P (set_buffer (set_pcur (q + List.length op) b) s1)).
    { intros func off P -> Ho HP. ws. ws. change (pcur (buffer (set_buffer (set_pcur ?x b) s1))) with x. change (pbeg (buffer (set_buffer (set_pcur ?x b) s1))) with (pbeg b).
      apply wp_bind. apply wp_sub_ck; [clear - Ho Hpb Hop; lia|]. apply wp_bind. apply wp_sub_ck; [clear - Ho Hpb Hop; lia|].
      ws. eapply wp_expect.
      { cbn [ptok pcur buffer set_buffer set_pcur]. rewrite HP2. apply (substr_text B b HR q op); auto; [eapply text_prefix; exact HTo|clear - Hlen; lia]. }
      repeat ws.
      replace (off + List.length ql) with (q - pbeg b + 2 + List.length pre + List.length ql) by (clear - Ho Hpb; lia).
      replace (q + List.length op - (pbeg b + (q - pbeg b + 2 + List.length pre + List.length ql)) - List.length ql) with (List.length id) by (clear - Hpb Hop; lia).
      change (ptok (buffer (set_buffer (set_pcur ?x b) s1))) with (ptok b). rewrite HP2. exact HP. }
    match goal with |- wp e (bind heredoc_identifier ?k) ?P ?s0 => assert (HFin : forall s2, s2 = set_buffer (set_heredoc_line_indent 0 (set_heredoc_indent z (set_ptok (pend b) (set_pcur (pend b) b))))
        (set_strterm (Some (HeredocLit (mkHeredocLiteral (lastline b) (q - pbeg b + 2 + List.length pre + List.length ql) (ruby_sourceline b) (List.length id) (List.length ql) (N.lor (if indent then STR_FUNC_INDENT else 0%N) (if expand then STR_FUNC_EXPAND else 0%N)))))
          (set_lval_end (Some (q + List.length op)) (set_lval_start (Some q) (set_lval (Some op) s1)))) -> wp e (k (Some beg)) P s2) end.
    { intros s2 ->. cbv beta iota. unfold tk. ws. unfold yytail.
      assert (Hbeg : tok_eqb beg tNL = false) by (destruct HQ; reflexivity).
      repeat ws. rewrite Hbeg. ws. split; [reflexivity|]. exists b. splits; auto. rewrite HLc. exact HNn. }
    unfold heredoc_identifier. ws. ws. ws. ws. change (pcur (buffer (set_buffer (set_pcur ?x b) s1))) with x. change (pbeg (buffer (set_buffer (set_pcur ?x b) s1))) with (pbeg b).
    apply wp_sub_ck; [clear - Hpb; lia|]. ws.
    assert (Hxl : 2 + List.length pre < List.length op) by (pose proof (f_equal (@List.length N) Ex0) as K; rewrite !app_length in K; cbn [List.length] in K; rewrite Hop; clear - K; lia).
    destruct HM.
    - cbn [List.length] in Tq, HScan, Hop. rewrite Nat.add_0_r in Tq. assert (E2 : q + 1 + 1 + 0 + 1 = q + 1 + 1 + 1) by (clear; lia). rewrite E2 in HScan.
      eapply (wp_nx B e b HR _ (q + 1 + 1) x0); try reflexivity; try assumption; [clear - HPd Hop Hxl; lia|]. cbn [mbeq]. replace (N.eqb x0 45) with false by (symmetry; apply N.eqb_neq; exact X45). replace (N.eqb x0 126) with false by (symmetry; apply N.eqb_neq; exact X126). cbv iota. ws. ws. ws. apply (HScan (q + 1 + 1 - pbeg b) 0%N 0%Z).
      apply (HRest 0%N (q + 1 + 1 - pbeg b)); [reflexivity|cbn [List.length]; clear; lia|]. apply HFin. reflexivity.
    - cbn [List.length] in Tq, HScan, Hop. apply text_at_cons in HTp. destruct HTp as (Tp & _).
      eapply (wp_nx B e b HR _ (q + 1 + 1) 45%N); try reflexivity; try assumption; try discriminate; [clear - HPd Hop Hxl; lia|]. change (mbeq (Some 45%N) "-") with true. cbv iota. ws. ws.
      eapply (wp_nx B e b HR _ (q + 1 + 1 + 1) x0); try reflexivity; try assumption; [clear - HPd Hop Hxl; lia|]. ws. ws. apply (HScan (q + 1 + 1 - pbeg b + 1) STR_FUNC_INDENT 0%Z).
      apply (HRest STR_FUNC_INDENT (q + 1 + 1 - pbeg b + 1)); [reflexivity|cbn [List.length]; clear - Hpb; lia|]. apply HFin. reflexivity.
    - cbn [List.length] in Tq, HScan, Hop. apply text_at_cons in HTp. destruct HTp as (Tp & _).
      eapply (wp_nx B e b HR _ (q + 1 + 1) 126%N); try reflexivity; try assumption; try discriminate; [clear - HPd Hop Hxl; lia|]. change (mbeq (Some 126%N) "-") with false. change (mbeq (Some 126%N) "~") with true. cbv iota. ws. ws.
      eapply (wp_nx B e b HR _ (q + 1 + 1 + 1) x0); try reflexivity; try assumption; [clear - HPd Hop Hxl; lia|]. ws. ws. apply (HScan (q + 1 + 1 - pbeg b + 1) STR_FUNC_INDENT i32_max).
      apply (HRest STR_FUNC_INDENT (q + 1 + 1 - pbeg b + 1)); [reflexivity|cbn [List.length]; clear - Hpb; lia|]. apply HFin. reflexivity.
  Qed.
End Open.
