(** * String literals: the opening, and all tokens of a literal *)
Require Import Verif.Base Verif.MaybeByteM Verif.Utf8M Verif.InputM Verif.DiagnosticM Verif.TokensM Verif.BufferM Verif.LexStateM
  Verif.LexerM Verif.LexStringM Verif.LexIdentM Verif.LexMainM
  Verif.SourceSpec Verif.SourceProofs Verif.Wp Verif.BufInv Verif.LexSpec Verif.NewlineInv Verif.MainInv
  Verif.ReadSpec Verif.YylexSpec Verif.Reach Verif.NumberSpec Verif.NumRead Verif.IdentRead Verif.IdentStep Verif.Prop_Ident Verif.Prop_Crlf
  Verif.StringSpec Verif.StrNum Verif.StrRead Verif.StrStep.
Require Import ZifyBool ZifyNat ZifyN.

(** The flags of a literal, and the one that quoted strings carry where a label is possible *)
Definition flags_of (interp words : bool) : N := N.lor (if interp then STR_FUNC_EXPAND else 0) (if words then N.lor STR_FUNC_QWORDS STR_FUNC_LIST else 0).
Definition labelled (op : list N) : Prop := op = [39%N] \/ op = [34%N].

Section Opening.
  Variables (B : list N) (order : Prop) (e : Env).
  Hypothesis Hfuel : List.length B < fuel e.

  Lemma start_line : forall s b q x, Ready B b -> pcur b = q -> q < pend b -> nth_error B q = Some x -> x <> 10%N ->
    heredoc_indent b = heredoc_indent (buffer s) -> Z.ltb 0 (heredoc_indent (buffer s)) = false -> (order -> in_order b) -> Line B order b q.
  Proof using All.
    intros s b q x HR HP HE Hx Hn HI HQ HO. constructor; auto; try congruence. rewrite HP. auto.
  Qed.

  Lemma open_quote : forall s p sp x interp (Q : Token -> Lexer -> Prop), opening [x] tSTRING_BEG interp false None x -> x = 39%N \/ x = 34%N ->
    BWF B (buffer s) -> lval_start s = None -> lval_end s = None -> strterm s = None -> upcoming (buffer s) p -> text_at B p (sp ++ [x]) -> spacing (buffer s) sp ->
    Z.ltb 0 (heredoc_indent (buffer s)) = false -> (order -> in_order (buffer s)) ->
    (forall s' l, l = 0%N \/ l = str_label ->
      InString B order s s' (p + List.length sp + 1) (mkStringLiteral 0 (N.lor (flags_of interp false) l) None x None) -> diagnostics s' = diagnostics s ->
      Q (tok_at tSTRING_BEG [x] (p + List.length sp) 1) s') -> wp e yylex Q s.
  Proof using All.
    intros s p sp x interp Q HOp Hx HW S1 S2 ST HU HT HS HI HO HQ.
    pose proof HT as HT2. apply text_at_app in HT2. destruct HT2 as (_ & HT2). pose proof HT2 as HT3. apply text_at_cons in HT3. destruct HT3 as (Tx & _).
    assert (Hl : p + List.length sp < List.length B) by (apply nth_error_Some; congruence).
    assert (Hx2 : (x = 39 \/ x = 34)%N) by exact Hx.
    apply (yylex_start B e s p sp x []); auto; [clear - Hx2; lia|clear - Hl Hfuel; lia|].
    set (q := p + List.length sp) in *. intros b HR HP1 HP2 HP3 HH HO2.
    assert (HL : Line B order b q) by (eapply start_line; eauto; clear - Hx2; lia).
    assert (HLast : forall l, l = 0%N \/ l = str_label -> forall s1, s1 = set_buffer (set_ptok q (set_pcur (q + 1) b)) (set_strterm (new_strterm (N.lor (flags_of interp false) l) x None None) (set_buffer (set_pcur (q + 1) b) (set_token_seen true (set_command_start false (set_lval None s))))) ->
      wp e (yytail tSTRING_BEG) Q s1).
    { intros l Hlb s1 ->. eapply (tail_ok e tSTRING_BEG Q _ q (q + 1) [x]); auto.
      - right. split; [reflexivity|]. apply (substr_text B b HR q [x]); auto. cbn. clear - Hl. lia.
      - apply (HQ _ l); auto. constructor; try reflexivity; [|split; reflexivity]. cbn. apply cur_ptok; [|clear; lia].
        eapply line_after; eauto; clear - Hx2; lia. }
    assert (HQt : forall cmd, wp e (lex_quote (flags_of interp false) x cmd) (fun r s' => match r with
                   | Tk t => wp e (yytail t) Q s'
                   | Ident c => wp e (parse_ident c (command_start s)) (fun t s'' => wp e (yytail t) Q s'') s'
                   | Retry _ => False
                   end) (set_buffer (set_pcur (q + 1) b) (set_token_seen true (set_command_start false (set_lval None s))))).
    { intros cmd. unfold lex_quote. ws. ws. unfold start_strterm. ws. ws. ws. ws. apply wp_bind. apply wp_sub_ck; [cbn; clear; lia|].
      unfold tk. repeat ws. cbn [pcur buffer set_strterm set_buffer set_pcur]. replace (q + 1 - 1) with q by (clear; lia).
      destruct (ls_is_label_possible _ _); (eapply HLast; [|reflexivity]); auto. }
    destruct Hx as [-> | ->]; inversion HOp; subst; apply HQt.
  Qed.

  Lemma starts_beg : forall st, ls_is_beg st = true <-> value_expected st.
  Proof using.
    intros st. unfold ls_is_beg, EXPR_BEG_ANY, value_expected, IdentSpec.in_state. rewrite !some_lor.
    change EXPR_BEG with (2 ^ IdentSpec.b_beg)%N. change EXPR_MID with (2 ^ IdentSpec.b_mid)%N. change EXPR_CLASS with (2 ^ IdentSpec.b_class)%N. rewrite !some_pow.
    assert (E : ls_is_all st (N.lor EXPR_ARG EXPR_LABELED) = N.testbit st IdentSpec.b_arg && N.testbit st IdentSpec.b_labeled).
    { unfold ls_is_all. change (N.lor EXPR_ARG EXPR_LABELED) with (N.lor (2 ^ IdentSpec.b_arg) (2 ^ IdentSpec.b_labeled)).
      set (a := IdentSpec.b_arg). set (l := IdentSpec.b_labeled). assert (Hal : a <> l) by discriminate. clearbody a l.
      destruct (N.eqb_spec (N.land st (N.lor (2 ^ a) (2 ^ l))) (N.lor (2 ^ a) (2 ^ l))) as [H|H].
      - assert (K : forall m, m = a \/ m = l -> N.testbit st m = true).
        { intros m Hm. assert (K : N.testbit (N.lor (2 ^ a) (2 ^ l)) m = true).
          { rewrite N.lor_spec. destruct Hm as [Hm|Hm]; rewrite Hm, N.pow2_bits_true; [reflexivity|apply orb_true_r]. }
          rewrite <- H, N.land_spec in K. apply andb_prop in K. apply K. }
        rewrite (K a), (K l) by auto. reflexivity.
      - symmetry. apply andb_false_iff. destruct (N.testbit st a) eqn:Ea; auto. destruct (N.testbit st l) eqn:El; auto. exfalso. apply H.
        apply N.bits_inj. intros m. rewrite N.land_spec, N.lor_spec.
        destruct (N.eq_dec m a) as [Em|Em]; [rewrite Em, Ea; reflexivity|]. destruct (N.eq_dec m l) as [Em2|Em2]; [rewrite Em2, El; reflexivity|].
        rewrite (N.pow2_bits_false a m), (N.pow2_bits_false l m) by auto. apply andb_false_r. }
    rewrite E. rewrite !orb_true_iff, andb_true_iff. tauto.
  Qed.

  Lemma starts_arg : forall st, ls_is_arg st = true <-> argument_possible st.
  Proof using.
    intros st. unfold ls_is_arg, EXPR_ARG_ANY, argument_possible, IdentSpec.in_state. rewrite !some_lor.
    change EXPR_ARG with (2 ^ IdentSpec.b_arg)%N. change EXPR_CMDARG with (2 ^ IdentSpec.b_cmdarg)%N. rewrite !some_pow. apply orb_true_iff.
  Qed.

  Lemma open_percent : forall s p sp l k interp words c opn cls (Q : Token -> Lexer -> Prop), percent_kind l k interp words -> delimiter c -> bracket c opn cls ->
    BWF B (buffer s) -> lval_start s = None -> lval_end s = None -> strterm s = None -> upcoming (buffer s) p -> text_at B p (sp ++ 37%N :: l ++ [c]) -> spacing (buffer s) sp ->
    percent_starts (lex_state s) sp (hd c l) ->
    Z.ltb 0 (heredoc_indent (buffer s)) = false -> (order -> in_order (buffer s)) -> (c = 10%N -> order) ->
    (forall s', InString B order s s' (p + List.length sp + (2 + List.length l)) (mkStringLiteral 0 (flags_of interp words) opn cls None) -> diagnostics s' = diagnostics s ->
      Q (tok_at k (37%N :: l ++ [c]) (p + List.length sp) (2 + List.length l)) s') -> wp e yylex Q s.
  Proof using All.
    intros s p sp l k interp words c opn cls Q HK HDc HBr HW S1 S2 ST HU HT HS HPS HI HO H10 HQ.
    pose proof HT as HT2. apply text_at_app in HT2. destruct HT2 as (_ & HT2). pose proof HT2 as HT3. apply text_at_cons in HT3. destruct HT3 as (Tx & HT3).
    apply text_at_app in HT3. destruct HT3 as (HTl & HTc). apply text_at_cons in HTc. destruct HTc as (Tc & _).
    set (q := p + List.length sp) in *.
    assert (Hl : q + 1 + List.length l < List.length B) by (apply nth_error_Some; congruence).
    apply (yylex_start B e s p sp 37%N (l ++ [c])); auto; [discriminate|unfold q in Hl; clear - Hl Hfuel; lia|].
    fold q. intros b HR HP1 HP2 HP3 HH HO2.
    assert (HL : Line B order b q) by (eapply start_line; eauto; discriminate).
    destruct HDc as (D1 & D2 & D3).
    set (s1 := set_token_seen true (set_command_start false (set_lval None s))).
    assert (HC1 : Cur B order (set_pcur (q + 1) b) (q + 1)) by (eapply line_after; eauto; discriminate).
    (* behind the delimiter *)
    assert (HB : forall b2 x, Line B order b2 (q + 1 + List.length l) -> l = [x] \/ (l = [] /\ x = 81%N) ->
      wp e (percent_begin (Some x) c (q + 1)) (fun t s' => wp e (yytail t) Q s') (set_buffer (set_pcur (q + 1 + List.length l + 1) b2) s1)).
    { intros b2 x L2 Hlx. unfold percent_begin.
      assert (HP : percent_parens c = (cls, opn)). { destruct HBr as [| | | |c (N1 & N2 & N3 & N4)]; try reflexivity. unfold percent_parens.
        repeat match goal with |- context [N.eqb c ?y] => replace (N.eqb c y) with false by (symmetry; apply N.eqb_neq; assumption) end. reflexivity. }
      rewrite HP. apply wp_bind. apply wp_sub_ck; [clear; lia|]. ws. ws.
      assert (HLast : forall f, f = flags_of interp words -> wp e (yytail k) Q (set_strterm (new_strterm f cls opn None)
          (set_buffer (set_ptok (q + 1 - 1) (buffer (set_buffer (set_pcur (q + 1 + List.length l + 1) b2) s1))) (set_buffer (set_pcur (q + 1 + List.length l + 1) b2) s1)))).
      { intros f ->. replace (q + 1 - 1) with q by (clear; lia).
        assert (Hw : List.length (37%N :: l ++ [c]) = 2 + List.length l) by (cbn; rewrite app_length; cbn; clear; lia).
        eapply (tail_ok e k Q _ q (q + (2 + List.length l)) (37%N :: l ++ [c])); auto.
        - destruct HK; reflexivity.
        - cbn. clear. lia.
        - right. split; [reflexivity|]. rewrite <- Hw. apply (substr_text B b2 (ln_rd _ _ _ _ L2)); auto. rewrite Hw. clear - Hl. lia.
        - apply HQ; auto. constructor; try reflexivity; [|split; reflexivity].
          replace (q + (2 + List.length l)) with (q + 1 + List.length l + 1) by (clear; lia).
          refine (cur_ptok B order (set_pcur (q + 1 + List.length l + 1) b2) _ q _ _); [|clear; lia].
          eapply line_after; eauto. }
      unfold start_strterm. destruct HK; destruct Hlx as [Hlx|(Hlx & ->)]; try discriminate Hlx; try (injection Hlx as <-);
        cbn [mbeq N.eqb Pos.eqb]; repeat ws; (apply HLast; reflexivity). }
    change (lex_char (Some 37%N) (command_start s) (nonempty sp) (token_seen s) (lex_state s)) with (as_tk (parse_percent (nonempty sp) (lex_state s))).
    unfold as_tk. ws. unfold parse_percent. ws. ws. ws. change (lex_state (set_buffer (set_pcur (q + 1) b) s1)) with (lex_state s).
    change (pcur (buffer (set_buffer (set_pcur (q + 1) b) s1))) with (q + 1). fold s1.
    set (y := hd c l) in *.
    assert (Ty : nth_error B (q + 1) = Some y) by (apply hd_text; auto).
    assert (Y13 : y <> 13%N) by (unfold y; destruct HK; cbn; auto; discriminate).
    eapply (cur_nx B order e _ (q + 1) y); auto. intros b2 L2 P2.
    assert (HQu : wp e (percent_quotation (Some y) (q + 1)) (fun t s' => wp e (ret (Tk t)) (fun r s'0 => match r with
                   | Tk t => wp e (yytail t) Q s'0
                   | Ident c => wp e (parse_ident c (command_start s)) (fun t s'' => wp e (yytail t) Q s'') s'0
                   | Retry _ => False
                   end) s') (set_buffer (set_pcur (q + 1 + 1) b2) (set_buffer (set_pcur (q + 1) b) s1))).
    { apply wp_conseq with (P := fun t s' => wp e (yytail t) Q s'); [|intros t s' H; ws; exact H].
      unfold percent_quotation. cbn [is_eof].
      assert (AC : is_alnum (Some c) = false) by (cbn; unfold b_is_alnum, b_is_alpha, b_is_digit, b_is_upper, b_is_lower, in_range; clear - D3; lia).
      assert (HL0 : (l = [] /\ y = c) \/ (l = [y] /\ is_alnum (Some y) = true)) by (unfold y; destruct HK; auto).
      destruct HL0 as [(El & Ey)|(El & EA)].
      - rewrite Ey, AC. cbn [negb]. replace (is_ascii (Some c)) with true by (symmetry; cbn; unfold b_is_ascii; clear - D1; lia). cbn [negb].
        rewrite El in HB. cbn [List.length] in HB. rewrite Nat.add_0_r in HB. apply (HB b2 81%N); auto.
      - rewrite EA. cbn [negb]. ws. rewrite El in HB, Tc. cbn [List.length] in HB, Tc.
        eapply (cur_nx B order e _ (q + 1 + 1) c); [|exact Tc|exact D2|].
        { eapply line_after; eauto. intros ->. exfalso. clear - EA. discriminate EA. }
        intros b3 L3 P3. rewrite AC. apply (HB b3 y); auto. }
    destruct HPS as [HPS|(A1 & A2 & A3 & A4)].
    - apply starts_beg in HPS. rewrite HPS. exact HQu.
    - destruct (ls_is_beg (lex_state s)); [exact HQu|].
      replace (mbeq (Some y) "=") with false by (symmetry; apply N.eqb_neq; exact A4).
      apply starts_arg in A1. unfold ls_is_spacearg. rewrite A1, (not_white_space B order e Hfuel) by exact A3.
      destruct sp as [|z sp]; [congruence|]. cbn [nonempty andb orb negb]. exact HQu.
  Qed.
End Opening.

(** The lexer behind a literal that ends at [q]; [d] is what was reported for the literal *)
Record Behind (B : list N) (order : Prop) (s s' : Lexer) (q : nat) (d : list Diagnostic) : Prop := mkBehind {
  bh_cur : Cur B order (buffer s') q;
  bh_term : strterm s' = None;
  bh_state : lex_state s' = EXPR_END;
  bh_lval : lval_start s' = None /\ lval_end s' = None;
  bh_diags : diagnostics s' = diagnostics s ++ d;
  bh_comments : comments s' = comments s
}.

(** A percent sign needs a place where it starts a literal *)
Definition opening_starts (st : N) (sp op : list N) : Prop :=
  match op with 37%N :: y :: _ => percent_starts st sp y | _ => True end.

Lemma wp_ok : forall S A e (m : M S A) (P : A -> S -> Prop) s, wp e m P s -> exists a s', m e s = Ok a s' /\ P a s'.
Proof. intros S A e m P s H. unfold wp in H. destruct (m e s) as [a s'| |]; try contradiction. eauto. Qed.

Lemma lexes_one : forall e s t s', yylex e s = Ok t s' -> token_type t <> END_OF_INPUT -> lexes e s [t] s'.
Proof. intros e s t s' H1 H2. eapply lx_cons; eauto. constructor. Qed.

Lemma lexes_app : forall e s t1 s1 t2 s2, lexes e s t1 s1 -> lexes e s1 t2 s2 -> lexes e s (t1 ++ t2) s2.
Proof. intros e s t1 s1 t2 s2 H. induction H; intros H'; cbn; auto. eapply lx_cons; eauto. Qed.

Lemma bracket_differ : forall c opn cls, bracket c opn cls -> opn <> Some cls.
Proof. intros c opn cls []; discriminate. Qed.
Lemma opening_delims : forall op k interp words opn cls, opening op k interp words opn cls -> opn <> Some cls /\ cls <> 13%N.
Proof.
  intros op k interp words opn cls [| |l k' i w c o cl H1 H2 H3]; try (split; discriminate). split; [eapply bracket_differ; eauto|].
  destruct H3; try discriminate. destruct H2 as (_ & H2 & _). exact H2.
Qed.

Lemma opening_open : forall op k interp words opn cls, opening op k interp words opn cls -> forall x, opn = Some x -> ~ white_byte x.
Proof.
  intros op k interp words opn cls [| |l k' i w c o cl H1 H2 H3] x Hx; try discriminate. unfold white_byte. destruct H3; try discriminate; injection Hx as <-; lia.
Qed.

Section Literal.
  Variables (B : list N) (order : Prop) (e : Env).
  Hypothesis Hfuel : List.length B < fuel e.

  Lemma flags_string : forall interp l, l = 0%N \/ l = str_label -> Flags (N.lor (flags_of interp false) l) interp false /\ has (N.lor (flags_of interp false) l) STR_FUNC_LIST = false.
  Proof using. intros interp l [-> | ->]; destruct interp; (split; [constructor; reflexivity|reflexivity]). Qed.

  (** ** The opening *)
  Lemma opened : forall s p sp op k interp words opn cls,
    opening op k interp words opn cls -> opening_starts (lex_state s) sp op ->
    BWF B (buffer s) -> lval_start s = None -> lval_end s = None -> strterm s = None -> upcoming (buffer s) p -> text_at B p (sp ++ op) -> spacing (buffer s) sp ->
    Z.ltb 0 (heredoc_indent (buffer s)) = false -> (order -> in_order (buffer s)) -> (In 10%N op -> order) ->
    exists s' l, yylex e s = Ok (tok_at k op (p + List.length sp) (List.length op)) s' /\
      (l = 0%N \/ l = str_label) /\ (op = [39%N] \/ op = [34%N] \/ l = 0%N) /\
      InString B order s s' (p + List.length sp + List.length op) (mkStringLiteral 0 (N.lor (flags_of interp words) l) opn cls None) /\ diagnostics s' = diagnostics s.
  Proof using All.
    intros s p sp op k interp words opn cls HOp HSt HW S1 S2 ST HU HT HS HI HO H10.
    assert (HQ : forall x i, opening [x] tSTRING_BEG i false None x -> x = 39%N \/ x = 34%N -> text_at B p (sp ++ [x]) -> exists s' l, yylex e s = Ok (tok_at tSTRING_BEG [x] (p + List.length sp) 1) s' /\
      (l = 0%N \/ l = str_label) /\ ([x] = [39%N] \/ [x] = [34%N] \/ l = 0%N) /\
      InString B order s s' (p + List.length sp + 1) (mkStringLiteral 0 (N.lor (flags_of i false) l) None x None) /\ diagnostics s' = diagnostics s).
    { intros x i Ho Hx HTx.
      destruct (wp_ok _ _ e yylex (fun t s' => t = tok_at tSTRING_BEG [x] (p + List.length sp) 1 /\ exists l, (l = 0%N \/ l = str_label) /\
        InString B order s s' (p + List.length sp + 1) (mkStringLiteral 0 (N.lor (flags_of i false) l) None x None) /\ diagnostics s' = diagnostics s) s) as (t & s' & E & -> & l & A1 & A2 & A3).
      - apply (open_quote B order e Hfuel s p sp x i); auto. intros s' l H1 H2 H3. split; auto. exists l. auto.
      - exists s', l. splits; auto. destruct Hx as [-> | ->]; auto. }
    destruct HOp as [| |l k interp words c opn cls H1 H2 H3].
    - apply (HQ 39%N false); auto. constructor.
    - apply (HQ 34%N true); auto. constructor.
    - destruct (wp_ok _ _ e yylex (fun t s' => t = tok_at k (37%N :: l ++ [c]) (p + List.length sp) (2 + List.length l) /\
        InString B order s s' (p + List.length sp + (2 + List.length l)) (mkStringLiteral 0 (flags_of interp words) opn cls None) /\ diagnostics s' = diagnostics s) s) as (t & s' & E & -> & A2 & A3).
      + apply (open_percent B order e Hfuel s p sp l k interp words c opn cls); auto.
        * unfold opening_starts in HSt. destruct l; exact HSt.
        * intros ->. apply H10. right. apply in_or_app. right. left. reflexivity.
      + exists s', 0%N. assert (El : List.length (37%N :: l ++ [c]) = 2 + List.length l) by (cbn; rewrite app_length; cbn; clear; lia).
        rewrite El, N.lor_0_r. splits; auto.
  Qed.

  (** ** Strings *)
  Theorem string_lexes : forall s p sp op k interp opn cls txt v d,
    opening op k interp false opn cls -> opening_starts (lex_state s) sp op -> (interp = true -> ~ delim opn cls 35%N) ->
    BWF B (buffer s) -> lval_start s = None -> lval_end s = None -> strterm s = None -> upcoming (buffer s) p -> spacing (buffer s) sp ->
    Z.ltb 0 (heredoc_indent (buffer s)) = false -> (order -> in_order (buffer s)) ->
    text_at B p (sp ++ op ++ txt ++ [cls]) -> (In 10%N (op ++ txt ++ [cls]) -> order) ->
    body interp false opn cls cls (p + List.length sp + List.length op) 0 txt v d 0 ->
    (op = [39%N] \/ op = [34%N] -> nth_error B (p + List.length sp + List.length op + List.length txt + 1) <> Some 58%N) ->
    exists s', lexes e s (tok_at k op (p + List.length sp) (List.length op) ::
        (if txt then [] else [tok_at tSTRING_CONTENT v (p + List.length sp + List.length op) (List.length txt)]) ++
        [tok_at tSTRING_END [cls] (p + List.length sp + List.length op + List.length txt) 1]) s' /\
      Behind B order s s' (p + List.length sp + List.length op + List.length txt + 1) d.
  Proof using All.
    intros s p sp op k interp opn cls txt v d HOp HSt HH HW S1 S2 ST HU HS HI HO HT H10 HB HLb.
    pose proof HT as HT1. rewrite app_assoc in HT1. apply text_at_app in HT1. destruct HT1 as (HT1 & HT2). rewrite app_length, Nat.add_assoc in HT2.
    apply text_at_app in HT2. destruct HT2 as (HT2 & HT3). apply text_at_cons in HT3. destruct HT3 as (HT3 & _).
    destruct (opening_delims _ _ _ _ _ _ HOp) as (HD1 & HD2).
    destruct (opened s p sp op k interp false opn cls) as (s1 & l & E1 & L1 & L2 & I1 & G1); auto.
    { intros A. apply H10. apply in_or_app. auto. }
    destruct (flags_string interp l L1) as (HF & HLi).
    assert (HDl : Delims interp false opn cls) by (constructor; auto; discriminate).
    set (q := p + List.length sp + List.length op) in *.
    assert (HTk : forall k', opening op k' interp false opn cls -> k' <> END_OF_INPUT).
    { intros k' Ho. destruct Ho as [| |l' k'' i w c o cl K1 K2 K3]; try discriminate. destruct K1; discriminate. }
    (* the end *)
    assert (HEnd : forall s2, Cur B order (buffer s2) (q + List.length txt) -> strterm s2 = Some (StringLit (mkStringLiteral 0 (N.lor (flags_of interp false) l) opn cls None)) ->
      lval_start s2 = None /\ lval_end s2 = None -> exists s', lexes e s2 [tok_at tSTRING_END [cls] (q + List.length txt) 1] s' /\ Behind B order s2 s' (q + List.length txt + 1) []).
    { intros s2 C2 T2 (V1 & V2). destruct (wp_ok _ _ e yylex (fun t s' => t = tok_at tSTRING_END [cls] (q + List.length txt) 1 /\ Closed B order s2 s' (q + List.length txt + 1)) s2) as (t & s' & E & -> & A).
      - eapply (end_wp B order e Hfuel s2 (q + List.length txt)); eauto.
        + intros ->. apply H10. apply in_or_app. right. apply in_or_app. right. left. reflexivity.
        + intros K. apply HLb. destruct L2 as [L2|[L2|L2]]; auto. exfalso. subst l. rewrite N.lor_0_r in K. destruct interp; discriminate K.
      - exists s'. split; [apply lexes_one; [exact E|discriminate]|]. destruct A. constructor; auto. rewrite app_nil_r. auto. }
    destruct I1 as [C1 T1 St1 V1 Cm1].
    destruct txt as [|x txt].
    - inversion HB as [? ? A1 A2 A3 A4 A5 A6|p0 n0 t0 v0 d0 n1 r0 v1 d1 n2 K1 K2 A1 A2 A3 A4 A5 A6]; subst.
      2:{ exfalso. destruct t0; [|discriminate]. destruct (piece_first _ _ _ _ _ _ _ _ _ _ _ K1 HD1) as (y & w & A & _); [discriminate|exact HH|discriminate A]. }
      cbn [List.length] in *. rewrite Nat.add_0_r in *. destruct (HEnd s1 C1 T1 V1) as (s' & X1 & X2). exists s'.
      split; [eapply lx_cons; [exact E1|apply HTk; exact HOp|exact X1]|].
      destruct X2 as [Y1 Y2 Y3 Y4 Y5 Y6]. constructor; auto; congruence.
    - destruct (wp_ok _ _ e yylex (fun t s' => t = tok_at tSTRING_CONTENT v q (List.length (x :: txt)) /\
          InString B order s1 s' (q + List.length (x :: txt)) (mkStringLiteral 0 (N.lor (flags_of interp false) l) opn cls None) /\ diagnostics s' = diagnostics s1 ++ d) s1) as (t & s2 & E2 & -> & I2 & G2).
      + destruct V1 as (V1 & V2). apply (content_wp B order e Hfuel s1 q 0 (N.lor (flags_of interp false) l) opn cls None interp false (x :: txt) v d 0 cls); auto; try discriminate; try (left; split; reflexivity).
        intros A. apply H10. apply in_or_app. right. apply in_or_app. left. exact A.
      + destruct I2 as [C2 T2 St2 V2 Cm2]. destruct (HEnd s2 C2 T2 V2) as (s' & X1 & X2). exists s'.
        split; [eapply lx_cons; [exact E1|apply HTk; exact HOp|]; cbn [app]; eapply lx_cons; [exact E2|discriminate|exact X1]|].
        destruct X2 as [Y1 Y2 Y3 Y4 Y5 Y6]. constructor; auto; try congruence. rewrite Y5, G2, G1, app_nil_r. reflexivity.
  Qed.

  (** ** Lists of words *)
  Definition list_flags (interp : bool) : N := N.lor (if interp then STR_FUNC_EXPAND else 0) STR_FUNC_QWORDS.

  Lemma flags_list : forall interp, Flags (flags_of interp true) interp true /\ has (flags_of interp true) STR_FUNC_LIST = true /\
    N.ldiff (flags_of interp true) STR_FUNC_LIST = list_flags interp /\ Flags (list_flags interp) interp true /\ has (list_flags interp) STR_FUNC_LIST = false /\
    has (N.lor (list_flags interp) STR_FUNC_TERM) STR_FUNC_TERM = true /\ has (N.lor (list_flags interp) STR_FUNC_TERM) STR_FUNC_QWORDS = true /\
    has (N.lor (list_flags interp) STR_FUNC_TERM) STR_FUNC_REGEXP = false.
  Proof using. intros []; (splits; try reflexivity; constructor; reflexivity). Qed.

  Lemma items_first : forall interp opn cls p n txt toks d, word_items interp opn cls p n txt toks d -> Delims interp true opn cls ->
    (txt = [] /\ n = 0) \/ exists x w, txt = x :: w /\ ~ white_byte x /\ (x = cls -> 0 < n).
  Proof using.
    intros interp opn cls p n txt toks d H HD. destruct H as [p|p n txt v d n' gap rest toks d' H1 H2 H3 H4 H5]; [left; auto|right].
    pose proof HD as [D1 D2 D3 D4]. destruct H2 as [|p0 n0 t1 v1 d1 n1 rest1 v2 d2 n2 K1 K2]; [congruence|].
    destruct (piece_first _ _ _ _ _ _ _ _ _ _ _ K1 D1 D2 D3) as (x & w & -> & A1 & A2 & A3 & _). exists x, ((w ++ rest1) ++ gap ++ rest). splits; auto.
  Qed.

  Definition items_flags (interp : bool) (txt : list N) : N := if txt then N.lor (list_flags interp) STR_FUNC_TERM else list_flags interp.

  Lemma items_z : forall interp opn cls p n txt toks d, word_items interp opn cls p n txt toks d -> Delims interp true opn cls ->
    ~ white_byte (hd cls txt) /\
    (if N.eqb (hd cls txt) cls && (n =? 0) then N.lor (list_flags interp) STR_FUNC_TERM else list_flags interp) = items_flags interp txt.
  Proof using.
    intros interp opn cls p n txt toks d H HD. destruct (items_first _ _ _ _ _ _ _ _ H HD) as [(-> & ->)|(x & w & -> & A1 & A2)]; cbn [hd items_flags].
    - rewrite N.eqb_refl. split; [|reflexivity]. apply (dl_words _ _ _ _ HD); [reflexivity|left; reflexivity].
    - split; [exact A1|]. destruct (N.eqb_spec x cls) as [E|E]; [|reflexivity]. specialize (A2 E). replace (n =? 0) with false by (clear - A2; lia). reflexivity.
  Qed.

  Lemma items_lexes : forall interp opn cls p n txt toks d, word_items interp opn cls p n txt toks d -> Delims interp true opn cls ->
    forall s, Cur B order (buffer s) p -> strterm s = Some (StringLit (mkStringLiteral n (items_flags interp txt) opn cls None)) ->
    lval_start s = None -> lval_end s = None -> text_at B p (txt ++ [cls]) -> (In 10%N (txt ++ [cls]) -> order) ->
    exists s', lexes e s (toks ++ [tok_at tSTRING_END [cls] (p + List.length txt) 1]) s' /\ Behind B order s s' (p + List.length txt + 1) d.
  Proof using All.
    intros interp opn cls p n txt toks d H HD. destruct (flags_list interp) as (F1 & F2 & F3 & F4 & F5 & F6 & F7 & F8).
    pose proof HD as [D1 D2 D3 D4].
    induction H as [p|p n txt v d n' gap rest toks d' H1 H2 H3 H4 H5 IH]; intros s HC ST S1 S2 HT H10.
    - cbn [app List.length] in *. rewrite Nat.add_0_r. apply text_at_cons in HT. destruct HT as (Tx & _).
      destruct (wp_ok _ _ e yylex (fun t s' => t = tok_at tSTRING_END [cls] p 1 /\ Closed B order s s' (p + 1)) s) as (t & s' & E & -> & A).
      + apply (term_wp B order e Hfuel s p (N.lor (list_flags interp) STR_FUNC_TERM) opn cls 0); auto. intros ->. apply H10. left. reflexivity.
      + exists s'. split; [apply lexes_one; [exact E|discriminate]|]. destruct A. constructor; auto. rewrite app_nil_r. auto.
    - assert (ET : items_flags interp (txt ++ gap ++ rest) = list_flags interp) by (destruct txt; [congruence|reflexivity]). rewrite ET in ST.
      rewrite <- !app_assoc in HT, H10. apply text_at_app in HT. destruct HT as (HT1 & HT2). pose proof HT2 as HT3. apply text_at_app in HT3. destruct HT3 as (HT3 & HT4).
      destruct (items_z _ _ _ _ _ _ _ _ H5 HD) as (Z1 & Z2).
      assert (Tz : nth_error B (p + List.length txt + List.length gap) = Some (hd cls rest)).
      { pose proof HT4 as K. apply text_at_app in K. destruct K as (K1 & K2). apply text_at_cons in K2. apply hd_text; auto. apply K2. }
      assert (Tf : nth_error B (p + List.length txt) = Some (hd cls (gap ++ rest))).
      { destruct gap as [|g gap]; [cbn [app List.length] in *; rewrite Nat.add_0_r in Tz; exact Tz|]. apply text_at_cons in HT3. apply HT3. }
      assert (Hg : gap <> [] -> white_byte (hd cls (gap ++ rest)) /\ hd cls (gap ++ rest) <> 13%N).
      { destruct gap as [|g gap]; [congruence|]. intros _. inversion H3 as [|? ? K ?]; subst. exact K. }
      assert (Hends : ends true opn cls (hd cls (gap ++ rest)) n' /\ hd cls (gap ++ rest) <> 13%N).
      { destruct gap as [|g gap].
        - destruct (H4 eq_refl) as (-> & ->). split; [left; auto|exact D4].
        - destruct Hg as (K1 & K2); [discriminate|]. split; [|exact K2]. right. splits; auto. intros K. apply D2 in K; auto. }
      destruct Hends as (Hends & Hf13).
      destruct (wp_ok _ _ e yylex (fun t s' => t = tok_at tSTRING_CONTENT v p (List.length txt) /\
          InString B order s s' (p + List.length txt) (mkStringLiteral n' (list_flags interp) opn cls None) /\ diagnostics s' = diagnostics s ++ d) s) as (t & s1 & E1 & -> & I1 & G1).
      { apply (content_wp B order e Hfuel s p n (list_flags interp) opn cls None interp true txt v d n' (hd cls (gap ++ rest))); auto.
        intros A. apply H10. apply in_or_app. auto. }
      destruct I1 as [C1 T1 St1 (V1 & W1) Cm1].
      destruct (wp_ok _ _ e yylex (fun t s' => t = tok_at tSPACE gap (p + List.length txt) (List.length gap) /\
          InString B order s1 s' (p + List.length txt + List.length gap) (mkStringLiteral n' (items_flags interp rest) opn cls None) /\ diagnostics s' = diagnostics s1) s1) as (t & s2 & E2 & -> & I2 & G2).
      { apply (space_wp B order e Hfuel s1 (p + List.length txt) n' (list_flags interp) (list_flags interp) opn cls interp gap (hd cls rest)); auto.
        - destruct gap as [|g gap]; [|right; left; discriminate]. destruct (H4 eq_refl) as (-> & ->). right. right. split; reflexivity.
        - rewrite F5. reflexivity.
        - intros A. apply H10. apply in_or_app. right. apply in_or_app. auto.
        - rewrite Z2. auto. }
      destruct I2 as [C2 T2 St2 (V2 & W2) Cm2].
      destruct (IH s2) as (s' & X1 & X2); auto.
      { intros A. apply H10. apply in_or_app. right. apply in_or_app. auto. }
      rewrite !app_length, !Nat.add_assoc. exists s'. split.
      + cbn [app]. eapply lx_cons; [exact E1|discriminate|]. eapply lx_cons; [exact E2|discriminate|exact X1].
      + destruct X2 as [Y1 Y2 Y3 Y4 Y5 Y6]. constructor; auto; try congruence. rewrite Y5, G2, G1, app_assoc. reflexivity.
  Qed.

  Theorem list_lexes : forall s p sp op k interp opn cls gap txt toks d,
    opening op k interp true opn cls -> opening_starts (lex_state s) sp op -> (interp = true -> ~ delim opn cls 35%N) -> ~ white_byte cls ->
    BWF B (buffer s) -> lval_start s = None -> lval_end s = None -> strterm s = None -> upcoming (buffer s) p -> spacing (buffer s) sp ->
    Z.ltb 0 (heredoc_indent (buffer s)) = false -> (order -> in_order (buffer s)) ->
    text_at B p (sp ++ op ++ gap ++ txt ++ [cls]) -> (In 10%N (op ++ gap ++ txt ++ [cls]) -> order) ->
    Forall (fun c => white_byte c /\ c <> 13%N) gap ->
    word_items interp opn cls (p + List.length sp + List.length op + List.length gap) 0 txt toks d ->
    exists s', lexes e s (tok_at k op (p + List.length sp) (List.length op) :: tok_at tSPACE gap (p + List.length sp + List.length op) (List.length gap) :: toks ++
        [tok_at tSTRING_END [cls] (p + List.length sp + List.length op + List.length gap + List.length txt) 1]) s' /\
      Behind B order s s' (p + List.length sp + List.length op + List.length gap + List.length txt + 1) d.
  Proof using All.
    intros s p sp op k interp opn cls gap txt toks d HOp HSt HH HWc HW S1 S2 ST HU HS HI HO HT H10 HG HIt.
    destruct (flags_list interp) as (F1 & F2 & F3 & F4 & F5 & F6 & F7 & F8).
    destruct (opening_delims _ _ _ _ _ _ HOp) as (HD1 & HD2).
    assert (HDl : Delims interp true opn cls).
    { constructor; auto. intros _ x [-> | Hx]; auto. exact (opening_open _ _ _ _ _ _ HOp x Hx). }
    pose proof HT as HT1. rewrite app_assoc in HT1. apply text_at_app in HT1. destruct HT1 as (HT1 & HT2). rewrite app_length, Nat.add_assoc in HT2.
    apply text_at_app in HT2. destruct HT2 as (HT2 & HT3).
    destruct (opened s p sp op k interp true opn cls) as (s1 & l & E1 & L1 & L2 & I1 & G1); auto.
    { intros A. apply H10. apply in_or_app. auto. }
    set (q := p + List.length sp + List.length op) in *.
    assert (El : l = 0%N). { inversion HOp as [| |l' k' i w c o cl K1 K2 K3 Q1 Q2 Q3 Q4 Q5]; subst. destruct L2 as [L2|[L2|L2]]; auto; discriminate L2. }
    subst l. rewrite N.lor_0_r in I1. destruct I1 as [C1 T1 St1 (V1 & W1) Cm1].
    destruct (items_z _ _ _ _ _ _ _ _ HIt HDl) as (Z1 & Z2).
    destruct (wp_ok _ _ e yylex (fun t s' => t = tok_at tSPACE gap q (List.length gap) /\
        InString B order s1 s' (q + List.length gap) (mkStringLiteral 0 (items_flags interp txt) opn cls None) /\ diagnostics s' = diagnostics s1) s1) as (t & s2 & E2 & -> & I2 & G2).
    { apply (space_wp B order e Hfuel s1 q 0 (flags_of interp true) (list_flags interp) opn cls interp gap (hd cls txt)); auto.
      - rewrite F2. symmetry. exact F3.
      - pose proof HT3 as K. apply text_at_app in K. destruct K as (K1 & K2). apply text_at_cons in K2. apply hd_text; auto. apply K2.
      - intros A. apply H10. apply in_or_app. right. apply in_or_app. auto.
      - rewrite Z2. auto. }
    destruct I2 as [C2 T2 St2 (V2 & W2) Cm2].
    destruct (items_lexes _ _ _ _ _ _ _ _ HIt HDl s2) as (s' & X1 & X2); auto.
    { intros A. apply H10. apply in_or_app. right. apply in_or_app. auto. }
    exists s'. split.
    - eapply lx_cons; [exact E1| |].
      + inversion HOp as [| |l' k' i w c o cl K1 K2 K3 Q1 Q2 Q3 Q4 Q5]; subst. inversion K1; subst; discriminate.
      + eapply lx_cons; [exact E2|discriminate|exact X1].
    - destruct X2 as [Y1 Y2 Y3 Y4 Y5 Y6]. constructor; auto; try congruence.
  Qed.
End Literal.
