(** * String literals: interpolation *)
Require Import Verif.Base Verif.MaybeByteM Verif.Utf8M Verif.InputM Verif.DiagnosticM Verif.TokensM Verif.BufferM Verif.LexStateM
  Verif.LexerM Verif.LexStringM Verif.LexIdentM Verif.LexMainM
  Verif.SourceSpec Verif.SourceProofs Verif.Wp Verif.BufInv Verif.LexSpec Verif.NewlineInv Verif.MainInv Verif.RunInv Verif.Prop_Lexer
  Verif.ReadSpec Verif.YylexSpec Verif.Reach Verif.NumberSpec Verif.NumRead Verif.IdentRead Verif.IdentStep Verif.Prop_Ident Verif.Prop_Crlf
  Verif.StringSpec Verif.StrNum Verif.StrRead Verif.StrStep Verif.StrOpen Verif.ParserClientM.
Require Import ZifyBool ZifyNat ZifyN.

(** ** A token leads from a reached state to a reached state *)
Lemma acts_snoc : forall l e c ts c1 t c2, acts l e c = Ok ts c1 -> act PNext e c1 = Ok (Some t) c2 -> acts (l ++ [PNext]) e c = Ok (ts ++ [t]) c2.
Proof.
  induction l as [|a l IH]; intros e c ts c1 t c2 H1 H2.
  - cbn in H1. injection H1 as <- <-. cbn [app acts]. unfold bind. rewrite H2. reflexivity.
  - cbn [app acts] in *. unfold bind in *. destruct (act a e c) as [o c'| |]; try discriminate.
    destruct (acts l e c') as [ts' c''| |] eqn:E; try discriminate. cbn in H1. injection H1 as <- <-.
    rewrite (IH e c' ts' c'' t c2 E H2). destruct o; reflexivity.
Qed.

Lemma reached_next : forall B n upper s t s', reached B n upper s -> yylex (plain_env n upper) s = Ok t s' -> token_type t <> END_OF_INPUT ->
  reached B n upper s'.
Proof.
  intros B n upper s t s' (name & rec & l & ts & c & H & Hd & <-) HY Ht. unfold run_client in H.
  destruct (lexer_new B name (plain_env n upper)) as [[] s0| |] eqn:E; try discriminate.
  set (c2 := mkClient s' (c_saved c) (c_record c) (if c_record c then c_tokens c ++ [t] else c_tokens c) (Some (token_type t)) false).
  exists name, rec, (l ++ [PNext]), (ts ++ [t]), c2. split; [|split; reflexivity]. unfold run_client. rewrite E.
  eapply acts_snoc; [exact H|]. cbn [act]. unfold bind, get. rewrite Hd. unfold next_token, bind, zoom. rewrite HY. cbn. rewrite Hd.
  replace (tok_eqb (token_type t) END_OF_INPUT) with false; [reflexivity|].
  symmetry. destruct (tok_eqb (token_type t) END_OF_INPUT) eqn:K; auto. apply tok_end in K; congruence.
Qed.

(** ** The bytes behind a number sign *)
Lemma punct_marks : forall c, is_global_name_punct (Some c) || is_digit (Some c) = true <->
  In c IdentSpec.global_marks \/ In c IdentSpec.match_marks \/ IdentSpec.digit c.
Proof.
  intros c. cbn [is_global_name_punct is_digit mb_test]. unfold IdentSpec.digit. unfold b_is_digit, in_range. split.
  - intros H. apply orb_prop in H. destruct H as [H|H].
    + apply existsb_exists in H. destruct H as (x & Hx & Ex). apply N.eqb_eq in Ex. subst x.
      repeat (destruct Hx as [<-|Hx]; [try (left; vm_compute; tauto); try (right; left; vm_compute; tauto); right; right; vm_compute; split; discriminate|]). destruct Hx.
    + right. right. lia.
  - intros [H|[H|H]]; [| |apply orb_true_intro; right; lia]; apply orb_true_intro; left;
      (repeat (destruct H as [<-|H]; [reflexivity|]); destruct H).
Qed.

Lemma name_byte_iff : forall c, negb (is_ascii (Some c)) || mbeq (Some c) "_" || is_alpha (Some c) = true <-> name_byte c.
Proof.
  intros c. unfold name_byte, IdentSpec.letter. cbn [is_ascii is_alpha mb_test]. change (mbeq (Some c) "_") with (N.eqb c 95).
  unfold b_is_ascii, b_is_alpha, b_is_upper, b_is_lower, in_range. lia.
Qed.

Section More.
  Variables (B : list N) (order : Prop) (e : Env).
  Hypothesis Hfuel : List.length B < fuel e.

  (** The end of the text before a number sign *)
  Lemma body_end_hash : forall s1 func paren term words, has func STR_FUNC_EXPAND = true -> has func STR_FUNC_QWORDS = words ->
    has func STR_FUNC_REGEXP = false -> has func STR_FUNC_ESCAPE = false -> has func STR_FUNC_INDENT = false ->
    forall p n t d (Q : option MaybeByte * nat -> Lexer -> Prop), ~ delim paren term 35%N -> hash_at B p ->
    (forall b', Line B order b' p -> pcur b' = p -> Q (Some (Some 35%N), n) (Sx s1 t d b')) -> Cont B order e s1 func paren term 1 n p t d Q.
  Proof using All.
    intros s1 func paren term words F1 F2 F3 F4 F5 p n t d Q HD (Hx & Hy) HQ m b Hm HC. destruct m as [|m]; [exfalso; clear - Hm; lia|].
    destruct (delim_paren B order e s1 func paren term true words F1 F2 F3 F4 F5 Hfuel _ HD) as (D1 & D2).
    eapply (ts_first B order e s1 func paren term true words F1 F2 F3 F4 F5 Hfuel); eauto; [discriminate|]. intros b1 HL HP. rewrite D1, D2.
    assert (HY : exists y, nth_error B (p + 1) = Some y /\ (y = 36 \/ y = 64 \/ y = 123)%N) by (destruct Hy as [->|[->| ->]]; eauto).
    destruct HY as (y & Ty & HY).
    assert (HL1 : Line B order (set_pcur (p + 1) b1) (p + 1)) by (eapply line_step; eauto; split; discriminate).
    pose proof (ln_lt _ _ _ _ HL1) as K. cbn in K. replace (p + 1 <? pend b1) with true by (clear - K; lia).
    change (mbeq (Some 35%N) "#") with true. cbn [andb]. ws. ws.
    change (char_at (Sx s1 t d (set_pcur (p + 1) b1)) (pcur (buffer (Sx s1 t d (set_pcur (p + 1) b1))))) with (byte_at b1 (p + 1)).
    rewrite (line_bytes _ _ _ _ _ HL), Ty.
    replace (mbeq (Some y) "$" || mbeq (Some y) "@" || mbeq (Some y) "{") with true.
    2:{ symmetry. cbn. destruct HY as [->|[->| ->]]; reflexivity. }
    ws. eapply (sx_push B order e s1 func paren term true words F1 F2 F3 F4 F5 Hfuel); eauto. ws.
    apply HQ; [apply line_rebase; exact HL|reflexivity].
  Qed.

  Lemma run_body2 : forall s1 func paren term interp words fin p n txt v dg n2 t d b (K : option MaybeByte * nat -> Lexer -> Prop),
    Flags func interp words -> Delims interp words paren term ->
    body interp words paren term fin p n txt v dg n2 -> text_at B p txt -> nth_error B (p + List.length txt) = Some fin -> (In 10%N txt -> order) ->
    fin <> 13%N -> text_ends B interp words paren term (p + List.length txt) n2 fin -> Cur B order b p ->
    (forall b', Line B order b' (p + List.length txt) -> pcur b' = p + List.length txt -> K (Some (Some fin), n2) (Sx s1 (t ++ v) (d ++ dg) b')) ->
    wp e (tokadd_string func term paren n) K (Sx s1 t d b).
  Proof using All.
    intros s1 func paren term interp words fin p n txt v dg n2 t d b K HFl HDl HB HT Hfin HO H13 HE HC HK.
    pose proof HFl as [F1 F2 F3 F4 F5 F6]. pose proof HDl as [D1 D2 D3 D4].
    destruct HE as [E1 E2|E1 E2 E3|E1 E2 E3].
    - eapply (run_body B order e Hfuel); eauto. left. auto.
    - eapply (run_body B order e Hfuel); eauto. right. auto.
    - assert (Hl : p + List.length txt < List.length B) by (apply nth_error_Some; congruence). subst fin interp.
      eapply (string_run B order e s1 func paren term true words F1 F2 F3 F4 F5 Hfuel (1 + List.length txt) n p t d b K); [|clear - Hl Hfuel; lia|exact HC].
      eapply (body_step B order e s1 func paren term true words F1 F2 F3 F4 F5 Hfuel); eauto.
      eapply body_end_hash; eauto.
  Qed.

  (** What the look ahead behind a number sign finds *)
  Lemma peek_none : forall s b p y (Q : option Tok -> Lexer -> Prop), buffer s = set_pcur (p + 1) b -> Line B order b p -> pcur b = p ->
    nth_error B p = Some 35%N -> nth_error B (p + 1) = Some y -> y <> 123%N -> ~ variable_at B (p + 1) -> Q None s -> wp e peek_variable_name Q s.
  Proof using All.
    intros s b p y Q Hb HL HP Hx Hy H123 HV HQ. unfold peek_variable_name. ws. ws. rewrite Hb. cbn [pcur set_pcur pend].
    destruct (pend b <=? p + 1 + 1) eqn:EP; [ws; exact HQ|].
    assert (HBy : forall i, byte_at (set_pcur (p + 1) b) i = nth_error B i) by (intros i; exact (line_bytes B order b p i HL)).
    assert (HPe : pend b <= List.length B) by (pose proof (ln_rd _ _ _ _ HL) as HR; exact (rd_pend B b HR)).
    rewrite !HBy, Hy. replace (p + 1 + 1 + 1) with (p + 1 + 2) by (clear; lia).
    assert (HZ : exists z, nth_error B (p + 1 + 1) = Some z). { destruct (nth_error B (p + 1 + 1)) eqn:E; eauto. exfalso. apply nth_error_None in E. clear - E HPe EP. lia. }
    destruct HZ as (z & Hz). rewrite Hz.
    assert (HF : forall c, ~ name_byte c -> (if negb (is_ascii (Some c)) || mbeq (Some c) "_" || is_alpha (Some c) then Some tSTRING_DVAR else None) = None).
    { intros c Hc. destruct (_ || _) eqn:E; auto. exfalso. apply Hc. apply name_byte_iff. exact E. }
    assert (HW : forall w, pend b <=? p + 1 + 2 = false -> nth_error B (p + 1 + 2) = w -> exists c, w = Some c).
    { intros [c|] H1 H2; eauto. exfalso. apply nth_error_None in H2. clear - H1 H2 HPe. lia. }
    destruct (mbeq (Some y) "$") eqn:E1.
    - apply mbeq_iff in E1. injection E1 as ->. destruct (mbeq (Some z) "-") eqn:E2.
      + apply mbeq_iff in E2. injection E2 as ->. destruct (pend b <=? p + 1 + 2) eqn:E3; [ws; exact HQ|].
        destruct (HW _ eq_refl eq_refl) as (c & Hc). rewrite Hc. rewrite HF; [ws; exact HQ|]. intros K. apply HV. eapply va_option; eauto.
      + destruct (is_global_name_punct (Some z) || is_digit (Some z)) eqn:E3.
        * exfalso. apply punct_marks in E3. apply HV. eapply va_mark; eauto.
        * rewrite HF; [ws; exact HQ|]. intros K. apply HV. eapply va_global; eauto.
    - destruct (mbeq (Some y) "@") eqn:E2.
      + apply mbeq_iff in E2. injection E2 as ->. destruct (mbeq (Some z) "@") eqn:E3.
        * apply mbeq_iff in E3. injection E3 as ->. destruct (pend b <=? p + 1 + 2) eqn:E4; [ws; exact HQ|].
          destruct (HW _ eq_refl eq_refl) as (c & Hc). rewrite Hc. rewrite HF; [ws; exact HQ|]. intros K. apply HV. eapply va_class; eauto.
        * rewrite HF; [ws; exact HQ|]. intros K. apply HV. eapply va_instance; eauto.
      + replace (mbeq (Some y) "{") with false by (symmetry; apply N.eqb_neq; exact H123). ws. exact HQ.
  Qed.

  Lemma next_inside : forall b p x, Line B order b p -> pcur b = p -> nth_error B p = Some x -> (x <> 10 /\ x <> 13)%N ->
    forall y, nth_error B (p + 1) = Some y -> p + 1 < pend b /\ Line B order (set_pcur (p + 1) b) (p + 1).
  Proof using All.
    intros b p x HL HP Hx Hn y Hy. assert (HL1 : Line B order (set_pcur (p + 1) b) (p + 1)) by (eapply line_step; eauto).
    split; auto. pose proof (ln_lt _ _ _ _ HL1) as K. exact K.
  Qed.

  Lemma peek_var : forall s b p (Q : option Tok -> Lexer -> Prop), buffer s = set_pcur (p + 1) b -> Line B order b p -> pcur b = p ->
    nth_error B p = Some 35%N -> variable_at B (p + 1) -> Q (Some tSTRING_DVAR) s -> wp e peek_variable_name Q s.
  Proof using All.
    intros s b p Q Hb HL HP Hx HV HQ. unfold peek_variable_name. ws. ws. rewrite Hb. cbn [pcur set_pcur pend].
    assert (HBy : forall i, byte_at (set_pcur (p + 1) b) i = nth_error B i) by (intros i; exact (line_bytes B order b p i HL)).
    rewrite !HBy. replace (p + 1 + 1 + 1) with (p + 1 + 2) by (clear; lia).
    assert (HF : forall c, name_byte c -> (if negb (is_ascii (Some c)) || mbeq (Some c) "_" || is_alpha (Some c) then Some tSTRING_DVAR else None) = Some tSTRING_DVAR).
    { intros c Hc. apply name_byte_iff in Hc. rewrite Hc. reflexivity. }
    (* the bytes are on the line *)
    assert (HL2 : forall y z, nth_error B (p + 1) = Some y -> (y = 36 \/ y = 64)%N -> nth_error B (p + 1 + 1) = Some z ->
      pend b <=? p + 1 + 1 = false /\ Line B order (set_pcur (p + 1 + 1) (set_pcur (p + 1) b)) (p + 1 + 1)).
    { intros y z Hy HY Hz. destruct (next_inside b p 35%N HL HP Hx ltac:(split; discriminate) y Hy) as (_ & K2).
      destruct (next_inside (set_pcur (p + 1) b) (p + 1) y K2 eq_refl Hy ltac:(destruct HY as [->| ->]; split; discriminate) z Hz) as (K3 & K4).
      split; auto. cbn in K3. clear - K3. lia. }
    assert (HL3 : forall y z c, nth_error B (p + 1) = Some y -> (y = 36 \/ y = 64)%N -> nth_error B (p + 1 + 1) = Some z -> (z = 45 \/ z = 64)%N -> nth_error B (p + 1 + 2) = Some c ->
      pend b <=? p + 1 + 2 = false).
    { intros y z c Hy HY Hz HZ Hc. destruct (HL2 y z Hy HY Hz) as (_ & K).
      replace (p + 1 + 2) with (p + 1 + 1 + 1) in * by (clear; lia).
      destruct (next_inside _ (p + 1 + 1) z K eq_refl Hz ltac:(destruct HZ as [->| ->]; split; discriminate) c Hc) as (K3 & K4). cbn in K3. clear - K3. lia. }
    destruct HV as [c V1 V2 V3|c V1 V2 V3|c V1 V2 V3 V4|c V1 V2 V3|c V1 V2 V3 V4].
    - destruct (HL2 _ _ V1 (or_introl eq_refl) V2) as (E & _). rewrite E, V1, V2. change (mbeq (Some 36%N) "$") with true. cbv iota.
      replace (mbeq (Some c) "-") with false.
      2:{ symmetry. apply N.eqb_neq. intros ->. destruct V3 as [V3|[V3|V3]]; [| |unfold IdentSpec.digit in V3; vm_compute in V3; destruct V3 as (V3 & _); apply V3; reflexivity];
          (repeat (destruct V3 as [V3|V3]; [discriminate V3|]); exact V3). }
      apply punct_marks in V3. rewrite V3. ws. exact HQ.
    - destruct (HL2 _ _ V1 (or_introl eq_refl) V2) as (E & _). rewrite E, V1, V2. change (mbeq (Some 36%N) "$") with true. cbv iota.
      replace (mbeq (Some c) "-") with false.
      2:{ symmetry. apply N.eqb_neq. intros ->. unfold name_byte, IdentSpec.letter in V3. clear - V3. vm_compute in V3. intuition congruence. }
      rewrite HF by exact V3. destruct (_ || _); ws; exact HQ.
    - destruct (HL2 _ _ V1 (or_introl eq_refl) V2) as (E & _). rewrite E, V1, V2. change (mbeq (Some 36%N) "$") with true. change (mbeq (Some 45%N) "-") with true. cbv iota.
      rewrite (HL3 _ _ _ V1 (or_introl eq_refl) V2 (or_introl eq_refl) V3), V3, HF by exact V4. ws. exact HQ.
    - destruct (HL2 _ _ V1 (or_intror eq_refl) V2) as (E & _). rewrite E, V1, V2. change (mbeq (Some 64%N) "$") with false. change (mbeq (Some 64%N) "@") with true. cbv iota.
      replace (mbeq (Some c) "@") with false.
      2:{ symmetry. apply N.eqb_neq. intros ->. unfold name_byte, IdentSpec.letter in V3. clear - V3. vm_compute in V3. intuition congruence. }
      rewrite HF by exact V3. ws; exact HQ.
    - destruct (HL2 _ _ V1 (or_intror eq_refl) V2) as (E & _). rewrite E, V1, V2. change (mbeq (Some 64%N) "$") with false. change (mbeq (Some 64%N) "@") with true. cbv iota.
      rewrite (HL3 _ _ _ V1 (or_intror eq_refl) V2 (or_intror eq_refl) V3), V3, HF by exact V4. ws. exact HQ.
  Qed.

  (** ** Content *)
  Lemma content2_wp : forall s p n func paren term he interp words txt v dg n2 fin (Q : Token -> Lexer -> Prop),
    lval_start s = None -> lval_end s = None -> Flags func interp words -> has func STR_FUNC_LIST = false -> Delims interp words paren term ->
    Cur B order (buffer s) p -> strterm s = Some (StringLit (mkStringLiteral n func paren term he)) ->
    content B interp words paren term fin p n txt v dg n2 -> text_at B p txt -> nth_error B (p + List.length txt) = Some fin -> (In 10%N txt -> order) ->
    fin <> 13%N -> text_ends B interp words paren term (p + List.length txt) n2 fin ->
    (forall s', InString B order s s' (p + List.length txt) (mkStringLiteral n2 func paren term he) -> diagnostics s' = diagnostics s ++ dg ->
      Q (mkToken tSTRING_CONTENT v (mkLoc p (p + List.length txt))) s') ->
    wp e yylex Q s.
  Proof using All.
    intros s p n func paren term he interp words txt v dg n2 fin Q S1 S2 HFl HLi HDl HC HS HCt HT Hfin HO H13 HEnd HQ.
    pose proof HDl as [D1 D2 D3 D4]. pose proof HFl as [F1 F2 F3 F4 F5 F6].
    eapply (string_start B order e Hfuel); [exact (cu_pos _ _ _ _ HC)|exact HS|]. set (s1 := string_state s p). cbn [sl_func sl_term]. rewrite F6. ws.
    assert (HC1 : Cur B order (buffer s1) p) by (apply cur_flush; exact HC).
    assert (HLast : forall b' (t : list N) (q' : nat), q' = p + List.length txt -> t = v -> Line B order b' q' -> pcur b' = q' ->
      wp e (yytail tSTRING_CONTENT) Q (set_strterm (Some (StringLit (mkStringLiteral n2 func paren term he))) (set_lval (Some t) (Sx s1 t (diagnostics s ++ dg) b')))).
    { intros b' t q' -> -> HL HP. unfold yytail. ws. ws. ws. ws. cbn. rewrite S2, HP. apply HQ; [|reflexivity].
      constructor; try reflexivity; try (split; reflexivity). apply line_cur0; auto. }
    (* a number sign that is text, and what follows *)
    assert (HHash : forall b1 y w v', Line B order b1 p -> pcur b1 = p -> interp = true -> txt = 35%N :: w -> v = 35%N :: v' -> nth_error B (p + 1) = Some y ->
      y <> 123%N -> ~ variable_at B (p + 1) -> y <> 13%N -> body interp words paren term fin (p + 1) n w v' dg n2 ->
      wp e (parse_string_content (mkStringLiteral n func paren term he) func (Some 35%N)) (fun t s' => wp e (yytail t) Q s') (set_buffer (set_pcur (p + 1) b1) s1)).
    { intros b1 y w v' L1 P1 EI Etxt Ev Ty Y3 HV Y4 HB'. unfold parse_string_content. cbn [sl_term sl_paren sl_nest]. ws. ws. rewrite F1, EI.
      change (mbeq (Some 35%N) "#") with true. cbn [andb].
      rewrite Etxt in HT, Hfin, HO, HEnd. apply text_at_cons in HT. destruct HT as (Tx & HT). cbn [List.length] in Hfin, HEnd.
      replace (p + S (List.length w)) with (p + 1 + List.length w) in * by (clear; lia).
      ws. ws. eapply (peek_none _ b1 p y); eauto. ws. ws. ws.
      eapply (cur_nx B order e _ (p + 1) y); [|exact Ty|exact Y4|].
      { apply (line_after B order b1 p 35%N); auto; discriminate. }
      intros b2 L2 P2. ws. ws. eapply (line_push B order e _ b2 (p + 1) y); [reflexivity|exact L2|exact Ty|]. ws.
      match goal with |- wp e _ _ ?S => change S with (Sx s1 [35%N] (diagnostics s) (set_pcur (p + 1) b2)) end.
      eapply run_body2; eauto. { intros K. apply HO. right. exact K. } { apply line_cur. exact L2. }
      intros b' HL HP. ws. ws. pose proof (ln_rd _ _ _ _ HL) as (_ & _ & Ee).
      change (eofp (buffer (Sx s1 ([35%N] ++ v') (diagnostics s ++ dg) b'))) with (eofp b'). rewrite Ee. cbn [andb]. repeat ws. unfold restore_strterm. repeat ws.
      apply (HLast b' ([35%N] ++ v') (p + 1 + List.length w)); auto. rewrite Etxt. cbn [List.length]. clear. lia. }
    destruct HCt as [txt v dg n2 Hne HB|txt v dg n2 HI Hy HV HB].
    - destruct (body_first B order e Hfuel _ _ _ _ _ _ _ _ _ _ _ HB Hne HDl H13) as (x & w & Etxt & X1 & X2 & X3 & X4).
      assert (Tx : nth_error B p = Some x) by (rewrite Etxt in HT; apply text_at_cons in HT; apply HT).
      eapply (cur_nx B order e s1 p x); eauto. intros b1 L1 P1. ws. rewrite F2.
      replace (words && is_space (Some x)) with false.
      2:{ destruct words; [|reflexivity]. symmetry. apply (not_white_space B order e Hfuel). apply X3. reflexivity. }
      ws. rewrite HLi. cbn [orb sl_nest]. replace (mbeq (Some x) term && (n =? 0)) with false.
      2:{ symmetry. destruct (mbeq (Some x) term) eqn:E; [|reflexivity]. apply mbeq_iff in E. injection E as ->. specialize (X2 eq_refl). cbn [andb]. clear - X2. lia. }
      destruct (interp && mbeq (Some x) "#") eqn:EH.
      + apply andb_prop in EH. destruct EH as (EI & EH). apply mbeq_iff in EH. injection EH as EH. destruct (X4 EI EH) as (v' & Ev & HB' & Y1 & Y2 & Y3 & Y4).
        subst x. rewrite Etxt in HT, Hfin. apply text_at_cons in HT. destruct HT as (_ & HT). cbn [List.length] in Hfin.
        replace (p + S (List.length w)) with (p + 1 + List.length w) in Hfin by (clear; lia).
        pose proof (hd_text B (p + 1) w fin HT Hfin) as Ty. apply (HHash b1 (hd fin w) w v'); auto.
        intros V. destruct V; congruence.
      + unfold parse_string_content. cbn [sl_term sl_paren sl_nest]. ws. ws. rewrite F1, EH.
        ws. ws. ws. eapply (line_push B order e _ b1 p x); [reflexivity|exact L1|exact Tx|]. ws.
        match goal with |- wp e _ _ ?S => change S with (Sx s1 [] (diagnostics s) (set_pcur p b1)) end.
        eapply run_body2; eauto. { apply line_cur. exact L1. }
        intros b' HL HP. ws. ws. pose proof (ln_rd _ _ _ _ HL) as (_ & _ & Ee).
        change (eofp (buffer (Sx s1 ([] ++ v) (diagnostics s ++ dg) b'))) with (eofp b'). rewrite Ee. cbn [andb]. repeat ws. unfold restore_strterm. repeat ws.
        apply (HLast b' v (p + List.length txt)); auto.
    - assert (Tx : nth_error B p = Some 35%N) by (apply text_at_cons in HT; apply HT).
      eapply (cur_nx B order e s1 p 35%N); eauto; [discriminate|]. intros b1 L1 P1. ws. rewrite F2. change (is_space (Some 35%N)) with false. rewrite andb_false_r.
      ws. rewrite HLi. cbn [orb sl_nest]. replace (mbeq (Some 35%N) term) with false.
      2:{ symmetry. apply N.eqb_neq. intros K. apply (D3 HI). left. exact K. }
      cbn [andb]. destruct Hy as [Hy|Hy]; eapply HHash; eauto; discriminate.
  Qed.

  (** ** Interpolation *)
  Lemma interp_wp : forall s p n func paren term he words k (Q : Token -> Lexer -> Prop),
    lval_start s = None -> lval_end s = None -> has func STR_FUNC_EXPAND = true -> has func STR_FUNC_QWORDS = words -> has func STR_FUNC_TERM = false -> has func STR_FUNC_LIST = false -> ~ delim paren term 35%N ->
    Cur B order (buffer s) p -> strterm s = Some (StringLit (mkStringLiteral n func paren term he)) -> nth_error B p = Some 35%N ->
    (k = tSTRING_DBEG /\ nth_error B (p + 1) = Some 123%N /\ p + 2 < List.length B) \/ (k = tSTRING_DVAR /\ variable_at B (p + 1)) ->
    (forall s', InString B order s s' (p + (if tok_eqb k tSTRING_DBEG then 2 else 1)) (mkStringLiteral n func paren term he) -> diagnostics s' = diagnostics s ->
      command_start s' = (if tok_eqb k tSTRING_DBEG then true else command_start s) ->
      Q (mkToken k (if tok_eqb k tSTRING_DBEG then [35; 123]%N else [35%N]) (mkLoc p (p + (if tok_eqb k tSTRING_DBEG then 2 else 1)))) s') ->
    wp e yylex Q s.
  Proof using All.
    intros s p n func paren term he words k Q S1 S2 F1 F2 F6 HLi HD HC HS Tx HK HQ.
    eapply (string_start B order e Hfuel); [exact (cu_pos _ _ _ _ HC)|exact HS|]. set (s1 := string_state s p). cbn [sl_func sl_term]. rewrite F6. ws.
    assert (HC1 : Cur B order (buffer s1) p) by (apply cur_flush; exact HC).
    eapply (cur_nx B order e s1 p 35%N); eauto; [discriminate|]. intros b1 L1 P1. ws. rewrite F2. change (is_space (Some 35%N)) with false. rewrite andb_false_r.
    ws. rewrite HLi. cbn [orb sl_nest]. replace (mbeq (Some 35%N) term) with false.
    2:{ symmetry. apply N.eqb_neq. intros K. apply HD. left. exact K. }
    cbn [andb]. unfold parse_string_content. cbn [sl_term sl_paren sl_nest]. ws. ws. rewrite F1. change (mbeq (Some 35%N) "#") with true. cbn [andb]. ws. ws.
    destruct HK as [(-> & Ty & Hl)|(-> & HV)].
    - assert (HZ : exists z, nth_error B (p + 1 + 1) = Some z). { destruct (nth_error B (p + 1 + 1)) eqn:E; eauto. exfalso. apply nth_error_None in E. clear - E Hl. lia. }
      destruct HZ as (z & Tz). destruct (next_inside b1 p 35%N L1 P1 Tx ltac:(split; discriminate) _ Ty) as (K1 & L2).
      destruct (next_inside _ (p + 1) 123%N L2 eq_refl Ty ltac:(split; discriminate) _ Tz) as (K3 & L3). cbn in K3.
      unfold peek_variable_name. ws. ws. cbn [buffer set_tokenbuf set_buffer pcur set_pcur pend].
      replace (pend b1 <=? p + 1 + 1) with false by (clear - K3; lia).
      replace (byte_at (set_pcur (p + 1) b1) (p + 1)) with (Some 123%N) by (rewrite <- Ty; symmetry; apply (line_bytes B order b1 p _ L1)).
      change (mbeq (Some 123%N) "$") with false. change (mbeq (Some 123%N) "@") with false. change (mbeq (Some 123%N) "{") with true. cbv iota.
      unfold restore_strterm. repeat ws. cbn [tok_eqb] in HQ. unfold yytail. ws. ws. ws. ws.
      cbn [lval_start lval_end lval set_lval set_strterm set_command_start set_buffer set_tokenbuf s1 string_state set_lval_start buffer pcur set_pcur tok_eqb]. rewrite S2.
      replace (b_substr_at (set_pcur (p + 1 + 1) (set_pcur (p + 1) b1)) p (p + 1 + 1)) with (Some [35; 123]%N).
      2:{ symmetry. replace (p + 1 + 1) with (p + List.length [35; 123]%N) by (cbn; clear; lia). apply (substr_text B b1 (ln_rd _ _ _ _ L1) p [35; 123]%N); [reflexivity| |].
          - apply text_at_cons. split; [exact Tx|]. apply text_at_cons. split; [exact Ty|reflexivity].
          - assert (p + 1 < List.length B) by (apply nth_error_Some; congruence). cbn. lia. }
      replace (p + 1 + 1) with (p + 2) by (clear; lia). apply HQ; [|reflexivity|reflexivity].
      constructor; try reflexivity; try (split; reflexivity). cbn. replace (p + 2) with (p + 1 + 1) by (clear; lia). apply line_cur0; [exact L3|reflexivity].
    - eapply (peek_var _ b1 p); eauto. unfold restore_strterm. repeat ws. cbn [tok_eqb] in HQ. unfold yytail. ws. ws. ws. ws.
      cbn [lval_start lval_end lval set_lval set_strterm set_command_start set_buffer set_tokenbuf s1 string_state set_lval_start buffer pcur set_pcur tok_eqb]. rewrite S2.
      replace (b_substr_at (set_pcur (p + 1) b1) p (p + 1)) with (Some [35%N]).
      2:{ symmetry. apply (substr_text B b1 (ln_rd _ _ _ _ L1) p [35%N]); [reflexivity| |].
          - apply text_at_cons. split; [exact Tx|reflexivity].
          - assert (p < List.length B) by (apply nth_error_Some; congruence). cbn. lia. }
      apply HQ; [|reflexivity|reflexivity].
      constructor; try reflexivity; try (split; reflexivity). cbn. eapply line_after; eauto; discriminate.
  Qed.
End More.

(** ** Openings *)

(** The kinds of percent literals, with the flags and the new state of the lexer *)
Inductive pct_kind : list N -> Tok -> N -> option N -> Prop :=
| pt_kind : forall l k interp words, percent_kind l k interp words -> pct_kind l k (flags_of interp words) None
| pt_s : pct_kind [115%N] tSYMBEG str_ssym (Some (N.lor EXPR_FNAME EXPR_FITEM))
| pt_r : pct_kind [114%N] tREGEXP_BEG str_regexp None.

Definition set_state (o : option N) (s : Lexer) : Lexer := match o with Some v => set_lex_state v s | None => s end.

(** The lexer in a literal, before [q] *)
Record At (B : list N) (order : Prop) (s : Lexer) (q : nat) (quote : StringLiteral) : Prop := mkAt {
  at_cur : Cur B order (buffer s) q;
  at_term : strterm s = Some (StringLit quote);
  at_lval : lval_start s = None /\ lval_end s = None
}.

Section Open2.
  Variables (B : list N) (order : Prop) (e : Env).
  Hypothesis Hfuel : List.length B < fuel e.

  Lemma open_pct : forall s p sp l k func st c opn cls (Q : Token -> Lexer -> Prop), pct_kind l k func st -> delimiter c -> bracket c opn cls ->
    percent_starts (lex_state s) sp (hd c l) ->
    BWF B (buffer s) -> lval_start s = None -> lval_end s = None -> strterm s = None -> upcoming (buffer s) p -> text_at B p (sp ++ 37%N :: l ++ [c]) -> spacing (buffer s) sp ->
    Z.ltb 0 (heredoc_indent (buffer s)) = false -> (order -> in_order (buffer s)) -> (c = 10%N -> order) ->
    (forall s', At B order s' (p + List.length sp + (2 + List.length l)) (mkStringLiteral 0 func opn cls None) ->
      lex_state s' = match st with Some v => v | None => lex_state s end -> diagnostics s' = diagnostics s -> comments s' = comments s ->
      Q (tok_at k (37%N :: l ++ [c]) (p + List.length sp) (2 + List.length l)) s') -> wp e yylex Q s.
  Proof using All.
    intros s p sp l k func st c opn cls Q HK HDc HBr HPS HW S1 S2 ST HU HT HS HI HO H10 HQ.
    pose proof HT as HT2. apply text_at_app in HT2. destruct HT2 as (_ & HT2). pose proof HT2 as HT3. apply text_at_cons in HT3. destruct HT3 as (Tx & HT3).
    apply text_at_app in HT3. destruct HT3 as (HTl & HTc). apply text_at_cons in HTc. destruct HTc as (Tc & _).
    set (q := p + List.length sp) in *.
    assert (Hl : q + 1 + List.length l < List.length B) by (apply nth_error_Some; congruence).
    apply (yylex_start B e s p sp 37%N (l ++ [c])); auto; [discriminate|unfold q in Hl; clear - Hl Hfuel; lia|].
    fold q. intros b HR HP1 HP2 HP3 HH HO2.
    assert (HL : Line B order b q) by (eapply (start_line B order e Hfuel); eauto; discriminate).
    destruct HDc as (D1 & D2 & D3).
    set (s1 := set_token_seen true (set_command_start false (set_lval None s))).
    assert (HC1 : Cur B order (set_pcur (q + 1) b) (q + 1)) by (eapply line_after; eauto; discriminate).
    assert (HB : forall b2 x, Line B order b2 (q + 1 + List.length l) -> l = [x] \/ (l = [] /\ x = 81%N) ->
      wp e (percent_begin (Some x) c (q + 1)) (fun t s' => wp e (yytail t) Q s') (set_buffer (set_pcur (q + 1 + List.length l + 1) b2) s1)).
    { intros b2 x L2 Hlx. unfold percent_begin.
      assert (HP : percent_parens c = (cls, opn)). { destruct HBr as [| | | |c (N1 & N2 & N3 & N4)]; try reflexivity. unfold percent_parens.
        repeat match goal with |- context [N.eqb c ?y] => replace (N.eqb c y) with false by (symmetry; apply N.eqb_neq; assumption) end. reflexivity. }
      rewrite HP. apply wp_bind. apply wp_sub_ck; [clear; lia|]. ws. ws.
      assert (HLast : wp e (yytail k) Q (set_state st (set_strterm (new_strterm func cls opn None)
          (set_buffer (set_ptok (q + 1 - 1) (buffer (set_buffer (set_pcur (q + 1 + List.length l + 1) b2) s1))) (set_buffer (set_pcur (q + 1 + List.length l + 1) b2) s1))))).
      { replace (q + 1 - 1) with q by (clear; lia).
        assert (Hw : List.length (37%N :: l ++ [c]) = 2 + List.length l) by (cbn; rewrite app_length; cbn; clear; lia).
        eapply (tail_ok e k Q _ q (q + (2 + List.length l)) (37%N :: l ++ [c])).
        - destruct st; exact S1.
        - destruct st; exact S2.
        - destruct HK as [? ? ? ? HK| |]; [destruct HK|..]; reflexivity.
        - destruct st; reflexivity.
        - destruct st; cbn; clear; lia.
        - right. split; [destruct st; reflexivity|]. rewrite <- Hw. apply (substr_text B b2 (ln_rd _ _ _ _ L2)); auto; [destruct st; reflexivity|]. rewrite Hw. clear - Hl. lia.
        - apply HQ; try (destruct st; reflexivity). constructor; try (destruct st; reflexivity); [|destruct st; split; reflexivity].
          replace (q + (2 + List.length l)) with (q + 1 + List.length l + 1) by (clear; lia).
          assert (G : Cur B order (set_ptok q (set_pcur (q + 1 + List.length l + 1) b2)) (q + 1 + List.length l + 1)).
          { refine (cur_ptok B order (set_pcur (q + 1 + List.length l + 1) b2) _ q _ _); [|clear; lia]. eapply line_after; eauto. }
          destruct st; exact G. }
      unfold start_strterm. destruct HK as [l k interp words HK| |]; [destruct HK|..]; destruct Hlx as [Hlx|(Hlx & ->)]; try discriminate Hlx; try (injection Hlx as <-);
        cbn [mbeq N.eqb Pos.eqb]; repeat ws; exact HLast. }
    change (lex_char (Some 37%N) (command_start s) (nonempty sp) (token_seen s) (lex_state s)) with (as_tk (parse_percent (nonempty sp) (lex_state s))).
    unfold as_tk. ws. unfold parse_percent. ws. ws. ws. change (lex_state (set_buffer (set_pcur (q + 1) b) s1)) with (lex_state s).
    change (pcur (buffer (set_buffer (set_pcur (q + 1) b) s1))) with (q + 1). fold s1.
    set (y := hd c l) in *.
    assert (Ty : nth_error B (q + 1) = Some y) by (apply hd_text; auto).
    assert (Y13 : y <> 13%N) by (unfold y; destruct HK as [? ? ? ? HK| |]; [destruct HK|..]; cbn; auto; discriminate).
    eapply (cur_nx B order e _ (q + 1) y); auto. intros b2 L2 P2.
    assert (HQu : wp e (percent_quotation (Some y) (q + 1)) (fun t s' => wp e (ret (Tk t)) (fun r s'0 => match r with
                   | Tk t => wp e (yytail t) Q s'0
                   | Ident c => wp e (parse_ident c (command_start s)) (fun t s'' => wp e (yytail t) Q s'') s'0
                   | Retry _ => False
                   end) s') (set_buffer (set_pcur (q + 1 + 1) b2) (set_buffer (set_pcur (q + 1) b) s1))).
    { apply wp_conseq with (P := fun t s' => wp e (yytail t) Q s'); [|intros t s' H; ws; exact H].
      unfold percent_quotation. cbn [is_eof].
      assert (AC : is_alnum (Some c) = false) by (cbn; unfold b_is_alnum, b_is_alpha, b_is_digit, b_is_upper, b_is_lower, in_range; clear - D3; lia).
      assert (HL0 : (l = [] /\ y = c) \/ (l = [y] /\ is_alnum (Some y) = true)) by (unfold y; destruct HK as [? ? ? ? HK| |]; [destruct HK|..]; auto).
      destruct HL0 as [(El & Ey)|(El & EA)].
      - rewrite Ey, AC. cbn [negb]. replace (is_ascii (Some c)) with true by (symmetry; cbn; unfold b_is_ascii; clear - D1; lia). cbn [negb].
        rewrite El in HB. cbn [List.length] in HB. rewrite Nat.add_0_r in HB. apply (HB b2 81%N); auto.
      - rewrite EA. cbn [negb]. ws. rewrite El in HB, Tc. cbn [List.length] in HB, Tc.
        eapply (cur_nx B order e _ (q + 1 + 1) c); [|exact Tc|exact D2|].
        { eapply line_after; eauto. intros ->. exfalso. clear - EA. discriminate EA. }
        intros b3 L3 P3. rewrite AC. apply (HB b3 y); auto. }
    destruct HPS as [HPS|(A1 & A2 & A3 & A4)].
    - apply starts_beg in HPS. rewrite HPS. exact HQu.
    - destruct (ls_is_beg (lex_state s)); [exact HQu|].
      replace (mbeq (Some y) "=") with false by (symmetry; apply N.eqb_neq; exact A4).
      apply starts_arg in A1. unfold ls_is_spacearg. rewrite A1, (not_white_space B order e Hfuel) by exact A3.
      destruct sp as [|z sp]; [congruence|]. cbn [nonempty andb orb negb]. exact HQu.
  Qed.

  (** One or two marks that open a literal *)
  Lemma open_marks : forall s p sp x r k func cls st (Q : Token -> Lexer -> Prop), (32 < x /\ x < 127 /\ x <> 35 /\ x <> 95)%N -> (r = [] \/ exists y, r = [y] /\ y <> 13 /\ y <> 10)%N ->
    tok_eqb k tNL = false ->
    BWF B (buffer s) -> lval_start s = None -> lval_end s = None -> strterm s = None -> upcoming (buffer s) p -> text_at B p (sp ++ x :: r) -> spacing (buffer s) sp ->
    Z.ltb 0 (heredoc_indent (buffer s)) = false -> (order -> in_order (buffer s)) ->
    (forall b s1, s1 = set_token_seen true (set_command_start false (set_lval None s)) -> Line B order b (p + List.length sp) -> pcur b = p + List.length sp -> ptok b = p + List.length sp ->
      wp e (lex_char (Some x) (command_start s) (nonempty sp) (token_seen s) (lex_state s))
        (fun t s' => t = Tk k /\ exists b2, Line B order b2 (p + List.length sp + List.length r) /\
           s' = set_state st (set_strterm (new_strterm func cls None None) (set_buffer (set_ptok (p + List.length sp) (set_pcur (p + List.length sp + List.length r + 1) b2)) s1)))
        (set_buffer (set_pcur (p + List.length sp + 1) b) s1)) ->
    (forall s', At B order s' (p + List.length sp + List.length (x :: r)) (mkStringLiteral 0 func None cls None) ->
      lex_state s' = match st with Some v => v | None => lex_state s end -> diagnostics s' = diagnostics s -> comments s' = comments s ->
      Q (tok_at k (x :: r) (p + List.length sp) (List.length (x :: r))) s') -> wp e yylex Q s.
  Proof using All.
    intros s p sp x r k func cls st Q Hx Hr Hk HW S1 S2 ST HU HT HS HI HO HM HQ.
    pose proof HT as HT2. apply text_at_app in HT2. destruct HT2 as (_ & HT2). pose proof HT2 as HT3. apply text_at_cons in HT3. destruct HT3 as (Tx & Tr).
    assert (Hl : p + List.length sp + List.length (x :: r) <= List.length B) by (apply text_at_len; auto; discriminate).
    apply (yylex_start B e s p sp x r); auto; [clear - Hx; lia|cbn in Hl; clear - Hl Hfuel; lia|].
    set (q := p + List.length sp) in *. intros b HR HP1 HP2 HP3 HH HO2.
    assert (HL : Line B order b q) by (eapply (start_line B order e Hfuel); eauto; clear - Hx; lia).
    eapply wp_conseq; [apply (HM b _ eq_refl HL HP1 HP2)|]. intros t s' (-> & b2 & L2 & ->).
    eapply (tail_ok e k Q _ q (q + List.length (x :: r)) (x :: r)).
    - destruct st; exact S1.
    - destruct st; exact S2.
    - exact Hk.
    - destruct st; reflexivity.
    - destruct st; cbn; clear; lia.
    - right. split; [destruct st; reflexivity|]. apply (substr_text B b2 (ln_rd _ _ _ _ L2)); auto; destruct st; reflexivity.
    - apply HQ; try (destruct st; reflexivity). constructor; try (destruct st; reflexivity); [|destruct st; split; reflexivity].
      replace (q + List.length (x :: r)) with (q + List.length r + 1) by (cbn; clear; lia).
      assert (G : Cur B order (set_ptok q (set_pcur (q + List.length r + 1) b2)) (q + List.length r + 1)).
      { refine (cur_ptok B order (set_pcur (q + List.length r + 1) b2) _ q _ _); [|clear; lia].
        destruct Hr as [->|(y & -> & Y1 & Y2)]; cbn [List.length] in *.
        - rewrite Nat.add_0_r in *. eapply (line_after B order b2 q x); eauto; clear - Hx; lia.
        - apply text_at_cons in Tr. destruct Tr as (Ty & _). eapply (line_after B order b2 (q + 1) y); eauto; congruence. }
      destruct st; exact G.
  Qed.
End Open2.
