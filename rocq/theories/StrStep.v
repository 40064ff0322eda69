(** * The tokens of a string literal: opening, content, white space of lists, end *)
Require Import Verif.Base Verif.MaybeByteM Verif.Utf8M Verif.InputM Verif.DiagnosticM Verif.TokensM Verif.BufferM Verif.LexStateM
  Verif.LexerM Verif.LexStringM Verif.LexIdentM Verif.LexMainM
  Verif.SourceSpec Verif.SourceProofs Verif.Wp Verif.BufInv Verif.LexSpec Verif.NewlineInv Verif.MainInv
  Verif.ReadSpec Verif.YylexSpec Verif.Reach Verif.NumberSpec Verif.NumRead Verif.IdentRead Verif.IdentStep Verif.Prop_Ident Verif.Prop_Crlf
  Verif.StringSpec Verif.StrNum Verif.StrRead.
Require Import ZifyBool ZifyNat ZifyN.

(** ** heredoc_indent is not touched when the first line is read *)
Definition quiet_op {A} (m : M Buffer A) : Prop := forall e b, match m e b with Ok _ b' => heredoc_indent b' = heredoc_indent b | _ => True end.

Lemma qo_ret : forall A (a : A), quiet_op (ret a).
Proof. intros A a e b. reflexivity. Qed.
Lemma qo_bind : forall A C (m : M Buffer A) (f : A -> M Buffer C), quiet_op m -> (forall a, quiet_op (f a)) -> quiet_op (bind m f).
Proof.
  intros A C m f H1 H2 e b. unfold bind. specialize (H1 e b). destruct (m e b) as [a b'| |]; auto. specialize (H2 a e b').
  destruct (f a e b') as [c b''| |]; auto. congruence.
Qed.
Lemma qo_get : quiet_op get.
Proof. intros e b. reflexivity. Qed.
Lemma qo_modify : forall f, (forall b, heredoc_indent (f b) = heredoc_indent b) -> quiet_op (modify f).
Proof. intros f H e b. cbn. apply H. Qed.
Lemma qo_expect : forall A (o : option A) m, quiet_op (expect o m).
Proof. intros A [a|] m e b; cbn; auto. Qed.
Lemma qo_when : forall c m, quiet_op m -> quiet_op (when c m).
Proof. intros [|] m H; [exact H|apply qo_ret]. Qed.
Lemma qo_sub : forall a b, quiet_op (sub_ck a b).
Proof. intros a b e s. unfold sub_ck. destruct (_ <=? _); cbn; auto. Qed.
#[local] Hint Resolve qo_ret qo_get qo_expect qo_sub : core.
Ltac qo := repeat first [ assumption | apply qo_ret | apply qo_get | apply qo_expect | apply qo_sub | apply qo_when
  | (apply qo_modify; intros b0; destruct b0; reflexivity)
  | (apply qo_bind; [|intros]) | match goal with |- quiet_op (if ?c then _ else _) => destruct c | |- quiet_op (match ?x with _ => _ end) => destruct x end ].

Lemma qo_getline : quiet_op getline.
Proof. unfold getline. qo. Qed.
Lemma qo_load : forall v, quiet_op (load_line v).
Proof. intros v. unfold load_line. qo. Qed.
Lemma qo_nextline : quiet_op b_nextline.
Proof. unfold b_nextline. pose proof qo_getline. pose proof qo_load. qo. all: auto. Qed.
Lemma qo_peek : forall c n, quiet_op (b_peek_n c n).
Proof. intros c n. unfold b_peek_n. qo. Qed.
Lemma qo_nextc : quiet_op b_nextc.
Proof. unfold b_nextc, parser_cr, b_peek. pose proof qo_nextline. pose proof qo_peek. qo; auto. Qed.
Lemma qo_pushback : forall c, quiet_op (b_pushback c).
Proof. intros c. unfold b_pushback, pushback_byte. qo. Qed.

Lemma start_quiet : forall B name e s, lexer_new B name e = Ok tt s -> heredoc_indent (buffer s) = 0%Z.
Proof.
  intros B name e s H. unfold lexer_new in H. destruct (buffer_new name B e (buffer_default (named name))) as [[] b| |] eqn:E; try discriminate.
  injection H as <-. cbn. unfold buffer_new in E. unfold bind, modify in E.
  assert (K : quiet_op prepare). { unfold prepare, b_peek. pose proof qo_nextc. pose proof qo_peek. pose proof qo_pushback. qo; auto. }
  specialize (K e (buffer_default (update_bytes B (named name)))). rewrite E in K. rewrite K. reflexivity.
Qed.

(** ** Reading *)
Section Reading.
  Variables (B : list N) (order : Prop) (e : Env).

  Lemma cur_nx : forall s p x (Q : MaybeByte -> Lexer -> Prop), Cur B order (buffer s) p -> nth_error B p = Some x -> x <> 13%N ->
    (forall b1, Line B order b1 p -> pcur b1 = p -> Q (Some x) (set_buffer (set_pcur (p + 1) b1) s)) -> wp e nextc Q s.
  Proof using.
    intros s p x Q HC Hx H13 HQ. assert (Hp : p < List.length B) by (apply nth_error_Some; congruence).
    destruct (cur_line B order _ p HC Hp) as (b1 & L1 & L2 & L3). unfold nextc, inb. apply wp_zoom. unfold wp.
    rewrite L3, <- (rd_here e b1 p L2), (line_read B order e b1 p x L1 Hx H13). apply HQ; auto.
  Qed.

  Lemma line_push : forall s b p x (Q : unit -> Lexer -> Prop), buffer s = set_pcur (p + 1) b -> Line B order b p -> nth_error B p = Some x ->
    Q tt (set_buffer (set_pcur p b) s) -> wp e (pushback (Some x)) Q s.
  Proof using.
    intros s b p x Q Hb HL Hx HQ. apply wp_push; [intros _; rewrite Hb; cbn; clear; lia|].
    rewrite Hb, (line_back B order b p x HL Hx). exact HQ.
  Qed.

  Lemma line_cur0 : forall b p, Line B order b p -> pcur b = p -> Cur B order b p.
  Proof using. intros b p H HP. apply line_cur in H. rewrite <- HP, set_pcur_same, HP in H. exact H. Qed.

  Lemma cur_flush : forall b p, Cur B order b p -> Cur B order (b_token_flush b) p.
  Proof using.
    intros b p H. unfold b_token_flush. apply cur_ptok; auto. rewrite (cu_pos _ _ _ _ H). auto.
  Qed.
End Reading.

(** ** The flags of a literal *)
Record Flags (func : N) (interp words : bool) : Prop := mkFlags {
  fl_expand : has func STR_FUNC_EXPAND = interp;
  fl_words : has func STR_FUNC_QWORDS = words;
  fl_regexp : has func STR_FUNC_REGEXP = false;
  fl_escape : has func STR_FUNC_ESCAPE = false;
  fl_indent : has func STR_FUNC_INDENT = false;
  fl_term : has func STR_FUNC_TERM = false
}.

(** The lexer inside a string literal, after a token that ends at [q] *)
Record InString (B : list N) (order : Prop) (s s' : Lexer) (q : nat) (quote : StringLiteral) : Prop := mkInString {
  is_cur : Cur B order (buffer s') q;
  is_term : strterm s' = Some (StringLit quote);
  is_state : lex_state s' = lex_state s;
  is_lval : lval_start s' = None /\ lval_end s' = None;
  is_comments : comments s' = comments s
}.

(** The lexer behind a literal that ends at [q] *)
Record Closed (B : list N) (order : Prop) (s s' : Lexer) (q : nat) : Prop := mkClosed {
  cl_cur : Cur B order (buffer s') q;
  cl_term : strterm s' = None;
  cl_state : lex_state s' = EXPR_END;
  cl_lval : lval_start s' = None /\ lval_end s' = None;
  cl_diags : diagnostics s' = diagnostics s;
  cl_comments : comments s' = comments s
}.

(** ** Content *)
Lemma piece_first : forall interp words opn cls nxt p n txt v d n', piece interp words opn cls nxt p n txt v d n' ->
  opn <> Some cls -> (words = true -> forall x, delim opn cls x -> ~ white_byte x) -> (interp = true -> ~ delim opn cls 35%N) ->
  exists x w, txt = x :: w /\ x <> 13%N /\ (x = cls -> 0 < n) /\ (words = true -> ~ white_byte x) /\
    (interp = true -> x = 35%N -> w = [] /\ v = [35%N] /\ d = [] /\ n' = n /\ (nxt <> 36 /\ nxt <> 64 /\ nxt <> 123)%N).
Proof.
  intros interp words opn cls nxt p n txt v d n' H HP HD HI.
  assert (W92 : ~ white_byte 92%N) by (unfold white_byte; clear; lia).
  assert (B92 : forall w, ~ delim opn cls 92%N -> exists x w', (92%N :: w) = x :: w' /\ x <> 13%N /\ (x = cls -> 0 < n) /\ (words = true -> ~ white_byte x) /\
    (interp = true -> x = 35%N -> w' = [] /\ v = [35%N] /\ d = [] /\ n' = n /\ (nxt <> 36 /\ nxt <> 64 /\ nxt <> 123)%N)).
  { intros w H92. exists 92%N, w. splits; auto; try discriminate. intros E. exfalso. apply H92. left. exact E. }
  destruct H; try (apply B92; assumption).
  - exists c, []. splits; auto.
    + intros E. exfalso. apply H1. left. exact E.
    + intros E1 E2. destruct (H2 E1 E2) as (K1 & K2 & K3). splits; auto; congruence.
  - exists c, []. splits; auto.
    + intros E. congruence.
    + intros E. apply HD; auto. right. auto.
    + intros E E2. exfalso. apply HI; auto. right. congruence.
  - exists cls, []. splits; auto.
    + intros _. lia.
    + intros E. apply HD; auto. left. auto.
    + intros E E2. exfalso. apply HI; auto. left. auto.
Qed.


Lemma hd_text : forall B p w (x : N), text_at B p w -> nth_error B (p + List.length w) = Some x -> nth_error B p = Some (hd x w).
Proof.
  intros B p [|y w] x H1 H2; cbn [hd List.length] in *; [rewrite Nat.add_0_r in H2; exact H2|]. apply text_at_cons in H1. apply H1.
Qed.

(** How the text of a token ends *)
Definition ends (words : bool) (paren : option N) (term fin : N) (n : nat) : Prop :=
  (fin = term /\ n = 0) \/ (words = true /\ white_byte fin /\ ~ delim paren term fin).

(** What is asked of the delimiters *)
Record Delims (interp words : bool) (paren : option N) (term : N) : Prop := mkDelims {
  dl_differ : paren <> Some term;
  dl_words : words = true -> forall x, delim paren term x -> ~ white_byte x;
  dl_hash : interp = true -> ~ delim paren term 35%N;
  dl_cr : term <> 13%N
}.

Section Content.
  Variables (B : list N) (order : Prop) (e : Env).
  Hypothesis Hfuel : List.length B < fuel e.

  Lemma body_hd : forall interp words paren term fin p n txt v dg n2, body interp words paren term fin p n txt v dg n2 ->
    Delims interp words paren term -> fin <> 13%N -> hd fin txt <> 13%N.
  Proof using All.
    intros interp words paren term fin p n txt v dg n2 H [D1 D2 D3 D4] HF. destruct H as [|p n txt v d n1 rest v' d' n2 H1 H2]; [exact HF|].
    destruct (piece_first _ _ _ _ _ _ _ _ _ _ _ H1 D1 D2 D3) as (x & w & -> & A & _). exact A.
  Qed.

  Lemma not_white_space : forall x, ~ white_byte x -> is_space (Some x) = false.
  Proof using All. intros x H. unfold white_byte in H. cbn. unfold b_is_space, in_range. clear - H. lia. Qed.

  Lemma body_first : forall interp words paren term fin p n txt v dg n2, body interp words paren term fin p n txt v dg n2 -> txt <> [] ->
    Delims interp words paren term -> fin <> 13%N ->
    exists x w, txt = x :: w /\ x <> 13%N /\ (x = term -> 0 < n) /\ (words = true -> ~ white_byte x) /\
      (interp = true -> x = 35%N -> exists v', v = 35%N :: v' /\ body interp words paren term fin (p + 1) n w v' dg n2 /\
        (hd fin w <> 36 /\ hd fin w <> 64 /\ hd fin w <> 123 /\ hd fin w <> 13)%N).
  Proof using All.
    intros interp words paren term fin p n txt v dg n2 H Hne HD HF. destruct H as [|p n txt v d n1 rest v' d' n2 H1 H2]; [congruence|].
    pose proof HD as [D1 D2 D3 D4].
    destruct (piece_first _ _ _ _ _ _ _ _ _ _ _ H1 D1 D2 D3) as (x & w & -> & A1 & A2 & A3 & A4).
    exists x, (w ++ rest). splits; auto. intros E1 E2. destruct (A4 E1 E2) as (-> & -> & -> & -> & K1 & K2 & K3). exists v'. cbn [app] in *.
    splits; auto. eapply body_hd; eauto.
  Qed.

  (** The state in which the next token of a literal is read *)
  Definition string_state (s : Lexer) (p : nat) : Lexer :=
    set_lval_start (Some p) (set_strterm None (set_buffer (b_token_flush (buffer s)) (set_lval None s))).

  Lemma string_start : forall s p quote (Q : Token -> Lexer -> Prop), pcur (buffer s) = p -> strterm s = Some (StringLit quote) ->
    wp e (if has (sl_func quote) STR_FUNC_TERM then parse_string_term quote
          else
            c <- nextc ;;
            '(c, space) <- (if has (sl_func quote) STR_FUNC_QWORDS && is_space c then
                c <- loop (fun _ : unit =>
                       c <- nextc ;;
                       if negb (is_space c) then ret (inr c) else ret (inl tt)) tt ;;
                ret (c, true)
              else ret (c, false)) ;;
            let quote' := if has (sl_func quote) STR_FUNC_LIST then sl_set_func (N.ldiff (sl_func quote) STR_FUNC_LIST) quote else quote in
            let space := space || has (sl_func quote) STR_FUNC_LIST in
            if mbeq c (sl_term quote) && (sl_nest quote' =? 0) then
              if has (sl_func quote) STR_FUNC_QWORDS then
                pushback c ;;;
                restore_strterm (sl_set_func (N.lor (sl_func quote') STR_FUNC_TERM) quote') ;;;
                ret tSPACE
              else
                restore_strterm quote' ;;;
                string_term (sl_term quote) (sl_func quote)
            else if space then
              pushback c ;;;
              restore_strterm quote' ;;;
              ret tSPACE
            else parse_string_content quote' (sl_func quote) c)
      (fun t s' => wp e (yytail t) Q s') (string_state s p) -> wp e yylex Q s.
  Proof using All.
    intros s p quote Q <- HS H. unfold yylex. ws. ws. ws. unfold parser_yylex. ws. ws. change (strterm (set_lval None s)) with (strterm s). rewrite HS.
    ws. ws. unfold parse_string, take_strterm. ws. ws. ws. ws. ws. change (strterm (set_buffer _ _)) with (strterm s). rewrite HS. ws. ws. ws.
    exact H.
  Qed.

  Lemma run_body : forall s1 func paren term interp words fin p n txt v dg n2 t d b (K : option MaybeByte * nat -> Lexer -> Prop),
    Flags func interp words -> Delims interp words paren term ->
    body interp words paren term fin p n txt v dg n2 -> text_at B p txt -> nth_error B (p + List.length txt) = Some fin -> (In 10%N txt -> order) ->
    fin <> 13%N -> ends words paren term fin n2 -> Cur B order b p ->
    (forall b', Line B order b' (p + List.length txt) -> pcur b' = p + List.length txt -> K (Some (Some fin), n2) (Sx s1 (t ++ v) (d ++ dg) b')) ->
    wp e (tokadd_string func term paren n) K (Sx s1 t d b).
  Proof using All.
    intros s1 func paren term interp words fin p n txt v dg n2 t d b K [F1 F2 F3 F4 F5 F6] [D1 D2 D3 D4] HB HT Hfin HO H13 HE HC HK.
    assert (Hl : p + List.length txt < List.length B) by (apply nth_error_Some; congruence).
    eapply (string_run B order e s1 func paren term interp words F1 F2 F3 F4 F5 Hfuel (1 + List.length txt) n p t d b K); [|clear - Hl Hfuel; lia|exact HC].
    eapply (body_step B order e s1 func paren term interp words F1 F2 F3 F4 F5 Hfuel); eauto.
    destruct HE as [(-> & ->)|(E1 & E2 & E3)].
    - eapply (body_end_term B order e s1 func paren term interp words F1 F2 F3 F4 F5 Hfuel); eauto.
    - eapply (body_end_white B order e s1 func paren term interp words F1 F2 F3 F4 F5 Hfuel); eauto.
  Qed.

  Lemma content_wp : forall s p n func paren term he interp words txt v dg n2 fin (Q : Token -> Lexer -> Prop),
    lval_start s = None -> lval_end s = None -> Flags func interp words -> has func STR_FUNC_LIST = false -> Delims interp words paren term ->
    Cur B order (buffer s) p -> strterm s = Some (StringLit (mkStringLiteral n func paren term he)) ->
    body interp words paren term fin p n txt v dg n2 -> txt <> [] -> text_at B p txt -> nth_error B (p + List.length txt) = Some fin -> (In 10%N txt -> order) ->
    fin <> 13%N -> ends words paren term fin n2 ->
    (forall s', InString B order s s' (p + List.length txt) (mkStringLiteral n2 func paren term he) -> diagnostics s' = diagnostics s ++ dg ->
      Q (mkToken tSTRING_CONTENT v (mkLoc p (p + List.length txt))) s') ->
    wp e yylex Q s.
  Proof using All.
    intros s p n func paren term he interp words txt v dg n2 fin Q S1 S2 HFl HLi HDl HC HS HB Hne HT Hfin HO H13 HEnd HQ.
    pose proof HDl as [D1 D2 D3 D4]. pose proof HFl as [F1 F2 F3 F4 F5 F6].
    eapply string_start; [exact (cu_pos _ _ _ _ HC)|exact HS|]. set (s1 := string_state s p). cbn [sl_func sl_term]. rewrite F6. ws.
    destruct (body_first _ _ _ _ _ _ _ _ _ _ _ HB Hne HDl H13) as (x & w & Etxt & X1 & X2 & X3 & X4).
    assert (Tx : nth_error B p = Some x) by (rewrite Etxt in HT; apply text_at_cons in HT; apply HT).
    assert (HC1 : Cur B order (buffer s1) p) by (apply cur_flush; exact HC).
    eapply (cur_nx B order e s1 p x); eauto. intros b1 L1 P1. ws. rewrite F2.
    replace (words && is_space (Some x)) with false.
    2:{ destruct words; [|reflexivity]. symmetry. apply not_white_space. apply X3. reflexivity. }
    ws. rewrite HLi. cbn [orb sl_nest]. replace (mbeq (Some x) term && (n =? 0)) with false.
    2:{ symmetry. destruct (mbeq (Some x) term) eqn:E; [|reflexivity]. apply mbeq_iff in E. injection E as ->. specialize (X2 eq_refl). cbn [andb]. clear - X2. lia. }
    assert (HLast : forall b' (t : list N) (q' : nat), q' = p + List.length txt -> t = v -> Line B order b' q' -> pcur b' = q' ->
      wp e (yytail tSTRING_CONTENT) Q (set_strterm (Some (StringLit (mkStringLiteral n2 func paren term he))) (set_lval (Some t) (Sx s1 t (diagnostics s ++ dg) b')))).
    { intros b' t q' -> -> HL HP. unfold yytail. ws. ws. ws. ws. cbn. rewrite S2, HP. apply HQ; [|reflexivity].
      constructor; try reflexivity; try (split; reflexivity). apply line_cur0; auto. }
    unfold parse_string_content. cbn [sl_term sl_paren sl_nest]. ws. ws. rewrite F1.
    ws. destruct (interp && mbeq (Some x) "#") eqn:EH.
    - apply andb_prop in EH. destruct EH as (EI & EH). apply mbeq_iff in EH. injection EH as EH. destruct (X4 EI EH) as (v' & Ev & HB' & Y1 & Y2 & Y3 & Y4).
      subst x. rewrite Etxt in HT, Hfin, HO. apply text_at_cons in HT. destruct HT as (_ & HT). cbn [List.length] in Hfin.
      replace (p + S (List.length w)) with (p + 1 + List.length w) in Hfin by (clear; lia).
      pose proof (hd_text B (p + 1) w fin HT Hfin) as Ty. set (y := hd fin w) in *.
      ws. eapply wp_conseq with (P := fun r s' => r = None /\ s' = set_tokenbuf [] (set_buffer (set_pcur (p + 1) b1) s1)).
      { unfold peek_variable_name. ws. ws. cbn [buffer set_tokenbuf set_buffer pcur set_pcur pend].
        destruct (pend b1 <=? p + 1 + 1) eqn:EP; [ws; auto|].
        replace (byte_at (set_pcur (p + 1) b1) (p + 1)) with (Some y) by (rewrite <- Ty; symmetry; apply (line_bytes B order b1 p _ L1)).
        replace (mbeq (Some y) "$") with false by (symmetry; apply N.eqb_neq; exact Y1).
        replace (mbeq (Some y) "@") with false by (symmetry; apply N.eqb_neq; exact Y2).
        replace (mbeq (Some y) "{") with false by (symmetry; apply N.eqb_neq; exact Y3). ws. auto. }
      intros r s' (-> & ->). ws. ws. ws.
      eapply (cur_nx B order e _ (p + 1) y); [|exact Ty|exact Y4|].
      { apply (line_after B order b1 p 35%N); auto; discriminate. }
      intros b2 L2 P2. ws. ws. eapply (line_push B order e _ b2 (p + 1) y); [reflexivity|exact L2|exact Ty|]. ws.
      match goal with |- wp e _ _ ?S => change S with (Sx s1 [35%N] (diagnostics s) (set_pcur (p + 1) b2)) end.
      eapply run_body; eauto. { intros K. apply HO. right. exact K. } { apply line_cur. exact L2. }
      intros b' HL HP. ws. ws. pose proof (ln_rd _ _ _ _ HL) as (_ & _ & Ee).
      change (eofp (buffer (Sx s1 ([35%N] ++ v') (diagnostics s ++ dg) b'))) with (eofp b'). rewrite Ee. cbn [andb]. repeat ws. unfold restore_strterm. repeat ws.
      apply (HLast b' ([35%N] ++ v') (p + 1 + List.length w)); auto. rewrite Etxt. cbn [List.length]. clear. lia.
    - ws. ws. eapply (line_push B order e _ b1 p x); [reflexivity|exact L1|exact Tx|]. ws.
      match goal with |- wp e _ _ ?S => change S with (Sx s1 [] (diagnostics s) (set_pcur p b1)) end.
      eapply run_body; eauto. { apply line_cur. exact L1. }
      intros b' HL HP. ws. ws. pose proof (ln_rd _ _ _ _ HL) as (_ & _ & Ee).
      change (eofp (buffer (Sx s1 ([] ++ v) (diagnostics s ++ dg) b'))) with (eofp b'). rewrite Ee. cbn [andb]. repeat ws. unfold restore_strterm. repeat ws.
      apply (HLast b' v (p + List.length txt)); auto.
  Qed.

  (** ** The end of a literal *)
  Lemma end_wp : forall s p func paren term he interp (Q : Token -> Lexer -> Prop),
    lval_start s = None -> lval_end s = None -> Flags func interp false -> has func STR_FUNC_LIST = false ->
    Cur B order (buffer s) p -> strterm s = Some (StringLit (mkStringLiteral 0 func paren term he)) ->
    nth_error B p = Some term -> term <> 13%N -> (term = 10%N -> order) -> (has func STR_FUNC_LABEL = true -> nth_error B (p + 1) <> Some 58%N) ->
    (forall s', Closed B order s s' (p + 1) -> Q (mkToken tSTRING_END [term] (mkLoc p (p + 1))) s') ->
    wp e yylex Q s.
  Proof using All.
    intros s p func paren term he interp Q S1 S2 HFl HLi HC HS Tx H13 H10 HLb HQ. pose proof HFl as [F1 F2 F3 F4 F5 F6].
    eapply string_start; [exact (cu_pos _ _ _ _ HC)|exact HS|]. set (s1 := string_state s p). cbn [sl_func sl_term]. rewrite F6. ws.
    eapply (cur_nx B order e s1 p term); auto; [apply cur_flush; exact HC|]. intros b1 L1 P1. ws. rewrite F2. cbn [andb]. ws.
    rewrite HLi. cbn [sl_nest]. replace (mbeq (Some term) term) with true by (symmetry; apply N.eqb_refl). cbn [andb Nat.eqb].
    ws. unfold restore_strterm. ws. unfold string_term. ws. ws. rewrite F3.
    assert (HLast : wp e (yytail tSTRING_END) Q (set_lex_state EXPR_END (set_strterm None (set_buffer (set_pcur (p + 1) b1) s1)))).
    { unfold yytail. ws. ws. ws. ws. cbn. rewrite S2.
      replace (b_substr_at (set_pcur (p + 1) b1) p (p + 1)) with (Some [term]).
      2:{ symmetry. apply (substr_text B b1 (ln_rd _ _ _ _ L1) p [term]); [reflexivity| |].
          - apply text_at_cons. split; [exact Tx|reflexivity].
          - assert (p < List.length B) by (apply nth_error_Some; congruence). cbn. lia. }
      apply HQ. constructor; try reflexivity; try (split; reflexivity). cbn. eapply line_after; eauto. }
    destruct (has func STR_FUNC_LABEL) eqn:EL; repeat ws.
    - unfold is_label_suffix. ws. eapply (wp_peek_at B e b1 (ln_rd _ _ _ _ L1) _ 58%N 0 (p + 1)); [reflexivity|].
      rewrite Nat.add_0_r. replace (mbeq (nth_error B (p + 1)) 58%N) with false.
      2:{ symmetry. destruct (mbeq _ _) eqn:E; auto. exfalso. apply mbeq_iff in E. apply HLb; auto. }
      rewrite andb_false_r. repeat ws. exact HLast.
    - exact HLast.
  Qed.

  (** The end of a list of words *)
  Lemma term_wp : forall s p func paren term n (Q : Token -> Lexer -> Prop),
    lval_start s = None -> lval_end s = None -> has func STR_FUNC_TERM = true -> has func STR_FUNC_QWORDS = true -> has func STR_FUNC_REGEXP = false ->
    Cur B order (buffer s) p -> strterm s = Some (StringLit (mkStringLiteral n func paren term None)) ->
    nth_error B p = Some term -> term <> 13%N -> (term = 10%N -> order) ->
    (forall s', Closed B order s s' (p + 1) -> Q (mkToken tSTRING_END [term] (mkLoc p (p + 1))) s') ->
    wp e yylex Q s.
  Proof using All.
    intros s p func paren term n Q S1 S2 F1 F2 F3 HC HS Tx H13 H10 HQ.
    eapply string_start; [exact (cu_pos _ _ _ _ HC)|exact HS|]. set (s1 := string_state s p). cbn [sl_func sl_term]. rewrite F1.
    unfold parse_string_term. cbn [sl_func sl_heredoc_end]. rewrite F2, F3. cbn [when]. ws. ws.
    eapply (cur_nx B order e s1 p term); auto; [apply cur_flush; exact HC|]. intros b1 L1 P1. repeat ws.
    unfold yytail. ws. ws. ws. ws. cbn. rewrite S2.
    replace (b_substr_at (set_pcur (p + 1) b1) p (p + 1)) with (Some [term]).
    2:{ symmetry. apply (substr_text B b1 (ln_rd _ _ _ _ L1) p [term]); [reflexivity| |].
        - apply text_at_cons. split; [exact Tx|reflexivity].
        - assert (p < List.length B) by (apply nth_error_Some; congruence). cbn. lia. }
    apply HQ. constructor; try reflexivity; try (split; reflexivity). cbn. eapply line_after; eauto.
  Qed.

  (** ** White space between the words of a list *)
  Lemma white_space : forall x, white_byte x -> is_space (Some x) = true.
  Proof using All. intros x H. unfold white_byte in H. cbn. unfold b_is_space, in_range. clear - H. lia. Qed.

  Lemma gap_run : forall gap s p z, Forall (fun c => white_byte c /\ c <> 13%N) gap -> Cur B order (buffer s) p -> text_at B p gap -> nth_error B (p + List.length gap) = Some z ->
    ~ white_byte z -> (In 10%N gap -> order) -> forall m (Q : MaybeByte -> Lexer -> Prop), List.length gap < m ->
    (forall b1, Line B order b1 (p + List.length gap) -> Q (Some z) (set_buffer (set_pcur (p + List.length gap + 1) b1) s)) ->
    wp e (loop_n m (fun _ : unit => c <- nextc ;; if negb (is_space c) then ret (inr c) else ret (inl tt)) tt) Q s.
  Proof using All.
    induction gap as [|x gap IH]; intros s p z HF HC HT Hz HzW HO m Q Hm HQ; (destruct m as [|m]; [exfalso; clear - Hm; lia|]); cbn [loop_n]; ws.
    - cbn [List.length] in *. rewrite Nat.add_0_r in *. ws. eapply cur_nx; eauto. { intros ->. apply HzW. unfold white_byte. clear. lia. }
      intros b1 L1 P1. rewrite not_white_space by exact HzW. cbn [negb]. repeat ws. apply HQ; auto.
    - inversion HF as [|? ? (A1 & A2) HF']; subst. apply text_at_cons in HT. destruct HT as (Hx & HT). cbn [List.length] in *.
      ws. eapply cur_nx; eauto. intros b1 L1 P1. rewrite white_space by exact A1. cbn [negb]. repeat ws.
      assert (HC1 : Cur B order (set_pcur (p + 1) b1) (p + 1)). { eapply line_after; eauto. intros ->. apply HO. left. reflexivity. }
      replace (p + S (List.length gap)) with (p + 1 + List.length gap) in * by (clear; lia).
      eapply (IH (set_buffer (set_pcur (p + 1) b1) s) (p + 1) z); eauto; [intros K; apply HO; right; exact K|clear - Hm; lia].
  Qed.

  Lemma space_wp : forall s p n func func0 paren term interp gap z (Q : Token -> Lexer -> Prop),
    lval_start s = None -> lval_end s = None -> Flags func interp true -> has func STR_FUNC_LIST = true \/ gap <> [] \/ (z = term /\ n = 0) ->
    func0 = (if has func STR_FUNC_LIST then N.ldiff func STR_FUNC_LIST else func) ->
    Cur B order (buffer s) p -> strterm s = Some (StringLit (mkStringLiteral n func paren term None)) ->
    Forall (fun c => white_byte c /\ c <> 13%N) gap -> text_at B p gap -> nth_error B (p + List.length gap) = Some z -> ~ white_byte z ->
    (In 10%N gap -> order) ->
    (forall s', InString B order s s' (p + List.length gap)
        (mkStringLiteral n (if N.eqb z term && (n =? 0) then N.lor func0 STR_FUNC_TERM else func0) paren term None) ->
      diagnostics s' = diagnostics s -> Q (mkToken tSPACE gap (mkLoc p (p + List.length gap))) s') ->
    wp e yylex Q s.
  Proof using All.
    intros s p n func func0 paren term interp gap z Q S1 S2 HFl HLi HF0 HC HS HG HT Hz HzW HO HQ. pose proof HFl as [F1 F2 F3 F4 F5 F6].
    eapply string_start; [exact (cu_pos _ _ _ _ HC)|exact HS|]. set (s1 := string_state s p). cbn [sl_func sl_term]. rewrite F6. ws.
    assert (HC1 : Cur B order (buffer s1) p) by (apply cur_flush; exact HC).
    assert (Hl : p + List.length gap < List.length B) by (apply nth_error_Some; congruence).
    assert (Hz13 : z <> 13%N) by (intros ->; apply HzW; unfold white_byte; clear; lia).
    assert (HLf : (if has func STR_FUNC_LIST then sl_set_func (N.ldiff func STR_FUNC_LIST) (mkStringLiteral n func paren term None)
        else mkStringLiteral n func paren term None) = mkStringLiteral n func0 paren term None).
    { rewrite HF0. destruct (has func STR_FUNC_LIST); reflexivity. }
    rewrite HLf. cbn [sl_nest sl_func]. rewrite F2. cbn [andb].
    (* behind the white space *)
    assert (HK : forall b1 sp, Line B order b1 (p + List.length gap) -> sp || has func STR_FUNC_LIST = true \/ (z = term /\ n = 0) ->
      wp e (if mbeq (Some z) term && (n =? 0)
            then pushback (Some z) ;;; restore_strterm (sl_set_func (N.lor func0 STR_FUNC_TERM) (mkStringLiteral n func0 paren term None)) ;;; ret tSPACE
            else if sp || has func STR_FUNC_LIST then pushback (Some z) ;;; restore_strterm (mkStringLiteral n func0 paren term None) ;;; ret tSPACE
            else parse_string_content (mkStringLiteral n func0 paren term None) func (Some z)) (fun t s' => wp e (yytail t) Q s')
        (set_buffer (set_pcur (p + List.length gap + 1) b1) s1)).
    { intros b1 sp L1 HLs.
      assert (HT1 : forall f, (if N.eqb z term && (n =? 0) then N.lor func0 STR_FUNC_TERM else func0) = f ->
        wp e (yytail tSPACE) Q (set_strterm (Some (StringLit (mkStringLiteral n f paren term None))) (set_buffer (set_pcur (p + List.length gap) b1) s1))).
      { intros f Ef. unfold yytail. ws. ws. ws. ws. cbn [lval_start lval_end set_strterm set_buffer s1 string_state set_lval_start lval set_lval buffer pcur set_pcur tok_eqb]. rewrite S2.
        replace (b_substr_at (set_pcur (p + List.length gap) b1) p (p + List.length gap)) with (Some gap).
        2:{ symmetry. apply (substr_text B b1 (ln_rd _ _ _ _ L1)); auto. clear - Hl. lia. }
        apply HQ; [|reflexivity]. constructor; try reflexivity; try (split; reflexivity); [|rewrite Ef; reflexivity]. apply line_cur. exact L1. }
      change (mbeq (Some z) term) with (N.eqb z term).
      destruct (N.eqb z term && (n =? 0)) eqn:EZ; [|destruct HLs as [->|(HLs1 & HLs2)]; [|exfalso; clear - EZ HLs1 HLs2; lia]]; ws; (eapply (line_push B order e _ b1 (p + List.length gap) z); [reflexivity|exact L1|exact Hz|]);
        unfold restore_strterm; repeat ws; apply HT1; reflexivity. }
    destruct gap as [|x gap].
    - cbn [List.length] in *. rewrite Nat.add_0_r in *. 
      eapply (cur_nx B order e s1 p z); auto. intros b1 L1 P1. rewrite not_white_space by exact HzW. repeat ws. apply (HK b1 false); auto. destruct HLi as [HLi|[HLi|HLi]]; [left; exact HLi|congruence|right; exact HLi].
    - inversion HG as [|? ? (A1 & A2) HG']; subst. apply text_at_cons in HT. destruct HT as (Hx & HT). cbn [List.length] in *.
      eapply (cur_nx B order e s1 p x); auto. intros b1 L1 P1. rewrite white_space by exact A1. repeat ws.
      assert (HC2 : Cur B order (set_pcur (p + 1) b1) (p + 1)). { eapply line_after; eauto. intros ->. apply HO. left. reflexivity. }
      unfold loop. match goal with |- wp e (fun e1 s1 => loop_n (fuel e1) ?body ?x e1 s1) ?Q ?s => change (wp e (loop_n (fuel e) body x) Q s) end.
      replace (p + S (List.length gap)) with (p + 1 + List.length gap) in * by (clear; lia).
      eapply (gap_run gap _ (p + 1) z); eauto; [intros K; apply HO; right; exact K|clear - Hl Hfuel; lia|].
      intros b2 L2. repeat ws. apply (HK b2 true); auto.
  Qed.
End Content.
