(** * C18, C19: number literals *)
Require Import Verif.Base Verif.MaybeByteM Verif.InputM Verif.DiagnosticM Verif.TokensM Verif.BufferM Verif.LexStateM Verif.LexerM Verif.LexNumericM Verif.LexMainM Verif.ParserClientM
  Verif.SourceSpec Verif.SourceProofs Verif.Wp Verif.BufInv Verif.LexSpec Verif.MainInv Verif.RunInv Verif.Prop_Lexer
  Verif.ReadSpec Verif.YylexSpec Verif.Reach Verif.NumberSpec Verif.NumRead Verif.NumPrefix.
Require Import ZifyBool ZifyNat ZifyN.

Definition number_literal (w : list N) (k : Tok) : Prop := decimal_literal w k \/ prefixed_literal w k.

Lemma more_in : forall P w c, more P w -> In c w -> P c \/ c = 95%N.
Proof.
  intros P w c H. induction H as [|d w Hd Hw IH|d w Hd Hw IH]; cbn [In].
  - tauto.
  - intros [<-|H]; auto.
  - intros [<-|[<-|H]]; auto.
Qed.
Lemma run_in : forall P w c, digit_run P w -> In c w -> P c \/ c = 95%N.
Proof. intros P w c (d & r & -> & Hd & Hr) [<-|H]; auto. eapply more_in; eauto. Qed.
Lemma suffix_in : forall k w k' c, suffix_kind k w k' -> In c w -> (c = 114 \/ c = 105)%N.
Proof. intros k w k' c H HI. destruct H; [destruct HI|destruct HI as [<-|[]]; auto|destruct HI as [<-|[]]; auto|destruct HI as [<-|[<-|[]]]; auto]. Qed.

Definition number_byte (c : N) : Prop := name_byte c \/ (c = 46 \/ c = 43 \/ c = 45)%N.
Lemma number_bytes : forall w k c, number_literal w k -> In c w -> number_byte c.
Proof.
  assert (Hi : forall i c, int_part i -> In c i -> number_byte c).
  { intros i c [|d r Hd Hr] H.
    - change (bs "0") with [48%N] in H. destruct H as [<-|[]]. unfold number_byte, name_byte. lia.
    - destruct H as [<-|H]; [unfold number_byte, name_byte; lia|]. destruct (more_in _ _ _ Hr H) as [K|K]; unfold dec, number_byte, name_byte in *; lia. }
  assert (Hr : forall w c, digit_run hex w -> In c w -> number_byte c).
  { intros w c H1 H2. destruct (run_in _ _ _ H1 H2) as [K|K]; unfold hex, dec, number_byte, name_byte in *; lia. }
  assert (Hw : forall (P Q : N -> Prop) w, (forall c, P c -> Q c) -> more P w -> more Q w).
  { intros P Q w HPQ H. induction H; [apply more_nil|apply more_digit|apply more_score]; auto. }
  assert (Hdr : forall (P Q : N -> Prop) w, (forall c, P c -> Q c) -> digit_run P w -> digit_run Q w).
  { intros P Q w HPQ (d & r & H1 & H2 & H3). exists d, r. splits; auto. eapply Hw; eauto. }
  assert (Hd : forall w c, digit_run dec w -> In c w -> number_byte c).
  { intros w c H1 H2. apply (Hr w); auto. eapply Hdr; [|exact H1]. unfold hex. auto. }
  assert (Hany : forall (P : N -> Prop) w c, (forall c, P c -> hex c) -> digit_run P w -> In c w -> number_byte c).
  { intros P w c HP H1 H2. apply (Hr w); auto. eapply Hdr; eauto. }
  assert (Hs : forall k w k' c, suffix_kind k w k' -> In c w -> number_byte c).
  { intros k w k' c H1 H2. pose proof (suffix_in _ _ _ _ H1 H2). unfold number_byte, name_byte. lia. }
  intros w k c [H|H] HI.
  - destruct H as [i suf k H1 H2|i f suf k H1 H2 H3|i fr x suf k H1 H2 H3 H4].
    + apply in_app_or in HI. destruct HI; eauto.
    + change (bs "." ++ f ++ suf) with (46%N :: f ++ suf) in HI. apply in_app_or in HI. destruct HI as [HI|[HI|HI]]; [eauto|subst c; right; auto|].
      apply in_app_or in HI. destruct HI; eauto.
    + apply in_app_or in HI. destruct HI as [HI|HI]; eauto. apply in_app_or in HI. destruct HI as [HI|HI].
      * destruct H2 as [->|(f & -> & H2)]; [destruct HI|]. destruct HI as [<-|HI]; [unfold number_byte; lia|eauto].
      * apply in_app_or in HI. destruct HI as [HI|HI].
        -- destruct H3 as (m & sg & y & -> & H5 & H6 & H7). destruct HI as [<-|HI]; [unfold number_byte, name_byte; lia|].
           apply in_app_or in HI. destruct HI as [HI|HI]; eauto.
           destruct H6 as [->|[->| ->]]; [destruct HI| |]; destruct HI as [<-|[]]; right; auto.
        -- destruct H4; [destruct HI|]. change (bs "i") with [105%N] in HI. destruct HI as [<-|[]]. unfold number_byte, name_byte. lia.
  - destruct H as [m w suf k H1 H2 H3|m w suf k H1 H2 H3|m w suf k H1 H2 H3|m w suf k H1 H2 H3|w suf k H1 H2 H3].
    1-4: destruct HI as [<-|[<-|HI]]; [unfold number_byte, name_byte; lia|unfold number_byte, name_byte; lia|];
      apply in_app_or in HI; destruct HI as [HI|HI]; [|eauto]; refine (Hany _ w c _ H2 HI); unfold hex, dec, bin, oct; intros; lia.
    destruct HI as [<-|HI]; [unfold number_byte, name_byte; lia|]. apply in_app_or in HI. destruct HI as [HI|HI]; eauto.
    destruct (more_in _ _ _ H2 HI) as [K|K]; unfold oct, number_byte, name_byte in *; lia.
Qed.

Lemma number_first : forall w k, number_literal w k -> exists d r, w = d :: r /\ dec d /\ (d <> 48%N -> decimal_literal w k).
Proof.
  intros w k [H|H].
  - assert (Hi : forall i u, int_part i -> exists d r, i ++ u = d :: r /\ dec d).
    { intros i u [|d r Hd Hr]; [exists 48%N, u; split; auto; unfold dec; lia|exists d, (r ++ u); split; auto; unfold dec; lia]. }
    assert (G : exists d r, w = d :: r /\ dec d) by (destruct H; eauto).
    destruct G as (d & r & -> & G). eauto.
  - assert (G : exists r, w = 48%N :: r) by (destruct H; eauto). destruct G as (r & ->). exists 48%N, r.
    splits; auto; [unfold dec; lia|congruence].
Qed.

Lemma dec_not : forall d, dec d -> forall c, (c < 48 \/ 57 < c)%N -> mbeq (Some d) c = false.
Proof. intros d Hd c Hc. unfold dec in Hd. cbn. lia. Qed.

Theorem number_step : forall B n upper s p sp w k,
  LInv B s -> strterm s = None -> upcoming (buffer s) p -> text_at B p (sp ++ w) -> spacing (buffer s) sp -> number_literal w k ->
  number_ends B (p + List.length sp + List.length w) -> List.length B + 3 < n ->
  exists s', yylex (plain_env n upper) s =
      Ok (mkToken k w (mkLoc (p + List.length sp) (p + List.length sp + List.length w))) s' /\
    After B s s' (p + List.length sp + List.length w) EXPR_END.
Proof.
  intros B n upper s p sp w k HL ST HU HT HS HK HE Hn. pose proof HL as [L1 L2 L3 (L4 & L5)].
  set (e := plain_env n upper). set (q := p + List.length sp) in *.
  destruct (number_first w k HK) as (d & r & Hw & Hd & Hdec).
  assert (HT2 : text_at B q w) by (apply text_at_app in HT; apply HT).
  assert (HLen : q + List.length w <= List.length B) by (apply text_at_len; auto; rewrite Hw; discriminate).
  enough (HG : wp e yylex (fun t s' => t = mkToken k w (mkLoc q (q + List.length w)) /\ After B s s' (q + List.length w) EXPR_END) s).
  { unfold wp in HG. destruct (yylex e s) as [t s'|m|]; try contradiction. destruct HG as (-> & HG). exists s'. auto. }
  apply (yylex_start B e s p sp d r); auto.
  - rewrite <- Hw. exact HT.
  - unfold dec in Hd. lia.
  - unfold e. cbn [plain_env fuel]. unfold q in *. lia.
  - fold q. intros b HR HP1 HP2 HP3 HH HO.
    assert (HLC : lex_char (Some d) (command_start s) (nonempty sp) (token_seen s) (lex_state s) = as_tk (parse_numeric d)).
    { unfold lex_char. rewrite !(dec_not d Hd) by lia.
      replace (b_is_digit d) with true by (unfold b_is_digit, in_range, dec in *; lia).
      replace (N.eqb d 0 || N.eqb d 4 || N.eqb d 26) with false by (unfold dec in *; lia).
      replace (N.eqb d 13) with false by (unfold dec in *; lia).
      replace (N.eqb d 32 || N.eqb d 9 || N.eqb d 12 || N.eqb d 11) with false by (unfold dec in *; lia).
      replace (N.eqb d 10) with false by (unfold dec in *; lia). reflexivity. }
    rewrite HLC. unfold as_tk. ws.
    set (s1 := set_token_seen true (set_command_start false (set_lval None s))).
    pose proof HR as (W & N1 & N2). pose proof (w_pcur1 B b W) as WP. pose proof (w_pbeg B b W) as WB.
    assert (HB : ~ In 10%N w /\ ~ In 13%N w).
    { split; intros A; pose proof (number_bytes _ _ _ HK A) as C; unfold number_byte, name_byte in C; lia. }
    assert (HF : q + List.length w <= pend b) by (apply fits with (B := B); auto; [lia|apply HB]).
    assert (HI : InL B b (q + List.length w)).
    { apply (inl_text B b HR); auto; try lia; try apply HB. rewrite Hw. discriminate. }
    assert (HQ : forall b', Fin b (q + List.length w) b' ->
      (fun t s' => wp e (ret (Tk t)) (fun r0 s'0 => match r0 with
         | Retry _ => False
         | Tk t0 => wp e (yytail t0) (fun t1 s'1 => t1 = mkToken k w (mkLoc q (q + List.length w)) /\ After B s s'1 (q + List.length w) EXPR_END) s'0
         | Ident c => wp e (LexIdentM.parse_ident c (command_start s)) (fun t0 s'' => wp e (yytail t0) (fun t1 s'1 => t1 = mkToken k w (mkLoc q (q + List.length w)) /\ After B s s'1 (q + List.length w) EXPR_END) s'') s'0
         end) s') k (NumEnd s1 w b')).
    { intros b' HFin. ws. unfold yytail. ws. ws. ws. ws.
      change (lval_start (NumEnd s1 w b')) with (lval_start s). rewrite L4.
      change (lval_end (NumEnd s1 w b')) with (lval_end s). rewrite L5.
      change (lval (NumEnd s1 w b')) with (Some w). change (buffer (NumEnd s1 w b')) with b'. cbv iota.
      rewrite (fin_pcur _ _ _ HFin).
      assert (HPt : ptok b' = q) by (destruct HFin as [->|(_ & ->)]; exact HP2). rewrite HPt.
      assert (Hk : tok_eqb k tNL = false).
      { assert (In k [tINTEGER; tFLOAT; tRATIONAL; tIMAGINARY]).
        { clear -HK. destruct HK as [HK|HK]; destruct HK; repeat match goal with H : suffix_kind _ _ _ |- _ => destruct H | H : imaginary_kind _ _ _ |- _ => destruct H end; cbn; auto. }
        cbn in H. destruct H as [<-|[<-|[<-|[<-|[]]]]]; reflexivity. }
      rewrite Hk. ws. split; [reflexivity|].
      set (s' := set_lval None (set_lval_end None (set_lval_start None (NumEnd s1 w b')))).
      constructor; try reflexivity; auto.
      - exact (fin_pcur _ _ _ HFin).
      - intros HqB Hdot. change (buffer s') with b'. destruct HFin as [->|([HF1|HF1] & ->)].
        + unfold upcoming. cbn. split; auto. left. splits; auto. destruct HI as (_ & [I2|(I2 & I3)] & _); [exact I2|exfalso].
          destruct (line_last B _ I3) as (A & _). rewrite <- (w_pend B b W) in A. lia.
        + exfalso. destruct HI as (_ & [I2|(I2 & I3)] & _); [lia|].
          destruct (line_last B _ I3) as (A & _). rewrite <- (w_pend B b W) in A. lia.
        + exfalso. rewrite (byte_at_B B) in HF1 by exact W. contradiction.
      - intros A. change (in_order b'). destruct HFin as [->|(_ & ->)]; exact (HO A). }
    assert (Hfu : List.length w + 3 < fuel e) by (unfold e; cbn [plain_env fuel]; lia).
    destruct HK as [HK|HK].
    + apply (decimal_ok B e b s1 HR w k q d r); auto; lia.
    + destruct (N.eq_dec d 48) as [->|Hd0].
      * apply (prefixed_ok B e b s1 HR w k q); auto; lia.
      * apply (decimal_ok B e b s1 HR w k q d r); auto; lia.
Qed.

(** C18.  Whenever a parser asks for a token and a decimal literal comes next, after blanks or not, the token is the
    literal: its kind, its text as value, exactly its extent.  The next token is read from behind it, in state
    EXPR_END, and nothing is reported. *)
Theorem C18_decimal_literals : forall B n upper s p sp w k,
  reached B n upper s -> strterm s = None -> upcoming (buffer s) p -> text_at B p (sp ++ w) -> spacing (buffer s) sp ->
  decimal_literal w k -> number_ends B (p + List.length sp + List.length w) -> List.length B + 3 < n ->
  exists s', yylex (plain_env n upper) s =
      Ok (mkToken k w (mkLoc (p + List.length sp) (p + List.length sp + List.length w))) s' /\
    After B s s' (p + List.length sp + List.length w) EXPR_END.
Proof.
  intros B n upper s p sp w k HR ST HU HT HS HK HE Hn. apply number_step; auto.
  - eapply reached_inv; eauto.
  - left. exact HK.
Qed.
Print Assumptions C18_decimal_literals.

(** C19.  The same for literals with a prefix, in all four bases. *)
Theorem C19_prefixed_literals : forall B n upper s p sp w k,
  reached B n upper s -> strterm s = None -> upcoming (buffer s) p -> text_at B p (sp ++ w) -> spacing (buffer s) sp ->
  prefixed_literal w k -> number_ends B (p + List.length sp + List.length w) -> List.length B + 3 < n ->
  exists s', yylex (plain_env n upper) s =
      Ok (mkToken k w (mkLoc (p + List.length sp) (p + List.length sp + List.length w))) s' /\
    After B s s' (p + List.length sp + List.length w) EXPR_END.
Proof.
  intros B n upper s p sp w k HR ST HU HT HS HK HE Hn. apply number_step; auto.
  - eapply reached_inv; eauto.
  - right. exact HK.
Qed.
Print Assumptions C19_prefixed_literals.

(** ** Whole programs: a first line of number literals *)
Inductive number_line : nat -> list N -> list Token -> Prop :=
| nl_nil : forall p sp, Forall blank sp -> number_line p sp []
| nl_cons : forall p sp w k rest toks, Forall blank sp -> number_literal w k ->
    (rest = [] \/ exists c r, rest = c :: r /\ blank c) ->
    number_line (p + List.length sp + List.length w) rest toks ->
    number_line p (sp ++ w ++ rest) (mkToken k w (mkLoc (p + List.length sp) (p + List.length sp + List.length w)) :: toks).

Lemma number_kind : forall w k, number_literal w k -> k <> END_OF_INPUT.
Proof.
  intros w k [H|H]; destruct H; repeat match goal with H : suffix_kind _ _ _ |- _ => destruct H | H : imaginary_kind _ _ _ |- _ => destruct H end; discriminate.
Qed.

Lemma number_line_lexes : forall p text toks, number_line p text toks -> forall B n upper s,
  List.length B + 3 < n -> LInv B s -> strterm s = None -> text_at B p text ->
  (forall c, nth_error B (p + List.length text) = Some c -> c = 10%N) ->
  (text <> [] -> upcoming (buffer s) p) ->
  exists s', lexes (plain_env n upper) s toks s'.
Proof.
  intros p text toks H. induction H as [p sp HS|p sp w k rest toks HS HK Hr HN IH]; intros B n upper s Hn HL ST HT HE HU.
  - exists s. constructor.
  - rewrite app_assoc in HT. apply text_at_app in HT. destruct HT as (HT1 & HT2).
    rewrite !app_length in HE. rewrite app_length in HT2. rewrite Nat.add_assoc in HT2.
    replace (p + (List.length sp + (List.length w + List.length rest))) with (p + List.length sp + List.length w + List.length rest) in HE by lia.
    set (q := p + List.length sp + List.length w) in *.
    assert (Hfirst : forall c, nth_error B q = Some c -> (c = 10 \/ blank c)%N).
    { intros c Hc. destruct Hr as [->|(c' & r & -> & Hc')].
      - left. apply HE. cbn [List.length]. rewrite Nat.add_0_r. exact Hc.
      - apply text_at_cons in HT2. destruct HT2 as (A & _). right. congruence. }
    destruct (number_step B n upper s p sp w k) as (s1 & Y & [A1 A2 A3 A4 A5 A6 A7]); auto.
    { apply HU. destruct (number_first _ _ HK) as (d & r & -> & _). destruct sp; discriminate. }
    { intros c Hc. apply Hfirst in Hc. unfold blank in Hc. split; [unfold name_byte; lia|lia]. }
    fold q in Y, A1, A2.
    destruct (IH B n upper s1) as (s' & HX); auto.
    + eapply step_inv; [exact HL|exact Y|exact (number_kind _ _ HK)].
    + intros Hne. apply A2.
      * destruct rest as [|c r]; [congruence|]. pose proof (text_at_len _ _ _ HT2 ltac:(discriminate)). cbn [List.length] in *. lia.
      * intros E. apply Hfirst in E. unfold blank in E. lia.
    + exists s'. econstructor; [exact Y|exact (number_kind _ _ HK)|exact HX].
Qed.

Lemma number_line_len : forall p text toks, number_line p text toks -> List.length toks <= List.length text.
Proof.
  intros p text toks H. induction H as [|p sp w k rest toks HS HK Hr HN IH]; [cbn; lia|].
  rewrite !app_length. cbn [List.length]. destruct (number_first _ _ HK) as (d & r & -> & _). cbn [List.length]. lia.
Qed.

(** C18, C19.  A program whose first line consists of number literals is lexed into exactly these literals, in order,
    whatever the other lines are. *)
Theorem C18_number_lines : forall text toks tail name n upper,
  number_line 0 text toks -> (tail = [] \/ exists r, tail = 10%N :: r) -> enough (text ++ tail) <= n ->
  exists more s, run_lexer (text ++ tail) name (plain_env n upper) = Ok (toks ++ more) s.
Proof.
  intros text toks tail name n upper H Ht Hn. pose proof (number_line_len _ _ _ H) as HLen.
  destruct toks as [|t toks].
  { destruct (run_fixed (text ++ tail) name upper) as (ts & s & R & _). exists ts, s. apply R. exact Hn. }
  assert (HF : exists x r, text ++ tail = x :: r /\ x <> 13%N /\ x <> 239%N).
  { inversion H as [|p sp w k rest toks' HS HK Hr HN]; subst. destruct sp as [|c sp].
    - destruct (number_first _ _ HK) as (d & r & -> & Hd & _). unfold dec in Hd. cbn. exists d. eexists. split; [reflexivity|lia].
    - inversion HS as [|c' sp' Hc HS']; subst. unfold blank in Hc. cbn. exists c. eexists. split; [reflexivity|lia]. }
  destruct HF as (x & r & HF & H13 & H239).
  destruct (start_reading (text ++ tail) (plain_env n upper) name x r HF H239) as (b & E1 & E2 & E3 & _ & E5).
  destruct (number_line_lexes _ _ _ H (text ++ tail) n upper (lexer_init b)) as (s' & HX).
  - unfold enough in Hn. lia.
  - destruct E2. constructor; auto; exact I.
  - reflexivity.
  - unfold text_at. cbn [skipn]. rewrite firstn_app, Nat.sub_diag. cbn. rewrite app_nil_r. apply firstn_all.
  - intros c Hc. cbn [Nat.add] in Hc. rewrite nth_error_app2, Nat.sub_diag in Hc by lia.
    destruct Ht as [->|(u & ->)]; cbn in Hc; congruence.
  - intros _. exact E3.
  - eapply run_prefix; eauto. unfold enough in Hn. rewrite app_length in Hn. lia.
Qed.
Print Assumptions C18_number_lines.

Lemma digits_of : forall P w, w <> [] -> Forall P w -> digit_run P w.
Proof.
  intros P [|d r] Hw H; [congruence|]. inversion H; subst. exists d, r. splits; auto.
  clear - H3. induction H3; [apply more_nil|apply more_digit]; auto.
Qed.

(** ** Examples *)
(** [12_345.6e-7i 0x_] is not in the language, the following are *)
Example C18_literal : decimal_literal (bs "12_345.6e-7i") tIMAGINARY.
Proof.
  apply (dl_exp (bs "12_345") (bs ".6") (bs "e-7") (bs "i")).
  - apply (ip_run 49 (bs "2_345")); [lia|]. apply more_digit; [unfold dec; cbn; lia|]. apply more_score; [unfold dec; cbn; lia|].
    repeat (apply more_digit; [unfold dec; cbn; lia|]). apply more_nil.
  - right. exists (bs "6"). split; [reflexivity|]. apply digits_of; [discriminate|]. repeat constructor; unfold dec; cbn; lia.
  - exists 101%N, (bs "-"), (bs "7"). splits; auto. apply digits_of; [discriminate|]. repeat constructor; unfold dec; cbn; lia.
  - constructor.
Qed.
Example C19_literal : prefixed_literal (bs "0xDeadBeefr") tRATIONAL.
Proof.
  apply (pl_hex 120 (bs "DeadBeef") (bs "r")); [auto| |constructor].
  apply digits_of; [discriminate|]. repeat constructor; unfold hex, dec; cbn; lia.
Qed.

Example C18_example :
  let src := bs "12_345.6e-7i  0xDeadBeefr 017 0b1_0 7" ++ [10%N] ++ bs "x" in
  option_map (fun r => map (fun t => (token_type t, token_value t, loc_begin (token_loc t), loc_end (token_loc t))) (fst r)) (lexed src) =
  Some [(tIMAGINARY, bs "12_345.6e-7i", 0, 12); (tRATIONAL, bs "0xDeadBeefr", 14, 25); (tINTEGER, bs "017", 26, 29);
        (tINTEGER, bs "0b1_0", 30, 35); (tINTEGER, bs "7", 36, 37); (tNL, [10%N], 37, 38); (tIDENTIFIER, bs "x", 38, 39)].
Proof. vm_compute. reflexivity. Qed.

(** The hypotheses of C18 and C19 are met: the state after [x =] in a program, before [ 0x1f] *)
Example C19_hypotheses :
  let src := bs "x = 0x1f" in
  exists s, reached src 200 (fun _ => false) s /\ strterm s = None /\ upcoming (buffer s) 3 /\
    text_at src 3 (bs " " ++ bs "0x1f") /\ number_ends src 8 /\ prefixed_literal (bs "0x1f") tINTEGER.
Proof.
  set (src := bs "x = 0x1f"). cbn zeta.
  destruct (run_client src [] false [PNext; PNext] (plain_env 200 (fun _ => false))) as [ts c|m|] eqn:E;
    [|vm_compute in E; discriminate|vm_compute in E; discriminate].
  exists (c_lexer c). splits.
  - exists [], false, [PNext; PNext], ts, c. splits; auto. vm_compute in E. injection E as <- <-. reflexivity.
  - vm_compute in E. injection E as <- <-. reflexivity.
  - vm_compute in E. injection E as <- <-. unfold upcoming. cbn. split; auto. left. splits; auto. lia.
  - reflexivity.
  - intros c0 H. discriminate H.
  - apply (pl_hex 120 (bs "1f") []); [auto| |constructor]. apply digits_of; [discriminate|]. repeat constructor; unfold hex, dec; cbn; lia.
Qed.
