(** * C44: global, instance and class variables *)
Require Import Verif.Base Verif.MaybeByteM Verif.Utf8M Verif.InputM Verif.DiagnosticM Verif.TokensM Verif.ReservedM Verif.BufferM Verif.LexStateM
  Verif.StackStateM Verif.ScopesM Verif.LexerM Verif.LexIdentM Verif.LexMainM Verif.ParserClientM
  Verif.SourceSpec Verif.SourceProofs Verif.ScopeSpec Verif.ScopeProofs Verif.Wp Verif.BufInv Verif.LexSpec Verif.MainInv Verif.RunInv Verif.Prop_Lexer
  Verif.ReadSpec Verif.YylexSpec Verif.Reach Verif.NumberSpec Verif.NumRead Verif.Prop_Number Verif.IdentSpec Verif.IdentRead Verif.IdentStep Verif.Prop_Ident.
Require Import ZifyBool ZifyNat ZifyN.

Lemma set_ptok_same : forall b p, ptok b = p -> set_ptok p b = b.
Proof. intros b p <-. destruct b; reflexivity. Qed.

Lemma chars_first : forall w, chars w -> w <> [] -> exists u r, w = u ++ r /\ name_char u /\ chars r.
Proof. intros w [|u r H1 H2] H; [congruence|eauto]. Qed.

Section Var.
  Variables (B : list N) (e : Env) (b : Buffer) (s0 : Lexer).
  Hypothesis HR : Ready B b.
  Local Notation St := (NumRead.St b s0).
  Local Notation Sb := (NumRead.Sb s0).

  (** tokadd_ident, the first byte having been read *)
  Lemma tokadd_ident_ok : forall w c r p t (Q : bool -> Lexer -> Prop), chars w -> w = c :: r ->
    text_at B p w -> pbeg b <= p -> p + List.length w <= pend b -> InL B b (p + List.length w) -> name_ends B (p + List.length w) ->
    List.length w < fuel e ->
    (forall b', Fin b (p + List.length w) b' -> Q false (Sb (t ++ w) b')) ->
    wp e (tokadd_ident (Some c)) Q (St t (p + 1)).
  Proof using HR.
    intros w c r p t Q Hw E Ht Hb Hl HI HE Hf HQ. unfold tokadd_ident. ws. apply wp_loop_fuel. fold id_body.
    destruct (chars_first w Hw) as (u & r' & Ew & Hu & Hr); [rewrite E; discriminate|].
    destruct (char_ne u Hu) as (c' & ru & Eu). assert (c' = c) by (rewrite Ew, Eu in E; injection E; auto). subst c'.
    rewrite Ew in *. apply (name_loop B e b s0 HR r' Hr u c ru p t (fuel e)); auto.
    { rewrite Eu in Hf. cbn [app List.length] in Hf. rewrite app_length in Hf. lia. }
    intros c1 b1 (C1 & C2 & C3 & C4 & C5). ws. apply st_push; auto. ws. apply HQ. exact C2.
  Qed.

  (** is_identchar on a byte just read *)
  Lemma identchar_read : forall t p c (Q : bool -> Lexer -> Prop), nth_error B p = Some c -> 
    (nb c -> Q true (St t (p + 1))) -> (~ nb c -> Q false (St t (p + 1))) -> wp e is_identchar Q (St t (p + 1)).
  Proof using HR.
    intros t p c Q Hc H1 H2. unfold is_identchar. ws. ws. change (buffer (St t (p + 1))) with (set_pcur (p + 1) b).
    cbn [eofp set_pcur pcur]. replace (eofp b) with false by (symmetry; apply HR). ws. apply wp_sub_ck; [lia|]. ws.
    replace (p + 1 - 1) with p by lia. change (b_is_identchar (set_pcur (p + 1) b) p) with (b_is_identchar b p).
    pose proof (identchar_nb B b p c HR Hc) as I. destruct (b_is_identchar b p).
    - apply H1. apply I. reflexivity.
    - apply H2. intros A. apply I in A. discriminate.
  Qed.

  (** The digits of [$12] *)
  Lemma nth_loop : forall r d p t n (Q : MaybeByte -> Lexer -> Prop), Forall digit r -> digit d ->
    text_at B p (d :: r) -> pbeg b <= p -> p + S (List.length r) <= pend b -> InL B b (p + S (List.length r)) ->
    (forall c, nth_error B (p + S (List.length r)) = Some c -> ~ digit c) -> List.length r < n ->
    (forall c b', NameEnd B b (p + S (List.length r)) c b' -> Q c (Sb (t ++ d :: r) b')) ->
    wp e (loop_n n (fun c =>
           tokadd_mb c ;;;
           c <- nextc ;;
           if is_eof c || negb (is_digit c) then ret (inr c) else ret (inl c)) (Some d)) Q (St t (p + 1)).
  Proof using HR.
    induction r as [|d' r IH]; intros d p t n Q Hr Hd Ht Hb Hl HI HE Hn HQ; (destruct n as [|n]; [lia|]); cbn [loop_n]; ws; ws; ws; ws.
    - cbn [List.length] in *. apply (wp_nx_last B e b HR _ (p + 1)); [exact HI|reflexivity|]. intros c b' HN HN'.
      assert (Hc : is_eof c || negb (is_digit c) = true).
      { destruct c as [x|]; [|reflexivity]. cbn. destruct HN as ([C|[C|(C & _)]] & _).
        - discriminate.
        - symmetry in C. apply HE in C. unfold digit in C. unfold b_is_digit, in_range. lia.
        - injection C as ->. reflexivity. }
      rewrite Hc. ws. ws. exact (HQ c b' HN).
    - apply text_at_cons in Ht. destruct Ht as (Ht1 & Ht). cbn [List.length] in *. inversion Hr as [|? ? Hd' Hr']; subst.
      assert (Hx : nth_error B (p + 1) = Some d') by (apply text_at_cons in Ht; apply Ht). unfold digit in Hd'.
      apply (st_nx B e b s0 HR (t ++ [d]) (p + 1) d'); auto; try lia.
      replace (is_eof (Some d') || negb (is_digit (Some d'))) with false by (cbn; unfold b_is_digit, in_range; lia). ws.
      replace (p + S (S (List.length r))) with (p + 1 + S (List.length r)) in * by lia.
      apply (IH d' (p + 1) (t ++ [d]) n Q); auto; try lia.
      intros c b' HN. rewrite <- app_assoc. apply HQ. exact HN.
  Qed.
End Var.

(** is_identchar on the byte behind a name *)
Lemma identchar_last : forall B e b q c b' s (Q : bool -> Lexer -> Prop), Ready B b -> NameEnd B b q c b' -> name_ends B q ->
  match c with None => eofp b' = true | Some x => eofp b' = false /\ nth_error B (pcur b' - 1) = Some x end -> buffer s = b' ->
  Q false s -> wp e is_identchar Q s.
Proof.
  intros B e b q c b1 s Q HR (C1 & C2 & C3 & C4 & C0) HE C5 Eb HQ. unfold is_identchar. ws. ws. rewrite Eb. destruct c as [x|].
  - destruct C5 as (C5 & C6). rewrite C5. ws. apply wp_sub_ck; [apply C3; discriminate|]. ws.
    assert (HNX : ~ nb x).
    { destruct C1 as [C1|[C1|(C1 & C1')]]; [discriminate| |].
      - symmetry in C1. apply HE in C1. unfold nb. intros A. destruct C1 as (A1 & A2 & A3). destruct A as [A|[A|A]]; auto. lia.
      - injection C1 as ->. unfold nb, letter, digit. lia. }
    assert (HII : b_is_identchar b1 (pcur b1 - 1) = false).
    { unfold b_is_identchar. assert (input b1 = input b).
      { destruct C2 as [C2|(_ & C2)]; apply (f_equal input) in C2; unfold back in C2; destruct b1; cbn in *; destruct (_ && _ && _) in C2; cbn in C2; congruence. }
      rewrite H, (rd_at B b HR), C6. unfold nb, letter, digit in HNX. unfold b_is_alnum, b_is_digit, b_is_alpha, b_is_upper, b_is_lower, b_is_ascii, in_range. lia. }
    rewrite HII. exact HQ.
  - rewrite C5. ws. exact HQ.
Qed.

(** What is left behind when the bytes up to [q] make a variable *)
Record VarPost (b : Buffer) (s1 : Lexer) (w : list N) (q : nat) (k : Tok) (st : LexState) (t : Tok) (s' : Lexer) : Prop := mkVarPost {
  vp_tok : t = k; vp_fin : Fin b q (buffer s'); vp_state : lex_state s' = st; vp_term : strterm s' = strterm s1;
  vp_diags : diagnostics s' = diagnostics s1; vp_comments : comments s' = comments s1;
  vp_lval : lval s' = Some w \/ lval s' = None; vp_start : lval_start s' = lval_start s1; vp_end : lval_end s' = lval_end s1 }.

Lemma one_name : forall u, one_char u -> name_char u.
Proof. intros u [c H|u' H]; [apply nch_ascii|apply nch_wide]; auto. Qed.
Lemma name_chars : forall w, name w -> chars w.
Proof. intros w H. destruct (name_split w H) as (u & r & -> & Hu & Hr & _). apply ch_cons; auto. Qed.

Lemma marks : forall c, In c global_marks -> existsb (N.eqb c) gvar_special = true /\ c <> 95%N /\ c <> 13%N.
Proof.
  intros c H. assert (K : forallb (fun c => existsb (N.eqb c) gvar_special && negb (N.eqb c 95) && negb (N.eqb c 13)) global_marks = true) by (vm_compute; reflexivity).
  rewrite forallb_forall in K. specialize (K c H). apply andb_prop in K. destruct K as (K & K2). apply andb_prop in K. destruct K as (K & K1). splits; auto; clear - K1 K2; lia.
Qed.
Lemma marks2 : forall c, In c match_marks -> existsb (N.eqb c) gvar_special = false /\ existsb (N.eqb c) gvar_backref = true /\ c <> 95%N /\ c <> 45%N /\ c <> 13%N.
Proof.
  intros c H. cbn in H. repeat (destruct H as [<-|H]; [vm_compute; splits; try reflexivity; discriminate|]). contradiction.
Qed.
Lemma not_marks : forall c, nb c -> existsb (N.eqb c) gvar_special = false /\ existsb (N.eqb c) gvar_backref = false /\ c <> 45%N /\ c <> 13%N.
Proof.
  intros c H. unfold nb, letter, digit in H. splits; try lia.
  - destruct (existsb _ _) eqn:E; auto. apply existsb_exists in E. destruct E as (x & HI & E). vm_compute in HI. exfalso. apply N.eqb_eq in E. subst x.
    repeat (destruct HI as [HI|HI]; [subst c; clear - H; lia|]). contradiction.
  - destruct (existsb _ _) eqn:E; auto. apply existsb_exists in E. destruct E as (x & HI & E). vm_compute in HI. exfalso. apply N.eqb_eq in E. subst x.
    repeat (destruct HI as [HI|HI]; [subst c; clear - H; lia|]). contradiction.
Qed.

Section Vars.
  Variables (B : list N) (e : Env) (b : Buffer) (s1 : Lexer) (q : nat).
  Hypothesis HR : Ready B b.
  Hypothesis Hq : ptok b = q.
  Hypothesis Hb : pbeg b <= q.
  Hypothesis HN : lval s1 = None.

  Lemma gvar_ident_ok : forall s0 w t c r p u, chars w -> w = c :: r -> u = t ++ w ->
    text_at B p w -> pbeg b <= p -> p + List.length w <= pend b -> InL B b (p + List.length w) -> name_ends B (p + List.length w) ->
    List.length w < fuel e -> strterm s0 = strterm s1 -> diagnostics s0 = diagnostics s1 -> comments s0 = comments s1 ->
    lval_start s0 = lval_start s1 -> lval_end s0 = lval_end s1 ->
    wp e (gvar_ident (Some c)) (VarPost b s1 u (p + List.length w) tGVAR EXPR_END) (NumRead.St b s0 t (p + 1)).
  Proof using HR.
    intros s0 w t c r p u Hw E -> Ht Hbp Hl HI HE Hf E1 E2 E3 E4 E5. unfold gvar_ident. ws.
    eapply (tokadd_ident_ok B e b s0 HR w c r p t); eauto. intros b' HF. ws. ws. unfold tokenize_ident. ws. ws. ws. ws. ws. ws.
    constructor; auto.
  Qed.

  Lemma gvar_ok : forall w k st, global_var B (q + List.length w) (ls_is_some st EXPR_FNAME) w k -> text_at B q w ->
    q + List.length w <= pend b -> InL B b (q + List.length w) -> List.length w < fuel e ->
    wp e (parse_gvar st) (VarPost b s1 w (q + List.length w) k EXPR_END) (set_buffer (set_pcur (q + 1) b) s1).
  Proof using HR Hq Hb HN.
    intros w k st HV HT HF HI Hf. unfold parse_gvar. ws. ws. ws. ws. ws. cbn [buffer set_buffer pcur set_pcur]. apply wp_sub_ck; [lia|].
    ws. ws. ws. ws. replace (q + 1 - 1) with q by lia.
    set (s0 := set_lex_state EXPR_END s1).
    match goal with |- wp _ _ _ ?s => replace s with (NumRead.St b s0 [] (q + 1)) end.
    2: { unfold NumRead.St, s0. cbn. replace (set_ptok q (set_pcur (q + 1) b)) with (set_pcur (q + 1) b); [reflexivity|]. symmetry. apply set_ptok_same. exact Hq. }
    ws.
    assert (HD : forall c r, w = 36%N :: c :: r -> nth_error B (q + 1) = Some c /\ q + 1 < pend b /\ text_at B (q + 1) (c :: r)).
    { intros c r ->. apply text_at_cons in HT. destruct HT as (_ & HT). pose proof HT as HT'. apply text_at_cons in HT'. cbn [List.length] in HF. splits; auto; [apply HT'|lia]. }
    assert (HNB : forall c r, w = 36%N :: c :: r -> nb c -> chars (c :: r) -> name_ends B (q + List.length w) -> ~ (49 <= c <= 57)%N ->
      k = tGVAR -> wp e (if mbeq (Some c) "_" then
    c <- nextc ;;
    i <- is_identchar ;;
    if i : bool then
      tokadd "$" ;;; tokadd "_" ;;;
      gvar_ident c
    else
      pushback c ;;;
      tokadd "$" ;;; tokadd "_" ;;;
      ret tGVAR
  else if mb_test (fun x => existsb (N.eqb x) gvar_special) (Some c) then
    tokadd "$" ;;; tokadd_mb (Some c) ;;; ret tGVAR
  else if mbeq (Some c) "-" then
    tokadd "$" ;;; tokadd_mb (Some c) ;;;
    c <- nextc ;;
    i <- is_identchar ;;
    if i : bool then
      ok <- tokadd_mbchar c ;;
      if negb ok then ret END_OF_INPUT else ret tGVAR
    else
      pushback c ;;;
      pushback (Some "-"%bn) ;;;
      ret tCHAR
  else if mb_test (fun x => existsb (N.eqb x) gvar_backref) (Some c) then
    if ls_is_some st EXPR_FNAME then
      tokadd "$" ;;; tokadd_mb (Some c) ;;; ret tGVAR
    else ret tBACK_REF
  else if mb_ge (Some c) "1" && mb_le (Some c) "9" then
    tokadd "$" ;;;
    c <- loop (fun c =>
           tokadd_mb c ;;;
           c <- nextc ;;
           if is_eof c || negb (is_digit c) then ret (inr c) else ret (inl c)) (Some c) ;;
    pushback c ;;;
    if ls_is_some st EXPR_FNAME then ret tGVAR else ret tNTH_REF
  else
    i <- is_identchar ;;
    if negb i then
      (if N.eqb c 32 then compile_error0 GvarWithoutId else compile_error0 (InvalidGvarName c)) ;;;
      ret tGVAR
    else
      tokadd "$" ;;;
      gvar_ident (Some c)) (VarPost b s1 w (q + List.length w) k EXPR_END) (NumRead.St b s0 [] (q + 1 + 1))).
    { intros c r Ew Hc Hcs Hne H19 ->. destruct (HD c r Ew) as (D1 & D2 & D3). destruct (not_marks c Hc) as (M1 & M2 & M3 & M4).
      assert (EL : q + List.length w = q + 1 + List.length (c :: r)) by (rewrite Ew; cbn [List.length]; lia).
      destruct (mbeq (Some c) "_") eqn:EU.
      - apply -> mbeq_iff in EU. injection EU as ->. ws.
        inversion Hcs as [|u r' H1 H2 E]. assert (u = ["_"%bn] /\ r' = r).
        { destruct H1 as [x Hx|u Hu]; [injection E as -> ->; auto|]. exfalso. destruct Hu; cbn in E; injection E; intros; change ("_"%bn) with 95%N in *; lia. }
        destruct H as (-> & ->). destruct r as [|c' r].
        + cbn [List.length] in *. apply (wp_nx_last B e b HR _ (q + 1 + 1)); [rewrite <- EL; exact HI|reflexivity|]. intros c b' HNE HNE'. ws.
          eapply (identchar_last B e b (q + 1 + 1)); eauto; [rewrite <- EL; exact Hne|].
          destruct HNE as (C1 & C2 & C3 & C4 & C5). ws. apply (st_push e s0 [] c b'); auto. ws. ws. ws. ws. ws.
          constructor; auto. rewrite EL. exact C2.
        + assert (D4 : nth_error B (q + 1 + 1) = Some c'). { apply text_at_cons in D3. destruct D3 as (_ & D3). apply text_at_cons in D3. apply D3. }
          assert (Hnb : nb c') by (apply (chars_bytes (c' :: r)); [exact H2|left; reflexivity]).
          rewrite EL in HF. cbn [List.length] in *. pose proof (nb_range c' Hnb).
          apply (st_nx B e b s0 HR [] (q + 1 + 1) c'); auto; try lia. ws.
          apply (identchar_read B e b s0 HR [] (q + 1 + 1) c'); auto; [|intros A; contradiction]. intros _. ws. ws. ws. ws.
          rewrite EL. replace (q + 1 + S (S (List.length r))) with (q + 1 + 1 + List.length (c' :: r)) in * by (cbn [List.length]; lia).
          rewrite EL in *. apply (gvar_ident_ok s0 (c' :: r) [36%N; 95%N] c' r (q + 1 + 1)); auto; try lia.
          apply text_at_cons in D3. apply D3.
      - unfold mb_test. rewrite M1, M2.
        replace (mbeq (Some c) "-") with false by (symmetry; cbn; change ("-"%bn) with 45%N; lia).
        replace (mb_ge (Some c) "1" && mb_le (Some c) "9") with false by (symmetry; cbn; change ("1"%bn) with 49%N; change ("9"%bn) with 57%N; lia).
        cbv iota. ws. apply (identchar_read B e b s0 HR [] (q + 1) c); auto; [|intros A; contradiction]. intros _. cbn [negb]. ws. ws.
        rewrite EL in *. apply (gvar_ident_ok s0 (c :: r) [36%N] c r (q + 1)); auto; try lia. }
    set (Q := VarPost b s1 w (q + List.length w) k EXPR_END) in |- *.
    inversion HV as [w' H1 H2 E1 E2|w' H1 H2 E1 E2|c H1 E1 E2|u H1 E1 E2|c H1 E1 E2|d r H1 H2 H3 E1 E2].
    - destruct (name_first w' H1) as (c & r & Ew & Hc). subst w'. destruct (HD c r (eq_sym E1)) as (D1 & D2 & D3).
      assert (nb c) by (unfold nb, letter in *; lia). pose proof (nb_range c H).
      apply (st_nx B e b s0 HR [] (q + 1) c); auto; try lia. apply (HNB c r); auto; try (rewrite <- E1; exact H2); [apply name_chars; auto|unfold letter in Hc; lia].
    - destruct (HD 48%N w' (eq_sym E1)) as (D1 & D2 & D3).
      apply (st_nx B e b s0 HR [] (q + 1) 48%N); auto; try lia. apply (HNB 48%N w'); auto; try (rewrite <- E1; exact H2).
      + unfold nb, digit. lia.
      + apply (ch_cons [48%N] w'); [apply nch_ascii; unfold digit; lia|apply tail_chars; auto].
      + lia.
    - destruct (HD c [] (eq_sym E1)) as (D1 & D2 & D3). destruct (marks c H1) as (M1 & M2 & M3).
      apply (st_nx B e b s0 HR [] (q + 1) c); auto.
      replace (mbeq (Some c) "_") with false by (symmetry; cbn; change ("_"%bn) with 95%N; clear - M2; lia). unfold mb_test. rewrite M1. ws. ws. ws. ws. ws.
      unfold Q. rewrite <- E1, <- E2. constructor; auto. left. change (buffer _) with (set_pcur (q + 1 + 1) b). cbn [List.length]. f_equal. lia.
    - destruct (char_ne u (one_name u H1)) as (c & r & Eu). destruct (HD 45%N u (eq_sym E1)) as (D1 & D2 & D3).
      apply (st_nx B e b s0 HR [] (q + 1) 45%N); auto; try lia.
      change (mbeq (Some 45%N) "_") with false. change (mb_test _ (Some 45%N)) with false. change (mbeq (Some 45%N) "-") with true. cbv iota.
      ws. ws. ws. ws. ws.
      assert (D4 : nth_error B (q + 1 + 1) = Some c). { apply text_at_cons in D3. destruct D3 as (_ & D3). rewrite Eu in D3. apply text_at_cons in D3. apply D3. }
      assert (Hnb : nb c) by (apply (char_bytes u); [apply one_name; exact H1|rewrite Eu; left; reflexivity]).
      assert (EL : q + List.length w = q + 1 + 1 + S (List.length r)) by (rewrite <- E1, Eu; cbn [List.length]; lia).
      pose proof (nb_range c Hnb). rewrite EL in HF. cbn [app].
      apply (st_nx B e b s0 HR [36%N; 45%N] (q + 1 + 1) c); auto; try lia. ws.
      apply (identchar_read B e b s0 HR [36%N; 45%N] (q + 1 + 1) c); auto; [|intros A; contradiction]. intros _. ws.
      apply (mbchar_ok B e b s0 HR c r (q + 1 + 1)); auto.
      + rewrite <- Eu. apply one_name. exact H1.
      + rewrite <- Eu. apply text_at_cons in D3. apply D3.
      + cbn [negb]. ws. unfold Q. rewrite EL, <- E1, <- E2, Eu. constructor; auto. left. reflexivity.
    - destruct (HD c [] (eq_sym E1)) as (D1 & D2 & D3). destruct (marks2 c H1) as (M1 & M2 & M3 & M4 & M5).
      apply (st_nx B e b s0 HR [] (q + 1) c); auto.
      replace (mbeq (Some c) "_") with false by (symmetry; cbn; change ("_"%bn) with 95%N; clear - M3; lia).
      replace (mbeq (Some c) "-") with false by (symmetry; cbn; change ("-"%bn) with 45%N; clear - M4; lia).
      unfold mb_test. rewrite M1, M2. cbv iota. unfold Q. rewrite <- E1, <- E2. cbn [List.length]. destruct (ls_is_some st EXPR_FNAME).
      + ws. ws. ws. ws. ws. constructor; auto. left. change (buffer _) with (set_pcur (q + 1 + 1) b). f_equal. lia.
      + ws. constructor; auto. left. change (buffer _) with (set_pcur (q + 1 + 1) b). f_equal. lia.
    - destruct (HD d r (eq_sym E1)) as (D1 & D2 & D3).
      assert (Hnb : nb d) by (unfold nb, digit; lia). destruct (not_marks d Hnb) as (M1 & M2 & M3 & M4).
      apply (st_nx B e b s0 HR [] (q + 1) d); auto; try lia.
      replace (mbeq (Some d) "_") with false by (symmetry; cbn; change ("_"%bn) with 95%N; lia).
      replace (mbeq (Some d) "-") with false by (symmetry; cbn; change ("-"%bn) with 45%N; lia).
      unfold mb_test. rewrite M1, M2.
      replace (mb_ge (Some d) "1" && mb_le (Some d) "9") with true by (symmetry; cbn; change ("1"%bn) with 49%N; change ("9"%bn) with 57%N; lia). cbv iota.
      assert (EL : q + List.length w = q + 1 + S (List.length r)) by (rewrite <- E1; cbn [List.length]; lia).
      unfold Q. rewrite <- E2. rewrite EL in *. ws. ws. ws. apply wp_loop_fuel. cbn [app].
      apply (nth_loop B e b s0 HR r d (q + 1) [36%N]); auto; try lia.
      + unfold digit. lia.
      + intros x Hx. apply H3. cbn [List.length]. rewrite <- Hx. f_equal. lia.
      + intros c b' (C1 & C2 & C3 & C4 & C5). ws. apply (st_push e s0 _ c b'); auto. destruct (ls_is_some st EXPR_FNAME); rewrite <- E1; ws; constructor; auto.
  Qed.

  Lemma atmark_ok : forall w k st, object_var w k -> name_ends B (q + List.length w) -> text_at B q w ->
    q + List.length w <= pend b -> InL B b (q + List.length w) -> List.length w < fuel e ->
    wp e (parse_atmark st) (VarPost b s1 w (q + List.length w) k (if ls_is_some st EXPR_FNAME then EXPR_ENDFN else EXPR_END))
      (set_buffer (set_pcur (q + 1) b) s1).
  Proof using HR Hq Hb HN.
    intros w k st HV HE HT HF HI Hf.
    assert (HD : forall c r, w = 64%N :: c :: r -> nth_error B (q + 1) = Some c /\ q + 1 < pend b /\ text_at B (q + 1) (c :: r)).
    { intros c r ->. apply text_at_cons in HT. destruct HT as (_ & HT). pose proof HT as HT'. apply text_at_cons in HT'. cbn [List.length] in HF. splits; auto; [apply HT'|lia]. }
    assert (HX : forall c, set_buffer (set_ptok q (set_pcur c b)) s1 = set_buffer (set_pcur c b) s1).
    { intros c. f_equal. apply set_ptok_same. exact Hq. }
    unfold parse_atmark. ws. ws. ws.
    assert (HG : exists v, name v /\ ((w = 64%N :: v /\ k = tIVAR) \/ (w = 64%N :: 64%N :: v /\ k = tCVAR))).
    { destruct HV as [v H|v H]; exists v; auto. }
    destruct HG as (v & Hv & HG). destruct (name_first v Hv) as (c & r & Ev & Hc).
    assert (Hnb : nb c) by (unfold nb, letter in *; lia). pose proof (nb_range c Hnb) as Hrg.
    assert (Hdig : b_is_digit c = false) by (unfold b_is_digit, in_range, letter in *; lia).
    assert (HEnd : forall t p s0, s0 = set_lex_state (if ls_is_some st EXPR_FNAME then EXPR_ENDFN else EXPR_END) s1 ->
      w = t ++ v -> q + List.length w = p + List.length v -> text_at B p v -> pbeg b <= p -> nth_error B p = Some c ->
      wp e (i <- (if is_eof (Some c) then ret false else is_identchar) ;;
        if negb i then
          pushback (Some c) ;;;
          compile_error0 (if tok_eqb k tIVAR then IvarWithoutId else CvarWithoutId) ;;;
          lex_state_set EXPR_END ;;;
          ret k
        else if is_digit (Some c) then
          ch <- expect (Some c) "c is a digit" ;;
          compile_error0 (if tok_eqb k tIVAR then InvalidIvarName ch else InvalidCvarName ch) ;;;
          lex_state_set EXPR_END ;;;
          ret k
        else
          t <- tokadd_ident (Some c) ;;
          if t : bool then ret END_OF_INPUT
          else tokenize_ident ;;; ret k)
       (VarPost b s1 w (q + List.length w) k (if ls_is_some st EXPR_FNAME then EXPR_ENDFN else EXPR_END)) (NumRead.St b s0 t (p + 1))).
    { intros t p s0 -> Ew EL Hp Hbp Hcp. cbn [is_eof]. cbv iota. ws.
      apply (identchar_read B e b _ HR t p c); auto; [|intros A; contradiction]. intros _. cbn [negb]. replace (is_digit (Some c)) with false by (symmetry; exact Hdig). cbv iota. ws.
      rewrite EL in *. eapply (tokadd_ident_ok B e b _ HR v c r p t); auto; [apply name_chars; auto|rewrite Ew, app_length in Hf; lia|].
      intros b' HFi. ws. unfold tokenize_ident. ws. ws. ws. ws. ws. ws. constructor; auto. left. rewrite Ew. reflexivity. }
    destruct HG as [(Ew & ->)|(Ew & ->)].
    - rewrite Ev in Ew. destruct (HD c r Ew) as (D1 & D2 & D3).
      eapply (wp_nx B e b HR _ (q + 1) c); try reflexivity; auto; try lia. ws. cbn [buffer set_buffer pcur set_pcur]. apply wp_sub_ck; [lia|]. replace (q + 1 - 1) with q by lia.
      ws. ws. ws. ws. ws. ws. ws.
      replace (mbeq (Some c) "@") with false by (symmetry; cbn; unfold letter in Hc; change ("@"%bn) with 64%N; lia). ws. ws. ws.
      match goal with |- wp _ _ _ ?s => replace s with (NumRead.St b (set_lex_state (if ls_is_some st EXPR_FNAME then EXPR_ENDFN else EXPR_END) s1) [64%N] (q + 1 + 1)) end.
      2: { unfold NumRead.St. cbn. rewrite set_ptok_same; [reflexivity|exact Hq]. }
      apply HEnd; auto; try lia; rewrite ?Ev; auto. rewrite Ew. cbn [List.length]. lia.
    - rewrite Ev in Ew. destruct (HD _ _ Ew) as (D1 & D2 & D3). apply text_at_cons in D3. destruct D3 as (D3 & D4).
      assert (D5 : nth_error B (q + 1 + 1) = Some c) by (apply text_at_cons in D4; apply D4).
      eapply (wp_nx B e b HR _ (q + 1) 64%N); try reflexivity; auto; try lia. ws. cbn [buffer set_buffer pcur set_pcur]. apply wp_sub_ck; [lia|]. replace (q + 1 - 1) with q by lia.
      ws. ws. ws. ws. ws. ws. ws. change (mbeq (Some 64%N) "@") with true. cbv iota. ws. ws. ws.
      match goal with |- wp _ _ _ ?s => replace s with (NumRead.St b s1 [64%N; 64%N] (q + 1 + 1)) end.
      2: { unfold NumRead.St. cbn. rewrite set_ptok_same; [reflexivity|exact Hq]. }
      assert (EL : q + List.length w = q + 1 + 1 + List.length v) by (rewrite Ew, Ev; cbn [List.length]; lia).
      apply (st_nx B e b s1 HR [64%N; 64%N] (q + 1 + 1) c); auto; try lia.
      { rewrite EL, Ev in HF. cbn [List.length] in HF. lia. }
      ws. ws. ws.
      change (set_lex_state _ (NumRead.St b s1 [64%N; 64%N] (q + 1 + 1 + 1))) with (NumRead.St b (set_lex_state (if ls_is_some st EXPR_FNAME then EXPR_ENDFN else EXPR_END) s1) [64%N; 64%N] (q + 1 + 1 + 1)).
      apply HEnd; auto; try lia; rewrite ?Ev; auto.
  Qed.
End Vars.

Lemma gv_no : forall B z f w k, global_var B z f w k -> ~ In 10%N w /\ ~ In 13%N w /\ exists c r, w = 36%N :: c :: r.
Proof.
  assert (K : forall w, chars w -> ~ In 10%N w /\ ~ In 13%N w).
  { intros w H. split; intros A; apply (chars_bytes w) in A; auto; apply nb_range in A; lia. }
  intros B z f w k [v H _|v H _|c H|u H|c H|d r H1 H2 _].
  - destruct (K v (name_chars v H)) as (K1 & K2). destruct (name_first v H) as (c & r & -> & _). splits; eauto; cbn in *; intuition discriminate.
  - destruct (K v (tail_chars v H)) as (K1 & K2). splits; eauto; cbn in *; intuition discriminate.
  - splits; eauto; intros [A|[A|[]]]; try discriminate; subst c; cbn in H; intuition discriminate.
  - apply one_name in H. assert (chars u) by (rewrite <- (app_nil_r u); apply ch_cons; auto; constructor). destruct (K u H0) as (K1 & K2). splits; eauto; cbn in *; intuition discriminate.
  - splits; eauto; intros [A|[A|[]]]; try discriminate; subst c; cbn in H; intuition discriminate.
  - assert (K' : forall x, In x r -> digit x) by (apply Forall_forall; auto).
    splits; eauto; intros [A|[A|A]]; try discriminate; try lia; apply K' in A; unfold digit in A; lia.
Qed.
Lemma ov_no : forall w k, object_var w k -> ~ In 10%N w /\ ~ In 13%N w /\ (exists r, w = 64%N :: r) /\ tok_eqb k tNL = false.
Proof.
  assert (K : forall w, chars w -> ~ In 10%N w /\ ~ In 13%N w).
  { intros w H. split; intros A; apply (chars_bytes w) in A; auto; apply nb_range in A; lia. }
  intros w k [v H|v H]; destruct (K v (name_chars v H)) as (K1 & K2); splits; eauto; cbn in *; intuition discriminate.
Qed.

(** From the parse function of a sigil to the token *)
Lemma var_step : forall B n upper s p sp x r k st m,
  LInv B s -> strterm s = None -> upcoming (buffer s) p -> text_at B p (sp ++ x :: r) -> spacing (buffer s) sp ->
  ~ In 10%N (x :: r) -> ~ In 13%N (x :: r) -> tok_eqb k tNL = false -> List.length B < n ->
  (forall cmd spc seen, lex_char (Some x) cmd spc seen (lex_state s) = as_tk m) ->
  (forall b s1, Ready B b -> ptok b = p + List.length sp -> pbeg b <= p + List.length sp -> lval s1 = None -> text_at B (p + List.length sp) (x :: r) ->
     p + List.length sp + List.length (x :: r) <= pend b -> InL B b (p + List.length sp + List.length (x :: r)) ->
     List.length (x :: r) < fuel (plain_env n upper) ->
     wp (plain_env n upper) m (VarPost b s1 (x :: r) (p + List.length sp + List.length (x :: r)) k st) (set_buffer (set_pcur (p + List.length sp + 1) b) s1)) ->
  exists s', yylex (plain_env n upper) s = Ok (mkToken k (x :: r) (mkLoc (p + List.length sp) (p + List.length sp + List.length (x :: r)))) s' /\
    After B s s' (p + List.length sp + List.length (x :: r)) st.
Proof.
  intros B n upper s p sp x r k st m HL ST HU HT HS H10 H13 Hk Hn HD HM. pose proof HL as [L1 L2 L3 (L4 & L5)].
  set (w := x :: r) in *. set (q := p + List.length sp) in *.
  assert (HT2 : text_at B q w) by (apply text_at_app in HT; apply HT).
  assert (HLen : q + List.length w <= List.length B) by (apply text_at_len; auto; discriminate).
  enough (HG : wp (plain_env n upper) yylex (fun t s' => t = mkToken k w (mkLoc q (q + List.length w)) /\ After B s s' (q + List.length w) st) s).
  { unfold wp in HG. destruct (yylex (plain_env n upper) s) as [t s'|msg|]; try contradiction. destruct HG as (-> & HG). exists s'. auto. }
  apply (yylex_start B (plain_env n upper) s p sp x r); auto.
  - intros ->. apply H13. left. reflexivity.
  - cbn [plain_env fuel]. unfold q in *. lia.
  - fold q. intros b HR HP1 HP2 HP3 HH HO. pose proof HR as (W & N1 & N2). pose proof (w_pcur1 B b W) as WP. pose proof (w_pbeg B b W) as WB.
    assert (HF : q + List.length w <= pend b) by (apply fits with (B := B); auto; lia).
    assert (HI : InL B b (q + List.length w)) by (apply (inl_text B b HR); auto; [lia|discriminate]).
    rewrite HD. unfold as_tk. ws.
    set (s1 := set_token_seen true (set_command_start false (set_lval None s))).
    eapply wp_conseq; [apply (HM b s1); auto; try lia; [cbn [plain_env fuel]; lia]|].
    intros t s' [V1 V2 V3 V4 V5 V6 V7 V8 V9]. ws. subst t.
    assert (HPT : ptok (buffer s') = q) by (destruct V2 as [V2|(_ & V2)]; rewrite V2; exact HP2).
    apply (tail_ok _ k _ s' q (q + List.length w) w).
    + rewrite V8. exact L4.
    + rewrite V9. exact L5.
    + exact Hk.
    + exact HPT.
    + exact (fin_pcur _ _ _ V2).
    + destruct V7 as [V7|V7]; [left; exact V7|]. right. split; [exact V7|]. eapply fin_substr; eauto. discriminate.
    + split; auto. apply (after_ok B s _ b); auto. cbn. rewrite V4. exact ST.
Qed.

Lemma global_step : forall B n upper s p sp w fname k,
  LInv B s -> strterm s = None -> upcoming (buffer s) p -> text_at B p (sp ++ w) -> spacing (buffer s) sp ->
  (fname = true <-> after_def (lex_state s)) -> global_var B (p + List.length sp + List.length w) fname w k -> List.length B < n ->
  exists s', yylex (plain_env n upper) s =
      Ok (mkToken k w (mkLoc (p + List.length sp) (p + List.length sp + List.length w))) s' /\
    After B s s' (p + List.length sp + List.length w) EXPR_END.
Proof.
  intros B n upper s p sp w fname k HL ST HU HT HS Hfn HV Hn.
  destruct (gv_no _ _ _ _ _ HV) as (H10 & H13 & c & r & Ew). subst w.
  assert (Ef : fname = ls_is_some (lex_state s) EXPR_FNAME).
  { destruct (ls_is_some (lex_state s) EXPR_FNAME) eqn:E.
    - apply Hfn. apply -> is_def in E. exact E.
    - destruct fname; auto. exfalso. assert (A : after_def (lex_state s)) by (apply Hfn; reflexivity). apply is_def in A. congruence. }
  subst fname.
  apply (var_step B n upper s p sp 36%N (c :: r) k EXPR_END (parse_gvar (lex_state s))); auto.
  - destruct HV; auto; destruct (ls_is_some _ _); auto.
  - intros b s1 HR HP Hb HN HT2 HF HI Hfu. apply (gvar_ok B _ b s1 (p + List.length sp) HR HP Hb HN); auto.
Qed.
(** C44.  Whenever a parser asks for a token and a global variable comes next, the token is that variable: of the right
    kind, with its text as value and exactly its extent, and an expression has ended. *)
Theorem C44_global_variables : forall B n upper s p sp w fname k,
  reached B n upper s -> strterm s = None -> upcoming (buffer s) p -> text_at B p (sp ++ w) -> spacing (buffer s) sp ->
  (fname = true <-> after_def (lex_state s)) -> global_var B (p + List.length sp + List.length w) fname w k -> List.length B < n ->
  exists s', yylex (plain_env n upper) s =
      Ok (mkToken k w (mkLoc (p + List.length sp) (p + List.length sp + List.length w))) s' /\
    After B s s' (p + List.length sp + List.length w) EXPR_END.
Proof. intros. eapply global_step; eauto. eapply reached_inv; eauto. Qed.
Print Assumptions C44_global_variables.

Lemma object_step : forall B n upper s p sp w k st,
  LInv B s -> strterm s = None -> upcoming (buffer s) p -> text_at B p (sp ++ w) -> spacing (buffer s) sp ->
  object_var w k -> name_ends B (p + List.length sp + List.length w) ->
  (after_def (lex_state s) /\ st = EXPR_ENDFN \/ ~ after_def (lex_state s) /\ st = EXPR_END) -> List.length B < n ->
  exists s', yylex (plain_env n upper) s =
      Ok (mkToken k w (mkLoc (p + List.length sp) (p + List.length sp + List.length w))) s' /\
    After B s s' (p + List.length sp + List.length w) st.
Proof.
  intros B n upper s p sp w k st HL ST HU HT HS HV HE Hst Hn.
  destruct (ov_no _ _ HV) as (H10 & H13 & (r & Ew) & Hk). subst w.
  assert (Ef : st = if ls_is_some (lex_state s) EXPR_FNAME then EXPR_ENDFN else EXPR_END).
  { destruct (ls_is_some (lex_state s) EXPR_FNAME) eqn:E.
    - apply -> is_def in E. tauto.
    - destruct Hst as [(A & _)|(_ & A)]; auto. apply is_def in A. congruence. }
  subst st.
  apply (var_step B n upper s p sp 64%N r k _ (parse_atmark (lex_state s))); auto.
  - intros b s1 HR HP Hb HN HT2 HF HI Hfu. apply (atmark_ok B _ b s1 (p + List.length sp) HR HP Hb HN); auto.
Qed.
(** C44.  The same for instance and class variables; behind [def] they are left in the state behind a method name. *)
Theorem C44_object_variables : forall B n upper s p sp w k st,
  reached B n upper s -> strterm s = None -> upcoming (buffer s) p -> text_at B p (sp ++ w) -> spacing (buffer s) sp ->
  object_var w k -> name_ends B (p + List.length sp + List.length w) ->
  (after_def (lex_state s) /\ st = EXPR_ENDFN \/ ~ after_def (lex_state s) /\ st = EXPR_END) -> List.length B < n ->
  exists s', yylex (plain_env n upper) s =
      Ok (mkToken k w (mkLoc (p + List.length sp) (p + List.length sp + List.length w))) s' /\
    After B s s' (p + List.length sp + List.length w) st.
Proof. intros. eapply object_step; eauto. eapply reached_inv; eauto. Qed.
Print Assumptions C44_object_variables.

(** ** The hypotheses are met *)
Example C44_hypotheses_global :
  let src := bs "p $stdout, $1" in
  exists s, reached src 200 (fun _ => false) s /\ strterm s = None /\ upcoming (buffer s) 10 /\ text_at src 10 (bs " " ++ bs "$1") /\
    Forall blank (bs " ") /\ (false = true <-> after_def (lex_state s)) /\ global_var src 13 false (bs "$1") tNTH_REF.
Proof.
  set (src := bs "p $stdout, $1"). cbn zeta. reach_state src [PNext; PNext; PNext]. splits; auto; try reflexivity.
  - split; [reflexivity|]. left. splits; auto. cbn. lia.
  - constructor; [|constructor]. unfold blank. cbn. lia.
  - apply (gv_nth src 13 false 49 []); [lia|constructor|]. intros c A. vm_compute in A. discriminate.
Qed.

Example C44_hypotheses_object :
  let src := bs "x + @@y1;" in
  exists s, reached src 200 (fun _ => false) s /\ strterm s = None /\ upcoming (buffer s) 3 /\ text_at src 3 (bs " " ++ bs "@@y1") /\
    object_var (bs "@@y1") tCVAR /\ name_ends src 8 /\ ~ after_def (lex_state s).
Proof.
  set (src := bs "x + @@y1;"). cbn zeta. reach_state src [PNext; PNext]. splits; auto; try reflexivity.
  - split; [reflexivity|]. left. splits; auto. cbn. lia.
  - apply (ov_class (bs "y1")). apply (nm_ascii 121 (bs "1")); [unfold letter; lia|]. ascii.
  - intros c A. vm_compute in A. injection A as <-. unfold letter, digit. lia.
  - vm_compute. discriminate.
Qed.

(** A line of variables *)
Example C44_sample : exists ts s, lexed (bs "$a + $_ - $-w * $~ / @b % @@c") = Some (ts, s) /\
  map (fun t => (token_type t, token_value t)) ts =
  [(tGVAR, bs "$a"); (tPLUS, bs "+"); (tGVAR, bs "$_"); (tMINUS, bs "-"); (tGVAR, bs "$-w"); (tSTAR2, bs "*"); (tGVAR, bs "$~"); (tDIVIDE, bs "/");
   (tIVAR, bs "@b"); (tPERCENT, bs "%"); (tCVAR, bs "@@c")].
Proof. eexists. eexists. split; vm_compute; reflexivity. Qed.
