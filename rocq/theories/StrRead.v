(** * Reading the body of a string literal *)
Require Import Verif.Base Verif.MaybeByteM Verif.Utf8M Verif.InputM Verif.DiagnosticM Verif.TokensM Verif.BufferM Verif.LexStateM
  Verif.LexerM Verif.LexStringM Verif.LexMainM
  Verif.SourceSpec Verif.SourceProofs Verif.Wp Verif.BufInv Verif.LexSpec Verif.NewlineInv Verif.MainInv
  Verif.ReadSpec Verif.YylexSpec Verif.Reach Verif.Prop_Crlf Verif.StringSpec Verif.StrNum.
Require Import ZifyBool ZifyNat ZifyN.

(** ** Reading over several lines *)
Section Cursor.
  (** [order]: the text to be read goes on in the next line *)
  Variables (B : list N) (order : Prop).

  (** The line of [b] holds position [p], at or behind the reader *)
  Record Line (b : Buffer) (p : nat) : Prop := mkLineAt {
    ln_rd : Ready B b;
    ln_le : pcur b <= p;
    ln_lt : p < pend b;
    ln_split : pbeg b < p -> nth_error B (p - 1) = Some 13%N -> nth_error B p = Some 10%N -> False;
    ln_quiet : Z.ltb 0 (heredoc_indent b) = false;
    ln_ord : order -> in_order b
  }.

  (** The reader stands before position [p] *)
  Record Cur (b : Buffer) (p : nat) : Prop := mkCur {
    cu_wf : BWF B b;
    cu_pos : pcur b = p;
    cu_up : p < List.length B -> upcoming b p;
    cu_quiet : Z.ltb 0 (heredoc_indent b) = false;
    cu_ord : order -> in_order b
  }.

  Lemma cur_line : forall b p, Cur b p -> p < List.length B ->
    exists b1, Line b1 p /\ pcur b1 = p /\ forall e, b_nextc e b = b_nextc e b1.
  Proof using.
    intros b p [W P U Q O] Hp. destruct (read_upcoming B b p W (U Hp) Hp) as (b1 & R1 & R2 & R3 & R4 & R5 & R6).
    exists b1. splits; auto. constructor; auto; [lia| |congruence].
    intros A1 A2 A3. rewrite <- R2 in A1, A2, A3. destruct R1 as (W1 & _). exact (w_nosplit B b1 W1 A1 A2 A3).
  Qed.

  Lemma line_cur : forall b p, Line b p -> Cur (set_pcur p b) p.
  Proof using.
    intros b p [(W & N1 & N2) L1 L2 L3 L4 L5]. constructor; auto.
    - destruct W. constructor; cbn; auto; lia.
    - intros _. split; [exact N2|]. left. auto.
  Qed.

  Lemma line_rebase : forall b p, Line b p -> Line (set_pcur p b) p.
  Proof using.
    intros b p H. pose proof (line_cur b p H) as [W' _ _ _ _]. destruct H as [(W & N1 & N2) L1 L2 L3 L4 L5]. constructor; auto. split; auto.
  Qed.

  Lemma line_ptok : forall b p k, Line b p -> k <= pcur b -> Line (set_ptok k b) p.
  Proof using. intros b p k [R L1 L2 L3 L4 L5] Hk. constructor; auto. apply ready_ptok; auto. Qed.

  Lemma cur_ptok : forall b p k, Cur b p -> k <= p -> Cur (set_ptok k b) p.
  Proof using. intros b p k [W P U Q O] Hk. constructor; auto. apply BWF_set_ptok; auto. lia. Qed.

  Lemma line_bytes : forall b p i, Line b p -> byte_at b i = nth_error B i.
  Proof using. intros b p i [(W & _) _ _ _ _ _]. apply byte_at_B. exact W. Qed.

  Lemma line_after : forall b p x, Line b p -> nth_error B p = Some x -> x <> 13%N -> (x = 10%N -> order) -> Cur (set_pcur (p + 1) b) (p + 1).
  Proof using.
    intros b p x [R L1 L2 L3 L4 L5] Hx H13 H10. destruct (behind B b p R L1 L2) as (G1 & G2). { intros (A & _). congruence. }
    constructor; auto. intros Hp. destruct (N.eq_dec x 10) as [->|Hn]; [auto|].
    destruct R as (W & N1 & N2). split; [exact N2|]. left. cbn. splits; auto.
    destruct (Nat.lt_ge_cases (p + 1) (pend b)) as [|C]; auto. exfalso.
    pose proof (w_last B b W). pose proof (w_count B b W). pose proof (w_pend B b W) as We. pose proof (pend_le B b W).
    destruct (Nat.eq_dec (lastline b + 1) (NL B)) as [E1|E1]; [destruct (line_last B _ E1); lia|].
    destruct (line_newline B (lastline b)) as (_ & A & _); [lia|]. rewrite <- We in A. replace (pend b - 1) with p in A by lia. congruence.
  Qed.

  Lemma line_next : forall b p x, Line b p -> nth_error B p = Some x -> x <> 13%N -> x <> 10%N -> p + 1 < List.length B -> Line b (p + 1).
  Proof using.
    intros b p x H Hx H13 H10 Hp. pose proof (line_after b p x H Hx H13) as [_ _ U _ _]; [contradiction|].
    destruct H as [(W & N1 & N2) L1 L2 L3 L4 L5]. constructor; auto; [split; auto|lia| |].
    - destruct (U Hp) as (_ & [(_ & A & _)|(l & A1 & A2 & A3)]); [exact A|]. cbn in *. specialize (A3 N1).
      exfalso. pose proof (w_last B b W). pose proof (w_count B b W). pose proof (w_pend B b W) as We. pose proof (pend_le B b W).
      destruct (Nat.eq_dec (lastline b + 1) (NL B)) as [E1|E1]; [destruct (line_last B _ E1); lia|].
      destruct (line_newline B (lastline b)) as (_ & A & _); [lia|]. rewrite <- We in A. replace (pend b - 1) with p in A by lia. congruence.
    - intros _ A _. replace (p + 1 - 1) with p in A by lia. congruence.
  Qed.

  Lemma line_text : forall w b p, Line b p -> text_at B p w -> Forall (fun c => c <> 10 /\ c <> 13)%N w -> p + List.length w < List.length B ->
    Line b (p + List.length w).
  Proof using.
    induction w as [|x w IH]; intros b p H HT HF Hp; [cbn; rewrite Nat.add_0_r; exact H|].
    apply text_at_cons in HT. destruct HT as (Hx & HT). inversion HF as [|? ? (A1 & A2) HF']; subst. cbn [List.length] in *.
    replace (p + S (List.length w)) with (p + 1 + List.length w) by lia. apply IH; auto; [|lia].
    eapply line_next; eauto. lia.
  Qed.

  Lemma line_read : forall e b p x, Line b p -> nth_error B p = Some x -> x <> 13%N ->
    b_nextc e (set_pcur p b) = Ok (Some x) (set_pcur (p + 1) b).
  Proof using. intros e b p x [R L1 L2 _ _ _] Hx H13. apply (rd_byte B e b R); auto. Qed.

  Lemma line_back : forall b p x, Line b p -> nth_error B p = Some x -> back (Some x) (set_pcur (p + 1) b) = set_pcur p b.
  Proof using.
    intros b p x [R L1 L2 L3 _ _] Hx. unfold back. cbn [pcur set_pcur pbeg]. unfold byte_at. cbn [input set_pcur]. rewrite !(rd_at B b R).
    replace (p + 1 - 1) with p by lia. rewrite Hx.
    destruct ((pbeg b <? p) && mbeq (Some x) 10%N && mbeq (nth_error B (p - 1)) 13%N) eqn:E; [exfalso|reflexivity].
    apply andb_prop in E. destruct E as (E & E3). apply andb_prop in E. destruct E as (E1 & E2).
    rewrite mbeq_iff in E2, E3. apply L3; [lia|exact E3|congruence].
  Qed.
End Cursor.

(** ** The loop of tokadd_string *)
Definition ts_body (func term : N) (paren : option N) : nat -> M Lexer (nat + (option MaybeByte * nat)) := fun nest =>
    c <- nextc ;;
    if is_eof c then ret (inr (Some c, nest))
    else
      b <- getb ;;
      when (Z.ltb 0 (heredoc_indent b)) (update_heredoc_indent c) ;;;
      b <- getb ;;
      if mbeq_opt c paren then
        tokadd_mb c ;;; ret (inl (nest + 1))
      else if mbeq c term then
        if nest =? 0 then pushback c ;;; ret (inr (Some c, nest))
        else
          nest <- sub_ck nest 1 ;;
          tokadd_mb c ;;; ret (inl nest)
      else if has func STR_FUNC_EXPAND && mbeq c "#" && (pcur b <? pend b) then
        c2 <- gets (fun s => char_at s (pcur (buffer s))) ;;
        if mbeq c2 "$" || mbeq c2 "@" || mbeq c2 "{" then
          pushback c ;;; ret (inr (Some c, nest))
        else tokadd_mb c ;;; ret (inl nest)
      else if mbeq c "\" then
        r <- tokadd_string_escape func term paren ;;
        match r with
        | EscContinue => ret (inl nest)
        | EscReturn x => ret (inr (x, nest))
        | EscAdd c => tokadd_mb c ;;; ret (inl nest)
        end
      else
        a <- is_ascii_cur ;;
        if negb a then tokadd_mb c ;;; ret (inl nest)
        else if has func STR_FUNC_QWORDS && is_space c then
          pushback c ;;; ret (inr (Some c, nest))
        else tokadd_mb c ;;; ret (inl nest).

Lemma tokadd_string_loop : forall func term paren nest, tokadd_string func term paren nest = loop (ts_body func term paren) nest.
Proof. reflexivity. Qed.

Section Body.
  Variables (B : list N) (order : Prop) (e : Env) (s0 : Lexer) (func : N) (paren : option N) (term : N).
  Variables (interp words : bool).
  Hypothesis Hexp : has func STR_FUNC_EXPAND = interp.
  Hypothesis Hqw : has func STR_FUNC_QWORDS = words.
  Hypothesis Hre : has func STR_FUNC_REGEXP = false.
  Hypothesis Hesc : has func STR_FUNC_ESCAPE = false.
  Hypothesis Hind : has func STR_FUNC_INDENT = false.
  Hypothesis Hfuel : List.length B < fuel e.

  (** The state in the middle of a string: text so far, reports, reader *)
  Definition Sx (t : list N) (d : list Diagnostic) (b : Buffer) : Lexer := set_diagnostics d (set_tokenbuf t (set_buffer b s0)).

  Local Notation Cur := (Cur B order).
  Local Notation Line := (Line B order).

  Lemma sx_nx : forall t d b p x (Q : MaybeByte -> Lexer -> Prop), Cur b p -> nth_error B p = Some x -> x <> 13%N ->
    (forall b1, Line b1 p -> pcur b1 = p -> Q (Some x) (Sx t d (set_pcur (p + 1) b1))) -> wp e nextc Q (Sx t d b).
  Proof using All.
    intros t d b p x Q HC Hx H13 HQ. assert (Hp : p < List.length B) by (apply nth_error_Some; congruence).
    destruct (cur_line B order b p HC Hp) as (b1 & L1 & L2 & L3). unfold nextc, inb. apply wp_zoom. unfold wp.
    change (buffer (Sx t d b)) with b. rewrite L3, <- (rd_here e b1 p L2), (line_read B order e b1 p x L1 Hx H13). apply HQ; auto.
  Qed.

  Lemma sx_line : forall t d b p x (Q : MaybeByte -> Lexer -> Prop), Line b p -> pcur b = p -> nth_error B p = Some x -> x <> 13%N ->
    Q (Some x) (Sx t d (set_pcur (p + 1) b)) -> wp e nextc Q (Sx t d b).
  Proof using All.
    intros t d b p x Q HL HP Hx H13 HQ. unfold nextc, inb. apply wp_zoom. unfold wp.
    change (buffer (Sx t d b)) with b. rewrite <- (rd_here e b p HP), (line_read B order e b p x HL Hx H13). exact HQ.
  Qed.

  Lemma sx_push : forall t d b p x (Q : unit -> Lexer -> Prop), Line b p -> nth_error B p = Some x ->
    Q tt (Sx t d (set_pcur p b)) -> wp e (pushback (Some x)) Q (Sx t d (set_pcur (p + 1) b)).
  Proof using All.
    intros t d b p x Q HL Hx HQ. apply wp_push; [intros _; cbn; lia|].
    change (buffer (Sx t d (set_pcur (p + 1) b))) with (set_pcur (p + 1) b). rewrite (line_back B order b p x HL Hx). exact HQ.
  Qed.

  (** Reading the first character of a piece *)
  Lemma ts_first : forall m nest t d b p x (Q : option MaybeByte * nat -> Lexer -> Prop), Cur b p -> nth_error B p = Some x -> x <> 13%N ->
    (forall b1, Line b1 p -> pcur b1 = p ->
      wp e (if mbeq_opt (Some x) paren then
              tokadd_mb (Some x) ;;; ret (inl (nest + 1))
            else if mbeq (Some x) term then
              if nest =? 0 then pushback (Some x) ;;; ret (inr (Some (Some x), nest))
              else
                nest <- sub_ck nest 1 ;;
                tokadd_mb (Some x) ;;; ret (inl nest)
            else if interp && mbeq (Some x) "#" && (p + 1 <? pend b1) then
              c2 <- gets (fun s => char_at s (pcur (buffer s))) ;;
              if mbeq c2 "$" || mbeq c2 "@" || mbeq c2 "{" then
                pushback (Some x) ;;; ret (inr (Some (Some x), nest))
              else tokadd_mb (Some x) ;;; ret (inl nest)
            else if mbeq (Some x) "\" then
              r <- tokadd_string_escape func term paren ;;
              match r with
              | EscContinue => ret (inl nest)
              | EscReturn x => ret (inr (x, nest))
              | EscAdd c => tokadd_mb c ;;; ret (inl nest)
              end
            else
              a <- is_ascii_cur ;;
              if negb a then tokadd_mb (Some x) ;;; ret (inl nest)
              else if words && is_space (Some x) then
                pushback (Some x) ;;; ret (inr (Some (Some x), nest))
              else tokadd_mb (Some x) ;;; ret (inl nest))
        (fun r s' => match r with inl n => wp e (loop_n m (ts_body func term paren) n) Q s' | inr r => Q r s' end)
        (Sx t d (set_pcur (p + 1) b1))) ->
    wp e (loop_n (S m) (ts_body func term paren) nest) Q (Sx t d b).
  Proof using All.
    intros m nest t d b p x Q HC Hx H13 H. cbn [loop_n]. ws. unfold ts_body at 1. ws. eapply sx_nx; eauto. intros b1 HL HP.
    cbn [is_eof]. ws. ws. ws. 
    change (heredoc_indent (buffer (Sx t d (set_pcur (p + 1) b1)))) with (heredoc_indent b1). rewrite (ln_quiet _ _ _ _ HL). cbn [when]. ws. ws. ws.
    change (pcur (buffer (Sx t d (set_pcur (p + 1) b1)))) with (p + 1). change (pend (buffer (Sx t d (set_pcur (p + 1) b1)))) with (pend b1).
    rewrite Hexp, Hqw. eapply wp_conseq; [apply H; auto|]. intros [n|r] s' Hr; [exact Hr|ws; exact Hr].
  Qed.

  Lemma delim_paren : forall c, ~ delim paren term c -> mbeq_opt (Some c) paren = false /\ mbeq (Some c) term = false.
  Proof using All.
    intros c H. unfold delim in H. split.
    - unfold mbeq_opt. destruct paren as [q|]; [|reflexivity]. cbn. apply N.eqb_neq. intros ->. apply H. auto.
    - cbn. apply N.eqb_neq. intros ->. apply H. auto.
  Qed.

  (** What is left to do at position [p'] *)
  Definition Cont (m0 nest p' : nat) (t : list N) (d : list Diagnostic) (Q : option MaybeByte * nat -> Lexer -> Prop) : Prop :=
    forall m b', m0 <= m -> Cur b' p' -> wp e (loop_n m (ts_body func term paren) nest) Q (Sx t d b').

  (** Reading a backslash and the character behind it *)
  Lemma ts_backslash : forall m nest t d b p c (Q : option MaybeByte * nat -> Lexer -> Prop), Cur b p -> nth_error B p = Some 92%N ->
    ~ delim paren term 92%N -> nth_error B (p + 1) = Some c -> c <> 13%N ->
    (forall b2, Line b2 (p + 1) -> pcur b2 = p + 1 ->
      wp e (if mbeq (Some c) 10%N then
              if words then ret (EscAdd (Some c))
              else if interp then ret EscContinue
              else tokadd "\" ;;; ret (EscAdd (Some c))
            else if mbeq (Some c) "\" then ret (EscAdd (Some c))
            else if mbeq (Some c) "u" then
              if negb interp then tokadd "\" ;;; ret (EscAdd (Some c))
              else tokadd_utf8 (Some term) false ;;; ret EscContinue
            else tokadd_string_other func term paren (Some c))
        (fun r s' => match r with
                     | EscContinue => wp e (loop_n m (ts_body func term paren) nest) Q s'
                     | EscReturn x => Q (x, nest) s'
                     | EscAdd c => wp e (tokadd_mb c) (fun _ s'' => wp e (loop_n m (ts_body func term paren) nest) Q s'') s'
                     end)
        (Sx t d (set_pcur (p + 2) b2))) ->
    wp e (loop_n (S m) (ts_body func term paren) nest) Q (Sx t d b).
  Proof using All.
    intros m nest t d b p c Q HC Hx HD Hc H13 H. destruct (delim_paren _ HD) as (D1 & D2).
    eapply ts_first; [exact HC|exact Hx|discriminate|]. intros b1 HL HP. rewrite D1, D2.
    change (mbeq (Some 92%N) "#") with false. rewrite andb_false_r. cbn [andb]. change (mbeq (Some 92%N) "\") with true. cbv iota.
    ws. unfold tokadd_string_escape. ws. ws. ws. apply wp_sub_ck; [clear; cbn; lia|].
    change (pcur (buffer (Sx t d (set_pcur (p + 1) b1)))) with (p + 1). replace (p + 1 - 1) with p by (clear; lia).
    ws. unfold literal_flush. ws. ws.
    assert (HC2 : Cur (set_ptok p (set_pcur (p + 1) b1)) (p + 1)).
    { apply cur_ptok; [|clear; lia]. eapply line_after; eauto; discriminate. }
    eapply (sx_nx t d (set_ptok p (set_pcur (p + 1) b1)) (p + 1) c); auto.
    intros b2 HL2 HP2. specialize (H b2 HL2 HP2). replace (p + 1 + 1) with (p + 2) by (clear; lia).
    rewrite Hqw, Hexp, Hesc, Hre, Hind. cbn [negb orb is_eof when].
    assert (HK : forall r s', match r with
                     | EscContinue => wp e (loop_n m (ts_body func term paren) nest) Q s'
                     | EscReturn x => Q (x, nest) s'
                     | EscAdd c => wp e (tokadd_mb c) (fun _ s'' => wp e (loop_n m (ts_body func term paren) nest) Q s'') s'
                     end ->
       wp e match r with
        | EscContinue => ret (inl nest)
        | EscReturn x => ret (inr (x, nest))
        | EscAdd c0 => tokadd_mb c0 ;;; ret (inl nest)
        end (fun r s' => match r with inl n => wp e (loop_n m (ts_body func term paren) n) Q s' | inr r => Q r s' end) s').
    { intros [|x|c0] s' Hr; [ws; exact Hr|ws; exact Hr|]. ws. eapply wp_conseq; [exact Hr|]. intros [] s'' Hr'. ws. exact Hr'. }
    destruct (mbeq (Some c) 10%N).
    { destruct words; [|destruct interp; [ws; ws|]]; (eapply wp_conseq; [exact H|apply HK]). }
    destruct (mbeq (Some c) "\").
    { ws. ws. eapply wp_conseq; [exact H|apply HK]. }
    destruct (mbeq (Some c) "u"); (eapply wp_conseq; [exact H|apply HK]).
  Qed.

  Lemma ts_add : forall m n t d b c Q, wp e (loop_n m (ts_body func term paren) n) Q (Sx (t ++ [c]) d b) ->
    wp e (tokadd_mb (Some c) ;;; ret (inl n))
      (fun r s' => match r with inl n => wp e (loop_n m (ts_body func term paren) n) Q s' | inr r => Q r s' end) (Sx t d b).
  Proof using All. intros m n t d b c Q H. ws. ws. ws. exact H. Qed.

  Lemma sx_ascii : forall t d b p x (Q : bool -> Lexer -> Prop), Line b p -> nth_error B p = Some x -> Q (x <? 128)%N (Sx t d (set_pcur (p + 1) b)) ->
    wp e is_ascii_cur Q (Sx t d (set_pcur (p + 1) b)).
  Proof using All.
    intros t d b p x Q HL Hx HQ. unfold is_ascii_cur. ws. ws. ws. apply wp_sub_ck; [clear; cbn; lia|]. ws.
    change (pcur (buffer (Sx t d (set_pcur (p + 1) b)))) with (p + 1). replace (p + 1 - 1) with p by (clear; lia).
    change (byte_at (buffer (Sx t d (set_pcur (p + 1) b))) p) with (byte_at b p). rewrite (line_bytes _ _ _ _ p HL), Hx. exact HQ.
  Qed.

  Lemma step_char : forall nxt p n c m0 t d Q, c <> 13%N -> c <> 92%N -> ~ delim paren term c ->
    (interp = true -> c = 35%N -> nxt <> 36 /\ nxt <> 64 /\ nxt <> 123)%N -> (words = true -> ~ white_byte c) ->
    nth_error B p = Some c -> nth_error B (p + 1) = Some nxt -> (c = 10%N -> order) ->
    Cont m0 n (p + 1) (t ++ [c]) d Q -> Cont (m0 + 1) n p t d Q.
  Proof using All.
    intros nxt p n c m0 t d Q H13 H92 HD HI HW Hx Hn HO HK m b Hm HC. destruct m as [|m]; [clear - Hm; lia|].
    destruct (delim_paren _ HD) as (D1 & D2). eapply ts_first; eauto. intros b1 HL HP. rewrite D1, D2.
    assert (HF : wp e (loop_n m (ts_body func term paren) n) Q (Sx (t ++ [c]) d (set_pcur (p + 1) b1))).
    { apply HK; [clear - Hm; lia|]. eapply line_after; eauto. }
    destruct (interp && mbeq (Some c) "#" && (p + 1 <? pend b1)) eqn:EI.
    { apply andb_prop in EI. destruct EI as (EI & _). apply andb_prop in EI. destruct EI as (EI1 & EI2). rewrite mbeq_iff in EI2.
      destruct (HI EI1) as (I1 & I2 & I3); [congruence|]. ws. ws.
      change (char_at (Sx t d (set_pcur (p + 1) b1)) (pcur (buffer (Sx t d (set_pcur (p + 1) b1))))) with (byte_at b1 (p + 1)).
      rewrite (line_bytes _ _ _ _ _ HL), Hn. 
      replace (mbeq (Some nxt) "$" || mbeq (Some nxt) "@" || mbeq (Some nxt) "{") with false; [apply ts_add; exact HF|].
      symmetry. rewrite !orb_false_iff. splits; apply N.eqb_neq; assumption. }
    replace (mbeq (Some c) "\") with false by (symmetry; apply N.eqb_neq; exact H92).
    ws. eapply sx_ascii; eauto. destruct (negb (c <? 128)%N); [apply ts_add; exact HF|].
    replace (words && is_space (Some c)) with false; [apply ts_add; exact HF|].
    symmetry. destruct words; [|reflexivity]. specialize (HW eq_refl). unfold white_byte in HW. cbn. unfold b_is_space, in_range. clear - HW. lia.
  Qed.

  Lemma step_open : forall p n c m0 t d Q, paren = Some c -> c <> 13%N -> nth_error B p = Some c -> (c = 10%N -> order) ->
    Cont m0 (S n) (p + 1) (t ++ [c]) d Q -> Cont (m0 + 1) n p t d Q.
  Proof using All.
    intros p n c m0 t d Q HP0 H13 Hx HO HK m b Hm HC. destruct m as [|m]; [clear - Hm; lia|]. eapply ts_first; eauto. intros b1 HL HP.
    replace (mbeq_opt (Some c) paren) with true by (rewrite HP0; symmetry; apply N.eqb_refl). apply ts_add. replace (n + 1) with (S n) by (clear; lia).
    apply HK; [clear - Hm; lia|]. eapply line_after; eauto.
  Qed.

  Lemma step_close : forall p n m0 t d Q, paren <> Some term -> term <> 13%N -> nth_error B p = Some term -> (term = 10%N -> order) ->
    Cont m0 n (p + 1) (t ++ [term]) d Q -> Cont (m0 + 1) (S n) p t d Q.
  Proof using All.
    intros p n m0 t d Q HP0 H13 Hx HO HK m b Hm HC. destruct m as [|m]; [clear - Hm; lia|]. eapply ts_first; eauto. intros b1 HL HP.
    replace (mbeq_opt (Some term) paren) with false.
    2:{ unfold mbeq_opt. destruct paren as [q|]; [|reflexivity]. symmetry. apply N.eqb_neq. congruence. }
    replace (mbeq (Some term) term) with true by (symmetry; apply N.eqb_refl). cbn [Nat.eqb]. ws. apply wp_sub_ck; [clear; lia|].
    replace (S n - 1) with n by (clear; lia). apply ts_add. apply HK; [clear - Hm; lia|]. eapply line_after; eauto.
  Qed.

  Lemma step_backslash : forall p n m0 t d Q, ~ delim paren term 92%N -> nth_error B p = Some 92%N -> nth_error B (p + 1) = Some 92%N ->
    Cont m0 n (p + 2) (t ++ [92%N]) d Q -> Cont (m0 + 2) n p t d Q.
  Proof using All.
    intros p n m0 t d Q HD Hx Hc HK m b Hm HC. destruct m as [|m]; [clear - Hm; lia|]. eapply ts_backslash; eauto; [discriminate|]. intros b2 HL HP.
    change (mbeq (Some 92%N) 10%N) with false. change (mbeq (Some 92%N) "\") with true. cbv iota. ws. ws.
    apply (HK m (set_pcur (p + 2) b2)); [clear - Hm; lia|]. replace (p + 2) with (p + 1 + 1) by (clear; lia). eapply line_after; eauto; discriminate.
  Qed.

  (** *** Where escapes are not interpreted *)
  Lemma step_quoted : forall p n c m0 t d Q, interp = false -> ~ delim paren term 92%N -> delim paren term c \/ (words = true /\ white_byte c) ->
    c <> 13%N -> c <> 92%N -> c <> 117%N -> (c < 128)%N -> (c = 10%N -> words = true) -> (c = 10%N -> order) ->
    nth_error B p = Some 92%N -> nth_error B (p + 1) = Some c ->
    Cont m0 n (p + 2) (t ++ [c]) d Q -> Cont (m0 + 2) n p t d Q.
  Proof using All.
    intros p n c m0 t d Q HI HD HE H13 H92 H117 H128 H10 HO Hx Hc HK m b Hm HC. destruct m as [|m]; [clear - Hm; lia|]. eapply ts_backslash; eauto. intros b2 HL HP.
    assert (HF : wp e (tokadd_mb (Some c)) (fun _ s'' => wp e (loop_n m (ts_body func term paren) n) Q s'') (Sx t d (set_pcur (p + 2) b2))).
    { ws. apply (HK m (set_pcur (p + 2) b2)); [clear - Hm; lia|]. replace (p + 2) with (p + 1 + 1) by (clear; lia). eapply line_after; eauto. }
    destruct (mbeq (Some c) 10%N) eqn:E10.
    { rewrite H10 by (rewrite mbeq_iff in E10; congruence). ws. exact HF. }
    replace (mbeq (Some c) "\") with false by (symmetry; apply N.eqb_neq; exact H92).
    replace (mbeq (Some c) "u") with false by (symmetry; apply N.eqb_neq; exact H117).
    unfold tokadd_string_other. rewrite Hre, Hexp, Hqw, HI. replace (is_ascii (Some c)) with true by (symmetry; cbn; unfold b_is_ascii; clear - H128; lia).
    cbn [negb andb when]. ws. ws. destruct (words && is_space (Some c)) eqn:EW; [ws; exact HF|].
    destruct HE as [HE|(W1 & W2)].
    2:{ exfalso. rewrite W1 in EW. cbn in EW. unfold b_is_space, in_range in EW. unfold white_byte in W2. clear - EW W2. lia. }
    replace (negb (mbeq (Some c) term) && negb (mbeq_opt (Some c) paren)) with false; [ws; exact HF|].
    symmetry. destruct HE as [HE|HE]; rewrite HE.
    - replace (mbeq (Some term) term) with true by (symmetry; apply N.eqb_refl). reflexivity.
    - replace (mbeq_opt (Some c) (Some c)) with true by (symmetry; apply N.eqb_refl). apply andb_false_r.
  Qed.

  Lemma step_kept : forall nxt p n c m0 t d Q, interp = false -> ~ delim paren term 92%N -> ~ delim paren term c -> (words = true -> ~ white_byte c) ->
    c <> 13%N -> c <> 92%N -> (c < 128)%N -> (c = 10%N -> order) ->
    nth_error B p = Some 92%N -> nth_error B (p + 1) = Some c -> nth_error B (p + 2) = Some nxt ->
    Cont m0 n (p + 2) (t ++ [92; c]%N) d Q -> Cont (m0 + 2) n p t d Q.
  Proof using All.
    intros nxt p n c m0 t d Q HI HD HE HW H13 H92 H128 HO Hx Hc Hn HK m b Hm HC. destruct m as [|m]; [clear - Hm; lia|]. eapply ts_backslash; eauto. intros b2 HL HP.
    assert (HC2 : Cur (set_pcur (p + 2) b2) (p + 2)). { replace (p + 2) with (p + 1 + 1) by (clear; lia). eapply line_after; eauto. }
    assert (HF : wp e (tokadd_mb (Some c)) (fun _ s'' => wp e (loop_n m (ts_body func term paren) n) Q s'') (Sx (t ++ [92%N]) d (set_pcur (p + 2) b2))).
    { ws. change (tokenbuf (Sx (t ++ [92%N]) d (set_pcur (p + 2) b2))) with (t ++ [92%N]). rewrite <- app_assoc. apply (HK m (set_pcur (p + 2) b2)); [clear - Hm; lia|exact HC2]. }
    destruct (mbeq (Some c) 10%N) eqn:E10.
    { assert (HW0 : words = false).
      { rewrite mbeq_iff in E10. destruct words; [|reflexivity]. exfalso. apply HW; [reflexivity|]. unfold white_byte. injection E10 as ->. right. clear. lia. }
      rewrite HW0, HI. ws. ws. ws. exact HF. }
    replace (mbeq (Some c) "\") with false by (symmetry; apply N.eqb_neq; exact H92).
    destruct (mbeq (Some c) "u") eqn:E117. { rewrite HI. cbn [negb]. ws. ws. ws. exact HF. }
    unfold tokadd_string_other. rewrite Hre, Hexp, Hqw, HI. replace (is_ascii (Some c)) with true by (symmetry; cbn; unfold b_is_ascii; clear - H128; lia).
    cbn [negb andb when]. ws. ws. replace (words && is_space (Some c)) with false.
    2:{ symmetry. destruct words; [|reflexivity]. specialize (HW eq_refl). unfold white_byte in HW. cbn. unfold b_is_space, in_range. clear - HW. lia. }
    destruct (delim_paren _ HE) as (D1 & D2). rewrite D1, D2. cbn [negb andb]. ws. ws. ws.
    replace (p + 2) with (p + 1 + 1) by (clear; lia).
    refine (sx_push (t ++ [92%N]) d b2 (p + 1) c _ HL Hc _). ws.
    assert (HS : Cont (m0 + 1) n (p + 1) (t ++ [92%N]) d Q).
    { eapply (step_char nxt (p + 1) n c); eauto; [congruence| |].
      - replace (p + 1 + 1) with (p + 2) by (clear; lia). exact Hn.
      - replace (p + 1 + 1) with (p + 2) by (clear; lia). rewrite <- app_assoc. exact HK. }
    apply HS; [clear - Hm; lia|]. apply line_cur. exact HL.
  Qed.

  (** *** Where escapes are interpreted *)
  Lemma step_line : forall p n m0 t d Q, interp = true -> ~ delim paren term 92%N -> order ->
    nth_error B p = Some 92%N -> nth_error B (p + 1) = Some 10%N ->
    Cont m0 n (p + 2) (t ++ if words then [10%N] else []) d Q -> Cont (m0 + 2) n p t d Q.
  Proof using All.
    intros p n m0 t d Q HI HD HO Hx Hc HK m b Hm HC. destruct m as [|m]; [clear - Hm; lia|]. eapply ts_backslash; eauto; [discriminate|]. intros b2 HL HP.
    assert (HC2 : Cur (set_pcur (p + 2) b2) (p + 2)). { replace (p + 2) with (p + 1 + 1) by (clear; lia). eapply line_after; eauto; discriminate. }
    change (mbeq (Some 10%N) 10%N) with true. cbv iota. rewrite HI. destruct words.
    - ws. ws. apply (HK m (set_pcur (p + 2) b2)); [clear - Hm; lia|exact HC2].
    - ws. rewrite app_nil_r in HK. apply (HK m (set_pcur (p + 2) b2)); [clear - Hm; lia|exact HC2].
  Qed.

  Lemma step_escape : forall p p' n c v m0 t d Q, interp = true -> ~ delim paren term 92%N ->
    c <> 10%N -> c <> 13%N -> c <> 92%N -> c <> 117%N -> nth_error B p = Some 92%N -> nth_error B (p + 1) = Some c ->
    (forall b2, Cur b2 (p + 1) -> wp e (read_escape 0) (fun r s' => exists b', r = Some v /\ s' = Sx t d b' /\ Cur b' p') (Sx t d b2)) ->
    Cont m0 n p' (t ++ [v]) d Q -> Cont (m0 + 1) n p t d Q.
  Proof using All.
    intros p p' n c v m0 t d Q HI HD H10 H13 H92 H117 Hx Hc HR HK m b Hm HC. destruct m as [|m]; [clear - Hm; lia|]. eapply ts_backslash; eauto. intros b2 HL HP.
    replace (mbeq (Some c) 10%N) with false by (symmetry; apply N.eqb_neq; exact H10).
    replace (mbeq (Some c) "\") with false by (symmetry; apply N.eqb_neq; exact H92).
    replace (mbeq (Some c) "u") with false by (symmetry; apply N.eqb_neq; exact H117).
    unfold tokadd_string_other. rewrite Hre, Hexp, Hesc, HI. cbn [negb]. rewrite andb_false_r. cbn [when]. ws. ws. ws.
    replace (p + 2) with (p + 1 + 1) by (clear; lia). eapply sx_push; eauto. ws. ws. ws.
    eapply wp_conseq; [apply HR; apply line_cur; exact HL|]. intros r s' (b' & -> & -> & HC'). cbn [is_eof]. ws. ws.
    apply (HK m b'); [clear - Hm; lia|exact HC'].
  Qed.

  Lemma re_letter : forall depth fl t d b p c v, letter_escape c v -> Line b p -> pcur b = p -> nth_error B p = Some c ->
    wp e (read_escape_n (S depth) fl) (fun r s' => r = Some v /\ s' = Sx t d (set_pcur (p + 1) b)) (Sx t d b).
  Proof using All.
    intros depth fl t d b p c v HE HL HP Hc. assert (H13 : c <> 13%N) by (destruct HE; discriminate).
    cbn [read_escape_n]. ws. eapply sx_line; eauto.
    destruct HE; cbv [mbeq mb_test N.eqb Pos.eqb is_digit b_is_digit in_range]; cbv iota.
    all: repeat match goal with |- context [if ?c then _ else _] => let r := eval vm_compute in c in change c with r; cbv iota end.
    all: ws; split; reflexivity.
  Qed.

  Lemma re_self : forall depth fl t d b p c, self_escape c -> Line b p -> pcur b = p -> nth_error B p = Some c ->
    wp e (read_escape_n (S depth) fl) (fun r s' => r = Some c /\ s' = Sx t d (set_pcur (p + 1) b)) (Sx t d b).
  Proof using All.
    intros depth fl t d b p c ((A1 & A2 & A3 & A4 & A5 & A6 & A7 & A8 & A9) & HE) HL HP Hc.
    cbn [read_escape_n]. ws. eapply sx_line; eauto.
    assert (HX : forall k v, letter_escape k v -> mbeq (Some c) k = false). { intros k v HX. apply N.eqb_neq. intros ->. exact (HE v HX). }
    replace (mbeq (Some c) "\") with false by (symmetry; apply N.eqb_neq; assumption).
    rewrite (HX _ _ le_n), (HX _ _ le_t), (HX _ _ le_r), (HX _ _ le_f), (HX _ _ le_v), (HX _ _ le_a), (HX _ _ le_e), (HX _ _ le_b), (HX _ _ le_s).
    replace (is_digit (Some c)) with false by (symmetry; cbn; unfold b_is_digit, in_range; clear - A4; change "0"%bn with 48%N; change "9"%bn with 57%N; lia).
    replace (mbeq (Some c) "x") with false by (symmetry; apply N.eqb_neq; assumption).
    replace (mbeq (Some c) "M") with false by (symmetry; apply N.eqb_neq; assumption).
    replace (mbeq (Some c) "C") with false by (symmetry; apply N.eqb_neq; assumption).
    replace (mbeq (Some c) "c") with false by (symmetry; apply N.eqb_neq; assumption).
    cbn [orb is_eof]. ws. split; reflexivity.
  Qed.

  (** *** Digits *)
  Lemma octal_plain : forall ds, Forall octal ds -> Forall (fun c => c <> 10 /\ c <> 13)%N ds.
  Proof using. clear. intros ds H. eapply Forall_impl; [|exact H]. unfold octal. intros c K. lia. Qed.

  Lemma hex_plain : forall ds, Forall hexadecimal ds -> Forall (fun c => c <> 10 /\ c <> 13)%N ds.
  Proof using. clear. intros ds H. eapply Forall_impl; [|exact H]. unfold hexadecimal. intros c K. lia. Qed.

  Lemma gap_plain : forall ds, Forall gap_byte ds -> Forall (fun c => c <> 10 /\ c <> 13)%N ds.
  Proof using. clear. intros ds H. eapply Forall_impl; [|exact H]. unfold gap_byte. intros c K. lia. Qed.

  Lemma line_digits : forall b p q ds, Line b q -> text_at B p ds -> forall i c, nth_error ds i = Some c -> byte_at b (p + i) = Some c.
  Proof using. clear. intros b p q ds HL HT i c Hi. rewrite (line_bytes _ _ _ _ _ HL). eapply text_nth; eauto. Qed.

  Lemma in_file : forall i x, nth_error B i = Some x -> i < List.length B.
  Proof using. clear. intros i x H. apply nth_error_Some. congruence. Qed.

  Lemma re_octal : forall depth fl t d b p ds nxt, Forall octal ds -> 1 <= List.length ds <= 3 -> (List.length ds < 3 -> ~ octal nxt) ->
    Line b p -> pcur b = p -> text_at B p ds -> nth_error B (p + List.length ds) = Some nxt ->
    wp e (read_escape_n (S depth) fl) (fun r s' => r = Some (octal_value ds mod 256)%N /\ s' = Sx t d (set_pcur (p + List.length ds) b)) (Sx t d b).
  Proof using All.
    intros depth fl t d b p ds nxt HF HL3 HN HL HP HT Hn. destruct ds as [|c ds']; [cbn in HL3; clear - HL3; lia|].
    pose proof HT as HT0. apply text_at_cons in HT0. destruct HT0 as (Hc & _).
    assert (Oc : octal c) by (inversion HF; assumption). unfold octal in Oc.
    assert (Hne : forall k, (k < 48 \/ 55 < k)%N -> mbeq (Some c) k = false) by (intros k Hk; apply N.eqb_neq; clear - Oc Hk; lia).
    cbn [read_escape_n]. ws. eapply sx_line; eauto; [clear - Oc; lia|].
    rewrite !Hne by (vm_compute; auto).
    replace (is_digit (Some c)) with true by (symmetry; cbn; unfold b_is_digit, in_range; clear - Oc; change "0"%bn with 48%N; change "9"%bn with 57%N; lia).
    ws. eapply sx_push; eauto. ws. ws. 
    change (buffer (Sx t d (set_pcur p b))) with (set_pcur p b). change (pcur (set_pcur p b)) with p.
    pose proof (line_rebase _ _ _ _ HL) as HL1.
    rewrite (scan_oct_ok (set_pcur p b) (c :: ds') p); [| |exact HF|clear - HL3; lia|].
    2:{ eapply line_digits; eauto. }
    2:{ destruct (Nat.eq_dec (List.length (c :: ds')) 3) as [E|E]; [left; exact E|right]. exists nxt. split; [|apply HN; clear - E HL3; lia].
        rewrite (line_bytes _ _ _ _ _ HL1). exact Hn. }
    ws. ws. ws. split; reflexivity.
  Qed.

  Lemma re_hex : forall depth fl t d b p ds nxt, Forall hexadecimal ds -> 1 <= List.length ds <= 2 -> (List.length ds < 2 -> ~ hexadecimal nxt) ->
    Line b p -> pcur b = p -> nth_error B p = Some 120%N -> text_at B (p + 1) ds -> nth_error B (p + 1 + List.length ds) = Some nxt ->
    wp e (read_escape_n (S depth) fl) (fun r s' => r = Some (hex_number ds) /\ s' = Sx t d (set_pcur (p + 1 + List.length ds) b)) (Sx t d b).
  Proof using All.
    intros depth fl t d b p ds nxt HF HL3 HN HL HP Hc HT Hn.
    cbn [read_escape_n]. ws. eapply sx_line; eauto; [discriminate|].
    repeat match goal with |- context [if ?c then _ else _] => let r := eval vm_compute in c in match r with true => idtac | false => idtac end; change c with r; cbv iota end.
    ws. unfold tok_hex. ws. ws.
    assert (HL1 : Line b (p + 1)). { eapply line_next; eauto; try discriminate. pose proof (in_file _ _ Hn) as K. clear - K. lia. }
    pose proof (line_rebase _ _ _ _ HL1) as HL2.
    change (buffer (Sx t d (set_pcur (p + 1) b))) with (set_pcur (p + 1) b). change (pcur (set_pcur (p + 1) b)) with (p + 1).
    edestruct (scan_hex_ok (set_pcur (p + 1) b) ds 2 (p + 1)) as (v & E1 & E2); [eapply line_digits; eauto|exact HF|clear - HL3; lia| |].
    { destruct (Nat.eq_dec (List.length ds) 2) as [E|E]; [left; exact E|right]. exists nxt. split; [|apply HN; clear - E HL3; lia].
      rewrite (line_bytes _ _ _ _ _ HL2). exact Hn. }
    rewrite E1. replace (List.length ds =? 0) with false by (clear - HL3; lia). ws. ws. ws.
    replace (List.length ds =? 0) with false by (clear - HL3; lia). ws.
    split; [|reflexivity].
    rewrite E2 by (clear - HL3; lia). unfold as_u8. rewrite N.mod_small; [reflexivity|].
      eapply N.lt_le_trans; [apply hex_number_bound; exact HF|]. change 256%N with (16 ^ 2)%N. apply N.pow_le_mono_r; [discriminate|clear - HL3; lia].
  Qed.

  (** *** Control and meta escapes *)
  Definition esc_flags (m k : bool) : N := ((if m then 2 else 0) + (if k then 1 else 0))%N.
  Definition esc_depth (m k : bool) : nat := 1 + (if m then 0 else 1) + (if k then 0 else 1).

  Lemma small_forall : forall (P : N -> bool) v, forallb P (List.map N.of_nat (seq 0 256)) = true -> (v < 256)%N -> P v = true.
  Proof using.
    clear. intros P v H Hv. rewrite forallb_forall in H. apply H. apply in_map_iff. exists (N.to_nat v). split; [apply N2Nat.id|].
    apply in_seq. lia.
  Qed.
  Lemma meta_bits : forall v, (v < 256)%N -> N.lor v 128 = with_meta v.
  Proof using. clear. intros v Hv. apply N.eqb_eq. apply (small_forall (fun v => N.eqb (N.lor v 128) (with_meta v))); [vm_compute; reflexivity|exact Hv]. Qed.
  Lemma control_bits : forall v, (v < 256)%N -> N.land v 159 = with_control v.
  Proof using. clear. intros v Hv. apply N.eqb_eq. apply (small_forall (fun v => N.eqb (N.land v 159) (with_control v))); [vm_compute; reflexivity|exact Hv]. Qed.
  Lemma escaped_small : forall nxt m k w v, escaped_byte nxt m k w v -> (v < 256)%N.
  Proof using.
    clear. intros nxt m k w v H. induction H; unfold visible in *.
    - reflexivity.
    - destruct H; reflexivity.
    - lia.
    - apply N.mod_lt. discriminate.
    - eapply N.lt_le_trans; [apply hex_number_bound; assumption|]. change 256%N with (16 ^ 2)%N. apply N.pow_le_mono_r; [discriminate|lia].
    - unfold with_meta. assert (c mod 128 < 128)%N by (apply N.mod_lt; discriminate). lia.
    - unfold with_meta. assert (v mod 128 < 128)%N by (apply N.mod_lt; discriminate). lia.
    - reflexivity.
    - rewrite <- control_bits by lia. apply N.lt_le_trans with 256%N; [|lia]. apply N.eqb_eq with (n := 0%N) (m := 0%N) in H0 || idtac.
      apply N.ltb_lt. apply (small_forall (fun v => N.land v 159 <? 256)%N); [vm_compute; reflexivity|lia].
    - rewrite <- control_bits by lia. apply N.ltb_lt. apply (small_forall (fun v => N.land v 159 <? 256)%N); [vm_compute; reflexivity|lia].
  Qed.
  Lemma visible_plain : forall c, visible c -> c <> 13%N /\ c <> 10%N /\ is_eof (Some c) || negb (is_ascii (Some c)) = false /\
    escaped_control_code (Some c) = None /\ is_control (Some c) = false.
  Proof using.
    clear. unfold visible. intros c H. splits; try lia.
    - cbn. unfold b_is_ascii. lia.
    - unfold escaped_control_code, mbeq, mb_test.
      repeat match goal with |- context [N.eqb c ?x] => replace (N.eqb c x) with false by (symmetry; apply N.eqb_neq; lia) end. reflexivity.
    - cbn. unfold b_is_control, in_range. lia.
  Qed.
  Ltac settle := repeat match goal with |- context [if ?c then _ else _] =>
    let r := eval vm_compute in c in match r with true => idtac | false => idtac end; change c with r; cbv iota end.

  (** What is read behind [\C-] or [\c] *)
  Definition control_rest (depth : nat) (flags : N) : M Lexer MaybeByte :=
    c <- nextc ;;
    let finish c := ret (mb_map c (fun c => Some (N.land c 159))) in
    if mbeq c "\" then
      p <- gets (fun s => peekc (buffer s)) ;;
      if mbeq p "u" || mbeq p "U" then
        nextc ;;; read_escape_eof
      else
        c <- read_escape_n depth (N.lor flags ESCAPE_CONTROL) ;;
        finish c
    else if mbeq c "?" then ret (Some 127%N)
    else if is_eof c || negb (is_ascii c) then read_escape_eof
    else
      match escaped_control_code c with
      | Some c2 =>
          (if is_control c then
             if has flags ESCAPE_META then warn_space_char c2 "\M-" else warn_space_char c2 ""
           else if has flags ESCAPE_META then warn_space_char c2 "\M-\C-"
           else warn_space_char c2 "\C-") ;;;
          finish c
      | None => if is_control c then read_escape_eof else finish c
      end.
  Lemma line_on : forall b p x, Line b p -> nth_error B p = Some x -> x <> 13%N -> x <> 10%N -> p + 1 < List.length B -> Line (set_pcur (p + 1) b) (p + 1).
  Proof using. clear. intros. apply line_rebase. eapply line_next; eauto. Qed.
  Lemma control_open : forall depth m pre w t d b p (Q : MaybeByte -> Lexer -> Prop), control_prefix pre ->
    Line b p -> pcur b = p -> text_at B p (pre ++ w) -> p + List.length pre < List.length B ->
    (Line (set_pcur (p + List.length pre) b) (p + List.length pre) -> wp e (control_rest depth (esc_flags m false)) Q (Sx t d (set_pcur (p + List.length pre) b))) ->
    wp e (read_escape_n (S depth) (esc_flags m false)) Q (Sx t d b).
  Proof using All.
    intros depth m pre w t d b p Q HP0 HL HP HT HB HQ. destruct HP0; cbn [app List.length] in *.
    - replace (p + 2) with (p + 1 + 1) in * by (clear; lia).
      apply text_at_cons in HT. destruct HT as (Hc & HT). apply text_at_cons in HT. destruct HT as (Hc1 & HT).
      assert (HL1 : Line (set_pcur (p + 1) b) (p + 1)) by (eapply line_on; eauto; [discriminate|discriminate|clear - HB; lia]).
      cbn [read_escape_n]. ws. eapply sx_line; eauto; [discriminate|]. settle. ws. ws.
      eapply sx_line; [exact HL1|reflexivity|exact Hc1|discriminate|]. ws. settle.
      replace (has (esc_flags m false) ESCAPE_CONTROL) with false by (destruct m; reflexivity).
      apply HQ. apply (line_on (set_pcur (p + 1) b) (p + 1) 45%N); auto; discriminate.
    - apply text_at_cons in HT. destruct HT as (Hc & HT).
      cbn [read_escape_n]. ws. eapply sx_line; eauto; [discriminate|]. settle. ws. ws. settle.
      replace (has (esc_flags m false) ESCAPE_CONTROL) with false by (destruct m; reflexivity).
      apply HQ. apply (line_on b p 99%N); auto; discriminate.
  Qed.
  (** The letter behind a nested backslash is no [u] *)
  Lemma peek_nested : forall nxt m k w v t d b p A (f : M Lexer A) g (Q : A -> Lexer -> Prop), escaped_byte nxt m k w v -> hd 0%N w <> 85%N ->
    Line b p -> pcur b = p -> nth_error B p = Some 92%N -> text_at B (p + 1) w -> nth_error B (p + 1 + List.length w) = Some nxt ->
    wp e g Q (Sx t d (set_pcur (p + 1) b)) ->
    wp e (p <- gets (fun s => peekc (buffer s)) ;; if mbeq p "u" || mbeq p "U" then f else g) Q (Sx t d (set_pcur (p + 1) b)).
  Proof using All.
    intros nxt m k w v t d b p A f g Q H HU HL HP Hp HT Hn HQ. ws. ws. change (buffer (Sx t d (set_pcur (p + 1) b))) with (set_pcur (p + 1) b).
    destruct w as [|x w]; [exfalso; inversion H; subst; try (cbn in *; clear - H1; lia); destruct pre; discriminate|].
    apply text_at_cons in HT. destruct HT as (Hx & _). cbn [hd] in HU.
    assert (HL1 : Line (set_pcur (p + 1) b) (p + 1)).
    { apply line_rebase. eapply line_next; eauto; try discriminate. apply nth_error_Some. congruence. }
    unfold peekc, peekc_n, is_eol_n. change (pcur (set_pcur (p + 1) b)) with (p + 1). rewrite Nat.add_0_r.
    pose proof (ln_lt _ _ _ _ HL1) as K. replace (pend (set_pcur (p + 1) b) <=? p + 1) with false by (clear - K; lia).
    rewrite (line_bytes _ _ _ _ _ HL1), Hx.
    assert (Ex : x <> 117%N).
    { clear - H. inversion H; subst; try discriminate;
      try match goal with K : control_prefix ?q, E : ?q ++ _ = _ |- _ => destruct K; cbn [app] in E; congruence end.
      - match goal with K : letter_escape _ _ |- _ => inversion K; discriminate end.
      - match goal with K : self_escape _ |- _ => destruct K as ((_ & _ & _ & _ & K & _) & _); exact K end.
      - match goal with K : Forall octal _ |- _ => inversion K; subst; unfold octal in *; lia end. }
    replace (mbeq (Some x) "u") with false by (symmetry; apply N.eqb_neq; assumption).
    replace (mbeq (Some x) "U") with false by (symmetry; apply N.eqb_neq; assumption). exact HQ.
  Qed.

  Lemma re_byte : forall nxt m k w v, escaped_byte nxt m k w v -> forall depth, esc_depth m k <= depth -> forall t d b p,
    Line b p -> pcur b = p -> text_at B p w -> nth_error B (p + List.length w) = Some nxt ->
    wp e (read_escape_n depth (esc_flags m k)) (fun r s' => r = Some v /\ s' = Sx t d (set_pcur (p + List.length w) b)) (Sx t d b).
  Proof using All.
    intros nxt m k w v H. induction H; intros depth Hd t d b p HL HP HT Hn; pose proof (in_file _ _ Hn) as HB; destruct depth as [|depth]; try (exfalso; clear - Hd; unfold esc_depth in Hd; lia).
    - apply text_at_cons in HT. destruct HT as (Hc & _). cbn [read_escape_n]. ws. eapply sx_line; eauto; [discriminate|].
      change (mbeq (Some 92%N) "\") with true. cbv iota. ws. split; reflexivity.
    - apply text_at_cons in HT. destruct HT as (Hc & _). eapply re_letter; eauto.
    - apply text_at_cons in HT. destruct HT as (Hc & _). eapply re_self; eauto.
    - eapply re_octal; eauto.
    - apply text_at_cons in HT. destruct HT as (Hc & HT). cbn [List.length] in *. replace (p + S (List.length ds)) with (p + 1 + List.length ds) in * by (clear; lia).
      eapply re_hex; eauto.
    - apply text_at_cons in HT. destruct HT as (Hc & HT). apply text_at_cons in HT. destruct HT as (Hc1 & HT). apply text_at_cons in HT. destruct HT as (Hc2 & _).
      cbn [List.length] in *. replace (p + 3) with (p + 1 + 1 + 1) in * by (clear; lia).
      assert (HL1 : Line (set_pcur (p + 1) b) (p + 1)) by (eapply line_on; eauto; [discriminate|discriminate|clear - HB; lia]).
      assert (HL2 : Line (set_pcur (p + 1 + 1) b) (p + 1 + 1)) by (apply (line_on (set_pcur (p + 1) b) (p + 1) 45%N); auto; [discriminate|discriminate|clear - HB; lia]).
      destruct (visible_plain _ H) as (V1 & V2 & V3 & V4 & V5).
      cbn [read_escape_n]. ws. eapply sx_line; eauto; [discriminate|]. settle.
      replace (has (esc_flags false k) ESCAPE_META) with false by (destruct k; reflexivity). ws.
      eapply sx_line; [exact HL1|reflexivity|exact Hc1|discriminate|]. settle. ws.
      eapply sx_line; [exact HL2|reflexivity|exact Hc2|exact V1|].
      replace (mbeq (Some c) "\") with false by (symmetry; apply N.eqb_neq; assumption). rewrite V3, V4, V5. ws.
      split; [|reflexivity]. cbn [mb_map]. rewrite meta_bits; [reflexivity|unfold visible in H; clear - H; lia].
    - apply text_at_cons in HT. destruct HT as (Hc & HT). apply text_at_cons in HT. destruct HT as (Hc1 & HT). apply text_at_cons in HT. destruct HT as (Hc2 & HT).
      cbn [List.length] in *. replace (p + S (S (S (List.length w)))) with (p + 1 + 1 + 1 + List.length w) in * by (clear; lia).
      assert (HL1 : Line (set_pcur (p + 1) b) (p + 1)) by (eapply line_on; eauto; [discriminate|discriminate|clear - HB; lia]).
      assert (HL2 : Line (set_pcur (p + 1 + 1) b) (p + 1 + 1)) by (apply (line_on (set_pcur (p + 1) b) (p + 1) 45%N); auto; [discriminate|discriminate|clear - HB; lia]).
      assert (HL3 : Line (set_pcur (p + 1 + 1 + 1) b) (p + 1 + 1 + 1)) by (apply (line_on (set_pcur (p + 1 + 1) b) (p + 1 + 1) 92%N); auto; [discriminate|discriminate|clear - HB; lia]).
      cbn [read_escape_n]. ws. eapply sx_line; eauto; [discriminate|]. settle.
      replace (has (esc_flags false k) ESCAPE_META) with false by (destruct k; reflexivity). ws.
      eapply sx_line; [exact HL1|reflexivity|exact Hc1|discriminate|]. settle. ws.
      eapply sx_line; [exact HL2|reflexivity|exact Hc2|discriminate|]. settle.
      eapply (peek_nested nxt true k w v t d (set_pcur (p + 1 + 1) b) (p + 1 + 1)); auto. ws.
      replace (N.lor (esc_flags false k) ESCAPE_META) with (esc_flags true k) by (destruct k; reflexivity).
      eapply wp_conseq; [apply (IHescaped_byte depth); [clear - Hd; unfold esc_depth in *; lia|exact HL3|reflexivity|exact HT|exact Hn]|].
      intros r s' (-> & ->). ws. split; [|reflexivity]. cbn [mb_map]. rewrite meta_bits; [reflexivity|eapply escaped_small; eauto].
    - rewrite app_length in *. cbn [List.length] in *. rewrite Nat.add_assoc in *.
      eapply control_open; eauto; [clear - HB; lia|]. intros HL1.
      apply text_at_app in HT. destruct HT as (_ & HT). apply text_at_cons in HT. destruct HT as (Hc2 & _).
      unfold control_rest. ws. eapply sx_line; [exact HL1|reflexivity|exact Hc2|discriminate|]. settle. ws. split; reflexivity.
    - destruct (visible_plain _ H0) as (V1 & V2 & V3 & V4 & V5). rewrite app_length in *. cbn [List.length] in *. rewrite Nat.add_assoc in *.
      eapply control_open; eauto; [clear - HB; lia|]. intros HL1.
      apply text_at_app in HT. destruct HT as (_ & HT). apply text_at_cons in HT. destruct HT as (Hc2 & _).
      unfold control_rest. ws. eapply sx_line; [exact HL1|reflexivity|exact Hc2|exact V1|].
      replace (mbeq (Some c) "\") with false by (symmetry; apply N.eqb_neq; assumption).
      replace (mbeq (Some c) "?") with false by (symmetry; apply N.eqb_neq; assumption). rewrite V3, V4, V5. ws.
      split; [|reflexivity]. cbn [mb_map]. rewrite control_bits; [reflexivity|unfold visible in H0; clear - H0; lia].
    - rewrite app_length in *. cbn [List.length] in *. replace (p + (List.length pre + S (List.length w))) with (p + List.length pre + 1 + List.length w) in * by (clear; lia).
      eapply control_open; eauto; [clear - HB; lia|]. intros HL1.
      apply text_at_app in HT. destruct HT as (_ & HT). apply text_at_cons in HT. destruct HT as (Hc2 & HT).
      assert (HL2 : Line (set_pcur (p + List.length pre + 1) b) (p + List.length pre + 1)) by (apply (line_on (set_pcur (p + List.length pre) b) (p + List.length pre) 92%N); auto; [discriminate|discriminate|clear - HB; lia]).
      unfold control_rest. ws. eapply sx_line; [exact HL1|reflexivity|exact Hc2|discriminate|]. settle.
      eapply (peek_nested nxt m true w v t d (set_pcur (p + List.length pre) b) (p + List.length pre)); auto. ws.
      replace (N.lor (esc_flags m false) ESCAPE_CONTROL) with (esc_flags m true) by (destruct m; reflexivity).
      eapply wp_conseq; [apply (IHescaped_byte depth); [clear - Hd; unfold esc_depth in *; destruct m; lia|exact HL2|reflexivity|exact HT|exact Hn]|].
      intros r s' (-> & ->). ws. split; [|reflexivity]. cbn [mb_map]. rewrite control_bits; [reflexivity|eapply escaped_small; eauto].
  Qed.

  Lemma escaped_plain : forall nxt m k w v, escaped_byte nxt m k w v -> Forall (fun c => c <> 10 /\ c <> 13)%N w.
  Proof using.
    clear. intros nxt m k w v H. assert (P : forall pre, control_prefix pre -> Forall (fun c => c <> 10 /\ c <> 13)%N pre).
    { intros pre K. destruct K; repeat constructor; discriminate. }
    induction H; try (apply Forall_app; split; [apply P; assumption|]); repeat (constructor; [split; discriminate|]); auto.
    - destruct H; repeat constructor; discriminate.
    - destruct H as ((A1 & A2 & _) & _). repeat constructor; assumption.
    - apply octal_plain. assumption.
    - apply hex_plain. assumption.
    - unfold visible in H. repeat constructor; lia.
    - unfold visible in H0. repeat constructor; lia.
  Qed.

  (** The same from any reader *)
  Lemma re_cur : forall depth fl t d b p (Q : MaybeByte -> Lexer -> Prop), Cur b p -> p < List.length B ->
    (forall b1, Line b1 p -> pcur b1 = p -> wp e (read_escape_n (S depth) fl) Q (Sx t d b1)) -> wp e (read_escape_n (S depth) fl) Q (Sx t d b).
  Proof using All.
    intros depth fl t d b p Q HC Hp HQ. destruct (cur_line B order b p HC Hp) as (b1 & L1 & L2 & L3).
    specialize (HQ b1 L1 L2). assert (EN : nextc e (Sx t d b) = nextc e (Sx t d b1)).
    { unfold nextc, inb, zoom. change (buffer (Sx t d b)) with b. change (buffer (Sx t d b1)) with b1. rewrite L3. reflexivity. }
    assert (EB : forall A (f : MaybeByte -> M Lexer A), bind nextc f e (Sx t d b) = bind nextc f e (Sx t d b1)) by (intros; unfold bind; rewrite EN; reflexivity).
    unfold wp in *. cbn [read_escape_n] in *. rewrite EB. exact HQ.
  Qed.
  Lemma re_any : forall nxt w v t d b p, escaped_byte nxt false false w v -> Cur b p -> text_at B p w -> nth_error B (p + List.length w) = Some nxt ->
    wp e (read_escape 0) (fun r s' => exists b', r = Some v /\ s' = Sx t d b' /\ Cur b' (p + List.length w)) (Sx t d b).
  Proof using All.
    intros nxt w v t d b p H HC HT Hn. pose proof (in_file _ _ Hn) as K. apply (re_cur 2 0%N t d b p); [exact HC|clear - K; lia|].
    intros b1 L1 L2. eapply wp_conseq; [apply (re_byte nxt false false w v H 3 (Nat.le_refl 3) t d b1 p); auto|]. cbv beta.
    intros r s' (-> & ->). eexists. splits; [reflexivity..|]. apply line_cur. apply line_text; auto. eapply escaped_plain; eauto.
  Qed.
  Lemma re_char : forall c t d b p, self_escape c -> Cur b p -> nth_error B p = Some c ->
    wp e (read_escape 0) (fun r s' => exists b', r = Some c /\ s' = Sx t d b' /\ Cur b' (p + 1)) (Sx t d b).
  Proof using All.
    intros c t d b p H HC Hc. pose proof (in_file _ _ Hc) as K. apply (re_cur 2 0%N t d b p); [exact HC|exact K|].
    intros b1 L1 L2. eapply wp_conseq; [apply (re_self 2 0%N t d b1 p c H); auto|]. cbv beta.
    intros r s' (-> & ->). eexists. splits; [reflexivity..|]. destruct H as ((A1 & A2 & _) & _). eapply line_after; eauto. intros E. contradiction.
  Qed.

  (** *** Code points *)
  Definition code_result (t : list N) (d : list Diagnostic) (p' : nat) (s' : Lexer) : Prop :=
    exists b', s' = Sx t d b' /\ Line b' p' /\ pcur b' = p'.

  Lemma line_at : forall b p ds, Line b p -> pcur b = p -> text_at B p ds -> Forall (fun c => c <> 10 /\ c <> 13)%N ds -> p + List.length ds < List.length B ->
    Line (set_pcur (p + List.length ds) (set_ptok p b)) (p + List.length ds).
  Proof using.
    clear. intros b p ds HL HP HT HF Hn. apply (line_rebase B order (set_ptok p b)). apply line_ptok; [|clear - HP; lia]. apply line_text; auto.
  Qed.

  Lemma cp_wide : forall t d b p ds v dg nx, code_point p ds v dg -> Line b p -> pcur b = p -> text_at B p ds -> nth_error B (p + List.length ds) = Some nx ->
    ~ hexadecimal nx ->
    wp e (tokadd_codepoint false true) (fun ok s' => ok = true /\ code_result (t ++ v) (d ++ dg) (p + List.length ds) s') (Sx t d b).
  Proof using All.
    intros t d b p ds v dg nx HCP HL HP HT Hn Hnx.
    assert (HF : Forall hexadecimal ds) by (destruct HCP; assumption).
    assert (HL2 : Line (set_pcur (p + List.length ds) (set_ptok p b)) (p + List.length ds)).
    { apply line_at; auto; [apply hex_plain; exact HF|eapply in_file; eauto]. }
    unfold tokadd_codepoint. ws. ws. ws. change (buffer (Sx t d b)) with b. rewrite HP.
    pose proof (ln_lt _ _ _ _ HL2) as LT. change (pend (set_pcur (p + List.length ds) (set_ptok p b))) with (pend b) in LT.
    apply wp_sub_ck; [clear - LT; lia|].
    edestruct (scan_hex_ok b ds (pend b - p) p) as (u & E1 & E2); [eapply line_digits; eauto|exact HF|clear - LT; lia| |].
    { right. exists nx. split; [|exact Hnx]. rewrite (line_bytes _ _ _ _ _ HL). exact Hn. }
    rewrite E1. unfold literal_flush. ws. ws. ws. ws.
    assert (HR : forall t' d', code_result t' d' (p + List.length ds) (Sx t' d' (set_pcur (p + List.length ds) (set_ptok p b)))).
    { intros t' d'. eexists. splits; eauto. }
    match goal with |- wp _ _ _ ?s => assert (ES : s = Sx t d (set_pcur (p + List.length ds) (set_ptok p b))) by (rewrite <- HP; reflexivity); rewrite ES; clear ES end.
    destruct HCP as [ds _ HN HS|ds _ HN HS|ds _ HN HS|ds _ HN].
    - rewrite app_nil_r. rewrite (E2 ltac:(clear - HN; lia)).
      replace ((List.length ds =? 0) || (6 <? List.length ds)) with false by (clear - HN; lia). 
      replace (1114111 <? hex_number ds)%N with false by (unfold scalar in HS; clear - HS; lia).
      rewrite surrogate_bits by (unfold scalar in HS; clear - HS; lia).
      replace ((55296 <=? hex_number ds) && (hex_number ds <=? 57343))%N with false by (unfold scalar in HS; clear - HS; lia).
      destruct (128 <=? hex_number ds)%N eqn:E128.
      + ws. unfold tokaddmbc. replace (hex_number ds <? 2 ^ 32)%N with true by (unfold scalar in HS; clear - HS; lia).
        rewrite (scalar_from _ HS). ws. unfold expect. ws. unfold tok_append. ws. ws. split; [reflexivity|]. apply (HR (t ++ utf8 (hex_number ds))).
      + ws. ws. ws. split; [reflexivity|]. replace (utf8 (hex_number ds)) with [as_u8 (hex_number ds)]; [apply (HR (t ++ [as_u8 (hex_number ds)]))|].
        unfold utf8, as_u8. replace (hex_number ds <? 128)%N with true by (clear - E128; lia). rewrite N.mod_small; [reflexivity|clear - E128; lia].
    - rewrite app_nil_r. rewrite (E2 ltac:(clear - HN; lia)).
      replace ((List.length ds =? 0) || (6 <? List.length ds)) with false by (clear - HN; lia). 
      replace (1114111 <? hex_number ds)%N with false by (unfold surrogate in HS; clear - HS; lia).
      rewrite surrogate_bits by (unfold surrogate in HS; clear - HS; lia).
      replace ((55296 <=? hex_number ds) && (hex_number ds <=? 57343))%N with true by (unfold surrogate in HS; clear - HS; lia).
      ws. unfold yyerror0. ws. ws. unfold yyerror1, emit. ws. ws. split; [reflexivity|].
      apply (HR t (d ++ [mkDiag Error InvalidUnicodeCodepoint (mkLoc p (p + List.length ds))])).
    - rewrite app_nil_r. rewrite (E2 ltac:(clear - HN; lia)).
      replace ((List.length ds =? 0) || (6 <? List.length ds)) with false by (clear - HN; lia). 
      replace (1114111 <? hex_number ds)%N with true by (clear - HS; lia).
      ws. unfold yyerror0. ws. ws. unfold yyerror1, emit. ws. ws. split; [reflexivity|].
      apply (HR t (d ++ [mkDiag Error TooLargeUnicodeCodepoint (mkLoc p (p + List.length ds))])).
    - rewrite app_nil_r. replace ((List.length ds =? 0) || (6 <? List.length ds)) with true by (clear - HN; lia).
      ws. ws. ws. unfold yyerror1, emit. ws. ws. split; [replace (0 <? List.length ds) with true by (clear - HN; lia); reflexivity|].
      apply (HR t (d ++ [mkDiag Error InvalidUnicodeEscape (mkLoc (p + List.length ds) (p + List.length ds + 1))])).
  Qed.

  Lemma cp_narrow : forall t d b p ds nx, Forall hexadecimal ds -> List.length ds = 4 -> Line b p -> pcur b = p -> text_at B p ds -> nth_error B (p + 4) = Some nx ->
    (scalar (hex_number ds) ->
      wp e (tokadd_codepoint false false) (fun ok s' => ok = true /\ code_result (t ++ utf8 (hex_number ds)) d (p + 4) s') (Sx t d b)) /\
    (surrogate (hex_number ds) ->
      wp e (tokadd_codepoint false false)
        (fun ok s' => ok = false /\ code_result t (d ++ [mkDiag Error InvalidUnicodeCodepoint (mkLoc p (p + 4))]) (p + 4) s') (Sx t d b)).
  Proof using All.
    intros t d b p ds nx HF H4 HL HP HT Hn.
    assert (HL2 : Line (set_pcur (p + 4) (set_ptok p b)) (p + 4)).
    { rewrite <- H4. apply line_at; auto; [apply hex_plain; exact HF|rewrite H4; eapply in_file; eauto]. }
    edestruct (scan_hex_ok b ds 4 p) as (u & E1 & E2); [eapply line_digits; eauto|exact HF|clear - H4; lia|left; exact H4|].
    rewrite H4 in E1, E2. rewrite E2 in E1 by (clear; lia).
    assert (HR : forall t' d', code_result t' d' (p + 4) (Sx t' d' (set_pcur (p + 4) (set_ptok p b)))).
    { intros t' d'. eexists. splits; eauto. }
    split; intros HS; unfold tokadd_codepoint; ws; ws; ws; ws; change (buffer (Sx t d b)) with b; rewrite HP, E1; unfold literal_flush; ws; ws; ws; ws;
    match goal with |- wp _ _ _ ?s => assert (ES : s = Sx t d (set_pcur (p + 4) (set_ptok p b))) by (rewrite <- HP; reflexivity); rewrite ES; clear ES end;
    change (4 <? 4) with false; cbv iota.
    - replace (1114111 <? hex_number ds)%N with false by (unfold scalar in HS; clear - HS; lia).
      rewrite surrogate_bits by (unfold scalar in HS; clear - HS; lia).
      replace ((55296 <=? hex_number ds) && (hex_number ds <=? 57343))%N with false by (unfold scalar in HS; clear - HS; lia).
      destruct (128 <=? hex_number ds)%N eqn:E128.
      + ws. unfold tokaddmbc. replace (hex_number ds <? 2 ^ 32)%N with true by (unfold scalar in HS; clear - HS; lia).
        rewrite (scalar_from _ HS). ws. unfold expect. ws. unfold tok_append. ws. ws. split; [reflexivity|]. apply (HR (t ++ utf8 (hex_number ds))).
      + ws. ws. ws. split; [reflexivity|]. replace (utf8 (hex_number ds)) with [as_u8 (hex_number ds)]; [apply (HR (t ++ [as_u8 (hex_number ds)]))|].
        unfold utf8, as_u8. replace (hex_number ds <? 128)%N with true by (clear - E128; lia). rewrite N.mod_small; [reflexivity|clear - E128; lia].
    - replace (1114111 <? hex_number ds)%N with false by (unfold surrogate in HS; clear - HS; lia).
      rewrite surrogate_bits by (unfold surrogate in HS; clear - HS; lia).
      replace ((55296 <=? hex_number ds) && (hex_number ds <=? 57343))%N with true by (unfold surrogate in HS; clear - HS; lia).
      ws. unfold yyerror0. ws. ws. unfold yyerror1, emit. ws. ws. split; [reflexivity|].
      apply (HR t (d ++ [mkDiag Error InvalidUnicodeCodepoint (mkLoc p (p + 4))])).
  Qed.

  Lemma gap_space : forall c, gap_byte c -> is_space (Some c) = true.
  Proof using. clear. intros c H. unfold gap_byte in H. cbn. unfold b_is_space, in_range. lia. Qed.

  Lemma line_step : forall b p x y, Line b p -> pcur b = p -> nth_error B p = Some x -> (x <> 10 /\ x <> 13)%N -> nth_error B (p + 1) = Some y ->
    Line (set_pcur (p + 1) b) (p + 1).
  Proof using.
    clear. intros b p x y HL HP Hx (H1 & H2) Hy. apply line_rebase. eapply line_next; eauto. eapply in_file; eauto.
  Qed.

  Lemma next_some : forall p (x : N) w z, text_at B p (x :: w) -> nth_error B (p + List.length (x :: w)) = Some z -> exists y, nth_error B (p + 1) = Some y.
  Proof using.
    clear. intros p x w z HT Hz. destruct (nth_error B (p + 1)) as [y|] eqn:E; [eauto|exfalso]. apply nth_error_None in E. pose proof (in_file _ _ Hz) as K.
    cbn [List.length] in K. lia.
  Qed.

  Lemma skip1 : forall gap b p t d z, Forall gap_byte gap -> text_at B p gap -> nth_error B (p + List.length gap) = Some z -> is_space (Some z) = false ->
    Line b p -> pcur b = p ->
    wp e utf8_skip_spaces1 (fun r s' => r = Some z /\ code_result t d (p + List.length gap) s') (Sx t d b).
  Proof using All.
    intros gap b p t d z HF HT Hz Hsp HL HP. unfold utf8_skip_spaces1, loop.
    match goal with |- wp e (fun e1 s1 => loop_n (fuel e1) ?body tt e1 s1) ?Q ?s => change (wp e (loop_n (fuel e) body tt) Q s) end.
    assert (Hm : List.length gap < fuel e). { pose proof (in_file _ _ Hz) as K. clear - K Hfuel. lia. }
    revert Hm. generalize (fuel e). intros m Hm. revert m b p HF HT Hz HL HP Hm. induction gap as [|x gap IH]; intros m b p HF HT Hz HL HP Hm;
      (destruct m as [|m]; [clear - Hm; cbn in Hm; lia|]); cbn [loop_n]; ws; ws; ws; change (buffer (Sx t d b)) with b; rewrite HP.
    - cbn [List.length] in *. rewrite Nat.add_0_r in *. rewrite (line_bytes _ _ _ _ _ HL), Hz, Hsp. cbn [negb]. ws. ws. split; [reflexivity|].
      exists b. splits; auto.
    - destruct (next_some _ _ _ _ HT Hz) as (y & Hy). apply text_at_cons in HT. destruct HT as (Hx & HT). inversion HF as [|? ? F1 F2]; subst x0 l.
      rewrite (line_bytes _ _ _ _ _ HL), Hx, (gap_space _ F1). cbn [negb]. ws. ws. ws. ws.
      assert (HL2 : Line (set_pcur (p + 1) b) (p + 1)). { eapply line_step; eauto. unfold gap_byte in F1. clear - F1. lia. }
      match goal with |- context [pend ?b'] => change (pend b') with (pend b); change (pcur b') with (pcur b + 1) end. rewrite HP.
      pose proof (ln_lt _ _ _ _ HL2) as K. change (pend (set_pcur (p + 1) b)) with (pend b) in K.
      replace (pend b <=? p + 1) with false by (clear - K; lia). ws.
      match goal with |- wp _ _ _ ?s => assert (ES : s = Sx t d (set_pcur (p + 1) b)) by (rewrite <- HP; reflexivity); rewrite ES; clear ES end.
      replace (p + List.length (x :: gap)) with (p + 1 + List.length gap) in * by (clear; cbn; lia).
      apply IH; auto. cbn in Hm. clear - Hm. lia.
  Qed.

  Lemma skip2 : forall gap b p t d z last, Forall gap_byte gap -> text_at B p gap -> nth_error B (p + List.length gap) = Some z -> is_space (Some z) = false ->
    Line b p -> pcur b = p ->
    wp e (utf8_skip_spaces2 last) (fun r s' => (exists l, r = Some (Some z, l)) /\ code_result t d (p + List.length gap) s') (Sx t d b).
  Proof using All.
    intros gap b p t d z last HF HT Hz Hsp HL HP. unfold utf8_skip_spaces2, loop.
    match goal with |- wp e (fun e1 s1 => loop_n (fuel e1) ?body last e1 s1) ?Q ?s => change (wp e (loop_n (fuel e) body last) Q s) end.
    assert (Hm : List.length gap < fuel e). { pose proof (in_file _ _ Hz) as K. clear - K Hfuel. lia. }
    revert Hm. generalize (fuel e). intros m Hm. revert m b p last HF HT Hz HL HP Hm. induction gap as [|x gap IH]; intros m b p last HF HT Hz HL HP Hm;
      (destruct m as [|m]; [clear - Hm; cbn in Hm; lia|]); cbn [loop_n]; ws; ws; ws; change (buffer (Sx t d b)) with b; rewrite HP.
    - cbn [List.length] in *. rewrite Nat.add_0_r in *. rewrite (line_bytes _ _ _ _ _ HL), Hz, Hsp. cbn [negb]. ws. ws. split; [eauto|].
      exists b. splits; auto.
    - destruct (next_some _ _ _ _ HT Hz) as (y & Hy). apply text_at_cons in HT. destruct HT as (Hx & HT). inversion HF as [|? ? F1 F2]; subst x0 l.
      rewrite (line_bytes _ _ _ _ _ HL), Hx, (gap_space _ F1). cbn [negb]. ws. ws. ws. ws.
      assert (HL2 : Line (set_pcur (p + 1) b) (p + 1)). { eapply line_step; eauto. unfold gap_byte in F1. clear - F1. lia. }
      match goal with |- context [pend ?b'] => change (pend b') with (pend b); change (pcur b') with (pcur b + 1) end. rewrite HP.
      pose proof (ln_lt _ _ _ _ HL2) as K. change (pend (set_pcur (p + 1) b)) with (pend b) in K.
      replace (pend b <=? p + 1) with false by (clear - K; lia). ws.
      match goal with |- wp _ _ _ ?s => assert (ES : s = Sx t d (set_pcur (p + 1) b)) by (rewrite <- HP; reflexivity); rewrite ES; clear ES end.
      replace (p + List.length (x :: gap)) with (p + 1 + List.length gap) in * by (clear; cbn; lia).
      apply IH; auto. cbn in Hm. clear - Hm. lia.
  Qed.

  Definition cps_body : MaybeByte * MaybeByte * option nat * bool -> M Lexer (MaybeByte * MaybeByte * option nat * bool + option (MaybeByte * option nat * bool)) :=
    fun '(c, last, second, err) =>
    if mbeq c "}" then ret (inr (Some (c, second, err)))
    else if mbeq_opt c (Some term) then tokadd_utf8_unterminated ;;; ret (inr None)
    else
      b <- getb ;;
      let second := if err : bool then Some (pcur b) else second in
      when false (tokadd_mb last) ;;;
      ok <- tokadd_codepoint false true ;;
      if negb ok then ret (inr (Some (c, second, err)))
      else
        r <- utf8_skip_spaces2 last ;;
        match r with
        | None => tokadd_utf8_unterminated ;;; ret (inr None)
        | Some (c, last) =>
            let err := match Some term, second with None, None => true | _, _ => err end in
            ret (inl (c, last, second, err))
        end.

  Lemma cps_loop : forall c last, utf8_codepoints (Some term) false c last = loop cps_body (c, last, @None nat, false).
  Proof using. reflexivity. Qed.

  Lemma code_point_first : forall q ds v dg, code_point q ds v dg -> exists x ds', ds = x :: ds' /\ hexadecimal x /\ Forall hexadecimal ds.
  Proof using.
    clear. intros q ds v dg H. assert (H1 : Forall hexadecimal ds /\ 1 <= List.length ds) by (destruct H; split; auto; lia). destruct H1 as (H1 & H2).
    destruct ds as [|x ds']; [cbn in H2; lia|]. exists x, ds'. inversion H1; auto.
  Qed.

  Lemma hex_not_space : forall x, hexadecimal x -> is_space (Some x) = false.
  Proof using. clear. intros x H. unfold hexadecimal in H. cbn. unfold b_is_space, in_range. lia. Qed.

  Lemma code_points_first : forall q us v dg, code_points q us v dg -> exists x us', us = x :: us' /\ hexadecimal x.
  Proof using.
    clear. intros q us v dg H. destruct H as [q ds gap v d H _|q ds gap rest v d v' d' H _ _ _];
      destruct (code_point_first _ _ _ _ H) as (x & ds' & -> & Hx & _); cbn [app]; eauto.
  Qed.

  Lemma gap_not_hex : forall x, gap_byte x -> ~ hexadecimal x.
  Proof using. clear. unfold gap_byte, hexadecimal. intros x H K. lia. Qed.

  Lemma cps_iter : forall m q ds gap v dg z (Q : option (MaybeByte * option nat * bool) -> Lexer -> Prop) b t d c last,
    ~ hexadecimal term -> code_point q ds v dg -> Forall gap_byte gap -> text_at B q (ds ++ gap) ->
    nth_error B (q + List.length (ds ++ gap)) = Some z -> is_space (Some z) = false -> (gap = [] -> ~ hexadecimal z) ->
    Line b q -> pcur b = q -> nth_error B q = Some c ->
    (forall l b', Line b' (q + List.length (ds ++ gap)) -> pcur b' = q + List.length (ds ++ gap) ->
      wp e (loop_n m cps_body (Some z, l, None, false)) Q (Sx (t ++ v) (d ++ dg) b')) ->
    wp e (loop_n (S m) cps_body (Some c, last, None, false)) Q (Sx t d b).
  Proof using All.
    intros m q ds gap v dg z Q b t d c last Hterm HCP HG HT Hz Hsp HGZ HL HP Hc HK.
    destruct (code_point_first _ _ _ _ HCP) as (x & ds' & Eds & Hx & HFds).
    assert (Ecx : c = x). { rewrite Eds in HT. apply text_at_cons in HT. destruct HT as (T1 & _). congruence. }
    apply text_at_app in HT. destruct HT as (HT1 & HT2). rewrite app_length in *.
    cbn [loop_n]. ws. unfold cps_body at 1.
    replace (mbeq (Some c) "}") with false. 2:{ symmetry. apply N.eqb_neq. subst c. unfold hexadecimal in Hx. clear - Hx. intros ->. vm_compute in Hx. intuition congruence. }
    replace (mbeq_opt (Some c) (Some term)) with false. 2:{ symmetry. apply N.eqb_neq. intros E. apply Hterm. congruence. }
    ws. ws. ws. cbn [when]. ws. ws.
    assert (Hn : exists nx, nth_error B (q + List.length ds) = Some nx /\ ~ hexadecimal nx).
    { destruct gap as [|g gap]; [exists z; split; [|auto]; rewrite <- Hz; f_equal; cbn; clear; lia|]. apply text_at_cons in HT2. destruct HT2 as (T1 & _).
      exists g. split; [exact T1|]. inversion HG. apply gap_not_hex. assumption. }
    destruct Hn as (nx & Hn & Hnx). eapply wp_conseq; [eapply cp_wide; eauto|]. intros ok s' (-> & (b1 & -> & HL1 & HP1)). cbn [negb]. ws.
    eapply wp_conseq; [eapply (skip2 gap b1 (q + List.length ds)); eauto; rewrite <- Nat.add_assoc; exact Hz|].
    intros r s' ((l & ->) & (b2 & -> & HL2 & HP2)). ws. rewrite <- Nat.add_assoc in *. apply HK; auto.
  Qed.

  Lemma cps_run : forall q us v dg, code_points q us v dg -> ~ hexadecimal term -> text_at B q us -> nth_error B (q + List.length us) = Some 125%N ->
    forall m b t d c last, List.length us < m -> Line b q -> pcur b = q -> nth_error B q = Some c ->
    wp e (loop_n m cps_body (Some c, last, None, false))
      (fun r s' => r = Some (Some 125%N, None, false) /\ code_result (t ++ v) (d ++ dg) (q + List.length us) s') (Sx t d b).
  Proof using All.
    intros q us v dg HCPS Hterm. induction HCPS as [q ds gap v dg HCP HG|q ds gap rest v dg v' dg' HCP HG Hne HCPS IH];
      intros HT Hz m b t d c last Hm HL HP Hc; (destruct m as [|m]; [exfalso; clear - Hm; lia|]).
    - eapply (cps_iter m q ds gap v dg 125); eauto. { intros _. unfold hexadecimal. clear. lia. }
      intros l b' HL' HP'.
      destruct m as [|m]. { exfalso. destruct (code_point_first _ _ _ _ HCP) as (x & ds' & -> & _). cbn in Hm. clear - Hm. lia. }
      cbn [loop_n]. ws. unfold cps_body at 1. change (mbeq (Some 125%N) "}") with true. cbv iota. ws. ws. split; [reflexivity|]. exists b'. splits; auto.
    - destruct (code_points_first _ _ _ _ HCPS) as (z & rest' & Er & Hz').
      rewrite app_assoc in HT. apply text_at_app in HT. destruct HT as (HT1 & HT2).
      assert (Hzz : nth_error B (q + List.length (ds ++ gap)) = Some z). { rewrite Er in HT2. apply text_at_cons in HT2. apply HT2. }
      assert (EL : q + List.length (ds ++ gap) = q + List.length ds + List.length gap) by (rewrite app_length; clear; lia).
      assert (EL2 : q + List.length (ds ++ gap ++ rest) = q + List.length (ds ++ gap) + List.length rest) by (rewrite !app_length; clear; lia).
      eapply (cps_iter m q ds gap v dg z); eauto. { apply hex_not_space. exact Hz'. } 
      intros l b' HL' HP'. rewrite EL2, EL, (app_assoc t v v'), (app_assoc d dg dg'). rewrite EL2, EL in Hz. rewrite EL in HL', HP', Hzz, HT2.
      apply IH; auto. rewrite !app_length in Hm. clear - Hm Hne HCP. destruct (code_point_first _ _ _ _ HCP) as (x & ds' & -> & _). cbn in Hm. lia.
  Qed.

  Lemma sx_peek : forall t d b p x c (Q : bool -> Lexer -> Prop), Line b p -> pcur b = p -> nth_error B p = Some x ->
    Q (N.eqb c x) (Sx t d b) -> wp e (peek c) Q (Sx t d b).
  Proof using All.
    intros t d b p x c Q HL HP Hx HQ. unfold peek, inb. apply wp_zoom. unfold b_peek, b_peek_n. ws. apply wp_get.
    change (buffer (Sx t d b)) with b. pose proof (ln_lt _ _ _ _ HL) as K. unfold is_eol_n. rewrite HP, Nat.add_0_r.
    replace (pend b <=? p) with false by (clear - K; lia). ws.
    pose proof (line_bytes _ _ _ _ p HL) as Kb. unfold byte_at in Kb. rewrite Kb, Hx. unfold expect. ws. ws. exact HQ.
  Qed.

  Lemma step_unicode : forall nxt p n ds m0 t d Q, interp = true -> ~ delim paren term 92%N -> Forall hexadecimal ds -> List.length ds = 4 ->
    nth_error B p = Some 92%N -> nth_error B (p + 1) = Some 117%N -> text_at B (p + 2) ds -> nth_error B (p + 6) = Some nxt ->
    (scalar (hex_number ds) -> Cont m0 n (p + 6) (t ++ utf8 (hex_number ds)) d Q -> Cont (m0 + 6) n p t d Q) /\
    (surrogate (hex_number ds) -> Cont m0 n (p + 6) t (d ++ [mkDiag Error InvalidUnicodeCodepoint (mkLoc (p + 2) (p + 6))]) Q -> Cont (m0 + 6) n p t d Q).
  Proof using All.
    intros nxt p n ds m0 t d Q HI HD HF H4 Hx Hc HT Hn.
    destruct ds as [|x ds']; [discriminate|]. pose proof HT as HT0. apply text_at_cons in HT0. destruct HT0 as (Hx0 & _).
    assert (Hhx : hexadecimal x) by (inversion HF; assumption).
    assert (HBX : forall b2, Line b2 (p + 1) -> pcur b2 = p + 1 -> Line (set_pcur (p + 2) b2) (p + 2)).
    { intros b2 HL HP. replace (p + 2) with (p + 1 + 1) by (clear; lia). eapply line_step; eauto; [split; discriminate|]. replace (p + 1 + 1) with (p + 2) by (clear; lia). exact Hx0. }
    assert (HPEEK : N.eqb 123 x = false). { apply N.eqb_neq. unfold hexadecimal in Hhx. clear - Hhx. intros <-. vm_compute in Hhx. intuition congruence. }
    assert (Hn2 : nth_error B (p + 2 + 4) = Some nxt) by (replace (p + 2 + 4) with (p + 6) by (clear; lia); exact Hn).
    split; intros HS HK m b Hm HC; (destruct m as [|m]; [exfalso; clear - Hm; lia|]); (eapply ts_backslash; eauto; [discriminate|]);
      intros b2 HL HP; specialize (HBX b2 HL HP);
      change (mbeq (Some 117%N) 10%N) with false; change (mbeq (Some 117%N) "\") with false; change (mbeq (Some 117%N) "u") with true; cbv iota; rewrite HI; cbn [negb];
      ws; unfold tokadd_utf8; ws; cbn [when]; ws; ws; (eapply sx_peek; eauto); rewrite HPEEK; ws;
      destruct (cp_narrow t d (set_pcur (p + 2) b2) (p + 2) (x :: ds') nxt HF H4 HBX eq_refl HT Hn2) as (C1 & C2).
    - eapply wp_conseq; [exact (C1 HS)|]. intros ok s' (-> & (b3 & -> & HL3 & HP3)). cbn [negb]. ws. ws.
      replace (p + 2 + 4) with (p + 6) in * by (clear; lia). apply HK; [clear - Hm; lia|].
      pose proof (line_cur _ _ _ _ HL3) as K. rewrite <- HP3 in K at 1. destruct b3; exact K.
    - eapply wp_conseq; [exact (C2 HS)|]. intros ok s' (-> & (b3 & -> & HL3 & HP3)). cbn [negb]. ws. ws.
      replace (p + 2 + 4) with (p + 6) in * by (clear; lia).
      apply (HK m (set_ptok (pcur b3) b3)); [clear - Hm; lia|]. apply cur_ptok; [|clear - HP3; lia].
      pose proof (line_cur _ _ _ _ HL3) as K. rewrite <- HP3 in K at 1. destruct b3; exact K.
  Qed.

  Lemma line_here : forall b p, Line b p -> pcur b = p -> Cur b p.
  Proof using. clear. intros b p HL HP. pose proof (line_cur _ _ _ _ HL) as K. rewrite <- HP in K at 1. destruct b; exact K. Qed.

  Lemma step_braces : forall nxt p n gap us v dg m0 t d Q, interp = true -> ~ delim paren term 92%N -> ~ hexadecimal term -> Forall gap_byte gap ->
    code_points (p + 3 + List.length gap) us v dg ->
    text_at B p ([92; 117; 123]%N ++ gap ++ us ++ [125%N]) -> nth_error B (p + (4 + List.length gap + List.length us)) = Some nxt ->
    Cont m0 n (p + (4 + List.length gap + List.length us)) (t ++ v) (d ++ dg) Q -> Cont (m0 + 1) n p t d Q.
  Proof using All.
    intros nxt p n gap us v dg m0 t d Q HI HD HX HG HCPS HT Hn HK m b Hm HC.
    cbn [app] in HT. apply text_at_cons in HT. destruct HT as (T1 & HT). apply text_at_cons in HT. destruct HT as (T2 & HT).
    apply text_at_cons in HT. destruct HT as (T3 & HT). replace (p + 1 + 1) with (p + 2) in * by (clear; lia). replace (p + 2 + 1) with (p + 3) in * by (clear; lia).
    apply text_at_app in HT. destruct HT as (TG & HT). apply text_at_app in HT. destruct HT as (TU & HT). apply text_at_cons in HT. destruct HT as (TE & _).
    destruct (code_points_first _ _ _ _ HCPS) as (z & us' & Eus & Hz).
    assert (TZ : nth_error B (p + 3 + List.length gap) = Some z). { rewrite Eus in TU. apply text_at_cons in TU. apply TU. }
    assert (TY : exists y, nth_error B (p + 3) = Some y).
    { destruct gap as [|g gap']; [cbn [List.length] in TZ; rewrite Nat.add_0_r in TZ; eauto|]. apply text_at_cons in TG. exists g. apply TG. }
    destruct TY as (y & TY).
    destruct m as [|m]; [exfalso; clear - Hm; lia|]. eapply ts_backslash; eauto; [discriminate|].
    intros b2 HL HP. assert (HL2 : Line (set_pcur (p + 2) b2) (p + 2)).
    { replace (p + 2) with (p + 1 + 1) by (clear; lia). eapply line_step; eauto; [split; discriminate|]. replace (p + 1 + 1) with (p + 2) by (clear; lia). exact T3. }
    change (mbeq (Some 117%N) 10%N) with false; change (mbeq (Some 117%N) "\") with false; change (mbeq (Some 117%N) "u") with true; cbv iota; rewrite HI; cbn [negb].
    ws. unfold tokadd_utf8. ws. cbn [when]. ws. ws. eapply sx_peek; eauto. change (N.eqb 123 123) with true. cbv iota. ws.
    eapply (sx_nx t d (set_pcur (p + 2) b2) (p + 2)); [apply line_here; [exact HL2|reflexivity]|exact T3|discriminate|]. intros b3 HL3 HP3.
    assert (HL4 : Line (set_pcur (p + 3) b3) (p + 3)).
    { replace (p + 3) with (p + 2 + 1) by (clear; lia). eapply line_step; eauto; [split; discriminate|]. replace (p + 2 + 1) with (p + 3) by (clear; lia). exact TY. }
    replace (p + 2 + 1) with (p + 3) by (clear; lia). ws. ws.
    change (pend (buffer (Sx t d (set_pcur (p + 3) b3)))) with (pend (set_pcur (p + 3) b3)). change (pcur (buffer (Sx t d (set_pcur (p + 3) b3)))) with (p + 3).
    pose proof (ln_lt _ _ _ _ HL4) as K. replace (pend (set_pcur (p + 3) b3) <=? p + 3) with false by (clear - K; lia). clear K.
    ws. eapply wp_conseq; [eapply (skip1 gap (set_pcur (p + 3) b3) (p + 3)); eauto; apply hex_not_space; exact Hz|].
    intros r s' (-> & (b5 & -> & HL5 & HP5)). ws. rewrite cps_loop. unfold loop.
    match goal with |- wp e (fun e1 s1 => loop_n (fuel e1) ?body ?x e1 s1) ?Q ?s => change (wp e (loop_n (fuel e) body x) Q s) end.
    eapply wp_conseq; [eapply cps_run; eauto; pose proof (in_file _ _ TE) as K; clear - K Hfuel; lia|].
    intros r s' (-> & (b6 & -> & HL6 & HP6)). change (negb (mbeq (Some 125%N) "}")) with false. cbv iota. ws. ws. ws. cbn [when]. ws. ws.
    eapply (sx_nx (t ++ v) (d ++ dg) b6 _ 125%N); [apply line_here; eauto|exact TE|discriminate|]. intros b7 HL7 HP7. ws. ws.
    replace (p + 3 + List.length gap + List.length us + 1) with (p + (4 + List.length gap + List.length us)) in * by (clear; lia).
    apply HK; [clear - Hm; lia|]. replace (p + (4 + List.length gap + List.length us)) with (p + 3 + List.length gap + List.length us + 1) by (clear; lia).
    eapply line_after; eauto; discriminate.
  Qed.

  (** *** A piece, and a sequence of pieces *)
  Lemma cont_more : forall m0 m1 n p t d Q, Cont m0 n p t d Q -> m0 <= m1 -> Cont m1 n p t d Q.
  Proof using All. intros m0 m1 n p t d Q H Hm m b' H1 H2. apply H; auto. clear - Hm H1. lia. Qed.

  Lemma piece_step : forall nxt p n txt v dg n1, piece interp words paren term nxt p n txt v dg n1 ->
    text_at B p txt -> nth_error B (p + List.length txt) = Some nxt -> (In 10%N txt -> order) ->
    forall m0 t d Q, Cont m0 n1 (p + List.length txt) (t ++ v) (d ++ dg) Q -> Cont (m0 + List.length txt) n p t d Q.
  Proof using All.
    intros nxt p n txt v dg n1 HPC HT Hn HO m0 t d Q HK.
    assert (T0 : forall x w, txt = x :: w -> nth_error B p = Some x).
    { intros x w ->. apply text_at_cons in HT. apply HT. }
    assert (T1 : forall x y w, txt = x :: y :: w -> nth_error B (p + 1) = Some y /\ text_at B (p + 2) w).
    { intros x y w ->. apply text_at_cons in HT. destruct HT as (_ & HT). apply text_at_cons in HT. destruct HT as (HT1 & HT2).
      split; [exact HT1|]. replace (p + 2) with (p + 1 + 1) by (clear; lia). exact HT2. }
    destruct HPC; try rewrite app_nil_r in HK; cbn [List.length] in *.
    - eapply step_char; eauto. intros ->. apply HO. left. reflexivity.
    - eapply step_open; eauto. intros ->. apply HO. left. reflexivity.
    - eapply step_close; eauto. intros ->. apply HO. left. reflexivity.
    - destruct (T1 _ _ _ eq_refl). eapply step_backslash; eauto.
    - destruct (T1 _ _ _ eq_refl). eapply step_quoted; eauto. intros ->. apply HO. right. left. reflexivity.
    - destruct (T1 _ _ _ eq_refl). eapply step_kept; eauto. intros ->. apply HO. right. left. reflexivity.
    - destruct (T1 _ _ _ eq_refl). eapply step_line; eauto. apply HO. right. left. reflexivity.
    - destruct (T1 _ _ _ eq_refl) as (E1 & _). assert (K : c <> 10%N /\ c <> 13%N /\ c <> 92%N /\ c <> 117%N) by (destruct H1; splits; discriminate).
      destruct K as (K1 & K2 & K3 & K4). apply cont_more with (m0 := m0 + 1); [|clear; lia].
      eapply (step_escape p (p + 2) n c v); eauto. intros b2 HC2. replace (p + 2) with (p + 1 + 1) by (clear; lia).
      apply (re_any nxt [c] v); auto; [apply eb_letter; assumption|apply text_at_cons in HT; apply HT|rewrite <- Hn; f_equal; cbn; clear; lia].
    - destruct (T1 _ _ _ eq_refl) as (E1 & _). destruct H1 as ((K1 & K2 & K3 & K4 & K5 & K6) & K7). apply cont_more with (m0 := m0 + 1); [|clear; lia].
      eapply (step_escape p (p + 2) n c c); eauto. intros b2 HC2. replace (p + 2) with (p + 1 + 1) by (clear; lia). eapply re_char; eauto.
      unfold self_escape. tauto.
    - destruct ds as [|c ds']; [cbn in H2; exfalso; clear - H2; lia|]. destruct (T1 _ _ _ eq_refl) as (E1 & _).
      assert (Oc : octal c) by (inversion H1; assumption). unfold octal in Oc. apply cont_more with (m0 := m0 + 1); [|clear; lia].
      apply text_at_cons in HT. destruct HT as (HT0 & HT).
      eapply (step_escape p (p + 1 + List.length (c :: ds')) n c); eauto; try (clear - Oc; lia).
      + intros b2 HC2. eapply (re_any nxt (c :: ds')); eauto; [apply eb_octal; assumption|]. rewrite <- Hn. f_equal. cbn. clear. lia.
      + replace (p + 1 + List.length (c :: ds')) with (p + S (List.length (c :: ds'))) by (clear; lia). exact HK.
    - destruct (T1 _ _ _ eq_refl) as (E1 & E2). apply cont_more with (m0 := m0 + 1); [|clear; lia].
      eapply (step_escape p (p + 1 + 1 + List.length ds) n 120%N); eauto; try discriminate.
      + intros b2 HC2. replace (p + 1 + 1 + List.length ds) with (p + 1 + List.length (120%N :: ds)) by (cbn; clear; lia).
        eapply (re_any nxt (120%N :: ds)); eauto; [apply eb_hex; assumption|apply text_at_cons in HT; apply HT|]. rewrite <- Hn. f_equal. cbn. clear. lia.
      + replace (p + 1 + 1 + List.length ds) with (p + S (S (List.length ds))) by (clear; lia). exact HK.
    - destruct (T1 _ _ _ eq_refl) as (E1 & E2). rewrite H2 in *. eapply (proj1 (step_unicode _ p n ds m0 t d Q H H0 H1 H2 (T0 _ _ eq_refl) E1 E2 Hn)); auto.
    - destruct (T1 _ _ _ eq_refl) as (E1 & E2). rewrite H2 in *. eapply (proj2 (step_unicode _ p n ds m0 t d Q H H0 H1 H2 (T0 _ _ eq_refl) E1 E2 Hn)); auto.
    - assert (EL : List.length ([92; 117; 123]%N ++ gap ++ us ++ [125%N]) = 4 + List.length gap + List.length us) by (rewrite !app_length; cbn; clear; lia).
      rewrite EL in *. apply cont_more with (m0 := m0 + 1); [|clear; lia]. eapply step_braces; eauto.
    - destruct w as [|c w]; [exfalso; cbn in H2; clear - H2; intuition discriminate|]. destruct (T1 _ _ _ eq_refl) as (E1 & _).
      assert (K : c <> 10%N /\ c <> 13%N /\ c <> 92%N /\ c <> 117%N) by (cbn in H2; clear - H2; lia).
      destruct K as (K1 & K2 & K3 & K4). apply cont_more with (m0 := m0 + 1); [|clear; lia].
      apply text_at_cons in HT. destruct HT as (HT0 & HT).
      eapply (step_escape p (p + 1 + List.length (c :: w)) n c); eauto.
      + intros b2 HC2. apply (re_any nxt _ _ _ _ _ _ H1); auto. rewrite <- Hn. f_equal. cbn. clear. lia.
      + replace (p + 1 + List.length (c :: w)) with (p + S (List.length (c :: w))) by (clear; lia). exact HK.
  Qed.

  Lemma body_step : forall fin p n txt v dg n2, body interp words paren term fin p n txt v dg n2 ->
    text_at B p txt -> nth_error B (p + List.length txt) = Some fin -> (In 10%N txt -> order) ->
    forall m0 t d Q, Cont m0 n2 (p + List.length txt) (t ++ v) (d ++ dg) Q -> Cont (m0 + List.length txt) n p t d Q.
  Proof using All.
    intros fin p n txt v dg n2 HB. induction HB as [p n|p n txt v dg n1 rest v' dg' n2 HPC HB IH]; intros HT Hn HO m0 t d Q HK.
    - cbn in *. rewrite !app_nil_r in HK. rewrite !Nat.add_0_r in *. exact HK.
    - rewrite app_length in *. apply text_at_app in HT. destruct HT as (HT1 & HT2).
      rewrite Nat.add_assoc in Hn, HK. rewrite (Nat.add_comm (List.length txt)), Nat.add_assoc.
      eapply piece_step; eauto.
      + destruct rest as [|r rest]; cbn [hd List.length] in *; [rewrite Nat.add_0_r in Hn; exact Hn|]. apply text_at_cons in HT2. apply HT2.
      + intros K. apply HO. apply in_or_app. auto.
      + apply IH; auto; [intros K; apply HO; apply in_or_app; auto|]. rewrite <- !app_assoc. exact HK.
  Qed.

  (** The end of the text: the closing delimiter, or white space in a list *)
  Lemma body_end_term : forall p t d (Q : option MaybeByte * nat -> Lexer -> Prop), paren <> Some term -> term <> 13%N -> nth_error B p = Some term ->
    (forall b', Line b' p -> pcur b' = p -> Q (Some (Some term), 0) (Sx t d b')) -> Cont 1 0 p t d Q.
  Proof using All.
    intros p t d Q HP0 H13 Hx HQ m b Hm HC. destruct m as [|m]; [exfalso; clear - Hm; lia|]. eapply ts_first; eauto. intros b1 HL HP.
    replace (mbeq_opt (Some term) paren) with false.
    2:{ unfold mbeq_opt. destruct paren as [q|]; [|reflexivity]. symmetry. apply N.eqb_neq. congruence. }
    replace (mbeq (Some term) term) with true by (symmetry; apply N.eqb_refl). cbn [Nat.eqb]. ws. eapply sx_push; eauto. ws.
    apply HQ; [apply line_rebase; exact HL|reflexivity].
  Qed.

  Lemma body_end_white : forall p n x t d (Q : option MaybeByte * nat -> Lexer -> Prop), words = true -> white_byte x -> x <> 13%N -> ~ delim paren term x ->
    nth_error B p = Some x ->
    (forall b', Line b' p -> pcur b' = p -> Q (Some (Some x), n) (Sx t d b')) -> Cont 1 n p t d Q.
  Proof using All.
    intros p n x t d Q HW Hwx H13 HD Hx HQ m b Hm HC. destruct m as [|m]; [exfalso; clear - Hm; lia|]. destruct (delim_paren _ HD) as (D1 & D2).
    eapply ts_first; eauto. intros b1 HL HP. rewrite D1, D2. unfold white_byte in Hwx.
    replace (mbeq (Some x) "#") with false by (symmetry; apply N.eqb_neq; clear - Hwx; vm_compute in *; intros ->; intuition congruence).
    rewrite andb_false_r. cbn [andb].
    replace (mbeq (Some x) "\") with false by (symmetry; apply N.eqb_neq; clear - Hwx; vm_compute in *; intros ->; intuition congruence).
    ws. eapply sx_ascii; eauto. replace (x <? 128)%N with true by (clear - Hwx; lia). cbn [negb]. rewrite HW.
    replace (is_space (Some x)) with true by (symmetry; cbn; unfold b_is_space, in_range; clear - Hwx; lia). cbn [andb].
    ws. eapply sx_push; eauto. ws. apply HQ; [apply line_rebase; exact HL|reflexivity].
  Qed.

  (** The loop from the start of the text *)
  Lemma string_run : forall m0 n p t d b (Q : option MaybeByte * nat -> Lexer -> Prop), Cont m0 n p t d Q -> m0 <= fuel e -> Cur b p ->
    wp e (tokadd_string func term paren n) Q (Sx t d b).
  Proof using All.
    intros m0 n p t d b Q HK Hm HC. rewrite tokadd_string_loop. unfold loop.
    match goal with |- wp e (fun e1 s1 => loop_n (fuel e1) ?body ?x e1 s1) ?Q ?s => change (wp e (loop_n (fuel e) body x) Q s) end.
    apply HK; auto.
  Qed.
End Body.
