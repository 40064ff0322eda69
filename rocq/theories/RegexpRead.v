(** * Reading the text of a regular expression *)
Require Import Verif.Base Verif.MaybeByteM Verif.Utf8M Verif.InputM Verif.DiagnosticM Verif.TokensM Verif.BufferM Verif.LexStateM
  Verif.LexerM Verif.LexStringM Verif.LexMainM
  Verif.SourceSpec Verif.SourceProofs Verif.Wp Verif.BufInv Verif.LexSpec Verif.NewlineInv Verif.MainInv
  Verif.ReadSpec Verif.YylexSpec Verif.Reach Verif.Prop_Crlf Verif.StringSpec Verif.StrNum Verif.StrRead Verif.RegexpSpec.
Require Import ZifyBool ZifyNat ZifyN.

Section Regexp.
  Variables (B : list N) (order : Prop) (e : Env) (s0 : Lexer) (func : N) (paren : option N) (term : N).
  Hypothesis Hexp : has func STR_FUNC_EXPAND = true.
  Hypothesis Hqw : has func STR_FUNC_QWORDS = false.
  Hypothesis Hre : has func STR_FUNC_REGEXP = true.
  Hypothesis Hesc : has func STR_FUNC_ESCAPE = true.
  Hypothesis Hind : has func STR_FUNC_INDENT = false.
  Hypothesis Hfuel : List.length B < fuel e.
  Hypothesis Hterm : delimiter term.

  Local Notation Cur := (Cur B order).
  Local Notation Line := (Line B order).
  Local Notation Sx := (Sx s0).
  Local Notation Cont := (Cont B order e s0 func paren term).
  Local Notation code_result := (code_result B order s0).
  (* the lemmas on reading hold whatever the flags are *)
  Local Notation any lem := (lem B order e s0 STR_FUNC_EXPAND paren term true false eq_refl eq_refl eq_refl eq_refl eq_refl Hfuel).

  (** Reading the first character of a piece *)
  Lemma ts_first : forall m nest t d b p x (Q : option MaybeByte * nat -> Lexer -> Prop), Cur b p -> nth_error B p = Some x -> x <> 13%N ->
    (forall b1, Line b1 p -> pcur b1 = p ->
      wp e (if mbeq_opt (Some x) paren then
              tokadd_mb (Some x) ;;; ret (inl (nest + 1))
            else if mbeq (Some x) term then
              if nest =? 0 then pushback (Some x) ;;; ret (inr (Some (Some x), nest))
              else
                nest <- sub_ck nest 1 ;;
                tokadd_mb (Some x) ;;; ret (inl nest)
            else if mbeq (Some x) "#" && (p + 1 <? pend b1) then
              c2 <- gets (fun s => char_at s (pcur (buffer s))) ;;
              if mbeq c2 "$" || mbeq c2 "@" || mbeq c2 "{" then
                pushback (Some x) ;;; ret (inr (Some (Some x), nest))
              else tokadd_mb (Some x) ;;; ret (inl nest)
            else if mbeq (Some x) "\" then
              r <- tokadd_string_escape func term paren ;;
              match r with
              | EscContinue => ret (inl nest)
              | EscReturn x => ret (inr (x, nest))
              | EscAdd c => tokadd_mb c ;;; ret (inl nest)
              end
            else
              a <- is_ascii_cur ;;
              if negb a then tokadd_mb (Some x) ;;; ret (inl nest)
              else tokadd_mb (Some x) ;;; ret (inl nest))
        (fun r s' => match r with inl n => wp e (loop_n m (ts_body func term paren) n) Q s' | inr r => Q r s' end)
        (Sx t d (set_pcur (p + 1) b1))) ->
    wp e (loop_n (S m) (ts_body func term paren) nest) Q (Sx t d b).
  Proof using All.
    intros m nest t d b p x Q HC Hx H13 H. cbn [loop_n]. ws. unfold ts_body at 1. ws. eapply (any sx_nx); eauto. intros b1 HL HP.
    cbn [is_eof]. ws. ws. ws. 
    change (heredoc_indent (buffer (Sx t d (set_pcur (p + 1) b1)))) with (heredoc_indent b1). rewrite (ln_quiet _ _ _ _ HL). cbn [when]. ws. ws. ws.
    change (pcur (buffer (Sx t d (set_pcur (p + 1) b1)))) with (p + 1). change (pend (buffer (Sx t d (set_pcur (p + 1) b1)))) with (pend b1).
    rewrite Hexp, Hqw. cbn [andb]. eapply wp_conseq; [apply H; auto|]. intros [n|r] s' Hr; [exact Hr|ws; exact Hr].
  Qed.

  Lemma ts_add : forall m n t d b c Q, wp e (loop_n m (ts_body func term paren) n) Q (Sx (t ++ [c]) d b) ->
    wp e (tokadd_mb (Some c) ;;; ret (inl n))
      (fun r s' => match r with inl n => wp e (loop_n m (ts_body func term paren) n) Q s' | inr r => Q r s' end) (Sx t d b).
  Proof using All. intros m n t d b c Q H. ws. ws. ws. exact H. Qed.

  Lemma step_char : forall nxt p n c m0 t d Q, c <> 13%N -> c <> 92%N -> ~ delim paren term c ->
    (c = 35%N -> nxt <> 36 /\ nxt <> 64 /\ nxt <> 123)%N ->
    nth_error B p = Some c -> nth_error B (p + 1) = Some nxt -> (c = 10%N -> order) ->
    Cont m0 n (p + 1) (t ++ [c]) d Q -> Cont (m0 + 1) n p t d Q.
  Proof using All.
    intros nxt p n c m0 t d Q H13 H92 HD HI Hx Hn HO HK m b Hm HC. destruct m as [|m]; [clear - Hm; lia|].
    destruct (any delim_paren _ HD) as (D1 & D2). eapply ts_first; eauto. intros b1 HL HP. rewrite D1, D2.
    assert (HF : wp e (loop_n m (ts_body func term paren) n) Q (Sx (t ++ [c]) d (set_pcur (p + 1) b1))).
    { apply HK; [clear - Hm; lia|]. eapply line_after; eauto. }
    destruct (mbeq (Some c) "#" && (p + 1 <? pend b1)) eqn:EI.
    { apply andb_prop in EI. destruct EI as (EI2 & _). rewrite mbeq_iff in EI2.
      destruct HI as (I1 & I2 & I3); [congruence|]. ws. ws.
      change (char_at (Sx t d (set_pcur (p + 1) b1)) (pcur (buffer (Sx t d (set_pcur (p + 1) b1))))) with (byte_at b1 (p + 1)).
      rewrite (line_bytes _ _ _ _ _ HL), Hn. 
      replace (mbeq (Some nxt) "$" || mbeq (Some nxt) "@" || mbeq (Some nxt) "{") with false; [apply ts_add; exact HF|].
      symmetry. rewrite !orb_false_iff. splits; apply N.eqb_neq; assumption. }
    replace (mbeq (Some c) "\") with false by (symmetry; apply N.eqb_neq; exact H92).
    ws. eapply (any sx_ascii); eauto. destruct (negb (c <? 128)%N); [apply ts_add; exact HF|].
    apply ts_add; exact HF.
  Qed.

  Lemma step_open : forall p n c m0 t d Q, paren = Some c -> c <> 13%N -> nth_error B p = Some c -> (c = 10%N -> order) ->
    Cont m0 (S n) (p + 1) (t ++ [c]) d Q -> Cont (m0 + 1) n p t d Q.
  Proof using All.
    intros p n c m0 t d Q HP0 H13 Hx HO HK m b Hm HC. destruct m as [|m]; [clear - Hm; lia|]. eapply ts_first; eauto. intros b1 HL HP.
    replace (mbeq_opt (Some c) paren) with true by (rewrite HP0; symmetry; apply N.eqb_refl). apply ts_add. replace (n + 1) with (S n) by (clear; lia).
    apply HK; [clear - Hm; lia|]. eapply line_after; eauto.
  Qed.

  Lemma step_close : forall p n m0 t d Q, paren <> Some term -> term <> 13%N -> nth_error B p = Some term -> (term = 10%N -> order) ->
    Cont m0 n (p + 1) (t ++ [term]) d Q -> Cont (m0 + 1) (S n) p t d Q.
  Proof using All.
    intros p n m0 t d Q HP0 H13 Hx HO HK m b Hm HC. destruct m as [|m]; [clear - Hm; lia|]. eapply ts_first; eauto. intros b1 HL HP.
    replace (mbeq_opt (Some term) paren) with false.
    2:{ unfold mbeq_opt. destruct paren as [q|]; [|reflexivity]. symmetry. apply N.eqb_neq. congruence. }
    replace (mbeq (Some term) term) with true by (symmetry; apply N.eqb_refl). cbn [Nat.eqb]. ws. apply wp_sub_ck; [clear; lia|].
    replace (S n - 1) with n by (clear; lia). apply ts_add. apply HK; [clear - Hm; lia|]. eapply line_after; eauto.
  Qed.


  (** Reading a backslash and the character behind it *)
  Lemma re_backslash : forall m nest t d b p c (Q : option MaybeByte * nat -> Lexer -> Prop), Cur b p -> nth_error B p = Some 92%N ->
    ~ delim paren term 92%N -> nth_error B (p + 1) = Some c -> c <> 13%N ->
    (forall b2, Line b2 (p + 1) -> pcur b2 = p + 1 ->
      wp e (if mbeq (Some c) 10%N then ret EscContinue
            else if mbeq (Some c) "\" then tokadd_mb (Some c) ;;; ret (EscAdd (Some c))
            else if mbeq (Some c) "u" then tokadd_utf8 (Some term) true ;;; ret EscContinue
            else tokadd_string_other func term paren (Some c))
        (fun r s' => match r with
                     | EscContinue => wp e (loop_n m (ts_body func term paren) nest) Q s'
                     | EscReturn x => Q (x, nest) s'
                     | EscAdd c => wp e (tokadd_mb c) (fun _ s'' => wp e (loop_n m (ts_body func term paren) nest) Q s'') s'
                     end)
        (Sx t d (set_pcur (p + 2) b2))) ->
    wp e (loop_n (S m) (ts_body func term paren) nest) Q (Sx t d b).
  Proof using All.
    intros m nest t d b p c Q HC Hx HD Hc H13 H. destruct (any delim_paren _ HD) as (D1 & D2).
    eapply ts_first; [exact HC|exact Hx|discriminate|]. intros b1 HL HP. rewrite D1, D2.
    change (mbeq (Some 92%N) "#") with false. cbn [andb]. change (mbeq (Some 92%N) "\") with true. cbv iota.
    ws. unfold tokadd_string_escape. ws. ws. ws. apply wp_sub_ck; [clear; cbn; lia|].
    change (pcur (buffer (Sx t d (set_pcur (p + 1) b1)))) with (p + 1). replace (p + 1 - 1) with p by (clear; lia).
    ws. unfold literal_flush. ws. ws.
    assert (HC2 : Cur (set_ptok p (set_pcur (p + 1) b1)) (p + 1)).
    { apply cur_ptok; [|clear; lia]. eapply line_after; eauto; discriminate. }
    eapply (any sx_nx t d (set_ptok p (set_pcur (p + 1) b1)) (p + 1) c); auto.
    intros b2 HL2 HP2. specialize (H b2 HL2 HP2). replace (p + 1 + 1) with (p + 2) by (clear; lia).
    rewrite Hqw, Hexp, Hesc, Hre, Hind. cbn [negb orb is_eof when].
    assert (HK : forall r s', match r with
                     | EscContinue => wp e (loop_n m (ts_body func term paren) nest) Q s'
                     | EscReturn x => Q (x, nest) s'
                     | EscAdd c => wp e (tokadd_mb c) (fun _ s'' => wp e (loop_n m (ts_body func term paren) nest) Q s'') s'
                     end ->
       wp e match r with
        | EscContinue => ret (inl nest)
        | EscReturn x => ret (inr (x, nest))
        | EscAdd c0 => tokadd_mb c0 ;;; ret (inl nest)
        end (fun r s' => match r with inl n => wp e (loop_n m (ts_body func term paren) n) Q s' | inr r => Q r s' end) s').
    { intros [|x|c0] s' Hr; [ws; exact Hr|ws; exact Hr|]. ws. eapply wp_conseq; [exact Hr|]. intros [] s'' Hr'. ws. exact Hr'. }
    destruct (mbeq (Some c) 10%N).
    { ws. ws. eapply wp_conseq; [exact H|apply HK]. }
    destruct (mbeq (Some c) "\"); [eapply wp_conseq; [exact H|apply HK]|].
    destruct (mbeq (Some c) "u"); (eapply wp_conseq; [exact H|apply HK]).
  Qed.

  (** *** Escapes that are kept *)
  Lemma step_pair : forall p n c m0 t d Q, ~ delim paren term 92%N -> c <> 10%N -> c <> 13%N -> ~ octal c -> ~ In c [117; 120; 77; 67; 99]%N ->
    (c = term -> In c re_special) -> nth_error B p = Some 92%N -> nth_error B (p + 1) = Some c ->
    Cont m0 n (p + 2) (t ++ [92%N; c]) d Q -> Cont (m0 + 2) n p t d Q.
  Proof using All.
    intros p n c m0 t d Q HD H10 H13 HO HI HS Hx Hc HK m b Hm HC. destruct m as [|m]; [exfalso; clear - Hm; lia|]. eapply re_backslash; eauto. intros b2 HL HP.
    assert (HC2 : Cur (set_pcur (p + 2) b2) (p + 2)). { replace (p + 2) with (p + 1 + 1) by (clear; lia). eapply line_after; eauto. intros E. contradiction. }
    assert (HF : wp e (loop_n m (ts_body func term paren) n) Q (Sx (t ++ [92%N; c]) d (set_pcur (p + 2) b2))) by (apply HK; [clear - Hm; lia|exact HC2]).
    assert (HN : forall k, In k [117; 120; 77; 67; 99]%N -> mbeq (Some c) k = false) by (intros k Hk; apply N.eqb_neq; intros ->; contradiction).
    replace (mbeq (Some c) 10%N) with false by (symmetry; apply N.eqb_neq; exact H10).
    destruct (mbeq (Some c) "\") eqn:E92.
    { apply mbeq_iff in E92. injection E92 as ->. ws. ws. ws. ws. 
      match goal with |- context [Sx ?T] => idtac | _ => idtac end.
      replace (t ++ [92; 92]%N) with ((t ++ [92]) ++ [92])%N%list in HF by (rewrite <- app_assoc; reflexivity). exact HF. }
    rewrite (HN 117%N) by (left; reflexivity). unfold tokadd_string_other. rewrite Hexp, Hre. cbn [negb]. rewrite andb_false_r. cbn [when]. ws. ws.
    rewrite (HN 99%N), (HN 67%N), (HN 77%N) by (cbn; tauto). cbn [orb].
    replace (mbeq (Some c) term && negb (simple_re_meta (Some c))) with false.
    2:{ symmetry. destruct (mbeq (Some c) term) eqn:E; [|reflexivity]. apply mbeq_iff in E. injection E as E. specialize (HS E). cbn [andb simple_re_meta mb_test].
        replace (existsb (N.eqb c) (bs "$*+.?^|)]}>")) with true; [reflexivity|]. symmetry. apply existsb_exists. exists c. split; [exact HS|apply N.eqb_refl]. }
    ws. replace (p + 2) with (p + 1 + 1) by (clear; lia). eapply (any sx_push); eauto. ws. unfold tokadd_escape. ws.
    eapply (any sx_line t d (set_pcur (p + 1) b2) (p + 1) c); auto; [apply line_rebase; exact HL|].
    replace (N.eqb c 10) with false by (symmetry; apply N.eqb_neq; exact H10).
    replace (in_range "0" "7" c) with false by (symmetry; unfold octal in HO; unfold in_range; change "0"%bn with 48%N; change "7"%bn with 55%N; clear - HO; lia).
    rewrite (HN 120%N) by (right; left; reflexivity). ws. ws. ws. ws. cbn [negb]. ws.
    replace (p + 1 + 1) with (p + 2) by (clear; lia).
    replace (t ++ [92%N; c]) with ((t ++ [92%N]) ++ [c])%list in HF by (rewrite <- app_assoc; reflexivity). exact HF.
  Qed.

  (** The closing delimiter *)
  Lemma step_delim : forall p n m0 t d Q, ~ delim paren term 92%N -> term <> 10%N -> ~ In term re_special ->
    nth_error B p = Some 92%N -> nth_error B (p + 1) = Some term ->
    Cont m0 n (p + 2) (t ++ [term]) d Q -> Cont (m0 + 2) n p t d Q.
  Proof using All.
    intros p n m0 t d Q HD H10 HS Hx Hc HK m b Hm HC. destruct m as [|m]; [exfalso; clear - Hm; lia|].
    pose proof Hterm as (T1 & T2 & T3).
    eapply re_backslash; eauto. intros b2 HL HP.
    assert (HC2 : Cur (set_pcur (p + 2) b2) (p + 2)). { replace (p + 2) with (p + 1 + 1) by (clear; lia). eapply line_after; eauto. intros E. contradiction. }
    assert (HF : wp e (loop_n m (ts_body func term paren) n) Q (Sx (t ++ [term]) d (set_pcur (p + 2) b2))) by (apply HK; [clear - Hm; lia|exact HC2]).
    assert (HN : forall k, (48 <= k <= 57 \/ 65 <= k <= 90 \/ 97 <= k <= 122)%N -> mbeq (Some term) k = false) by (intros k Hk; apply N.eqb_neq; intros ->; contradiction).
    replace (mbeq (Some term) 10%N) with false by (symmetry; apply N.eqb_neq; exact H10).
    replace (mbeq (Some term) "\") with false. 2:{ symmetry. apply N.eqb_neq. intros E. apply HD. left. symmetry. exact E. }
    rewrite (HN 117%N) by (clear; lia). unfold tokadd_string_other. rewrite Hexp, Hre. cbn [negb]. rewrite andb_false_r. cbn [when]. ws. ws.
    rewrite (HN 99%N), (HN 67%N), (HN 77%N) by (clear; lia). cbn [orb].
    replace (mbeq (Some term) term) with true by (symmetry; apply N.eqb_refl). cbn [andb simple_re_meta mb_test].
    replace (existsb (N.eqb term) (bs "$*+.?^|)]}>")) with false.
    2:{ symmetry. apply not_true_is_false. intros E. apply existsb_exists in E. destruct E as (x & E1 & E2). apply N.eqb_eq in E2. subst x. apply HS. exact E1. }
    cbn [negb]. ws. ws. ws. exact HF.
  Qed.

  Lemma step_line : forall p n m0 t d Q, ~ delim paren term 92%N -> order -> nth_error B p = Some 92%N -> nth_error B (p + 1) = Some 10%N ->
    Cont m0 n (p + 2) t d Q -> Cont (m0 + 2) n p t d Q.
  Proof using All.
    intros p n m0 t d Q HD HO Hx Hc HK m b Hm HC. destruct m as [|m]; [exfalso; clear - Hm; lia|]. eapply re_backslash; eauto; [discriminate|]. intros b2 HL HP.
    change (mbeq (Some 10%N) 10%N) with true. cbv iota. ws. apply (HK m (set_pcur (p + 2) b2)); [clear - Hm; lia|].
    replace (p + 2) with (p + 1 + 1) by (clear; lia). eapply line_after; eauto; discriminate.
  Qed.

  (** Copying what was read *)
  Lemma sx_copy : forall t d b p w q (Q : unit -> Lexer -> Prop), Line b q -> text_at B p w -> pcur b = p + List.length w -> p + List.length w <= List.length B ->
    Q tt (Sx (t ++ w) d b) -> wp e (tokcopy (List.length w)) Q (Sx t d b).
  Proof using All.
    intros t d b p w q Q HL HT HP Hl HQ. unfold tokcopy. ws. ws. change (buffer (Sx t d b)) with b. rewrite HP. ws. apply wp_sub_ck; [clear; lia|].
    replace (p + List.length w - List.length w) with p by (clear; lia).
    rewrite (IdentRead.substr_text B b (ln_rd _ _ _ _ HL) p w b eq_refl HT Hl). unfold expect. ws. unfold tok_append. ws. ws. exact HQ.
  Qed.

  Lemma not_term : forall c, octal c \/ c = 120%N -> mbeq (Some c) term = false.
  Proof using Hterm. intros c H. apply N.eqb_neq. intros ->. destruct Hterm as (_ & _ & T3). apply T3. unfold octal in H. clear - H. lia. Qed.

  Lemma step_octal : forall nxt p n ds m0 t d Q, ~ delim paren term 92%N -> Forall octal ds -> 1 <= List.length ds <= 3 -> (List.length ds < 3 -> ~ octal nxt) ->
    text_at B p (92%N :: ds) -> nth_error B (p + S (List.length ds)) = Some nxt ->
    Cont m0 n (p + S (List.length ds)) (t ++ 92%N :: ds) d Q -> Cont (m0 + 1) n p t d Q.
  Proof using All.
    intros nxt p n ds m0 t d Q HD HF HL3 HN HT Hn HK m b Hm HC. destruct m as [|m]; [exfalso; clear - Hm; lia|].
    pose proof HT as HT0. apply text_at_cons in HT0. destruct HT0 as (Hx & HT1).
    destruct ds as [|c ds']; [cbn in HL3; exfalso; clear - HL3; lia|]. pose proof HT1 as HT2. apply text_at_cons in HT2. destruct HT2 as (Hc & _).
    assert (Oc : octal c) by (inversion HF; assumption). pose proof (not_term c (or_introl Oc)) as Ht. unfold octal in Oc.
    assert (Hne : forall k, (k < 48 \/ 55 < k)%N -> mbeq (Some c) k = false) by (intros k Hk; apply N.eqb_neq; clear - Oc Hk; lia).
    assert (Hl : p + S (List.length (c :: ds')) < List.length B) by (apply nth_error_Some; congruence).
    eapply re_backslash; eauto; [clear - Oc; lia|]. intros b2 HL HP.
    rewrite !(Hne 10%N), !(Hne 92%N), !(Hne 117%N) by (clear; lia). unfold tokadd_string_other. rewrite Hexp, Hre. cbn [negb]. rewrite andb_false_r. cbn [when]. ws. ws.
    rewrite (Hne 99%N), (Hne 67%N), (Hne 77%N) by (clear; lia). cbn [orb]. rewrite Ht. cbn [andb].
    ws. replace (p + 2) with (p + 1 + 1) by (clear; lia). eapply (any sx_push); eauto. ws. unfold tokadd_escape. ws.
    eapply (any sx_line t d (set_pcur (p + 1) b2) (p + 1) c); auto; [apply line_rebase; exact HL|clear - Oc; lia|].
    replace (N.eqb c 10) with false by (symmetry; apply N.eqb_neq; clear - Oc; lia).
    replace (in_range "0" "7" c) with true by (symmetry; unfold in_range; change "0"%bn with 48%N; change "7"%bn with 55%N; clear - Oc; lia).
    ws. ws. ws. apply wp_sub_ck; [clear; cbn; lia|]. ws. ws. ws. ws.
    change (pcur (buffer (Sx t d (set_pcur (p + 1 + 1) (set_pcur (p + 1) b2))))) with (p + 1 + 1). replace (p + 1 + 1 - 1) with (p + 1) by (clear; lia).
    match goal with |- context [scan_oct ?X ?Y 3] => change Y with (p + 1); change X with (set_pcur (p + 1) b2) end.
    pose proof (line_rebase _ _ _ _ HL) as HL1.
    rewrite (scan_oct_ok (set_pcur (p + 1) b2) (c :: ds') (p + 1)); [| |exact HF|clear - HL3; lia|].
    2:{ eapply line_digits; eauto. }
    2:{ destruct (Nat.eq_dec (List.length (c :: ds')) 3) as [E|E]; [left; exact E|right]. exists nxt. split; [|apply HN; clear - E HL3; lia].
        rewrite (line_bytes _ _ _ _ _ HL1), <- Hn. f_equal. clear. lia. }
    ws. ws. ws.
    assert (HL2 : Line (set_pcur (p + 1 + List.length (c :: ds')) b2) (p + 1 + List.length (c :: ds'))).
    { apply line_rebase. apply line_text; auto; [apply octal_plain; exact HF|clear - Hl; lia]. }
    match goal with |- wp e _ _ ?S => change S with (Sx t d (set_pcur (p + 1 + List.length (c :: ds')) b2)) end.
    replace (List.length (c :: ds') + 1) with (List.length (92%N :: c :: ds')) by (cbn; clear; lia).
    eapply (sx_copy t d _ p (92%N :: c :: ds')); [exact HL2|exact HT|cbn; clear; lia|cbn in *; clear - Hl; lia|].
    ws. cbn [negb]. ws. replace (p + 1 + List.length (c :: ds')) with (p + S (List.length (c :: ds'))) in * by (clear; lia).
    apply HK; [clear - Hm; lia|]. apply line_here; [exact HL2|reflexivity].
  Qed.

  Lemma step_hex : forall nxt p n ds m0 t d Q, ~ delim paren term 92%N -> Forall hexadecimal ds -> 1 <= List.length ds <= 2 -> (List.length ds < 2 -> ~ hexadecimal nxt) ->
    text_at B p (92 :: 120 :: ds)%N -> nth_error B (p + S (S (List.length ds))) = Some nxt ->
    Cont m0 n (p + S (S (List.length ds))) (t ++ 92 :: 120 :: ds)%N d Q -> Cont (m0 + 1) n p t d Q.
  Proof using All.
    intros nxt p n ds m0 t d Q HD HF HL3 HN HT Hn HK m b Hm HC. destruct m as [|m]; [exfalso; clear - Hm; lia|].
    pose proof HT as HT0. apply text_at_cons in HT0. destruct HT0 as (Hx & HT1).
    pose proof HT1 as HT2. apply text_at_cons in HT2. destruct HT2 as (Hc & HT2).
    pose proof (not_term 120%N (or_intror eq_refl)) as Ht.
    assert (Hl : p + S (S (List.length ds)) < List.length B) by (apply nth_error_Some; congruence).
    eapply re_backslash; eauto; [discriminate|]. intros b2 HL HP.
    change (mbeq (Some 120%N) 10%N) with false. change (mbeq (Some 120%N) "\") with false. change (mbeq (Some 120%N) "u") with false. cbv iota.
    unfold tokadd_string_other. rewrite Hexp, Hre. cbn [negb]. rewrite andb_false_r. cbn [when]. ws. ws.
    change (mbeq (Some 120%N) "c" || mbeq (Some 120%N) "C" || mbeq (Some 120%N) "M") with false. cbv iota. rewrite Ht. cbn [andb].
    ws. replace (p + 2) with (p + 1 + 1) by (clear; lia). eapply (any sx_push); eauto. ws. unfold tokadd_escape. ws.
    eapply (any sx_line t d (set_pcur (p + 1) b2) (p + 1) 120%N); auto; [apply line_rebase; exact HL|discriminate|].
    change (N.eqb 120 10) with false. change (in_range "0" "7" 120%N) with false. change (mbeq (Some 120%N) "x") with true. cbv iota. ws.
    unfold tok_hex. ws. ws.
    assert (HL1 : Line b2 (p + 1 + 1)). { eapply line_next; eauto; try discriminate. clear - Hl HL3. lia. }
    pose proof (line_rebase _ _ _ _ HL1) as HL2.
    change (buffer (Sx t d (set_pcur (p + 1 + 1) (set_pcur (p + 1) b2)))) with (set_pcur (p + 1 + 1) b2). change (pcur (set_pcur (p + 1 + 1) b2)) with (p + 1 + 1).
    edestruct (scan_hex_ok (set_pcur (p + 1 + 1) b2) ds 2 (p + 1 + 1)) as (v & E1 & E2); [eapply line_digits; eauto|exact HF|clear - HL3; lia| |].
    { destruct (Nat.eq_dec (List.length ds) 2) as [E|E]; [left; exact E|right]. exists nxt. split; [|apply HN; clear - E HL3; lia].
      rewrite (line_bytes _ _ _ _ _ HL2), <- Hn. f_equal. clear. lia. }
    rewrite E1. replace (List.length ds =? 0) with false by (clear - HL3; lia). ws. ws. ws.
    replace (List.length ds =? 0) with false by (clear - HL3; lia).
    assert (HL4 : Line (set_pcur (p + 1 + 1 + List.length ds) b2) (p + 1 + 1 + List.length ds)).
    { apply line_rebase. apply line_text; auto; [apply hex_plain; exact HF|clear - Hl; lia]. }
    match goal with |- wp e _ _ ?S => change S with (Sx t d (set_pcur (p + 1 + 1 + List.length ds) b2)) end.
    ws. replace (List.length ds + 2) with (List.length (92 :: 120 :: ds)%N) by (cbn; clear; lia).
    eapply (sx_copy t d _ p (92 :: 120 :: ds)%N); [exact HL4|exact HT|cbn; clear; lia|cbn in *; clear - Hl; lia|].
    ws. cbn [negb]. ws. replace (p + 1 + 1 + List.length ds) with (p + S (S (List.length ds))) in * by (clear; lia).
    apply HK; [clear - Hm; lia|]. apply line_here; [exact HL4|reflexivity].
  Qed.

  (** Control and meta escapes *)
  Lemma escbuf_two : forall v, (16 <= v < 256)%N -> escbuf v = two_digits v.
  Proof using.
    clear. intros v H. unfold escbuf, show_hex_upper, two_digits. replace (v <? 16)%N with false by lia. reflexivity.
  Qed.

  Lemma step_modified : forall nxt p n w v m0 t d Q, ~ delim paren term 92%N -> escaped_byte nxt false false w v -> In (hd 0%N w) [77; 67; 99]%N -> (16 <= v)%N ->
    text_at B p (92%N :: w) -> nth_error B (p + S (List.length w)) = Some nxt ->
    Cont m0 n (p + S (List.length w)) (t ++ two_digits v) d Q -> Cont (m0 + 1) n p t d Q.
  Proof using All.
    intros nxt p n w v m0 t d Q HD HE HI Hv HT Hn HK m b Hm HC. destruct m as [|m]; [exfalso; clear - Hm; lia|].
    apply text_at_cons in HT. destruct HT as (Hx & HT).
    destruct w as [|c w]; [exfalso; cbn in HI; clear - HI; intuition discriminate|]. cbn [hd] in HI. pose proof HT as HT1. apply text_at_cons in HT1. destruct HT1 as (Hc & _).
    assert (K : c <> 10%N /\ c <> 13%N /\ c <> 92%N /\ c <> 117%N) by (cbn in HI; clear - HI; lia). destruct K as (K1 & K2 & K3 & K4).
    eapply re_backslash; eauto. intros b2 HL HP.
    replace (mbeq (Some c) 10%N) with false by (symmetry; apply N.eqb_neq; exact K1).
    replace (mbeq (Some c) "\") with false by (symmetry; apply N.eqb_neq; exact K3).
    replace (mbeq (Some c) "u") with false by (symmetry; apply N.eqb_neq; exact K4).
    unfold tokadd_string_other. rewrite Hexp, Hre. cbn [negb]. rewrite andb_false_r. cbn [when]. ws. ws.
    replace (mbeq (Some c) "c" || mbeq (Some c) "C" || mbeq (Some c) "M") with true by (symmetry; cbn in HI; destruct HI as [<-|[<-|[<-|[]]]]; reflexivity).
    ws. replace (p + 2) with (p + 1 + 1) by (clear; lia). eapply (any sx_push); eauto. ws.
    eapply wp_conseq; [apply (any re_any nxt (c :: w) v t d (set_pcur (p + 1) b2) (p + 1) HE); auto; [apply line_cur; exact HL|]|].
    { rewrite <- Hn. f_equal. cbn. clear. lia. }
    intros r s' (b' & -> & -> & HC'). unfold expect. ws. ws. ws. unfold tok_append. ws. ws.
    rewrite escbuf_two by (split; [exact Hv|eapply escaped_small; eauto]).
    replace (p + 1 + List.length (c :: w)) with (p + S (List.length (c :: w))) in * by (clear; lia). apply (HK m b'); [clear - Hm; lia|exact HC'].
  Qed.
  Lemma re_wide : forall t d b p ds v dg nx, code_point p ds v dg -> Line b p -> pcur b = p -> text_at B p ds -> nth_error B (p + List.length ds) = Some nx ->
    ~ hexadecimal nx ->
    wp e (tokadd_codepoint true true) (fun ok s' => ok = true /\ code_result (t ++ kept_digits ds dg) (d ++ dg) (p + List.length ds) s') (Sx t d b).
  Proof using All.
    intros t d b p ds v dg nx HCP HL HP HT Hn Hnx.
    assert (HF : Forall hexadecimal ds) by (destruct HCP; assumption).
    assert (HL2 : Line (set_pcur (p + List.length ds) (set_ptok p b)) (p + List.length ds)).
    { apply line_at; auto; [apply hex_plain; exact HF|eapply in_file; eauto]. }
    unfold tokadd_codepoint. ws. ws. ws. change (buffer (Sx t d b)) with b. rewrite HP.
    pose proof (ln_lt _ _ _ _ HL2) as LT. change (pend (set_pcur (p + List.length ds) (set_ptok p b))) with (pend b) in LT.
    apply wp_sub_ck; [clear - LT; lia|].
    edestruct (scan_hex_ok b ds (pend b - p) p) as (u & E1 & E2); [eapply line_digits; eauto|exact HF|clear - LT; lia| |].
    { right. exists nx. split; [|exact Hnx]. rewrite (line_bytes _ _ _ _ _ HL). exact Hn. }
    assert (Hl : p + List.length ds <= List.length B) by (pose proof (in_file B _ _ Hn) as K; clear - K; lia).
    rewrite E1. unfold literal_flush. ws. ws. ws. ws.
    assert (HR : forall t' d', code_result t' d' (p + List.length ds) (Sx t' d' (set_pcur (p + List.length ds) (set_ptok p b)))).
    { intros t' d'. eexists. splits; eauto. }
    match goal with |- wp _ _ _ ?s => assert (ES : s = Sx t d (set_pcur (p + List.length ds) (set_ptok p b))) by (rewrite <- HP; reflexivity); rewrite ES; clear ES end.
    destruct HCP as [ds _ HN HS|ds _ HN HS|ds _ HN HS|ds _ HN].
    - cbn [kept_digits]; rewrite ?app_nil_r. rewrite (E2 ltac:(clear - HN; lia)).
      replace ((List.length ds =? 0) || (6 <? List.length ds)) with false by (clear - HN; lia). 
      replace (1114111 <? hex_number ds)%N with false by (unfold scalar in HS; clear - HS; lia).
      rewrite surrogate_bits by (unfold scalar in HS; clear - HS; lia).
      replace ((55296 <=? hex_number ds) && (hex_number ds <=? 57343))%N with false by (unfold scalar in HS; clear - HS; lia).
      ws. eapply (sx_copy t d _ p ds); [exact HL2|exact HT|reflexivity|exact Hl|]. ws. split; [reflexivity|]. apply (HR (t ++ ds)).
    - cbn [kept_digits]; rewrite ?app_nil_r. rewrite (E2 ltac:(clear - HN; lia)).
      replace ((List.length ds =? 0) || (6 <? List.length ds)) with false by (clear - HN; lia). 
      replace (1114111 <? hex_number ds)%N with false by (unfold surrogate in HS; clear - HS; lia).
      rewrite surrogate_bits by (unfold surrogate in HS; clear - HS; lia).
      replace ((55296 <=? hex_number ds) && (hex_number ds <=? 57343))%N with true by (unfold surrogate in HS; clear - HS; lia).
      ws. unfold yyerror0. ws. ws. unfold yyerror1, emit. ws. ws. split; [reflexivity|].
      apply (HR t (d ++ [mkDiag Error InvalidUnicodeCodepoint (mkLoc p (p + List.length ds))])).
    - cbn [kept_digits]; rewrite ?app_nil_r. rewrite (E2 ltac:(clear - HN; lia)).
      replace ((List.length ds =? 0) || (6 <? List.length ds)) with false by (clear - HN; lia). 
      replace (1114111 <? hex_number ds)%N with true by (clear - HS; lia).
      ws. unfold yyerror0. ws. ws. unfold yyerror1, emit. ws. ws. split; [reflexivity|].
      apply (HR t (d ++ [mkDiag Error TooLargeUnicodeCodepoint (mkLoc p (p + List.length ds))])).
    - cbn [kept_digits]. rewrite app_nil_r. replace ((List.length ds =? 0) || (6 <? List.length ds)) with true by (clear - HN; lia).
      ws. ws. ws. unfold yyerror1, emit. ws. ws. split; [replace (0 <? List.length ds) with true by (clear - HN; lia); reflexivity|].
      apply (HR t (d ++ [mkDiag Error InvalidUnicodeEscape (mkLoc (p + List.length ds) (p + List.length ds + 1))])).
  Qed.

  Lemma re_narrow : forall t d b p ds nx, Forall hexadecimal ds -> List.length ds = 4 -> Line b p -> pcur b = p -> text_at B p ds -> nth_error B (p + 4) = Some nx ->
    (scalar (hex_number ds) ->
      wp e (tokadd_codepoint true false) (fun ok s' => ok = true /\ code_result (t ++ ds) d (p + 4) s') (Sx t d b)) /\
    (surrogate (hex_number ds) ->
      wp e (tokadd_codepoint true false)
        (fun ok s' => ok = false /\ code_result t (d ++ [mkDiag Error InvalidUnicodeCodepoint (mkLoc p (p + 4))]) (p + 4) s') (Sx t d b)).
  Proof using All.
    intros t d b p ds nx HF H4 HL HP HT Hn.
    assert (HL2 : Line (set_pcur (p + 4) (set_ptok p b)) (p + 4)).
    { rewrite <- H4. apply line_at; auto; [apply hex_plain; exact HF|rewrite H4; eapply in_file; eauto]. }
    edestruct (scan_hex_ok b ds 4 p) as (u & E1 & E2); [eapply line_digits; eauto|exact HF|clear - H4; lia|left; exact H4|].
    rewrite H4 in E1, E2. rewrite E2 in E1 by (clear; lia).
    assert (HR : forall t' d', code_result t' d' (p + 4) (Sx t' d' (set_pcur (p + 4) (set_ptok p b)))).
    { intros t' d'. eexists. splits; eauto. }
    split; intros HS; unfold tokadd_codepoint; ws; ws; ws; ws; change (buffer (Sx t d b)) with b; rewrite HP, E1; unfold literal_flush; ws; ws; ws; ws;
    match goal with |- wp _ _ _ ?s => assert (ES : s = Sx t d (set_pcur (p + 4) (set_ptok p b))) by (rewrite <- HP; reflexivity); rewrite ES; clear ES end;
    change (4 <? 4) with false; cbv iota.
    - replace (1114111 <? hex_number ds)%N with false by (unfold scalar in HS; clear - HS; lia).
      rewrite surrogate_bits by (unfold scalar in HS; clear - HS; lia).
      replace ((55296 <=? hex_number ds) && (hex_number ds <=? 57343))%N with false by (unfold scalar in HS; clear - HS; lia).
      ws. replace 4 with (List.length ds) at 1. eapply (sx_copy t d _ p ds); [exact HL2|exact HT|rewrite H4; reflexivity|rewrite H4; pose proof (in_file B _ _ Hn) as K; clear - K; lia|].
      ws. split; [reflexivity|]. apply (HR (t ++ ds)).
    - replace (1114111 <? hex_number ds)%N with false by (unfold surrogate in HS; clear - HS; lia).
      rewrite surrogate_bits by (unfold surrogate in HS; clear - HS; lia).
      replace ((55296 <=? hex_number ds) && (hex_number ds <=? 57343))%N with true by (unfold surrogate in HS; clear - HS; lia).
      ws. unfold yyerror0. ws. ws. unfold yyerror1, emit. ws. ws. split; [reflexivity|].
      apply (HR t (d ++ [mkDiag Error InvalidUnicodeCodepoint (mkLoc p (p + 4))])).
  Qed.

  Lemma last_cons : forall (gap : list N) x last, List.last (map (@Some N) (x :: gap)) last = List.last (map (@Some N) gap) (Some x).
  Proof using.
    clear. induction gap as [|y gap IH]; intros x last; [reflexivity|].
    change (List.last (map (@Some N) (x :: y :: gap)) last) with (List.last (map (@Some N) (y :: gap)) last). rewrite (IH y last), (IH y (Some x)). reflexivity.
  Qed.

  Lemma re_skip : forall gap b p t d z last, Forall gap_byte gap -> text_at B p gap -> nth_error B (p + List.length gap) = Some z -> is_space (Some z) = false ->
    Line b p -> pcur b = p ->
    wp e (utf8_skip_spaces2 last) (fun r s' => r = Some (Some z, List.last (map (@Some N) gap) last) /\ code_result t d (p + List.length gap) s') (Sx t d b).
  Proof using All.
    intros gap b p t d z last HF HT Hz Hsp HL HP. unfold utf8_skip_spaces2, loop.
    match goal with |- wp e (fun e1 s1 => loop_n (fuel e1) ?body last e1 s1) ?Q ?s => change (wp e (loop_n (fuel e) body last) Q s) end.
    assert (Hm : List.length gap < fuel e). { pose proof (in_file B _ _ Hz) as K. clear - K Hfuel. lia. }
    revert Hm. generalize (fuel e). intros m Hm. revert m b p last HF HT Hz HL HP Hm. induction gap as [|x gap IH]; intros m b p last HF HT Hz HL HP Hm;
      (destruct m as [|m]; [clear - Hm; cbn in Hm; lia|]); cbn [loop_n]; ws; ws; ws; change (buffer (Sx t d b)) with b; rewrite HP.
    - cbn [List.length] in *. rewrite Nat.add_0_r in *. rewrite (line_bytes _ _ _ _ _ HL), Hz, Hsp. cbn [negb]. ws. ws. split; [reflexivity|].
      exists b. splits; auto.
    - destruct (next_some B _ _ _ _ HT Hz) as (y & Hy). apply text_at_cons in HT. destruct HT as (Hx & HT). inversion HF as [|? ? F1 F2]; subst x0 l.
      rewrite (line_bytes _ _ _ _ _ HL), Hx, (gap_space _ F1). cbn [negb]. ws. ws. ws. ws.
      assert (HL2 : Line (set_pcur (p + 1) b) (p + 1)). { eapply line_step; eauto. unfold gap_byte in F1. clear - F1. lia. }
      match goal with |- context [pend ?b'] => change (pend b') with (pend b); change (pcur b') with (pcur b + 1) end. rewrite HP.
      pose proof (ln_lt _ _ _ _ HL2) as K. change (pend (set_pcur (p + 1) b)) with (pend b) in K.
      replace (pend b <=? p + 1) with false by (clear - K; lia). ws.
      match goal with |- wp _ _ _ ?s => assert (ES : s = Sx t d (set_pcur (p + 1) b)) by (rewrite <- HP; reflexivity); rewrite ES; clear ES end.
      replace (p + List.length (x :: gap)) with (p + 1 + List.length gap) in * by (clear; cbn; lia).
      replace (List.last (map (@Some N) (x :: gap)) last) with (List.last (map (@Some N) gap) (Some x)) by (symmetry; apply last_cons).
      apply IH; auto. cbn in Hm. clear - Hm. lia.
  Qed.

  Definition re_cps_body : MaybeByte * MaybeByte * option nat * bool -> M Lexer (MaybeByte * MaybeByte * option nat * bool + option (MaybeByte * option nat * bool)) :=
    fun '(c, last, second, err) =>
    if mbeq c "}" then ret (inr (Some (c, second, err)))
    else if mbeq_opt c (Some term) then tokadd_utf8_unterminated ;;; ret (inr None)
    else
      b <- getb ;;
      let second := if err : bool then Some (pcur b) else second in
      when true (tokadd_mb last) ;;;
      ok <- tokadd_codepoint true true ;;
      if negb ok then ret (inr (Some (c, second, err)))
      else
        r <- utf8_skip_spaces2 last ;;
        match r with
        | None => tokadd_utf8_unterminated ;;; ret (inr None)
        | Some (c, last) =>
            let err := match Some term, second with None, None => true | _, _ => err end in
            ret (inl (c, last, second, err))
        end.

  Lemma re_cps_loop : forall c last, utf8_codepoints (Some term) true c last = loop re_cps_body (c, last, @None nat, false).
  Proof using. reflexivity. Qed.

  Lemma re_cps_iter : forall m q ds gap v dg z (Q : option (MaybeByte * option nat * bool) -> Lexer -> Prop) b t d c pre,
    code_point q ds v dg -> Forall gap_byte gap -> text_at B q (ds ++ gap) ->
    nth_error B (q + List.length (ds ++ gap)) = Some z -> is_space (Some z) = false -> (gap = [] -> ~ hexadecimal z) ->
    Line b q -> pcur b = q -> nth_error B q = Some c ->
    (forall b', Line b' (q + List.length (ds ++ gap)) -> pcur b' = q + List.length (ds ++ gap) ->
      wp e (loop_n m re_cps_body (Some z, List.last (map (@Some N) gap) (Some pre), None, false)) Q (Sx (t ++ pre :: kept_digits ds dg) (d ++ dg) b')) ->
    wp e (loop_n (S m) re_cps_body (Some c, Some pre, None, false)) Q (Sx t d b).
  Proof using All.
    intros m q ds gap v dg z Q b t d c pre HCP HG HT Hz Hsp HGZ HL HP Hc HK.
    destruct (code_point_first _ _ _ _ HCP) as (x & ds' & Eds & Hx & HFds).
    assert (Ecx : c = x). { rewrite Eds in HT. apply text_at_cons in HT. destruct HT as (T1 & _). congruence. }
    apply text_at_app in HT. destruct HT as (HT1 & HT2). rewrite app_length in *.
    cbn [loop_n]. ws. unfold re_cps_body at 1.
    replace (mbeq (Some c) "}") with false. 2:{ symmetry. apply N.eqb_neq. subst c. unfold hexadecimal in Hx. clear - Hx. intros ->. vm_compute in Hx. intuition congruence. }
    replace (mbeq_opt (Some c) (Some term)) with false. 2:{ symmetry. apply N.eqb_neq. intros E. destruct Hterm as (_ & _ & T3). apply T3. rewrite <- Ecx, E in Hx. unfold hexadecimal in Hx. clear - Hx. lia. }
    ws. ws. ws. cbn [when]. ws. ws.
    assert (Hn : exists nx, nth_error B (q + List.length ds) = Some nx /\ ~ hexadecimal nx).
    { destruct gap as [|g gap]; [exists z; split; [|auto]; rewrite <- Hz; f_equal; cbn; clear; lia|]. apply text_at_cons in HT2. destruct HT2 as (T1 & _).
      exists g. split; [exact T1|]. inversion HG. apply gap_not_hex. assumption. }
    destruct Hn as (nx & Hn & Hnx). eapply wp_conseq; [eapply (re_wide (t ++ [pre])); eauto|]. intros ok s' (-> & (b1 & -> & HL1 & HP1)). cbn [negb]. ws.
    eapply wp_conseq; [eapply (re_skip gap b1 (q + List.length ds)); eauto; rewrite <- Nat.add_assoc; exact Hz|].
    intros r s' (-> & (b2 & -> & HL2 & HP2)). ws. rewrite <- Nat.add_assoc in *. rewrite <- app_assoc. apply HK; auto.
  Qed.


  Lemma re_points_first : forall q pre us v dg, re_points q pre us v dg -> exists x us', us = x :: us' /\ hexadecimal x.
  Proof using.
    clear. intros q pre us v dg H. destruct H as [q pre ds gap v d H _|q pre ds gap g rest v d v' d' H _ _];
      destruct (code_point_first _ _ _ _ H) as (x & ds' & -> & Hx & _); cbn [app]; eauto.
  Qed.

  Lemma last_snoc : forall (gap : list N) g pre, List.last (map (@Some N) (gap ++ [g])) pre = Some g.
  Proof using. clear. intros gap g pre. rewrite map_app. cbn [map]. apply last_last. Qed.

  Lemma re_cps_run : forall q pre us v dg, re_points q pre us v dg -> text_at B q us -> nth_error B (q + List.length us) = Some 125%N ->
    forall m b t d c, List.length us < m -> Line b q -> pcur b = q -> nth_error B q = Some c ->
    wp e (loop_n m re_cps_body (Some c, Some pre, None, false))
      (fun r s' => r = Some (Some 125%N, None, false) /\ code_result (t ++ v) (d ++ dg) (q + List.length us) s') (Sx t d b).
  Proof using All.
    intros q pre us v dg HCPS. induction HCPS as [q pre ds gap v dg HCP HG|q pre ds gap g rest v dg v' dg' HCP HG HCPS IH];
      intros HT Hz m b t d c Hm HL HP Hc; (destruct m as [|m]; [exfalso; clear - Hm; lia|]).
    - eapply (re_cps_iter m q ds gap v dg 125); eauto. { intros _. unfold hexadecimal. clear. lia. }
      intros b' HL' HP'.
      destruct m as [|m]. { exfalso. destruct (code_point_first _ _ _ _ HCP) as (x & ds' & -> & _). cbn in Hm. clear - Hm. lia. }
      cbn [loop_n]. ws. unfold re_cps_body at 1. change (mbeq (Some 125%N) "}") with true. cbv iota. ws. ws. split; [reflexivity|]. exists b'. splits; auto.
    - destruct (re_points_first _ _ _ _ _ HCPS) as (z & rest' & Er & Hz').
      set (gp := gap ++ [g]) in *. assert (Hgp : List.last (map (@Some N) gp) (Some pre) = Some g) by apply last_snoc.
      rewrite app_assoc in HT. apply text_at_app in HT. destruct HT as (HT1 & HT2).
      assert (Hzz : nth_error B (q + List.length (ds ++ gp)) = Some z). { rewrite Er in HT2. apply text_at_cons in HT2. apply HT2. }
      assert (EL : q + List.length (ds ++ gp) = q + List.length ds + List.length gp) by (rewrite app_length; clear; lia).
      assert (EL2 : q + List.length (ds ++ gp ++ rest) = q + List.length (ds ++ gp) + List.length rest) by (rewrite !app_length; clear; lia).
      eapply (re_cps_iter m q ds gp v dg z); eauto. { apply hex_not_space. exact Hz'. }
      { intros E. exfalso. unfold gp in E. destruct gap; discriminate. }
      intros b' HL' HP'. rewrite Hgp, EL2, EL, (app_assoc d dg dg').
      replace (t ++ pre :: kept_digits ds dg ++ v') with ((t ++ pre :: kept_digits ds dg) ++ v') by (rewrite <- app_assoc; reflexivity).
      rewrite EL2, EL in Hz. rewrite EL in HL', HP', Hzz, HT2.
      apply IH; auto. rewrite !app_length in Hm. clear - Hm HCP. destruct (code_point_first _ _ _ _ HCP) as (x & ds' & -> & _). cbn in Hm. lia.
  Qed.

  Lemma step_unicode : forall nxt p n ds m0 t d Q, ~ delim paren term 92%N -> Forall hexadecimal ds -> List.length ds = 4 ->
    nth_error B p = Some 92%N -> nth_error B (p + 1) = Some 117%N -> text_at B (p + 2) ds -> nth_error B (p + 6) = Some nxt ->
    (scalar (hex_number ds) -> Cont m0 n (p + 6) (t ++ 92 :: 117 :: ds)%N d Q -> Cont (m0 + 6) n p t d Q) /\
    (surrogate (hex_number ds) -> Cont m0 n (p + 6) (t ++ [92; 117]%N) (d ++ [mkDiag Error InvalidUnicodeCodepoint (mkLoc (p + 2) (p + 6))]) Q -> Cont (m0 + 6) n p t d Q).
  Proof using All.
    intros nxt p n ds m0 t d Q HD HF H4 Hx Hc HT Hn.
    destruct ds as [|x ds']; [discriminate|]. pose proof HT as HT0. apply text_at_cons in HT0. destruct HT0 as (Hx0 & _).
    assert (Hhx : hexadecimal x) by (inversion HF; assumption).
    assert (HBX : forall b2, Line b2 (p + 1) -> pcur b2 = p + 1 -> Line (set_pcur (p + 2) b2) (p + 2)).
    { intros b2 HL HP. replace (p + 2) with (p + 1 + 1) by (clear; lia). eapply line_step; eauto; [split; discriminate|]. replace (p + 1 + 1) with (p + 2) by (clear; lia). exact Hx0. }
    assert (HPEEK : N.eqb 123 x = false). { apply N.eqb_neq. unfold hexadecimal in Hhx. clear - Hhx. intros <-. vm_compute in Hhx. intuition congruence. }
    assert (Hn2 : nth_error B (p + 2 + 4) = Some nxt) by (replace (p + 2 + 4) with (p + 6) by (clear; lia); exact Hn).
    split; intros HS HK m b Hm HC; (destruct m as [|m]; [exfalso; clear - Hm; lia|]); (eapply re_backslash; eauto; [discriminate|]);
      intros b2 HL HP; specialize (HBX b2 HL HP);
      change (mbeq (Some 117%N) 10%N) with false; change (mbeq (Some 117%N) "\") with false; change (mbeq (Some 117%N) "u") with true; cbv iota;
      ws; unfold tokadd_utf8; ws; cbn [when]; ws; ws; ws; ws; 
      (match goal with |- wp e _ _ ?S => change S with (Sx ((t ++ [92%N]) ++ [117%N]) d (set_pcur (p + 2) b2)) end);
      rewrite <- app_assoc; cbn [app]; (eapply (any sx_peek); eauto); rewrite HPEEK; ws;
      destruct (re_narrow (t ++ [92; 117]%N) d (set_pcur (p + 2) b2) (p + 2) (x :: ds') nxt HF H4 HBX eq_refl HT Hn2) as (C1 & C2).
    - eapply wp_conseq; [exact (C1 HS)|]. intros ok s' (-> & (b3 & -> & HL3 & HP3)). cbn [negb]. ws. ws.
      replace (p + 2 + 4) with (p + 6) in * by (clear; lia). rewrite <- app_assoc. apply HK; [clear - Hm; lia|]. apply line_here; auto.
    - eapply wp_conseq; [exact (C2 HS)|]. intros ok s' (-> & (b3 & -> & HL3 & HP3)). cbn [negb]. ws. ws.
      replace (p + 2 + 4) with (p + 6) in * by (clear; lia).
      apply (HK m (set_ptok (pcur b3) b3)); [clear - Hm; lia|]. apply cur_ptok; [|clear - HP3; lia]. apply line_here; auto.
  Qed.

  Lemma step_braces : forall nxt p n gap us v dg m0 t d Q, ~ delim paren term 92%N -> Forall gap_byte gap ->
    re_points (p + 3 + List.length gap) 123 us v dg ->
    text_at B p ([92; 117; 123]%N ++ gap ++ us ++ [125%N]) -> nth_error B (p + (4 + List.length gap + List.length us)) = Some nxt ->
    Cont m0 n (p + (4 + List.length gap + List.length us)) (t ++ [92; 117]%N ++ v ++ [125%N]) (d ++ dg) Q -> Cont (m0 + 1) n p t d Q.
  Proof using All.
    intros nxt p n gap us v dg m0 t d Q HD HG HCPS HT Hn HK m b Hm HC.
    cbn [app] in HT. apply text_at_cons in HT. destruct HT as (T1 & HT). apply text_at_cons in HT. destruct HT as (T2 & HT).
    apply text_at_cons in HT. destruct HT as (T3 & HT). replace (p + 1 + 1) with (p + 2) in * by (clear; lia). replace (p + 2 + 1) with (p + 3) in * by (clear; lia).
    apply text_at_app in HT. destruct HT as (TG & HT). apply text_at_app in HT. destruct HT as (TU & HT). apply text_at_cons in HT. destruct HT as (TE & _).
    destruct (re_points_first _ _ _ _ _ HCPS) as (z & us' & Eus & Hz).
    assert (TZ : nth_error B (p + 3 + List.length gap) = Some z). { rewrite Eus in TU. apply text_at_cons in TU. apply TU. }
    assert (TY : exists y, nth_error B (p + 3) = Some y).
    { destruct gap as [|g gap']; [cbn [List.length] in TZ; rewrite Nat.add_0_r in TZ; eauto|]. apply text_at_cons in TG. exists g. apply TG. }
    destruct TY as (y & TY).
    destruct m as [|m]; [exfalso; clear - Hm; lia|]. eapply re_backslash; eauto; [discriminate|].
    intros b2 HL HP. assert (HL2 : Line (set_pcur (p + 2) b2) (p + 2)).
    { replace (p + 2) with (p + 1 + 1) by (clear; lia). eapply line_step; eauto; [split; discriminate|]. replace (p + 1 + 1) with (p + 2) by (clear; lia). exact T3. }
    change (mbeq (Some 117%N) 10%N) with false; change (mbeq (Some 117%N) "\") with false; change (mbeq (Some 117%N) "u") with true; cbv iota.
    ws. unfold tokadd_utf8. ws. cbn [when]. ws. ws. ws. ws.
    match goal with |- wp e _ _ ?S => change S with (Sx ((t ++ [92%N]) ++ [117%N]) d (set_pcur (p + 2) b2)) end.
    rewrite <- app_assoc. cbn [app]. set (t2 := t ++ [92; 117]%N). eapply (any sx_peek); eauto. change (N.eqb 123 123) with true. cbv iota. ws.
    eapply (any sx_nx t2 d (set_pcur (p + 2) b2) (p + 2)); [apply line_here; [exact HL2|reflexivity]|exact T3|discriminate|]. intros b3 HL3 HP3.
    assert (HL4 : Line (set_pcur (p + 3) b3) (p + 3)).
    { replace (p + 3) with (p + 2 + 1) by (clear; lia). eapply line_step; eauto; [split; discriminate|]. replace (p + 2 + 1) with (p + 3) by (clear; lia). exact TY. }
    replace (p + 2 + 1) with (p + 3) by (clear; lia). ws. ws.
    change (pend (buffer (Sx t2 d (set_pcur (p + 3) b3)))) with (pend (set_pcur (p + 3) b3)). change (pcur (buffer (Sx t2 d (set_pcur (p + 3) b3)))) with (p + 3).
    pose proof (ln_lt _ _ _ _ HL4) as K. replace (pend (set_pcur (p + 3) b3) <=? p + 3) with false by (clear - K; lia). clear K.
    ws. eapply wp_conseq; [eapply (any skip1 gap (set_pcur (p + 3) b3) (p + 3)); eauto; apply hex_not_space; exact Hz|].
    intros r s' (-> & (b5 & -> & HL5 & HP5)). ws. rewrite re_cps_loop. unfold loop.
    match goal with |- wp e (fun e1 s1 => loop_n (fuel e1) ?body ?x e1 s1) ?Q ?s => change (wp e (loop_n (fuel e) body x) Q s) end.
    eapply wp_conseq; [eapply re_cps_run; eauto; pose proof (in_file B _ _ TE) as K; clear - K Hfuel; lia|].
    intros r s' (-> & (b6 & -> & HL6 & HP6)). change (negb (mbeq (Some 125%N) "}")) with false. cbv iota. ws. ws. ws. cbn [when]. ws.
    match goal with |- wp e _ _ ?S => change S with (Sx ((t2 ++ v) ++ [125%N]) (d ++ dg) b6) end. ws.
    eapply (any sx_nx ((t2 ++ v) ++ [125%N]) (d ++ dg) b6 _ 125%N); [apply line_here; eauto|exact TE|discriminate|]. intros b7 HL7 HP7. ws. ws.
    replace (p + 3 + List.length gap + List.length us + 1) with (p + (4 + List.length gap + List.length us)) in * by (clear; lia).
    replace ((t2 ++ v) ++ [125%N]) with (t ++ [92; 117]%N ++ v ++ [125%N]) by (unfold t2; rewrite <- !app_assoc; reflexivity).
    apply HK; [clear - Hm; lia|]. replace (p + (4 + List.length gap + List.length us)) with (p + 3 + List.length gap + List.length us + 1) by (clear; lia).
    eapply line_after; eauto; discriminate.
  Qed.

  (** *** A piece, and a sequence of pieces *)
  Lemma cont_more : forall m0 m1 n p t d Q, Cont m0 n p t d Q -> m0 <= m1 -> Cont m1 n p t d Q.
  Proof using All. intros m0 m1 n p t d Q H Hm m b' H1 H2. apply H; auto. clear - Hm H1. lia. Qed.

  Lemma piece_step : forall nxt p n txt v dg n1, re_piece paren term nxt p n txt v dg n1 ->
    text_at B p txt -> nth_error B (p + List.length txt) = Some nxt -> (In 10%N txt -> order) ->
    forall m0 t d Q, Cont m0 n1 (p + List.length txt) (t ++ v) (d ++ dg) Q -> Cont (m0 + List.length txt) n p t d Q.
  Proof using All.
    intros nxt p n txt v dg n1 HPC HT Hn HO m0 t d Q HK.
    assert (T0 : forall x w, txt = x :: w -> nth_error B p = Some x).
    { intros x w ->. apply text_at_cons in HT. apply HT. }
    assert (T1 : forall x y w, txt = x :: y :: w -> nth_error B (p + 1) = Some y /\ text_at B (p + 2) w).
    { intros x y w ->. apply text_at_cons in HT. destruct HT as (_ & HT). apply text_at_cons in HT. destruct HT as (HT1 & HT2).
      split; [exact HT1|]. replace (p + 2) with (p + 1 + 1) by (clear; lia). exact HT2. }
    destruct HPC; try rewrite app_nil_r in HK; cbn [List.length] in *.
    - eapply step_char; eauto. intros ->. apply HO. left. reflexivity.
    - eapply step_open; eauto. intros ->. apply HO. left. reflexivity.
    - eapply step_close; eauto. intros ->. apply HO. left. reflexivity.
    - destruct (T1 _ _ _ eq_refl). eapply step_delim; eauto.
    - destruct (T1 _ _ _ eq_refl). eapply step_line; eauto. { apply HO. right. left. reflexivity. } rewrite app_nil_r in HK. exact HK.
    - destruct (T1 _ _ _ eq_refl). eapply step_pair; eauto.
    - apply cont_more with (m0 := m0 + 1); [|clear; lia]. eapply step_octal; eauto.
    - apply cont_more with (m0 := m0 + 1); [|clear; lia]. eapply step_hex; eauto.
    - destruct (T1 _ _ _ eq_refl) as (E1 & E2). rewrite H1 in *. eapply (proj1 (step_unicode _ p n ds m0 t d Q H H0 H1 (T0 _ _ eq_refl) E1 E2 Hn)); auto.
    - destruct (T1 _ _ _ eq_refl) as (E1 & E2). rewrite H1 in *. eapply (proj2 (step_unicode _ p n ds m0 t d Q H H0 H1 (T0 _ _ eq_refl) E1 E2 Hn)); auto.
    - assert (EL : List.length ([92; 117; 123]%N ++ gap ++ us ++ [125%N]) = 4 + List.length gap + List.length us) by (rewrite !app_length; cbn; clear; lia).
      rewrite EL in *. apply cont_more with (m0 := m0 + 1); [|clear; lia]. eapply step_braces; eauto.
    - apply cont_more with (m0 := m0 + 1); [|clear; lia]. eapply step_modified; eauto.
  Qed.

  Lemma body_step : forall fin p n txt v dg n2, re_body paren term fin p n txt v dg n2 ->
    text_at B p txt -> nth_error B (p + List.length txt) = Some fin -> (In 10%N txt -> order) ->
    forall m0 t d Q, Cont m0 n2 (p + List.length txt) (t ++ v) (d ++ dg) Q -> Cont (m0 + List.length txt) n p t d Q.
  Proof using All.
    intros fin p n txt v dg n2 HB. induction HB as [p n|p n txt v dg n1 rest v' dg' n2 HPC HB IH]; intros HT Hn HO m0 t d Q HK.
    - cbn in *. rewrite !app_nil_r in HK. rewrite !Nat.add_0_r in *. exact HK.
    - rewrite app_length in *. apply text_at_app in HT. destruct HT as (HT1 & HT2).
      rewrite Nat.add_assoc in Hn, HK. rewrite (Nat.add_comm (List.length txt)), Nat.add_assoc.
      eapply piece_step; eauto.
      + destruct rest as [|r rest]; cbn [hd List.length] in *; [rewrite Nat.add_0_r in Hn; exact Hn|]. apply text_at_cons in HT2. apply HT2.
      + intros K. apply HO. apply in_or_app. auto.
      + apply IH; auto; [intros K; apply HO; apply in_or_app; auto|]. rewrite <- !app_assoc. exact HK.
  Qed.

  Lemma body_end_term : forall p t d (Q : option MaybeByte * nat -> Lexer -> Prop), paren <> Some term -> term <> 13%N -> nth_error B p = Some term ->
    (forall b', Line b' p -> pcur b' = p -> Q (Some (Some term), 0) (Sx t d b')) -> Cont 1 0 p t d Q.
  Proof using All.
    intros p t d Q HP0 H13 Hx HQ m b Hm HC. destruct m as [|m]; [exfalso; clear - Hm; lia|]. eapply ts_first; eauto. intros b1 HL HP.
    replace (mbeq_opt (Some term) paren) with false.
    2:{ unfold mbeq_opt. destruct paren as [q|]; [|reflexivity]. symmetry. apply N.eqb_neq. congruence. }
    replace (mbeq (Some term) term) with true by (symmetry; apply N.eqb_refl). cbn [Nat.eqb]. ws. eapply (any sx_push); eauto. ws.
    apply HQ; [apply line_rebase; exact HL|reflexivity].
  Qed.

  (** The loop from the start of the text *)
  Lemma string_run : forall m0 n p t d b (Q : option MaybeByte * nat -> Lexer -> Prop), Cont m0 n p t d Q -> m0 <= fuel e -> Cur b p ->
    wp e (tokadd_string func term paren n) Q (Sx t d b).
  Proof using All.
    intros m0 n p t d b Q HK Hm HC. rewrite tokadd_string_loop. unfold loop.
    match goal with |- wp e (fun e1 s1 => loop_n (fuel e1) ?body ?x e1 s1) ?Q ?s => change (wp e (loop_n (fuel e) body x) Q s) end.
    apply HK; auto.
  Qed.

End Regexp.
