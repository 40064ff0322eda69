(** * Heredocs without interpolation: the text and the end *)
Require Import Verif.Base Verif.MaybeByteM Verif.Utf8M Verif.InputM Verif.DiagnosticM Verif.TokensM Verif.BufferM Verif.LexStateM
  Verif.LexerM Verif.LexStringM Verif.LexIdentM Verif.LexHeredocM Verif.LexMainM
  Verif.SourceSpec Verif.SourceProofs Verif.Wp Verif.BufInv Verif.LexSpec Verif.NewlineInv Verif.MainInv
  Verif.ReadSpec Verif.YylexSpec Verif.Reach Verif.NumRead Verif.IdentRead Verif.IdentStep Verif.Prop_Ident Verif.Prop_Crlf
  Verif.StringSpec Verif.StrStep Verif.StrOpen Verif.StrRead Verif.HereSpec Verif.HereStep Verif.HereText.
Require Import ZifyBool ZifyNat ZifyN.

Section Indent.
  Variable B : list N.

  Lemma upd_dead : forall l p b x, BWF B b -> text_at B p l -> ~ In 10%N l ->
    update_indent_range (List.length l) p (upd x (-1) b) = upd x (-1) b.
  Proof using.
    induction l as [|c l IH]; intros p b x HW HT Hn; [reflexivity|]. apply text_at_cons in HT. destruct HT as (T1 & T2). cbn [List.length update_indent_range].
    assert (E : b_update_heredoc_indent (byte_at (upd x (-1) b) p) (upd x (-1) b) = upd x (-1) b).
    { change (byte_at (upd x (-1) b) p) with (byte_at b p). rewrite (byte_at_B B b p HW), T1. unfold b_update_heredoc_indent. cbn [upd heredoc_line_indent set_heredoc_indent set_heredoc_line_indent Z.eqb Pos.eqb mbeq].
      replace (N.eqb c 10) with false by (symmetry; apply N.eqb_neq; intros ->; apply Hn; left; reflexivity). reflexivity. }
    rewrite E. apply IH; auto. intros K. apply Hn. right. exact K.
  Qed.

  Lemma range_app : forall n m p b, update_indent_range (n + m) p b = update_indent_range m (p + n) (update_indent_range n p b).
  Proof using.
    induction n as [|n IH]; intros m p b; cbn [Nat.add update_indent_range]; [rewrite Nat.add_0_r; reflexivity|]. rewrite IH. f_equal. lia.
  Qed.

  Lemma upd_line : forall l p b x w, BWF B b -> text_at B p (l ++ [10%N]) -> ~ In 10%N l -> (0 <= w)%Z ->
    exists y, update_indent_range (List.length l + 1) p (upd x w b) = upd (if is_blank l then x else Z.min x (width_from w l)) y b.
  Proof using.
    induction l as [|c l IH]; intros p b x w HW HT Hn Hw.
    - cbn [List.length Nat.add update_indent_range]. change (byte_at (upd x w b) p) with (byte_at b p). cbn in HT. apply text_at_cons in HT. destruct HT as (T1 & _).
      rewrite (byte_at_B B b p HW), T1. unfold b_update_heredoc_indent. exists w. cbn [is_blank].
      change (heredoc_line_indent (upd x w b)) with w. replace (Z.eqb w (-1)) with false by lia. reflexivity.
    - cbn [app] in HT. apply text_at_cons in HT. destruct HT as (T1 & T2). cbn [List.length Nat.add update_indent_range].
      change (byte_at (upd x w b) p) with (byte_at b p). rewrite (byte_at_B B b p HW), T1.
      assert (Hn' : ~ In 10%N l) by (intros K; apply Hn; right; exact K).
      unfold b_update_heredoc_indent. change (heredoc_line_indent (upd x w b)) with w. replace (Z.eqb w (-1)) with false by lia. cbn [mbeq].
      destruct (N.eqb_spec c 32) as [->|N32].
      { change (set_heredoc_line_indent (w + 1) (upd x w b)) with (upd x (w + 1) b). destruct (IH (p + 1) b x (w + 1)%Z) as (y & E); auto; [lia|]. exists y. exact E. }
      destruct (N.eqb_spec c 9) as [->|N9].
      { change (set_heredoc_line_indent ?v (upd x w b)) with (upd x v b). destruct (IH (p + 1) b x ((Z.quot w TAB_WIDTH + 1) * TAB_WIDTH)%Z) as (y & E); auto.
        { unfold TAB_WIDTH. pose proof (Z.quot_pos w 8 Hw ltac:(lia)). lia. }
        exists y. rewrite E. cbn [is_blank width_from]. unfold TAB_WIDTH. rewrite Z.quot_div_nonneg by lia. rewrite (Z.mul_comm (w / 8 + 1) 8). reflexivity. }
      destruct (width_other c l w N32 N9) as (E1 & E2). rewrite E1, E2.
      replace (N.eqb c 10) with false by (symmetry; apply N.eqb_neq; intros ->; apply Hn; left; reflexivity). cbn [negb].
      change (heredoc_indent (upd x w b)) with x. change (heredoc_line_indent (upd x w b)) with w.
      rewrite range_app.
      assert (E : set_heredoc_line_indent (-1) (if (w <? x)%Z then set_heredoc_indent w (upd x w b) else upd x w b) = upd (Z.min x w) (-1) b).
      { destruct (w <? x)%Z eqn:Ew; [replace (Z.min x w) with w by lia|replace (Z.min x w) with x by lia]; reflexivity. }
      rewrite E. apply text_at_app in T2. destruct T2 as (T2 & T3). rewrite upd_dead by auto. apply text_at_cons in T3. destruct T3 as (T3 & _).
      cbn [update_indent_range]. exists 0%Z. change (byte_at (upd ?u ?v b) ?i) with (byte_at b i). rewrite (byte_at_B B b _ HW), T3. reflexivity.
  Qed.

  Lemma indent_line : forall l p b, BWF B b -> text_at B p (l ++ [10%N]) -> ~ In 10%N l -> heredoc_line_indent b = 0%Z ->
    set_heredoc_line_indent 0 (update_indent_range (List.length l + 1) p b) = upd (less_indent (heredoc_indent b) l) 0 b.
  Proof using.
    intros l p b HW HT Hn HI. assert (E : b = upd (heredoc_indent b) 0 b) by (rewrite <- HI; destruct b; reflexivity).
    destruct (upd_line l p b (heredoc_indent b) 0%Z HW HT Hn ltac:(lia)) as (y & Ey). rewrite <- E in Ey. rewrite Ey. reflexivity.
  Qed.
End Indent.

Lemma line_end : forall B k, lend B k <= List.length B.
Proof.
  intros B k. destruct (Nat.lt_ge_cases k (NL B)) as [H|H]; [apply line_bounds; exact H|]. unfold lend. destruct (nth_error (LN B) k) eqn:E; auto.
  assert (K : nth_error (LN B) k <> None) by congruence. apply nth_error_Some in K. unfold NL in H. lia.
Qed.

(** ** The heredoc that is being read *)
Definition hend (B : list N) (h : HeredocLiteral) : nat := lstart B (hl_lastline h) + hl_offset h + hl_length h + hl_quote h.

Record HereOk (B : list N) (h : HeredocLiteral) (indent expand : bool) (id : list N) : Prop := mkHereOk {
  ho_off : hl_quote h <= hl_offset h;
  ho_len : hl_length h = List.length id;
  ho_func : hl_func h = N.lor (if indent then STR_FUNC_INDENT else 0%N) (if expand then STR_FUNC_EXPAND else 0%N);
  ho_text : text_at B (lstart B (hl_lastline h) + hl_offset h) id;
  ho_cr : nth_error B (hend B h - 1) <> Some 13%N;
  ho_end : hend B h < lend B (hl_lastline h)
}.

(** The reader is back on the line where the heredoc started *)
Record GoneBack (B : list N) (h : HeredocLiteral) (b b' : Buffer) : Prop := mkBack {
  bk_rd : Ready B b';
  bk_pcur : pcur b' = hend B h;
  bk_pbeg : pbeg b' = lstart B (hl_lastline h);
  bk_pend : pend b' = lend B (hl_lastline h);
  bk_last : lastline b' = hl_lastline h;
  bk_count : line_count b' = line_count b;
  bk_indent : heredoc_indent b' = heredoc_indent b
}.

Section Body.
  Variables (B : list N) (e : Env).

  Lemma restored : forall h indent expand id s (Q : unit -> Lexer -> Prop), HereOk B h indent expand id -> Ready B (buffer s) -> hl_lastline h < line_count (buffer s) ->
    (forall b', GoneBack B h (buffer s) b' -> Q tt (set_buffer b' (set_strterm None s))) -> wp e (heredoc_restore h) Q s.
  Proof using.
    intros h indent expand id s Q [O1 O2 O4 O5 OC O6] (HW & N0 & E0) HL HQ. unfold heredoc_restore.
    pose proof (w_count B _ HW) as HC. destruct (line_some B (hl_lastline h)) as (l & L1 & L2 & L3); [lia|].
    destruct (line_bounds B (hl_lastline h)) as (L4 & L5); [lia|]. unfold hend in O6.
    ws. ws. ws. ws. ws. ws. ws. eapply wp_expect. { unfold InputM.line_at. cbn. rewrite (w_lines B _ HW). exact L1. }
    ws. ws. ws. ws. ws. ws. ws. ws. apply wp_bind. apply wp_sub_ck; [cbn; lia|]. ws. ws. ws. ws. ws. ws. ws. ws. ws. cbn [eofp set_ruby_sourceline set_heredoc_end set_ptok set_pcur set_pend set_pbeg set_lastline buffer set_buffer set_strterm]. rewrite E0.
    match goal with |- Q tt ?s' => change (Q tt (set_buffer (buffer s') (set_strterm None s))) end.
    apply HQ. cbn. 
    assert (EP : l_start l + hl_offset h + hl_length h + hl_quote h = hend B h) by (unfold hend; lia).
    assert (EL : l_start l + line_len l = lend B (hl_lastline h)) by (unfold line_len; lia).
    constructor; cbn; auto. split; [|split; [exact N0|reflexivity]].
    constructor; cbn; rewrite ?EP, ?EL; auto; unfold hend; try lia.
    - exact (w_bytes B _ HW).
    - exact (w_lines B _ HW).
    - exact (w_prev B _ HW).
  Qed.

  (** The first byte of line [k], at [p], has been read *)
  Record Loaded (b : Buffer) (k p : nat) : Prop := mkLoaded {
    ld_rd : Ready B b;
    ld_pcur : pcur b = p + 1;
    ld_pbeg : pbeg b = p;
    ld_start : lstart B k = p;
    ld_last : lastline b = k;
    ld_count : line_count b = k + 1;
    ld_in : k < NL B
  }.

  Lemma loaded_pend : forall b k p, Loaded b k p -> pend b = lend B k.
  Proof using. intros b k p [(W & _) _ _ _ L _ _]. rewrite <- L. apply (w_pend B b W). Qed.

  Lemma loaded : forall s k p x (Q : MaybeByte -> Lexer -> Prop), Ready B (buffer s) -> pcur (buffer s) = pend (buffer s) -> line_count (buffer s) = k -> lstart B k = p ->
    nth_error B p = Some x -> x <> 13%N ->
    (forall b, Loaded b k p -> heredoc_indent b = heredoc_indent (buffer s) -> heredoc_line_indent b = heredoc_line_indent (buffer s) -> Q (Some x) (set_buffer b s)) ->
    wp e nextc Q s.
  Proof using.
    intros s k p x Q HR HP HC Hk Hx H13 HQ. assert (Hp : p < List.length B) by (apply nth_error_Some; congruence).
    destruct (load_next B (buffer s) k p HR HP HC Hk Hp) as (b1 & R1 & R2 & R3 & R4 & R5 & R6 & R7 & R8 & R9 & R10 & R11).
    unfold nextc, inb. apply wp_zoom. eapply wp_same; [apply R11|].
    pose proof (rd_byte B e b1 R1 p x R8 Hx H13) as E. rewrite (rd_here e b1 p R2) in E. eapply wp_eq; [exact E|].
    destruct R1 as (W1 & N1 & E1).
    apply HQ; auto. constructor; auto.
    - split; [|split; [exact N1|exact E1]]. constructor; cbn; try apply W1; try lia.
      intros _ K. replace (p + 1 - 1) with p in K by lia. congruence.
    - pose proof (w_last B b1 W1). pose proof (w_count B b1 W1). lia.
  Qed.

  Variables (h : HeredocLiteral) (indent expand : bool) (id last eol : list N).
  Hypothesis Hok : HereOk B h indent expand id.
  Hypothesis Hname : here_name indent id.
  Hypothesis Hlast : plain_line last /\ ends_here indent id last.
  Definition closes (t : nat) : Prop := eol = [10%N] \/ (eol = [] /\ t + List.length last = List.length B /\ last <> []).
  Definition lines_ok (ls : list (list N)) : Prop := Forall (fun l => plain_line l /\ ~ ends_here indent id l) ls.

  Definition heos : nat := lstart B (hl_lastline h) + hl_offset h.

  Lemma line_whole : forall b k p l, Loaded b k p -> text_at B p (l ++ [10%N]) -> plain_line l -> whole B b p l /\ lend B k = p + List.length l + 1 /\ lstart B (k + 1) = p + List.length l + 1.
  Proof using All.
    intros b k p l HL HT (H10 & _). pose proof (loaded_pend b k p HL) as HE. destruct (line_here B k p l (ld_start _ _ _ HL) HT H10) as (A1 & A2 & A3).
    splits; auto. right. split; [congruence|]. apply text_at_app in HT. destruct HT as (_ & HT). apply text_at_cons in HT. apply HT.
  Qed.

  Lemma last_whole : forall b k p, Loaded b k p -> text_at B p (last ++ eol) -> closes p -> whole B b p last /\ lend B k = p + List.length last + List.length eol.
  Proof using All.
    intros b k p HL HT [El|(El & HE & Hn)]; pose proof Hlast as (HP & _); rewrite El in HT |- *.
    - destruct (line_whole b k p last HL HT HP) as (A & A1 & _). split; [exact A|]. cbn. lia.
    - rewrite app_nil_r in HT. destruct (line_rest B k p last (ld_start _ _ _ HL) HT (proj1 HP) HE Hn) as (A1 & A2). cbn. split; [|lia].
      left. rewrite (loaded_pend b k p HL). lia.
  Qed.

  Lemma terminator : forall s k p l (Q : bool -> Lexer -> Prop), Loaded (buffer s) k p -> text_at B p l -> whole B (buffer s) p l -> plain_line l ->
    (forall r, (r = true <-> ends_here indent id l) -> Q r s) -> wp e (at_terminator h heos) Q s.
  Proof using All.
    intros s k p l Q HL HT HZ HP HQ. destruct Hok as [O1 O2 O4 O5 OC O6]. destruct HL as [(W & N0 & E0) L1 L2 L3 L4 L5 L6].
    unfold at_terminator. ws. ws. ws. eapply wp_expect.
    { rewrite O2. apply (substr_text B (buffer s) (conj W (conj N0 E0)) heos id (buffer s)); auto.
      pose proof (line_end B (hl_lastline h)). unfold hend in O6. unfold heos. lia. }
    ws. apply HQ. rewrite O4. replace (has (N.lor (if indent then STR_FUNC_INDENT else 0%N) (if expand then STR_FUNC_EXPAND else 0%N)) STR_FUNC_INDENT) with indent by (destruct indent, expand; reflexivity).
    apply (whole_match B (buffer s) indent id l); auto; rewrite L2; auto.
  Qed.

  Lemma computed_end : forall s k p (Q : HeredocEnd -> Lexer -> Prop), Loaded (buffer s) k p -> text_at B p (last ++ eol) -> closes p ->
    Q (mkHeredocEnd p (p + List.length last) (drop_spaces last)) s -> wp e compute_heredoc_end Q s.
  Proof using All.
    intros s k p Q HL HT HC HQ. destruct (last_whole _ _ _ HL HT HC) as (HZ & _). destruct HL as [(W & N0 & E0) L1 L2 L3 L4 L5 L6]. destruct Hlast as ((H10 & _) & _).
    unfold compute_heredoc_end. ws. ws. rewrite (w_bytes B _ W). rewrite <- L2 in HT, HZ. destruct (heredoc_end_text B (buffer s) last (text_prefix _ _ _ _ HT) H10 W HZ) as (A1 & A2).
    cbv zeta. ws. eapply wp_expect; [rewrite A1; exact A2|]. ws. rewrite A1, L2. exact HQ.
  Qed.

  (** *** The text *)
  Definition raw_step (eos : nat) (str : list N) : M Lexer (list N + Tok) :=
    b <- getb ;;
    line <- expect (InputM.line_at (input b) (lastline b)) "index out of bounds" ;;
    let ptr := l_start line in
    ptr_end <- raw_line_end b ptr ;;
    when (Z.ltb 0 (heredoc_indent b))
      (modb (fun b => set_heredoc_line_indent 0%Z (update_indent_range (ptr_end - ptr) ptr b))) ;;;
    s <- expect (b_substr_at b ptr ptr_end) "no substr" ;;
    let str := str ++ s ++ (if ptr_end <? pend b then [10%N] else []) in
    modb goto_eol ;;;
    b <- getb ;;
    if Z.ltb 0 (heredoc_indent b) then
      t <- heredoc_flush_str str ;; ret (inr t)
    else
      c <- nextc ;;
      if is_eof c then
        t <- here_document_error h eos (hl_length h) ;; ret (inr t)
      else
        m <- at_terminator h eos ;;
        if m : bool then
          b <- getb ;;
          e <- sub_ck (pend b) 1 ;;
          modify (set_lval_end (Some e)) ;;;
          he <- compute_heredoc_end ;;
          t <- here_document_finish h str he ;;
          ret (inr t)
        else ret (inl str).

  Lemma raw_is : forall eos, here_document_raw h eos = loop (raw_step eos) [].
  Proof using All. reflexivity. Qed.

  (** The first step of the loop, up to the end of the line *)
  Lemma raw_line : forall s k p l str (Q : list N + Tok -> Lexer -> Prop), Loaded (buffer s) k p -> text_at B p (l ++ [10%N]) -> plain_line l ->
    heredoc_line_indent (buffer s) = 0%Z -> (0 <= heredoc_indent (buffer s))%Z ->
    (forall b, Ready B b -> pcur b = pend b -> pend b = lstart B (k + 1) -> line_count b = k + 1 -> heredoc_indent b = less_indent (heredoc_indent (buffer s)) l -> heredoc_line_indent b = 0%Z ->
      wp e (if Z.ltb 0 (heredoc_indent b) then t <- heredoc_flush_str (str ++ l ++ [10%N]) ;; ret (inr t)
            else
              c <- nextc ;;
              if is_eof c then
                t <- here_document_error h heos (hl_length h) ;; ret (inr t)
              else
                m <- at_terminator h heos ;;
                if m : bool then
                  b <- getb ;;
                  e <- sub_ck (pend b) 1 ;;
                  modify (set_lval_end (Some e)) ;;;
                  he <- compute_heredoc_end ;;
                  t <- here_document_finish h (str ++ l ++ [10%N]) he ;;
                  ret (inr t)
                else ret (inl (str ++ l ++ [10%N]))) Q (set_buffer b s)) ->
    wp e (raw_step heos str) Q s.
  Proof using All.
    intros s k p l str Q HL HT HP HI Hm HQ. pose proof (line_whole _ _ _ _ HL HT HP) as (HZ & HE & HS). pose proof (loaded_pend _ _ _ HL) as HPd.
    destruct HL as [HR L1 L2 L3 L4 L5 L6]. pose proof HR as (W & N0 & E0). destruct HP as (H10 & H13).
    destruct (line_some B k L6) as (ln & K1 & K2 & K3). unfold raw_step. ws. ws. ws. eapply wp_expect. { unfold InputM.line_at. rewrite (w_lines B _ W), L4. exact K1. }
    cbv zeta. rewrite K2, L3.
    assert (Tn : nth_error B (p + List.length l) = Some 10%N). { apply text_at_app in HT. destruct HT as (_ & HT). apply text_at_cons in HT. apply HT. }
    assert (ERaw : forall (Q' : nat -> Lexer -> Prop), Q' (p + List.length l + 1) s -> wp e (raw_line_end (buffer s) p) Q' s).
    { intros Q' HQ'. unfold raw_line_end. rewrite HPd, HE. replace (p <? p + List.length l + 1) with true by lia. replace (p + List.length l + 1 - 1) with (p + List.length l) by lia.
      ws. eapply wp_expect. { rewrite (byte_at_B B _ _ W). exact Tn. } change (N.eqb 10 10) with true. cbv iota.
      destruct (p + List.length l =? p) eqn:El; [ws; exact HQ'|].
      destruct (nth_error l (List.length l - 1)) as [y|] eqn:Ey; [|apply nth_error_None in Ey; lia].
      ws. eapply wp_expect. { rewrite (byte_at_B B _ _ W). replace (p + List.length l - 1) with (p + (List.length l - 1)) by lia.
        rewrite (text_nth B l p) by (try (eapply text_prefix; exact HT); lia). exact Ey. }
      replace (N.eqb y 13) with false; [ws; exact HQ'|]. symmetry. apply N.eqb_neq. intros ->. apply H13. eapply nth_error_In; exact Ey. }
    ws. apply ERaw. clear ERaw.
    assert (HSub : b_substr_at (buffer s) p (p + List.length l + 1) = Some (l ++ [10%N])).
    { replace (p + List.length l + 1) with (p + List.length (l ++ [10%N])) by (rewrite app_length; cbn; lia).
      apply (substr_text B (buffer s) HR p (l ++ [10%N]) (buffer s)); auto. apply text_at_len; auto. destruct l; discriminate. }
    assert (HQ2 : forall b1, Ready B b1 -> pend b1 = pend (buffer s) -> line_count b1 = k + 1 -> heredoc_indent b1 = less_indent (heredoc_indent (buffer s)) l -> heredoc_line_indent b1 = 0%Z -> 
      wp e (s0 <- expect (b_substr_at (buffer s) p (p + List.length l + 1)) "no substr" ;;
        let str := str ++ s0 ++ (if p + List.length l + 1 <? pend (buffer s) then [10%N] else []) in
        modb goto_eol ;;;
        b <- getb ;;
        if Z.ltb 0 (heredoc_indent b) then
          t <- heredoc_flush_str str ;; ret (inr t)
        else
          c <- nextc ;;
          if is_eof c then
            t <- here_document_error h heos (hl_length h) ;; ret (inr t)
          else
            m <- at_terminator h heos ;;
            if m : bool then
              b <- getb ;;
              e <- sub_ck (pend b) 1 ;;
              modify (set_lval_end (Some e)) ;;;
              he <- compute_heredoc_end ;;
              t <- here_document_finish h str he ;;
              ret (inr t)
            else ret (inl str)) Q (set_buffer b1 s)).
    { intros b1 R1 R2 R3 R4 R5. ws. eapply wp_expect; [exact HSub|]. cbv zeta. rewrite HPd, HE. rewrite Nat.ltb_irrefl, app_nil_r. ws. ws. ws. ws.
      change (set_buffer (goto_eol (buffer (set_buffer b1 s))) (set_buffer b1 s)) with (set_buffer (goto_eol b1) s).
      change (buffer (set_buffer (goto_eol b1) s)) with (goto_eol b1).
      destruct R1 as (W1 & A1 & A2). apply HQ; auto; cbn; [|rewrite R2, HPd, HE; congruence].
      split; [|split; [exact A1|exact A2]]. apply BWF_goto_eol; auto. }
    ws. destruct (0 <? heredoc_indent (buffer s))%Z eqn:Em; cbn [when].
    - ws. apply HQ2; auto.
      + replace (p + List.length l + 1 - p) with (List.length l + 1) by lia. rewrite (indent_line B l p (buffer s)) by auto.
        destruct W. split; [|split; [exact N0|exact E0]]. constructor; auto.
      + replace (p + List.length l + 1 - p) with (List.length l + 1) by lia. rewrite (indent_line B l p (buffer s)) by auto. reflexivity.
      + replace (p + List.length l + 1 - p) with (List.length l + 1) by lia. rewrite (indent_line B l p (buffer s)) by auto. exact L5.
      + replace (p + List.length l + 1 - p) with (List.length l + 1) by lia. rewrite (indent_line B l p (buffer s)) by auto. reflexivity.
    - ws. assert (ES : set_buffer (buffer s) s = s) by (destruct s; reflexivity). pose proof (HQ2 (buffer s)) as HQ3. rewrite ES in HQ3. apply HQ3; auto. unfold less_indent.
      replace (heredoc_indent (buffer s)) with 0%Z by lia. pose proof (width_from_ge l 0 ltac:(lia)). unfold width. destruct (is_blank l); lia.
  Qed.

  (** Where the text of the lines ends *)
  Definition tstart (p : nat) (ls : list (list N)) : nat := p + List.length (lines_text ls).

  Lemma tstart_cons : forall p l r, tstart p (l :: r) = tstart (p + List.length l + 1) r.
  Proof using All. intros p l r. unfold tstart. cbn [lines_text flat_map]. rewrite !app_length. cbn. fold (lines_text r). lia. Qed.

  Lemma lines_split : forall p l r w, text_at B p (lines_text (l :: r) ++ w) -> text_at B p (l ++ [10%N]) /\ text_at B (p + List.length l + 1) (lines_text r ++ w).
  Proof using All.
    intros p l r w H. change (lines_text (l :: r)) with ((l ++ [10%N]) ++ lines_text r) in H. rewrite <- (app_assoc (l ++ [10%N])) in H. apply text_at_app in H.
    rewrite app_length in H. cbn [List.length] in H. rewrite Nat.add_assoc in H. exact H.
  Qed.

  (** The first byte of a line of the text, or of the last line *)
  Lemma first_byte : forall p ls, text_at B p (lines_text ls ++ last ++ eol) -> closes (tstart p ls) -> lines_ok ls -> exists x, nth_error B p = Some x /\ x <> 13%N.
  Proof using All.
    intros p ls HT HC HO. destruct (lines_text ls ++ last ++ eol) as [|x w] eqn:E.
    - exfalso. apply app_eq_nil in E. destruct E as (_ & E). apply app_eq_nil in E. destruct E as (E1 & E2). destruct HC as [HC|(_ & _ & HC)]; [rewrite E2 in HC; discriminate|contradiction].
    - apply text_at_cons in HT. exists x. split; [apply HT|]. intros ->.
      assert (K : In 13%N (lines_text ls ++ last ++ eol)) by (rewrite E; left; reflexivity).
      apply in_app_or in K. destruct K as [K|K].
      + unfold lines_text in K. apply in_flat_map in K. destruct K as (l & K1 & K2). unfold lines_ok in HO. rewrite Forall_forall in HO. destruct (HO l K1) as ((_ & H13) & _).
        apply in_app_or in K2. destruct K2 as [K2|[K2|[]]]; [contradiction|discriminate].
      + apply in_app_or in K. destruct K as [K|K]; [destruct Hlast as ((_ & H13) & _); contradiction|].
        destruct HC as [HC|(HC & _)]; rewrite HC in K; [destruct K as [K|[]]; discriminate|destruct K].
  Qed.

  Definition hterm (p : nat) : option StrTerm :=
    new_strterm (N.lor (hl_func h) STR_FUNC_TERM) 0 (Some 0%N) (Some (mkHeredocEnd p (p + List.length last) (drop_spaces last))).

  Lemma raw_loop : forall r l n str s k p (Q : Tok -> Lexer -> Prop),
    Loaded (buffer s) k p -> text_at B p (lines_text (l :: r) ++ last ++ eol) -> closes (tstart p (l :: r)) -> lines_ok (l :: r) -> hl_lastline h < k ->
    heredoc_line_indent (buffer s) = 0%Z -> (0 <= heredoc_indent (buffer s))%Z -> List.length r < n ->
    ((0 <? less_indent (heredoc_indent (buffer s)) l)%Z = true ->
      forall b, Ready B b -> pcur b = pend b -> pend b = lstart B (k + 1) -> line_count b = k + 1 -> heredoc_indent b = less_indent (heredoc_indent (buffer s)) l -> heredoc_line_indent b = 0%Z ->
      Q tSTRING_CONTENT (set_lval (Some (str ++ l ++ [10%N])) (set_buffer b s))) ->
    ((0 <? less_indent (heredoc_indent (buffer s)) l)%Z = false ->
      forall b b', GoneBack B h b b' -> line_count b = k + List.length (l :: r) + 1 -> heredoc_indent b = 0%Z ->
      Q tSTRING_CONTENT (set_lval (Some (str ++ lines_text (l :: r))) (set_strterm (hterm (tstart p (l :: r))) (set_buffer b' (set_lval_end (Some (tstart p (l :: r) + List.length last + List.length eol - 1)) s))))) ->
    wp e (loop_n n (raw_step heos) str) Q s.
  Proof using All.
    induction r as [|l2 r IH]; intros l n str s k p Q HL HT HC HO HhL HI Hm Hn HQ1 HQ2.
    all: destruct n as [|n]; [exfalso; clear - Hn; cbn in Hn; lia|]; cbn [loop_n]; apply wp_bind.
    all: pose proof (Forall_inv HO) as (HP & HNe); pose proof (Forall_inv_tail HO) as HO2; apply lines_split in HT; destruct HT as (HTl & HT2).
    all: pose proof (line_whole _ _ _ _ HL HTl HP) as (HZ & HE & HS).
    all: assert (Hw0 : (0 <= less_indent (heredoc_indent (buffer s)) l)%Z) by (unfold less_indent, width; pose proof (width_from_ge l 0 ltac:(lia)); destruct (is_blank l); lia).
    all: eapply (raw_line s k p l str); [exact HL|exact HTl|exact HP|exact HI|exact Hm|].
    all: intros b R1 R2 R3 R4 R5 R6; rewrite R5.
    all: destruct (0 <? less_indent (heredoc_indent (buffer s)) l)%Z eqn:Ez; [unfold heredoc_flush_str; repeat ws; apply HQ1; auto|]; specialize (HQ2 eq_refl).
    all: assert (E0 : less_indent (heredoc_indent (buffer s)) l = 0%Z) by (clear - Ez Hw0; lia).
    - (* the last line comes next *)
      cbn [lines_text flat_map app] in HT2.
      assert (EC : tstart p [l] = p + List.length l + 1) by (unfold tstart; cbn; rewrite app_nil_r, app_length; cbn; clear; lia). rewrite EC in *.
      assert (HC2 : closes (tstart (p + List.length l + 1) [])) by (unfold tstart; cbn; rewrite Nat.add_0_r; exact HC).
      destruct (first_byte (p + List.length l + 1) [] HT2 HC2 (Forall_nil _)) as (x & Hx & H13).
      ws. eapply (loaded (set_buffer b s) (k + 1) (p + List.length l + 1) x); auto. intros b2 HL2 I1 I2. cbn [is_eof].
      change (set_buffer b2 (set_buffer b s)) with (set_buffer b2 s).
      destruct (last_whole _ _ _ HL2 HT2 HC) as (HZ2 & HE2). ws.
      eapply (terminator (set_buffer b2 s) (k + 1) (p + List.length l + 1) last); [exact HL2|eapply text_prefix; exact HT2|exact HZ2|apply Hlast|].
      intros rr Hr. replace rr with true by (symmetry; apply Hr, Hlast).
      pose proof (loaded_pend _ _ _ HL2) as HPd.
      ws. ws. apply wp_bind. change (pend (buffer (set_buffer b2 s))) with (pend b2). rewrite HPd, HE2.
      apply wp_sub_ck. { assert (0 < List.length last + List.length eol) by (destruct HC as [HC|(_ & _ & HC)]; [rewrite HC; cbn; clear; lia|destruct last; [contradiction|cbn; clear; lia]]). lia. }
      ws. ws. ws. eapply (computed_end _ (k + 1) (p + List.length l + 1)); [exact HL2|exact HT2|exact HC|].
      unfold here_document_finish. ws. ws.
      eapply restored; [exact Hok|apply HL2| |].
      { cbn. rewrite (ld_count _ _ _ HL2). lia. }
      intros b3 HB. repeat ws. 
      match goal with |- Q _ ?s' => change (Q tSTRING_CONTENT (set_lval (Some (str ++ l ++ [10%N])) (set_strterm (hterm (p + List.length l + 1)) (set_buffer (b_token_flush b3)
        (set_lval_end (Some (p + List.length l + 1 + List.length last + List.length eol - 1)) s))))) end.
      cbn [lines_text flat_map] in HQ2. rewrite app_nil_r in HQ2. apply (HQ2 b2).
      + destruct HB as [(W & A1 & A2) B1 B2 B3 B4 B5 B6]. constructor; auto. split; [|split; auto]. apply BWF_set_ptok; auto.
      + rewrite (ld_count _ _ _ HL2). cbn. clear. lia.
      + cbn in I1. congruence.
    - (* another line *)
      rewrite tstart_cons in HC.
      destruct (first_byte (p + List.length l + 1) (l2 :: r)) as (x & Hx & H13); auto.
      ws. eapply (loaded (set_buffer b s) (k + 1) (p + List.length l + 1) x); auto. intros b2 HL2 I1 I2. cbn [is_eof].
      change (set_buffer b2 (set_buffer b s)) with (set_buffer b2 s). cbn in I1, I2.
      pose proof (Forall_inv HO2) as (HP2 & HNe2).
      pose proof (lines_split _ _ _ _ HT2) as (HTl2 & _).
      pose proof (line_whole _ _ _ _ HL2 HTl2 HP2) as (HZ2 & HE2 & _). ws.
      eapply (terminator (set_buffer b2 s) (k + 1) (p + List.length l + 1) l2); [exact HL2|eapply text_prefix; exact HTl2|exact HZ2|exact HP2|].
      intros rr Hr. destruct rr; [exfalso; apply HNe2, Hr; reflexivity|]. ws.
      assert (Em2 : heredoc_indent b2 = 0%Z) by congruence.
      assert (Ew2 : less_indent 0 l2 = 0%Z) by (unfold less_indent, width; pose proof (width_from_ge l2 0 ltac:(clear; lia)) as Kw; clear - Kw; destruct (is_blank l2); lia).
      eapply (IH l2 n (str ++ l ++ [10%N]) (set_buffer b2 s) (k + 1) (p + List.length l + 1)); auto.
      + clear - HhL. lia.
      + cbn [buffer set_buffer]. congruence.
      + cbn [buffer set_buffer]. rewrite Em2. clear. lia.
      + clear - Hn. cbn in Hn. lia.
      + cbn [buffer set_buffer]. rewrite Em2, Ew2. discriminate.
      + intros _ b3 b' HB HC3 HI3. change (set_lval_end ?v (set_buffer b2 s)) with (set_buffer b2 (set_lval_end v s)).
        change (set_buffer b' (set_buffer b2 ?u)) with (set_buffer b' u).
        rewrite <- tstart_cons. cbn [lines_text flat_map]. rewrite <- !app_assoc. rewrite tstart_cons. 
        cbn [lines_text flat_map] in HQ2. rewrite <- !app_assoc in HQ2. rewrite tstart_cons in HQ2. apply (HQ2 b3); auto. rewrite HC3. cbn [List.length]. clear. lia.
  Qed.

  (** *** The text of a heredoc with interpolation *)
  Definition exp_step (eos : nat) (c : MaybeByte) : M Lexer (MaybeByte + Tok) :=
    pushback c ;;;
    '(r, _) <- tokadd_string (hl_func h) 10 None 0 ;;
    match r with
    | None =>
        b <- getb ;;
        t <- (if eofp b then here_document_error h eos (hl_length h)
              else here_document_restore h) ;;
        ret (inr t)
    | Some c =>
        modify (fun s => set_lval_end (Some (pcur (buffer s) + 1)) s) ;;;
        if negb (mbeq c 10%N) then
          when (mbeq c "\") (modb (set_heredoc_line_indent (-1)%Z)) ;;;
          t <- heredoc_flush ;; ret (inr t)
        else
          cc <- nextc ;;
          tokadd_mb cc ;;;
          b <- getb ;;
          if Z.ltb 0 (heredoc_indent b) then
            modb goto_eol ;;;
            t <- heredoc_flush ;; ret (inr t)
          else
            c <- nextc ;;
            if is_eof c then
              t <- here_document_error h eos (hl_length h) ;; ret (inr t)
            else
              m <- at_terminator h eos ;;
              if m : bool then
                he <- compute_heredoc_end ;;
                str <- gets tokenbuf ;;
                t <- here_document_finish h str he ;;
                ret (inr t)
              else ret (inl c)
    end.

  Lemma exp_is : forall eos c, here_document_expand h eos c = loop (exp_step eos) c.
  Proof using All. reflexivity. Qed.

  (** The reader stands in line [k], behind the byte at [p]; the rest of the line is [l] *)
  Record Inside (b : Buffer) (k p : nat) (l : list N) : Prop := mkInside {
    in_rd : Ready B b;
    in_pcur : pcur b = p + 1;
    in_pend : pend b = p + List.length l + 1;
    in_next : pend b = lstart B (k + 1);
    in_count : line_count b = k + 1;
    in_cr : p <= pbeg b \/ nth_error B (p - 1) <> Some 13%N
  }.

  Lemma loaded_inside : forall b k p l, Loaded b k p -> text_at B p (l ++ [10%N]) -> plain_line l -> Inside b k p l.
  Proof using All.
    intros b k p l HL HT HP. destruct (line_whole b k p l HL HT HP) as (_ & A1 & A2). pose proof (loaded_pend b k p HL) as A3. destruct HL. constructor; auto; try lia.
  Qed.

  Section Expand.
  Hypothesis Hexpand : expand = true.
  Hypothesis HBfuel : List.length B < fuel e.

  (** The step of the loop, up to the end of the line *)
  Lemma exp_line : forall s k p l (Q : MaybeByte + Tok -> Lexer -> Prop), Inside (buffer s) k p l -> text_at B p (l ++ [10%N]) -> plain_line l -> expand_line l ->
    let '(m, w) := fold_mw (l ++ [10%N]) (heredoc_indent (buffer s), heredoc_line_indent (buffer s)) in
    (forall b t, Ready B b -> pcur b = pend b -> pend b = lstart B (k + 1) -> line_count b = k + 1 -> heredoc_indent b = m -> heredoc_line_indent b = w ->
      t = tokenbuf s ++ l ++ [10%N] ->
      wp e (if Z.ltb 0 (heredoc_indent b) then
              modb goto_eol ;;;
              t <- heredoc_flush ;; ret (inr t)
            else
              c <- nextc ;;
              if is_eof c then
                t <- here_document_error h heos (hl_length h) ;; ret (inr t)
              else
                m <- at_terminator h heos ;;
                if m : bool then
                  he <- compute_heredoc_end ;;
                  str <- gets tokenbuf ;;
                  t <- here_document_finish h str he ;;
                  ret (inr t)
                else ret (inl c)) Q (set_tokenbuf t (set_buffer b (set_lval_end (Some (p + List.length l + 1)) s)))) ->
    wp e (exp_step heos (nth_error B p)) Q s.
  Proof using All.
    intros s k p l Q [R1 R2 R3 R4 R5 R6] HT HP HX. destruct (fold_mw _ _) as (m, w) eqn:Ef. intros HQ.
    pose proof R1 as (W & N0 & E0).
    assert (Hx : exists x, nth_error B p = Some x) by (destruct l; cbn [app] in HT; apply text_at_cons in HT; destruct HT; eauto). destruct Hx as (x & Hx). rewrite Hx.
    assert (Tn : nth_error B (p + List.length l) = Some 10%N) by (apply text_at_app in HT; destruct HT as (_ & K); apply text_at_cons in K; apply K).
    unfold exp_step. ws. apply wp_push; [intros _; lia|].
    assert (Eb : back (Some x) (buffer s) = set_pcur p (buffer s)).
    { unfold back. rewrite R2. replace (p + 1 - 1) with p by lia. rewrite !(byte_at_B B _ _ W), Hx.
      replace ((pbeg (buffer s) <? p) && mbeq (Some x) 10%N && mbeq (nth_error B (p - 1)) 13%N) with false; [reflexivity|]. symmetry. apply not_true_is_false. intros K.
      apply andb_prop in K. destruct K as (K & K3). apply andb_prop in K. destruct K as (K1 & _). rewrite mbeq_iff in K3. destruct R6 as [R6|R6]; [lia|contradiction]. }
    rewrite Eb. ws. rewrite tokadd_string_loop. apply wp_loop_fuel.
    assert (Hf : has (hl_func h) STR_FUNC_EXPAND = true /\ has (hl_func h) STR_FUNC_QWORDS = false) by (rewrite (ho_func _ _ _ _ _ Hok), Hexpand; destruct indent; split; reflexivity).
    assert (ES : set_buffer (set_pcur p (buffer s)) s = St s (tokenbuf s) (set_pcur p (upd (heredoc_indent (buffer s)) (heredoc_line_indent (buffer s)) (buffer s)))).
    { rewrite <- upd_same. destruct s; reflexivity. }
    rewrite ES. apply (text_line B e (hl_func h) s (proj1 Hf) (proj2 Hf) l); auto; try lia.
    { pose proof (text_at_len B p (l ++ [10%N]) HT ltac:(destruct l; discriminate)) as K. rewrite app_length in K. cbn in K. lia. }
    rewrite Ef. ws. ws. cbn [mbeq]. change (N.eqb 10 10) with true. cbn [negb]. ws.
    eapply (wp_nx B e (upd m w (buffer s)) (ready_upd B _ m w R1) _ (p + List.length l) 10%N); [reflexivity|cbn; lia|exact Tn|discriminate|].
    ws. ws. ws. ws.
    match goal with |- wp e _ Q ?s' => change s' with (set_tokenbuf ((tokenbuf s ++ l) ++ [10%N]) (set_buffer (set_pcur (p + List.length l + 1) (upd m w (buffer s))) (set_lval_end (Some (p + List.length l + 1)) s))) end.
    change (buffer (set_tokenbuf ?t (set_buffer ?b ?u))) with b. apply HQ; cbn; auto; try lia.
    - destruct (ready_upd B _ m w R1) as (W' & A1 & A2). split; [|split; auto]. replace (p + List.length l + 1) with (pend (upd m w (buffer s))) by (cbn; lia). apply BWF_goto_eol; auto.
    - rewrite <- app_assoc. reflexivity.
  Qed.

  Lemma exp_loop : forall r l n s k p (Q : Tok -> Lexer -> Prop),
    Inside (buffer s) k p l -> text_at B p (lines_text (l :: r) ++ last ++ eol) -> closes (tstart p (l :: r)) -> plain_line l -> expand_line l -> lines_ok r -> Forall expand_line r -> hl_lastline h < k -> List.length r < n ->
    let '(m, w) := fold_mw (l ++ [10%N]) (heredoc_indent (buffer s), heredoc_line_indent (buffer s)) in
    ((0 <? m)%Z = true ->
      forall b, Ready B b -> pcur b = pend b -> pend b = lstart B (k + 1) -> line_count b = k + 1 -> heredoc_indent b = m -> heredoc_line_indent b = w ->
      Q tSTRING_CONTENT (set_lval (Some (tokenbuf s ++ l ++ [10%N])) (set_tokenbuf [] (set_buffer b (set_lval_end (Some (p + List.length l + 1)) s))))) ->
    ((0 <? m)%Z = false ->
      forall b b' t, GoneBack B h b b' -> line_count b = k + List.length (l :: r) + 1 -> heredoc_indent b = m ->
      Q tSTRING_CONTENT (set_lval (Some (tokenbuf s ++ lines_text (l :: r))) (set_strterm (hterm (tstart p (l :: r))) (set_tokenbuf t (set_buffer b' (set_lval_end (Some (tstart p (l :: r))) s)))))) ->
    wp e (loop_n n (exp_step heos) (nth_error B p)) Q s.
  Proof using All.
    induction r as [|l2 r IH]; intros l n s k p Q HI HT HC HP HX HO HX2 HhL Hn.
    all: destruct (fold_mw _ _) as (m, w) eqn:Ef; intros HQ1 HQ2.
    all: destruct n as [|n]; [exfalso; clear - Hn; cbn in Hn; lia|]; cbn [loop_n]; apply wp_bind.
    all: apply lines_split in HT; destruct HT as (HTl & HT2).
    all: pose proof (exp_line s k p l) as HE; rewrite Ef in HE; eapply HE; [exact HI|exact HTl|exact HP|exact HX|]; clear HE.
    all: intros b t R1 R2 R3 R4 R5 R6 ->; rewrite R5.
    all: pose proof (in_next _ _ _ _ HI) as HNx; rewrite (in_pend _ _ _ _ HI) in HNx.
    all: destruct (0 <? m)%Z eqn:Ez; [unfold heredoc_flush, heredoc_flush_str, tokenbuf_take; repeat ws;
      match goal with |- _ => change (Q tSTRING_CONTENT (set_lval (Some (tokenbuf s ++ l ++ [10%N])) (set_tokenbuf [] (set_buffer (goto_eol b) (set_lval_end (Some (p + List.length l + 1)) s))))) end;
      apply HQ1; auto; destruct R1 as (W1 & A1 & A2); split; [apply BWF_goto_eol; exact W1|split; [exact A1|exact A2]]|]; specialize (HQ2 eq_refl).
    - (* the last line comes next *)
      cbn [lines_text flat_map app] in HT2.
      assert (EC : tstart p [l] = p + List.length l + 1) by (unfold tstart; cbn; rewrite app_nil_r, app_length; cbn; clear; lia). rewrite EC in *.
      assert (HC2 : closes (tstart (p + List.length l + 1) [])) by (unfold tstart; cbn; rewrite Nat.add_0_r; exact HC).
      destruct (first_byte (p + List.length l + 1) [] HT2 HC2 (Forall_nil _)) as (x & Hx & H13).
      ws. eapply (loaded _ (k + 1) (p + List.length l + 1) x); [exact R1|exact R2|exact R4|congruence|exact Hx|exact H13|]. intros b2 HL2 I1 I2. cbn [is_eof].
      change (set_buffer b2 (set_tokenbuf ?t (set_buffer b ?u))) with (set_tokenbuf t (set_buffer b2 u)).
      destruct (last_whole _ _ _ HL2 HT2 HC) as (HZ2 & HE2). ws.
      eapply (terminator _ (k + 1) (p + List.length l + 1) last); [exact HL2|eapply text_prefix; exact HT2|exact HZ2|apply Hlast|].
      intros rr Hr. replace rr with true by (symmetry; apply Hr, Hlast).
      ws. eapply (computed_end _ (k + 1) (p + List.length l + 1)); [exact HL2|exact HT2|exact HC|].
      ws. ws. unfold here_document_finish. ws. ws.
      eapply restored; [exact Hok|apply HL2| |].
      { cbn. rewrite (ld_count _ _ _ HL2). lia. }
      intros b3 HB. repeat ws.
      match goal with |- Q _ ?s' => change (Q tSTRING_CONTENT (set_lval (Some (tokenbuf s ++ l ++ [10%N])) (set_strterm (hterm (p + List.length l + 1)) (set_tokenbuf (tokenbuf s ++ l ++ [10%N]) (set_buffer (b_token_flush b3)
        (set_lval_end (Some (p + List.length l + 1)) s)))))) end.
      cbn [lines_text flat_map] in HQ2. rewrite app_nil_r in HQ2. apply (HQ2 b2).
      + destruct HB as [(W & A1 & A2) B1 B2 B3 B4 B5 B6]. constructor; auto. split; [|split; auto]. apply BWF_set_ptok; auto.
      + rewrite (ld_count _ _ _ HL2). cbn. clear. lia.
      + cbn in I1. congruence.
    - (* another line *)
      rewrite tstart_cons in HC.
      destruct (first_byte (p + List.length l + 1) (l2 :: r)) as (x & Hx & H13); auto.
      ws. eapply (loaded _ (k + 1) (p + List.length l + 1) x); [exact R1|exact R2|exact R4|congruence|exact Hx|exact H13|]. intros b2 HL2 I1 I2. cbn [is_eof].
      change (set_buffer b2 (set_tokenbuf ?t (set_buffer b ?u))) with (set_tokenbuf t (set_buffer b2 u)). cbn in I1, I2.
      pose proof (Forall_inv HO) as (HP2 & HNe2).
      pose proof (lines_split _ _ _ _ HT2) as (HTl2 & _).
      pose proof (line_whole _ _ _ _ HL2 HTl2 HP2) as (HZ2 & HE2 & _). ws.
      eapply (terminator _ (k + 1) (p + List.length l + 1) l2); [exact HL2|eapply text_prefix; exact HTl2|exact HZ2|exact HP2|].
      intros rr Hr. destruct rr; [exfalso; apply HNe2, Hr; reflexivity|]. ws.
      assert (Em2 : (heredoc_indent b2 <= 0)%Z) by (clear - I1 R5 Ez; lia).
      rewrite <- Hx.
      match goal with |- wp e _ Q ?s' => pose proof (IH l2 n s' (k + 1) (p + List.length l + 1) Q) as K end.
      cbn [buffer set_tokenbuf set_buffer tokenbuf] in K. rewrite (step_quiet _ _ _ Em2) in K. apply K; auto.
      + apply loaded_inside; auto.
      + exact (Forall_inv HX2).
      + exact (Forall_inv_tail HO).
      + exact (Forall_inv_tail HX2).
      + clear - HhL. lia.
      + clear - Hn. cbn in Hn. lia.
      + clear - Em2. intros K1. lia.
      + intros _ b3 b' t HB HC3 HI3. rewrite <- !app_assoc.
        match goal with |- Q _ ?s' => change s' with (set_lval (Some (tokenbuf s ++ l ++ [10%N] ++ lines_text (l2 :: r))) (set_strterm (hterm (tstart (p + List.length l + 1) (l2 :: r))) (set_tokenbuf t (set_buffer b' (set_lval_end (Some (tstart (p + List.length l + 1) (l2 :: r))) s))))) end.
        rewrite tstart_cons in HQ2. change (lines_text (l :: l2 :: r)) with ((l ++ [10%N]) ++ lines_text (l2 :: r)) in HQ2. rewrite <- (app_assoc l) in HQ2. apply (HQ2 b3); auto.
        * rewrite HC3. cbn [List.length]. clear. lia.
        * congruence.
  Qed.
  End Expand.

  (** ** Token requests *)

  (** Before line [k] of the file, which is the next line of the heredoc *)
  Record InHere (s0 s : Lexer) (k : nat) (m : Z) : Prop := mkInHere {
    ih_rd : Ready B (buffer s);
    ih_pcur : pcur (buffer s) = pend (buffer s);
    ih_pend : pend (buffer s) = lstart B k;
    ih_count : line_count (buffer s) = k;
    ih_indent : heredoc_indent (buffer s) = m;
    ih_line : heredoc_line_indent (buffer s) = 0%Z;
    ih_term : strterm s = Some (HeredocLit h);
    ih_lval : lval_start s = None /\ lval_end s = None;
    ih_diags : diagnostics s = diagnostics s0;
    ih_comments : comments s = comments s0
  }.

  (** Behind the heredoc: back on the line where it started, with line [k] of the file to be read after that one *)
  Record HereDone (s0 s : Lexer) (k : nat) (m : Z) : Prop := mkHereDone {
    hd_rd : Ready B (buffer s);
    hd_pcur : pcur (buffer s) = hend B h;
    hd_pend : pend (buffer s) = lend B (hl_lastline h);
    hd_count : line_count (buffer s) = k;
    hd_indent : heredoc_indent (buffer s) = m;
    hd_term : strterm s = None;
    hd_state : lex_state s = EXPR_END;
    hd_lval : lval_start s = None /\ lval_end s = None;
    hd_diags : diagnostics s = diagnostics s0;
    hd_comments : comments s = comments s0
  }.

  (** After the whole text has been delivered in one token *)
  Record InEnd (s0 s : Lexer) (k p : nat) (m : Z) : Prop := mkInEnd {
    ie_rd : Ready B (buffer s);
    ie_pcur : pcur (buffer s) = hend B h;
    ie_pend : pend (buffer s) = lend B (hl_lastline h);
    ie_count : line_count (buffer s) = k;
    ie_indent : heredoc_indent (buffer s) = m;
    ie_term : strterm s = hterm p;
    ie_lval : lval_start s = None /\ lval_end s = None;
    ie_diags : diagnostics s = diagnostics s0;
    ie_comments : comments s = comments s0
  }.

  Definition end_tok (p : nat) : Token := tok_at tSTRING_END (drop_spaces last) p (List.length last).

  (** [yylex] in a heredoc *)
  Lemma here_yylex : forall s k p x (Q : Token -> Lexer -> Prop), InHere s s k (heredoc_indent (buffer s)) -> lstart B k = p -> hl_lastline h < k -> nth_error B p = Some x -> x <> 13%N ->
    (forall b, Loaded b k p -> heredoc_indent b = heredoc_indent (buffer s) -> heredoc_line_indent b = 0%Z ->
      wp e (stop <- at_terminator h heos ;;
        if stop : bool then here_document_restore h
        else if negb (has (hl_func h) STR_FUNC_EXPAND) then here_document_raw h heos
        else
          newtok ;;;
          if mbeq (Some x) "#" then
            t <- peek_variable_name ;;
            modb (fun b =>
              if negb (Z.eqb (heredoc_line_indent b) (-1)) then
                set_heredoc_line_indent (-1)%Z
                  (if Z.ltb (heredoc_line_indent b) (heredoc_indent b)
                   then set_heredoc_indent (heredoc_line_indent b) b else b)
              else b) ;;;
            match t with
            | Some t => ret t
            | None => tokadd "#" ;;; c <- nextc ;; here_document_expand h heos c
            end
          else here_document_expand h heos (Some x)) (fun t s' => wp e (yytail t) Q s') (set_buffer b (set_lval_start (Some p) (set_lval None s)))) ->
    wp e yylex Q s.
  Proof using All.
    intros s k p x Q [I1 I2 I3 I4 I5 I6 I7 I8 I9 I10] Hk HhL Hx H13 HQ. unfold yylex. ws. ws. ws. unfold parser_yylex. ws. ws. cbn [strterm set_lval]. rewrite I7.
    unfold here_document. ws. ws. cbn [strterm set_lval]. rewrite I7. ws. ws. ws. ws. ws. ws. ws. pose proof I1 as (W & _). pose proof (w_count B _ W) as HC.
    destruct (line_some B (hl_lastline h)) as (ln & K1 & K2 & K3); [lia|].
    eapply wp_expect. { unfold InputM.line_at. cbn. rewrite (w_lines B _ W). exact K1. }
    rewrite K2. fold heos. ws.
    eapply (loaded _ k p x); [exact I1|exact I2|exact I4|exact Hk|exact Hx|exact H13|]. intros b HL E1 E2. cbn [is_eof]. ws. ws.
    change (buffer (set_buffer b ?u)) with b. unfold was_bol. destruct HL as [L0 L1 L2 L3 L4 L5 L6]. rewrite L1, L2, Nat.eqb_refl. cbn [negb].
    cbn in E1, E2. rewrite E2, I6. change (Z.eqb 0 (-1)) with false. cbv iota.
    cbn [buffer set_lval]. rewrite I2, I3, Hk. apply HQ; auto; [constructor; auto|congruence].
  Qed.

  Lemma here_end : forall s0 s k p m, InHere s0 s k m -> lstart B k = p -> hl_lastline h < k -> text_at B p (last ++ eol) -> closes p ->
    exists s', yylex e s = Ok (end_tok p) s' /\ HereDone s0 s' (k + 1) m.
  Proof using All.
    intros s0 s k p m HI Hk HhL HT HC.
    assert (HC2 : closes (tstart p [])) by (unfold tstart; cbn; rewrite Nat.add_0_r; exact HC).
    destruct (first_byte p [] HT HC2 (Forall_nil _)) as (x & Hx & H13).
    destruct (wp_ok _ _ e yylex (fun t s' => t = end_tok p /\ HereDone s0 s' (k + 1) m) s) as (t & s' & E & -> & HD); [|exists s'; auto].
    destruct HI as [I1 I2 I3 I4 I5 I6 I7 I8 I9 I10].
    apply (here_yylex s k p x); auto. { constructor; auto. }
    intros b HL E1 E2. destruct (last_whole _ _ _ HL HT HC) as (HZ & HE). ws.
    eapply (terminator _ k p last); [exact HL|eapply text_prefix; exact HT|exact HZ|apply Hlast|].
    intros rr Hr. replace rr with true by (symmetry; apply Hr, Hlast). unfold here_document_restore. ws.
    eapply (computed_end _ k p); [exact HL|exact HT|exact HC|]. ws. ws. ws. ws. ws. ws. ws.
    eapply restored; [exact Hok|apply HL| |].
    { cbn. rewrite (ld_count _ _ _ HL). lia. }
    intros b3 [(W & A1 & A2) B1 B2 B3 B4 B5 B6]. cbn in B5, B6. repeat ws. unfold yytail. repeat ws. cbn. split; [reflexivity|]. constructor; cbn; auto.
    - split; [|split; auto]. apply BWF_set_ptok; auto.
    - rewrite B5. apply HL.
    - congruence.
  Qed.

  Lemma here_close : forall s0 s k p m, InEnd s0 s k p m -> exists s', yylex e s = Ok (end_tok p) s' /\ HereDone s0 s' k m.
  Proof using All.
    intros s0 s k p m [I1 I2 I3 I4 I5 I6 I7 I8 I9].
    destruct (wp_ok _ _ e yylex (fun t s' => t = end_tok p /\ HereDone s0 s' k m) s) as (t & s' & E & -> & HD); [|exists s'; auto].
    unfold yylex. ws. ws. ws. unfold parser_yylex. ws. ws. cbn [strterm set_lval]. rewrite I6. unfold hterm, new_strterm. ws. ws. unfold parse_string. ws. unfold take_strterm. ws. ws. ws. ws.
    cbn [strterm set_lval set_buffer]. rewrite I6. unfold hterm, new_strterm. ws. ws. ws. cbn [sl_func].
    assert (Hf : has (N.lor (hl_func h) STR_FUNC_TERM) STR_FUNC_TERM = true /\ has (N.lor (hl_func h) STR_FUNC_TERM) STR_FUNC_QWORDS = false /\ has (N.lor (hl_func h) STR_FUNC_TERM) STR_FUNC_REGEXP = false).
    { rewrite (ho_func _ _ _ _ _ Hok). destruct indent, expand; splits; reflexivity. }
    destruct Hf as (F1 & F2 & F3). rewrite F1. unfold parse_string_term. cbn [sl_func sl_heredoc_end]. rewrite F2, F3. cbn [when]. repeat ws. cbn [he_start he_end he_value].
    unfold yytail. repeat ws. cbn. split; [reflexivity|]. destruct I1 as (W & A1 & A2). constructor; cbn; auto.
    split; [|split; auto]. apply BWF_set_ptok; auto.
  Qed.

  (** Where the token of the rest of the text ends *)
  Definition text_stop (p : nat) (ls : list (list N)) : nat := if expand then tstart p ls else tstart p ls + List.length last + List.length eol - 1.

  Lemma func_expand : has (hl_func h) STR_FUNC_EXPAND = expand.
  Proof using All. rewrite (ho_func _ _ _ _ _ Hok). destruct indent, expand; reflexivity. Qed.

  Lemma peek_none : forall s (Q : option Tok -> Lexer -> Prop) y, byte_at (buffer s) (pcur (buffer s)) = Some y -> y <> 36%N -> y <> 64%N -> y <> 123%N -> Q None s -> wp e peek_variable_name Q s.
  Proof using.
    intros s Q y Hy Y1 Y2 Y3 HQ. unfold peek_variable_name. ws. ws. destruct (pend (buffer s) <=? pcur (buffer s) + 1); [ws; exact HQ|]. rewrite Hy. cbn [mbeq].
    replace (N.eqb y "$"%bn) with false by (symmetry; apply N.eqb_neq; exact Y1). replace (N.eqb y "@"%bn) with false by (symmetry; apply N.eqb_neq; exact Y2). replace (N.eqb y "{"%bn) with false by (symmetry; apply N.eqb_neq; exact Y3).
    ws. exact HQ.
  Qed.

  Theorem here_body : forall ls s0 s k p m, List.length B < fuel e -> List.length ls < fuel e -> InHere s0 s k m -> (0 <= m)%Z -> lstart B k = p -> hl_lastline h < k ->
    text_at B p (lines_text ls ++ last ++ eol) -> closes (tstart p ls) -> lines_ok ls ->
    (expand = true -> Forall expand_line ls) -> (expand = true -> (0 < m)%Z -> Forall (fun l => is_blank l = true -> l = []) ls) ->
    exists s', lexes e s (here_tokens m p ls (text_stop p ls) ++ [end_tok (tstart p ls)]) s' /\
      HereDone s0 s' (k + List.length ls + 1) (fold_left less_indent ls m).
  Proof using All.
    induction ls as [|l r IH]; intros s0 s k p m HBf Hf HI Hm Hk HhL HT HC HO HX HY.
    - assert (EC : tstart p [] = p) by (unfold tstart; cbn; lia). rewrite EC in *. cbn [lines_text flat_map app] in HT.
      destruct (here_end s0 s k p m HI Hk HhL HT HC) as (s' & E & HD). exists s'. cbn [here_tokens app fold_left List.length]. rewrite Nat.add_0_r. split; auto. apply lexes_one; auto. discriminate.
    - pose proof (lines_split _ _ _ _ HT) as (HTl & HT2). pose proof (Forall_inv HO) as (HP & HNe). pose proof (Forall_inv_tail HO) as HO2.
      destruct (first_byte p (l :: r) HT HC HO) as (x & Hx & H13). cbn [here_tokens].
      pose proof HI as [I1 I2 I3 I4 I5 I6 I7 I8 I9 I10].
      assert (HI2 : InHere s s k (heredoc_indent (buffer s))) by (constructor; auto).
      assert (Hstep : forall Q : Token -> Lexer -> Prop,
        ((0 <? less_indent m l)%Z = true -> forall s1, InHere s0 s1 (k + 1) (less_indent m l) -> Q (tok_at tSTRING_CONTENT (l ++ [10%N]) p (List.length l + 1)) s1) ->
        ((0 <? less_indent m l)%Z = false -> forall s1, InEnd s0 s1 (k + List.length (l :: r) + 1) (tstart p (l :: r)) 0 ->
           Q (mkToken tSTRING_CONTENT (lines_text (l :: r)) (mkLoc p (text_stop p (l :: r)))) s1) -> wp e yylex Q s).
      { intros Q HQ1 HQ2. apply (here_yylex s k p x); auto. intros b HL E1 E2.
        pose proof (line_whole _ _ _ _ HL HTl HP) as (HZ & HE & HS). ws.
        eapply (terminator _ k p l); [exact HL|eapply text_prefix; exact HTl|exact HZ|exact HP|].
        intros rr Hr. destruct rr; [exfalso; apply HNe, Hr; reflexivity|].
        rewrite func_expand. destruct (Bool.bool_dec expand true) as [Ex|Ex].
        { rewrite Ex; cbn [negb]. specialize (HX Ex). specialize (HY Ex). pose proof (Forall_inv HX) as HXl. pose proof (Forall_inv_tail HX) as HXr. ws.
          assert (Hx' : exists w0, l ++ [10%N] = x :: w0).
          { destruct l as [|c l']; cbn [app] in HTl |- *; apply text_at_cons in HTl; destruct HTl as (T1 & _); rewrite Hx in T1; injection T1 as ->; eauto. }
          pose proof (loaded_inside _ _ _ _ HL HTl HP) as HIn. destruct I8 as (V1 & V2).
          assert (Eb : upd m 0 b = b) by (rewrite <- I5, <- E1, <- E2; symmetry; apply upd_same).
          assert (Hst : text_stop p (l :: r) = tstart p (l :: r)) by (unfold text_stop; rewrite Ex; reflexivity). rewrite Hst in HQ2.
          ws. destruct (mbeq (Some x) "#") eqn:E35.
          - (* the line starts with a hash *)
            assert (Ex35 : x = 35%N) by (rewrite mbeq_iff in E35; congruence). destruct Hx' as (w0 & Hw0). destruct l as [|c l']; [cbn in Hw0; congruence|]. cbn [app] in Hw0. injection Hw0 as Ec _. rewrite Ex35 in Ec. 
            rewrite Ec in *. clear Ec.
            assert (HNx : exists y, nth_error B (p + 1) = Some y /\ y <> 36%N /\ y <> 64%N /\ y <> 123%N /\ y <> 13%N).
            { cbn [app] in HTl. apply text_at_cons in HTl. destruct HTl as (_ & T2). destruct HP as (_ & P13). destruct l' as [|y l'].
              - apply text_at_cons in T2. exists 10%N. split; [apply T2|]. splits; discriminate.
              - apply text_at_cons in T2. exists y. split; [apply T2|]. destruct (proj2 HXl [] y l' eq_refl) as (Y1 & Y2 & Y3). splits; auto. intros ->. apply P13. right. left. reflexivity. }
            destruct HNx as (y & Hy & Y1 & Y2 & Y3 & Y13).
            pose proof HL as [R1 R2 R3 R4 R5 R6 R7]. pose proof R1 as (W & N0 & E0). 
            apply wp_bind. eapply (peek_none _ _ y); [cbn; rewrite R2, (byte_at_B B b _ W); exact Hy|exact Y1|exact Y2|exact Y3|].
            ws. ws. ws. ws. change (buffer (set_tokenbuf [] (set_buffer b ?u))) with b. rewrite E2, E1, I5. change (negb (0 =? -1)%Z) with true. cbv iota.
            set (m0 := if (0 <? m)%Z then 0%Z else m). assert (Em0 : (m0 <= 0)%Z /\ (0 <= m0)%Z) by (unfold m0; destruct (0 <? m)%Z eqn:Em; lia).
            assert (Eb2 : set_heredoc_line_indent (-1) (if (0 <? m)%Z then set_heredoc_indent 0 b else b) = upd m0 (-1) b).
            { unfold m0. destruct (0 <? m)%Z; [reflexivity|]. rewrite <- I5, <- E1. destruct b; reflexivity. }
            rewrite Eb2. 
            assert (Hp2 : pend b = p + List.length l' + 2) by (rewrite (in_pend _ _ _ _ HIn); cbn; clear; lia).
            ws. eapply (wp_nx B e (upd m0 (-1) b) (ready_upd B b m0 (-1)%Z R1) _ (p + 1) y); [|cbn; clear - Hp2; lia|exact Hy|exact Y13|].
            { cbn. rewrite <- R2 at 1. destruct b; reflexivity. }
            rewrite exp_is. apply wp_loop_fuel. rewrite <- Hy.
            match goal with |- wp e _ ?QQ ?s' => change s' with (set_tokenbuf [35%N] (set_buffer (set_pcur (p + 1 + 1) (upd m0 (-1) b)) (set_lval_start (Some p) (set_lval None s))));
              pose proof (exp_loop Ex HBf r l' (fuel e) (set_tokenbuf [35%N] (set_buffer (set_pcur (p + 1 + 1) (upd m0 (-1) b)) (set_lval_start (Some p) (set_lval None s)))) k (p + 1) QQ) as K end.
            cbn [buffer set_tokenbuf set_buffer heredoc_indent heredoc_line_indent set_pcur upd set_heredoc_indent set_heredoc_line_indent tokenbuf] in K. rewrite (step_quiet _ _ _ (proj1 Em0)) in K.
            assert (Et : tstart (p + 1) (l' :: r) = tstart p ((35%N :: l') :: r)) by (unfold tstart; cbn; rewrite !app_length; clear; lia).
            assert (El : lines_text ((35%N :: l') :: r) = 35%N :: lines_text (l' :: r)) by reflexivity.
            apply K; clear K.
            + constructor; cbn; auto; try (clear - Hp2; lia).
              * destruct (ready_upd B b m0 (-1)%Z R1) as (W' & A1 & A2). split; [|split; [exact A1|exact A2]]. apply BWF_set_pcur; auto; cbn; try (clear - R2 Hp2 R3; lia); [pose proof (w_tok B b W) as K; clear - K R2; lia|].
                intros _ K. replace (p + 1 + 1 - 1) with (p + 1) in K by (clear; lia). congruence.
              * exact (in_next _ _ _ _ HIn).
              * right. replace (p + 1 - 1) with p by (clear; lia). rewrite Hx, Ex35. discriminate.
            + rewrite El in HT. cbn [app] in HT. apply text_at_cons in HT. apply HT.
            + rewrite Et. exact HC.
            + destruct HP as (A1 & A2). split; intros K; [apply A1|apply A2]; right; exact K.
            + destruct HXl as (A1 & A2). split; [intros K; apply A1; right; exact K|]. intros u z v E. apply (A2 (35%N :: u) z v). rewrite E. reflexivity.
            + exact HO2.
            + exact HXr.
            + exact HhL.
            + clear - Hf. cbn in Hf. lia.
            + intros K. exfalso. clear - K Em0. lia.
            + intros _ b1 b2 t [B1 B2 B3 B4 B5 B6 B7] C1 C2. rewrite Et. unfold yytail. repeat ws. cbn.
              apply HQ2; [unfold less_indent; destruct (width_other 35 l' 0 ltac:(discriminate) ltac:(discriminate)) as (A1 & A2); rewrite A2; unfold width; rewrite A1; clear - Hm; lia|].
              constructor; cbn; auto; try congruence; try (rewrite B6; exact C1). rewrite B7, C2. clear - Em0. lia.
          - (* another byte *)
            rewrite exp_is. apply wp_loop_fuel. rewrite <- Hx.
            match goal with |- wp e _ ?QQ ?s' => pose proof (exp_loop Ex HBf r l (fuel e) s' k p QQ) as K end.
            cbn [buffer set_tokenbuf set_buffer tokenbuf] in K. rewrite E1, E2, I5 in K.
            assert (HFold : exists w', fold_mw (l ++ [10%N]) (m, 0%Z) = (less_indent m l, w') /\ ((0 < less_indent m l)%Z -> w' = 0%Z)).
            { destruct (Z.le_gt_cases m 0) as [K1|K1].
              - exists 0%Z. rewrite (step_quiet _ _ _ K1). split; auto. f_equal. unfold less_indent, width. pose proof (width_from_ge l 0 ltac:(clear; lia)). clear - K1 Hm H. destruct (is_blank l); lia.
              - destruct (fold_line l m 0%Z (proj1 HP) K1 ltac:(clear; lia)) as (w' & A1 & A2 & A3). exists w'. split; [exact A1|]. intros K2. unfold less_indent in K2. destruct (is_blank l) eqn:Ebl; [|auto].
                apply A3. exact (Forall_inv (HY K1) Ebl). }
            destruct HFold as (w' & HFold & Hw'). rewrite HFold in K. apply K; clear K; auto.
            + clear - Hf. cbn in Hf. lia.
            + intros Ez b1 B1 B2 B3 B4 B5 B6. unfold yytail. repeat ws. cbn.
              replace (p + List.length l + 1) with (p + (List.length l + 1)) by (clear; lia). apply HQ1; auto. constructor; cbn; auto; try congruence. rewrite B6. apply Hw'. clear - Ez. lia.
            + intros Ez b1 b2 t [B1 B2 B3 B4 B5 B6 B7] C1 C2. unfold yytail. repeat ws. cbn. apply HQ2; auto. constructor; cbn; auto; try congruence; try (rewrite B6; exact C1).
              rewrite B7, C2. assert (Hw0 : (0 <= less_indent m l)%Z) by (unfold less_indent, width; pose proof (width_from_ge l 0 ltac:(clear; lia)) as Kw; clear - Kw Hm; destruct (is_blank l); lia). clear - Ez Hw0. lia. }
        replace expand with false by (clear - Ex; destruct expand; congruence). cbn [negb]. rewrite raw_is. unfold loop.
        match goal with |- wp e (fun e1 s1 => loop_n (fuel e1) ?body ?x e1 s1) ?Q ?s => refine ((_ : wp e (loop_n (fuel e) body x) Q s)) end.
        eapply (raw_loop r l (fuel e) [] _ k p); [exact HL|exact HT|exact HC|exact HO|exact HhL|exact E2| | | |]; cbn [buffer set_buffer]; rewrite ?E1, ?I5.
        - exact Hm.
        - clear - Hf. cbn in Hf. lia.
        - intros Ez b1 R1 R2 R3 R4 R5 R6. unfold yytail. repeat ws. cbn. destruct I8 as (V1 & V2). rewrite V2, R2, R3, HS.
          replace (p + List.length l + 1) with (p + (List.length l + 1)) by (clear; lia). apply HQ1; auto. constructor; cbn; auto. 
        - intros Ez b1 b2 [R1 R2 R3 R4 R5 R6 R7] C1 C2. unfold yytail. repeat ws. cbn. replace (tstart p (l :: r) + List.length last + List.length eol - 1) with (text_stop p (l :: r)) by (unfold text_stop; destruct expand; [congruence|reflexivity]).
          apply HQ2; auto. constructor; cbn; auto; try congruence. rewrite R6. exact C1. }
      destruct (0 <? less_indent m l)%Z eqn:Ez.
      + destruct (wp_ok _ _ e yylex (fun t s1 => t = tok_at tSTRING_CONTENT (l ++ [10%N]) p (List.length l + 1) /\ InHere s0 s1 (k + 1) (less_indent m l)) s) as (t & s1 & E & -> & HI3).
        { apply Hstep; [auto|discriminate]. }
        assert (Hk1 : lstart B (k + 1) = p + List.length l + 1) by (destruct (line_here B k p l Hk HTl (proj1 HP)) as (_ & _ & A); exact A).
        destruct (IH s0 s1 (k + 1) (p + List.length l + 1) (less_indent m l)) as (s' & X1 & X2); auto; try (clear - Hf HhL Ez; cbn in Hf; lia).
        3: { intros Ex K. assert (K1 : (0 < m)%Z) by (clear - K; unfold less_indent in K; destruct (is_blank l); lia). exact (Forall_inv_tail (HY Ex K1)). }
        2: { intros Ex. exact (Forall_inv_tail (HX Ex)). }
        { rewrite <- tstart_cons. exact HC. }
        exists s'. rewrite tstart_cons. assert (Es : text_stop p (l :: r) = text_stop (p + List.length l + 1) r) by (unfold text_stop; rewrite tstart_cons; reflexivity). rewrite Es. split.
        * cbn [app]. eapply lx_cons; [exact E|discriminate|]. exact X1.
        * cbn [fold_left List.length]. replace (k + S (List.length r) + 1) with (k + 1 + List.length r + 1) by (clear; lia). exact X2.
      + destruct (wp_ok _ _ e yylex (fun t s1 => t = mkToken tSTRING_CONTENT (lines_text (l :: r)) (mkLoc p (text_stop p (l :: r))) /\
          InEnd s0 s1 (k + List.length (l :: r) + 1) (tstart p (l :: r)) 0) s) as (t & s1 & E & -> & HI3).
        { apply Hstep; [discriminate|auto]. }
        destruct (here_close _ _ _ _ _ HI3) as (s' & E' & HD). exists s'. split.
        * cbn [app]. eapply lx_cons; [exact E|discriminate|]. apply lexes_one; [exact E'|discriminate].
        * assert (EF : fold_left less_indent (l :: r) m = 0%Z); [|rewrite EF; exact HD]. cbn [fold_left].
          assert (E0 : forall v, (0 <= v)%Z -> less_indent v l = 0%Z \/ (0 < less_indent v l)%Z) by (intros v Hv; unfold less_indent, width; pose proof (width_from_ge l 0 ltac:(clear; lia)) as Kw; clear - Kw Hv; destruct (is_blank l); lia).
          destruct (E0 m Hm) as [E0'|E0']; [|exfalso; clear - Ez E0'; lia]. rewrite E0'. clear. induction r as [|l r IH]; [reflexivity|]. cbn [fold_left].
          replace (less_indent 0 l) with 0%Z; [exact IH|]. unfold less_indent, width. pose proof (width_from_ge l 0 ltac:(lia)). destruct (is_blank l); lia.
  Qed.
End Body.
