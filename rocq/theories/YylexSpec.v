(** * One token request, from the first character on *)
Require Import Verif.Base Verif.MaybeByteM Verif.InputM Verif.BufferM Verif.TokensM Verif.LexStateM Verif.LexerM Verif.LexIdentM Verif.LexMainM
  Verif.SourceSpec Verif.SourceProofs Verif.Wp Verif.BufInv Verif.LexSpec Verif.ReadSpec.
Require Import ZifyBool ZifyNat ZifyN.

(** The end of yylex: range and value of the token *)
Definition yytail (token_type : Tok) : M Lexer Token :=
  s <- get ;;
  let begin := match lval_start s with Some p => p | None => ptok (buffer s) end in
  let stop := match lval_end s with Some p => p | None => pcur (buffer s) end in
  let value := match lval s with
               | Some v => v
               | None => match b_substr_at (buffer s) begin stop with Some v => v | None => [] end
               end in
  modify (fun s => set_lval None (set_lval_end None (set_lval_start None s))) ;;;
  if tok_eqb token_type tNL then ret (mkToken token_type [10%N] (mkLoc begin (begin + 1)))
  else ret (mkToken token_type value (mkLoc begin stop)).

Lemma ready_ptok : forall B b p, Ready B b -> p <= pcur b -> Ready B (set_ptok p b).
Proof.
  intros B b p (H1 & H2 & H3) Hp. split; [|split; [exact H2|exact H3]]. apply BWF_set_ptok; auto.
Qed.

(** The position of the next byte to be read: the cursor, or the start of the line that is read next *)
Definition upcoming (b : Buffer) (p : nat) : Prop :=
  eofp b = false /\
  ((nextline b = 0 /\ pcur b < pend b /\ p = pcur b) \/
   (exists l, line_at (input b) (if nextline b =? 0 then line_count b else nextline b) = Some l /\ p = l_start l /\
      (nextline b = 0 -> pcur b = pend b))).

(** The line that is read after the current one is the next line of the file: no heredoc body in between *)
Definition in_order (b : Buffer) : Prop := line_count b = (if nextline b =? 0 then lastline b else nextline b) + 1.

Lemma flush_nextc : forall B b p, BWF B b -> upcoming b p -> p < List.length B ->
  exists b1, Ready B b1 /\ pcur b1 = p /\ ptok b1 = p /\ p < pend b1 /\
    heredoc_indent b1 = heredoc_indent b /\ (in_order b -> in_order b1) /\
    (forall e, b_nextc e (b_token_flush b) = b_nextc e b1).
Proof.
  intros B b p HW (HE & HU) HpB. destruct HU as [(H1 & H2 & ->)|(l & H1 & -> & H3)].
  - exists (b_token_flush b). unfold Ready, b_token_flush, in_order. cbn. splits; auto. apply BWF_set_ptok; auto.
  - set (v := if nextline b =? 0 then line_count b else nextline b) in *.
    assert (Hv : v < NL B).
    { unfold line_at in H1. rewrite (w_lines B b HW) in H1. unfold NL.
      apply nth_error_Some. congruence. }
    destruct (line_some B v Hv) as (l' & L1 & L2 & L3).
    assert (l' = l). { unfold line_at in H1. rewrite (w_lines B b HW) in H1. congruence. } subst l'.
    rewrite L2 in *. pose proof (line_bounds B v Hv) as LB.
    assert (HL : lstart B v < lend B v).
    { destruct (Nat.eq_dec (lstart B v) (lend B v)) as [E|E]; [|lia].
      destruct (empty_last_line B v Hv E) as (_ & A & _). lia. }
    set (b0 := set_cr_seen (if nextline b =? 0 then false else cr_seen b)
                 (set_line_count (if nextline b =? 0 then line_count b + 1 else line_count b) (set_nextline 0 (b_token_flush b)))).
    assert (HLd : forall e, wp e (load_line v) (fun r b1 => r = true /\ Ready B b1 /\ pcur b1 = lstart B v /\ ptok b1 = lstart B v /\ lstart B v < pend b1 /\
        heredoc_indent b1 = heredoc_indent b /\ (in_order b -> in_order b1)) b0).
    { intros e. apply (load_line_ok B); auto. { exact (w_lines B b HW). }
      intros b1 I1 I2 I3 I4 I5 I6 I7 I8 I9 I10 I11 I12 I13 I14. cbn in I1, I2, I3, I5, I10.
      assert (HN : lastline b < line_count b1 /\ v < line_count b1 /\ line_count b1 <= NL B).
      { pose proof (w_last B b HW). pose proof (w_count B b HW). pose proof (w_next B b HW). rewrite I2. unfold v in *. destruct (nextline b =? 0) eqn:E; lia. }
      unfold Ready. splits; auto; try congruence; try lia.
      - constructor; rewrite ?I2, ?I3, ?I4, ?I5, ?I6, ?I7, ?I8, ?I9; auto; try lia.
        + unfold bytes. rewrite I1. apply (w_bytes B b HW).
        + rewrite I1. apply (w_lines B b HW).
        + intros q E. injection E as <-. lia.
      - unfold in_order in *. rewrite I2, I4, I5. cbn [Nat.eqb]. unfold v in *. destruct (nextline b =? 0) eqn:E; lia. }
    assert (HD : forall e e', load_line v e b0 = load_line v e' b0).
    { intros e e'. unfold load_line, bind, get, when, modify, ret. destruct (expect _ _ e b0) eqn:E0; unfold expect in *; destruct (line_at _ _); unfold ret, panic in *; try discriminate; cbn [heredoc_end];
      rewrite ?E0; try destruct (0 <? _); try reflexivity; injection E0 as <- <-; reflexivity. }
    destruct (load_line v (mkEnv 0 None (fun _ => false)) b0) as [r b1|m|] eqn:EL.
    2,3: specialize (HLd (mkEnv 0 None (fun _ => false))); unfold wp in HLd; rewrite EL in HLd; contradiction.
    pose proof (HLd (mkEnv 0 None (fun _ => false))) as HK. unfold wp in HK. rewrite EL in HK. destruct HK as (-> & HK1 & HK2 & HK3 & HK4 & HK5 & HK6).
    exists b1. splits; auto. intros e.
    assert (E1 : b_nextc e b1 = bind get (fun b => match in_byte_at (input b) (pcur b) with
        | None => ret None
        | Some c => modify (fun b => set_pcur (pcur b + 1) b) ;;; c <- (if N.eqb c 13 then parser_cr c else ret c) ;; ret (Some c) end) e b1).
    { unfold b_nextc. unfold bind at 1. unfold get at 1. destruct HK1 as (_ & K2 & K3). rewrite K2, K3.
      replace (pcur b1 =? pend b1) with false by lia. cbn [orb negb Nat.eqb]. reflexivity. }
    rewrite E1. unfold b_nextc. unfold bind at 1. unfold get at 1. unfold b_token_flush at 1 2 3 4. cbn [pcur pend eofp nextline set_ptok].
    assert (E2 : ((pcur b =? pend b) || eofp b || negb (nextline b =? 0)) = true).
    { rewrite HE. destruct (nextline b =? 0) eqn:E; cbn [negb]; [|apply orb_true_r]. rewrite H3 by lia. rewrite Nat.eqb_refl. reflexivity. }
    rewrite E2. unfold bind at 1.
    assert (E3 : b_nextline e (b_token_flush b) = Ok true b1).
    { rewrite <- EL. rewrite (HD _ e). clear HD HLd EL E1 E2. unfold b_nextline. unfold bind at 1. unfold get at 1.
      change (nextline (b_token_flush b)) with (nextline b). change (eofp (b_token_flush b)) with (eofp b). change (pbeg (b_token_flush b)) with (pbeg b).
      change (pend (b_token_flush b)) with (pend b). change (input (b_token_flush b)) with (input b). unfold bind at 1, modify at 1.
      unfold v, b0 in *. clear v b0. destruct (nextline b =? 0) eqn:E.
      - rewrite HE.
        assert (EN : forall A (f : bool -> M Buffer A) s, bind (if pbeg b <? pend b then x <- expect (in_byte_at (input b) (pend b - 1)) "index out of bounds" ;; ret (negb (N.eqb x 10)) else ret false) f e s = f false e s).
        { intros A f s. destruct (pbeg b <? pend b) eqn:Ep; [|reflexivity].
          pose proof (w_last B b HW). pose proof (w_count B b HW).
          destruct (line_newline B (lastline b)) as (_ & A1 & _); [lia|]. rewrite <- (w_pend B b HW) in A1.
          rewrite in_byte_at_B with (B := B) by exact HW. rewrite A1. reflexivity. }
        rewrite EN. unfold bind at 1, getline. unfold bind at 1, get at 1. cbn [set_nextline b_token_flush set_ptok line_count input].
        rewrite (w_lines B b HW). fold (NL B). replace (line_count b <? NL B) with true by lia.
        destruct b; reflexivity.
      - destruct b; cbn in *. reflexivity. }
    rewrite E3. cbn [negb]. reflexivity.
Qed.

Lemma ready_move : forall B b q, Ready B b -> pbeg b <= q -> q <= pend b ->
  (pbeg b < q -> nth_error B (q - 1) <> Some 13%N) -> Ready B (set_ptok q (set_pcur q b)).
Proof.
  intros B b q (H1 & H2 & H3) Q1 Q2 Q3. split; [|split; [exact H2|exact H3]].
  destruct H1. constructor; cbn; auto. intros A1 A2 _. exact (Q3 A1 A2).
Qed.

Definition blank (c : N) : Prop := (c = 32 \/ c = 9 \/ c = 12 \/ c = 11)%N.
Definition nonempty {A} (l : list A) : bool := match l with [] => false | _ => true end.

(** A text without line feed that starts on the line is on the line *)
Lemma fits : forall B b p w, BWF B b -> lstart B (lastline b) <= p -> p < pend b -> text_at B p w -> ~ In 10%N w -> p + List.length w <= pend b.
Proof.
  intros B b p w HW H1 H2 H3 H4. destruct w as [|x w]; [cbn; lia|].
  pose proof (text_at_len B p (x :: w) H3 ltac:(discriminate)) as HL.
  pose proof (w_last B b HW). pose proof (w_count B b HW). pose proof (w_pend B b HW) as HE.
  destruct (Nat.eq_dec (lastline b + 1) (NL B)) as [E|E].
  - destruct (line_last B _ E) as (A & _). lia.
  - destruct (line_newline B (lastline b)) as (_ & A & _); [lia|]. rewrite <- HE in A.
    destruct (Nat.le_gt_cases (p + List.length (x :: w)) (pend b)) as [K|K]; [exact K|exfalso]. apply H4.
    assert (G : forall u i, text_at B p u -> i < List.length u -> nth_error B (p + i) = nth_error u i).
    { clear. intros u. revert p. induction u as [|y u IH]; intros p i H Hi; [cbn in Hi; lia|].
      apply text_at_cons in H. destruct H as (H & H'). destruct i; [rewrite Nat.add_0_r; exact H|].
      cbn [nth_error List.length] in *. rewrite <- (IH (p + 1)); auto; [f_equal; lia|lia]. }
    specialize (G _ (pend b - 1 - p) H3 ltac:(lia)). replace (p + (pend b - 1 - p)) with (pend b - 1) in G by lia.
    rewrite A in G. symmetry in G. apply nth_error_In in G. exact G.
Qed.

Lemma wp_eq : forall S A e (m : M S A) (Q : A -> S -> Prop) s a s', m e s = Ok a s' -> Q a s' -> wp e m Q s.
Proof. intros S A e m Q s a s' H HQ. unfold wp. rewrite H. exact HQ. Qed.

Lemma wp_same : forall S A e (m m' : M S A) (Q : A -> S -> Prop) s s', m e s = m' e s' -> wp e m' Q s' -> wp e m Q s.
Proof. intros S A e m m' Q s s' H. unfold wp. rewrite H. auto. Qed.

Lemma rd_here : forall e b p, pcur b = p -> b_nextc e (set_pcur p b) = b_nextc e b.
Proof. intros e b p <-. rewrite set_pcur_same. reflexivity. Qed.

(** White space between tokens: blanks, and line ends behind a backslash *)
Inductive white_item : list N -> Prop :=
| wi_blank : forall c, blank c -> white_item [c]
| wi_lf : white_item [92; 10]%N
| wi_crlf : white_item [92; 13; 10]%N.
Inductive white : list N -> Prop :=
| wh_nil : white []
| wh_cons : forall i w, white_item i -> white w -> white (i ++ w).

(** White space that may come next.  A line end needs the next line to be the next one of the file. *)
Definition spacing (b : Buffer) (sp : list N) : Prop := white sp /\ (In 10%N sp -> in_order b).

Lemma blank_white : forall sp, Forall blank sp -> white sp.
Proof. intros sp H. induction H as [|c sp Hc H IH]; [constructor|]. apply (wh_cons [c]); auto. constructor; auto. Qed.

Lemma blank_spacing : forall b sp, Forall blank sp -> spacing b sp.
Proof.
  intros b sp H. split; [apply blank_white; auto|]. intros A. exfalso. rewrite Forall_forall in H. apply H in A. unfold blank in A. lia.
Qed.
#[export] Hint Resolve blank_spacing : core.

Lemma white_app : forall u v, white u -> white v -> white (u ++ v).
Proof. intros u v H. induction H as [|i w Hi H IH]; intros Hv; [exact Hv|]. rewrite <- app_assoc. constructor; auto. Qed.

Lemma white_first : forall sp, white sp -> sp <> [] -> exists c r, sp = c :: r /\ (blank c \/ c = 92%N).
Proof.
  intros sp H. destruct H as [|i w Hi H]; [congruence|]. intros _.
  destruct Hi as [c Hc| |]; cbn; eexists; eexists; split; try reflexivity; auto.
Qed.

(** One item is skipped by one round of the loop, and the loop remembers that it saw white space *)
Lemma white_step : forall B b0 q i, BWF B b0 -> upcoming b0 q -> text_at B q i -> white_item i ->
  exists b', BWF B b' /\ eofp b' = false /\ nextline b' = 0 /\ pcur b' = q + List.length i /\ heredoc_indent b' = heredoc_indent b0 /\
    (in_order b0 -> in_order b') /\
    (q + List.length i < List.length B -> (In 10%N i -> in_order b0) -> upcoming b' (q + List.length i)) /\
    forall e cs seen sn s, lex_step cs seen sn e (set_buffer b0 s) = Ok (inl true) (set_buffer b' s).
Proof.
  intros B b0 q i HW HU HT Hi.
  assert (HqB : q < List.length B).
  { pose proof (text_at_len B q i HT ltac:(destruct Hi; discriminate)). destruct Hi; cbn in *; lia. }
  destruct (flush_nextc B _ q HW HU HqB) as (b1 & R1 & R2 & R3 & R4 & R5 & R6 & R7).
  pose proof R1 as (W1 & N1 & E1). pose proof (w_pcur1 B b1 W1) as Wp. pose proof (w_pbeg B b1 W1) as Wb.
  pose proof (w_last B b1 W1) as Wl. pose proof (w_count B b1 W1) as Wc. pose proof (w_pend B b1 W1) as We. pose proof (pend_le B b1 W1) as Wle.
  assert (HM : forall k, q + k <= pend b1 -> 0 < k -> nth_error B (q + k - 1) <> Some 13%N -> BWF B (set_pcur (q + k) b1)).
  { intros k K1 K2 K3. destruct W1. constructor; cbn; auto; try lia. }
  (* the byte after one that is not a line feed is on the line *)
  assert (HN : forall x y, nth_error B q = Some x -> x <> 10%N -> nth_error B (q + 1) = Some y -> q + 1 < pend b1).
  { intros x y Hx Hn Hy. destruct (Nat.eq_dec (q + 1) (pend b1)) as [E|E]; [exfalso|lia].
    destruct (Nat.eq_dec (lastline b1 + 1) (NL B)) as [E2|E2].
    - destruct (line_last B _ E2) as (A & _). assert (H : nth_error B (q + 1) <> None) by congruence. apply nth_error_Some in H. lia.
    - destruct (line_newline B (lastline b1)) as (_ & A & _); [lia|]. rewrite <- We, <- E in A.
      replace (q + 1 - 1) with q in A by lia. congruence. }
  (* behind a line feed the next line follows *)
  assert (HU2 : forall k, nth_error B (q + k) = Some 10%N -> q + k < pend b1 -> q + k + 1 < List.length B -> in_order b1 -> upcoming (set_pcur (q + k + 1) b1) (q + k + 1)).
  { intros k K1 K2 K3 K4. destruct (newline_last B (lastline b1) (q + k)) as (A1 & A2); auto; try lia.
    unfold in_order in K4. rewrite N1 in K4. cbn [Nat.eqb] in K4.
    split; [exact E1|]. right. cbn [set_pcur nextline line_count pcur pend input]. rewrite N1. cbn [Nat.eqb].
    destruct (line_some B (line_count b1)) as (l & L1 & L2 & L3); [lia|]. exists l. unfold line_at. rewrite (w_lines B b1 W1). split; [exact L1|].
    rewrite L2, K4, <- lend_next by lia. rewrite <- We. split; [|intros _]; lia. }
  assert (HS : forall e cs seen sn s x, nth_error B q = Some x -> x <> 13%N ->
    lex_step cs seen sn e (set_buffer b0 s) =
    bind (lex_char (Some x) cs sn seen (lex_state s)) (fun r => match r with
      | Retry space_seen => ret (inl space_seen) | Tk t => ret (inr (inl t)) | Ident c => ret (inr (inr c)) end) e (set_buffer (set_pcur (q + 1) b1) s)).
  { intros e cs seen sn s x Hx Hn. unfold lex_step. unfold bind at 1, gets at 1. unfold bind at 1. unfold token_flush, modb, modify at 1.
    cbn [buffer set_buffer]. unfold bind at 1. unfold nextc, inb, zoom. cbn [buffer set_buffer].
    rewrite R7, <- (rd_here e b1 _ R2), (rd_byte B e b1 R1 q x) by auto. reflexivity. }
  destruct Hi as [c Hc| |]; cbn [List.length].
  - apply text_at_cons in HT. destruct HT as (HT & _). unfold blank in Hc.
    exists (set_pcur (q + 1) b1). splits; auto.
    + apply HM; try lia. replace (q + 1 - 1) with q by lia. rewrite HT. intros E. injection E as ->. lia.
    + intros H _. split; [exact E1|]. left. cbn [set_pcur nextline pcur pend]. splits; auto.
      destruct (nth_error B (q + 1)) as [y|] eqn:Ey; [|apply nth_error_None in Ey; lia]. apply (HN c y); auto. lia.
    + intros e cs seen sn s. rewrite (HS e cs seen sn s c HT) by lia. unfold lex_char.
      replace (N.eqb c 0 || N.eqb c 4 || N.eqb c 26) with false by lia. replace (N.eqb c 13) with false by lia.
      replace (N.eqb c 32 || N.eqb c 9 || N.eqb c 12 || N.eqb c 11) with true by lia. reflexivity.
  - apply text_at_cons in HT. destruct HT as (HT & HT'). apply text_at_cons in HT'. destruct HT' as (HT' & _).
    pose proof (HN _ _ HT ltac:(discriminate) HT') as HN'.
    exists (set_pcur (q + 2) b1). splits; auto.
    + apply HM; try lia. replace (q + 2 - 1) with (q + 1) by lia. rewrite HT'. discriminate.
    + intros H K. replace (q + 2) with (q + 1 + 1) in * by lia. apply HU2; auto. apply R6, K. right. left. reflexivity.
    + intros e cs seen sn s. rewrite (HS e cs seen sn s _ HT) by discriminate.
      change (lex_char (Some 92%N) cs sn seen (lex_state s)) with lex_backslash. unfold lex_backslash. unfold bind at 1 2. unfold nextc, inb, zoom. cbn [buffer set_buffer].
      rewrite (rd_byte B e b1 R1 (q + 1) 10%N) by (auto; discriminate). replace (q + 1 + 1) with (q + 2) by lia. reflexivity.
  - apply text_at_cons in HT. destruct HT as (HT & HT'). apply text_at_cons in HT'. destruct HT' as (HT' & HT2). apply text_at_cons in HT2. destruct HT2 as (HT2 & _).
    pose proof (HN _ _ HT ltac:(discriminate) HT') as HN'. destruct (rd_crlf B (mkEnv 0 None (fun _ => false)) b1 R1 (q + 1) ltac:(lia) HN' HT' HT2) as (HN2 & _).
    replace (q + 1 + 1) with (q + 2) in * by lia.
    exists (set_pcur (q + 3) b1). splits; auto.
    + apply HM; try lia. replace (q + 3 - 1) with (q + 2) by lia. rewrite HT2. discriminate.
    + intros H K. replace (q + 3) with (q + 2 + 1) in * by lia. apply HU2; auto. apply R6, K. right. right. left. reflexivity.
    + intros e cs seen sn s. rewrite (HS e cs seen sn s _ HT) by discriminate.
      change (lex_char (Some 92%N) cs sn seen (lex_state s)) with lex_backslash. unfold lex_backslash. unfold bind at 1 2. unfold nextc, inb, zoom. cbn [buffer set_buffer].
      replace (q + 2) with (q + 1 + 1) in HT2 by lia.
      rewrite (proj2 (rd_crlf B e b1 R1 (q + 1) ltac:(lia) HN' HT' HT2)). replace (q + 1 + 2) with (q + 3) by lia. reflexivity.
Qed.

(** All white space is skipped *)
Lemma white_run : forall B sp, white sp -> forall b0 q, BWF B b0 -> (sp <> [] -> upcoming b0 q) -> text_at B q sp -> (In 10%N sp -> in_order b0) ->
  exists k b', k <= List.length sp /\ BWF B b' /\ heredoc_indent b' = heredoc_indent b0 /\ (in_order b0 -> in_order b') /\
    (sp = [] -> b' = b0) /\
    (sp <> [] -> pcur b' = q + List.length sp /\ eofp b' = false /\ nextline b' = 0 /\ (q + List.length sp < List.length B -> upcoming b' (q + List.length sp))) /\
    forall e cs seen sn s m, loop_n (k + m) (lex_step cs seen) sn e (set_buffer b0 s) = loop_n m (lex_step cs seen) (sn || nonempty sp) e (set_buffer b' s).
Proof.
  intros B sp H. induction H as [|i w Hi Hw IH]; intros b0 q HW HU HT HI.
  - exists 0, b0. splits; auto; try congruence. intros. rewrite orb_false_r. reflexivity.
  - assert (Hne : i ++ w <> []) by (destruct Hi; discriminate).
    apply text_at_app in HT. destruct HT as (HT1 & HT2).
    destruct (white_step B b0 q i HW (HU Hne) HT1 Hi) as (b1 & W1 & E1 & N1 & P1 & H1 & I1 & U1 & S1).
    destruct (IH b1 (q + List.length i)) as (k & b' & K1 & W' & H' & I' & Z' & P' & S'); auto.
    { intros Hw'. apply U1.
      - pose proof (text_at_len _ _ _ HT2 Hw'). destruct w; [congruence|]. cbn [List.length] in *. lia.
      - intros A. apply HI, in_or_app. auto. }
    { intros A. apply I1, HI, in_or_app. auto. }
    exists (S k), b'. rewrite app_length. splits; auto; try congruence.
    + destruct Hi; cbn [List.length]; lia.
    + intros _. destruct w as [|z w].
      * rewrite (Z' eq_refl). cbn [List.length]. rewrite Nat.add_0_r. splits; auto. intros A. apply U1; auto. intros C. apply HI, in_or_app. auto.
      * rewrite Nat.add_assoc. apply P'. discriminate.
    + intros e cs seen sn s m. cbn [Nat.add loop_n]. unfold bind at 1. rewrite S1. rewrite S'.
      replace (sn || nonempty (i ++ w)) with true by (destruct Hi; cbn; rewrite orb_true_r; reflexivity). reflexivity.
Qed.

(** A token request: white space, then the first character [x] of a token *)
Lemma yylex_start : forall B e s p sp x w (Q : Token -> Lexer -> Prop),
  BWF B (buffer s) -> strterm s = None -> upcoming (buffer s) p ->
  text_at B p (sp ++ x :: w) -> spacing (buffer s) sp -> x <> 13%N -> List.length sp < fuel e ->
  (forall b, Ready B b -> pcur b = p + List.length sp -> ptok b = p + List.length sp -> p + List.length sp < pend b ->
    heredoc_indent b = heredoc_indent (buffer s) -> (in_order (buffer s) -> in_order b) ->
    wp e (lex_char (Some x) (command_start s) (nonempty sp) (token_seen s) (lex_state s))
      (fun r s' => match r with
                   | Tk t => wp e (yytail t) Q s'
                   | Ident c => wp e (parse_ident c (command_start s)) (fun t s'' => wp e (yytail t) Q s'') s'
                   | Retry _ => False
                   end)
      (set_buffer (set_pcur (p + List.length sp + 1) b) (set_token_seen true (set_command_start false (set_lval None s))))) ->
  wp e yylex Q s.
Proof.
  intros B e s p sp x w Q HW S1 HU HT (HS & HI) Hx Hf H.
  apply text_at_app in HT. destruct HT as (HT1 & HT2). apply text_at_cons in HT2. destruct HT2 as (HT2 & _).
  assert (HqB : p + List.length sp < List.length B) by (apply nth_error_Some; congruence).
  destruct (white_run B sp HS (buffer s) p HW (fun _ => HU) HT1 HI) as (k & b' & K1 & W' & H' & O' & Z' & P' & S').
  assert (HU' : upcoming b' (p + List.length sp)).
  { destruct sp as [|z sp]; [rewrite (Z' eq_refl); cbn; rewrite Nat.add_0_r; exact HU|apply P'; auto; discriminate]. }
  destruct (flush_nextc B _ _ W' HU' HqB) as (b1 & R1 & R2 & R3 & R4 & R5 & R6 & R7).
  unfold yylex. ws. ws. ws. fold (yytail).
  set (Q1 := fun (t : Tok) (s' : Lexer) => wp e (yytail t) Q s').
  enough (HG : wp e parser_yylex Q1 (set_lval None s)) by exact HG.
  unfold parser_yylex. ws. ws. change (strterm (set_lval None s)) with (strterm s). rewrite S1.
  ws. ws. ws. ws. change (token_seen (set_lval None s)) with (token_seen s). change (command_start (set_lval None s)) with (command_start s).
  set (s1 := set_token_seen true (set_command_start false (set_lval None s))) in *.
  ws. apply wp_loop_fuel.
  eapply (wp_same _ _ _ _ (loop_n (S (fuel e - k - 1)) (lex_step (command_start s) (token_seen s)) (nonempty sp)) _ _ (set_buffer b' s1)).
  { replace (fuel e) with (k + S (fuel e - k - 1)) at 1 by lia. change s1 with (set_buffer (buffer s) s1) at 1. rewrite S'. reflexivity. }
  cbn [loop_n]. ws. unfold lex_step. ws. ws. ws. ws. ws.
  unfold nextc, inb. apply wp_zoom. eapply wp_eq.
  { cbn [buffer set_buffer]. rewrite R7. rewrite <- (rd_here e b1 _ R2). apply (rd_byte B e b1 R1 _ x); auto. }
  ws. eapply wp_conseq; [apply (H b1 R1 R2 R3 R4); [congruence|auto]|].
  intros r s' Hr. destruct r as [|t|c]; [contradiction| |]; ws; ws; [ws|]; exact Hr.
Qed.
