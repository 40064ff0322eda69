(** * Words that only look like the start of an embedded document *)
Require Import Verif.Base Verif.MaybeByteM Verif.InputM Verif.DiagnosticM Verif.TokensM Verif.BufferM Verif.LexStateM
  Verif.LexerM Verif.LexIdentM Verif.LexMainM Verif.ParserClientM
  Verif.SourceSpec Verif.SourceProofs Verif.Wp Verif.BufInv Verif.LexSpec Verif.NewlineInv Verif.MainInv Verif.RunInv Verif.Prop_Lexer
  Verif.ReadSpec Verif.YylexSpec Verif.Reach Verif.NumberSpec Verif.NumRead Verif.Prop_Number Verif.IdentSpec Verif.IdentRead Verif.IdentStep Verif.Prop_Ident Verif.Prop_Var
  Verif.OpSpec Verif.OpStep Verif.OpRows Verif.OpTable Verif.OpMore Verif.Prop_Op Verif.LineSpec Verif.LineStep Verif.DocStep.
Require Import ZifyBool ZifyNat ZifyN.

(** ** Specification *)
(** The place behind a byte order mark *)
Definition behind_mark (B : list N) (q : nat) : Prop := q = 3 /\ text_at B 0 [239; 187; 191]%N.
(** The word goes on behind [=begin] *)
Definition word_goes_on (B : list N) (q : nat) : Prop :=
  exists c, nth_error B (q + 6) = Some c /\ ~ (9 <= c <= 13 \/ c = 32 \/ c = 0 \/ c = 4 \/ c = 26)%N.
(** No document starts at [q]: the line started before, or the word goes on *)
Definition no_document (B : list N) (q : nat) : Prop :=
  (~ line_start B q /\ ~ behind_mark B q) \/ word_goes_on B q.

(** ** The place in the line *)
Lemma start_of_line : forall B v, v < NL B -> line_start B (lstart B v).
Proof.
  intros B [|v] Hv; [left; apply lstart_0|right]. destruct (line_newline B v) as (_ & A & _); [lia|].
  replace (S v) with (v + 1) by lia. rewrite <- lend_next by lia. exact A.
Qed.

Lemma white_last : forall sp, white sp -> sp = [] \/ (exists sp0 c, sp = sp0 ++ [c] /\ white sp0 /\ blank c) \/ (exists sp0, sp = sp0 ++ [10%N]).
Proof.
  intros sp H. induction H as [|i w Hi Hw IH]; [auto|]. right. destruct IH as [->|[(sp0 & c & -> & H1 & H2)|(sp0 & ->)]].
  - rewrite app_nil_r. destruct Hi as [c Hc| |].
    + left. exists [], c. splits; auto; constructor.
    + right. exists [92%N]. reflexivity.
    + right. exists [92; 13]%N. reflexivity.
  - left. exists (i ++ sp0), c. splits; auto; [apply app_assoc|]. constructor; auto.
  - right. exists (i ++ sp0). apply app_assoc.
Qed.

Lemma mid_line : forall B s p sp x w, LInv B s -> upcoming (buffer s) p -> text_at B p (sp ++ x :: w) -> spacing (buffer s) sp ->
  ~ line_start B (p + List.length sp) -> ~ behind_mark B (p + List.length sp) ->
  exists k b', k <= List.length sp /\ Ready B b' /\ pcur b' = p + List.length sp /\ pbeg b' < p + List.length sp /\ p + List.length sp < pend b' /\
    (in_order (buffer s) -> in_order b') /\
    forall e cs seen s1 m, loop_n (k + m) (lex_step cs seen) false e (set_buffer (buffer s) s1) = loop_n m (lex_step cs seen) (nonempty sp) e (set_buffer b' s1).
Proof.
  intros B s p sp x w HL HU HT (HS & HI) HN1 HN2. pose proof HL as [HW HB _ _].
  apply text_at_app in HT. destruct HT as (HT1 & HT2). apply text_at_cons in HT2. destruct HT2 as (HT2 & _).
  assert (HqB : p + List.length sp < List.length B) by (apply nth_error_Some; congruence).
  destruct (white_last sp HS) as [->|[(sp0 & c & -> & H0 & Hc)|(sp0 & ->)]].
  - cbn [List.length] in *. rewrite Nat.add_0_r in *. exists 0, (buffer s). destruct HU as (E & [(U1 & U2 & ->)|(l & U1 & -> & U3)]).
    + pose proof (w_pcur1 B _ HW) as K. assert (pbeg (buffer s) <> pcur (buffer s)).
      { intros A. unfold bonus in HB. pose proof (w_pbeg B _ HW). destruct HB as [HB|(HB1 & HB2 & HB3)].
        - apply HN1. replace (pcur (buffer s)) with (lstart B (lastline (buffer s))) by lia. apply start_of_line. pose proof (w_last B _ HW). pose proof (w_count B _ HW). lia.
        - apply HN2. rewrite HB2, lstart_0 in HB1. split; auto. lia. }
      splits; auto; try lia. split; auto.
    + exfalso. apply HN1. unfold line_at in U1. rewrite (w_lines B _ HW) in U1.
      set (v := if nextline (buffer s) =? 0 then line_count (buffer s) else nextline (buffer s)) in *.
      assert (Hv : v < NL B) by (unfold NL; apply nth_error_Some; congruence). destruct (line_some B v Hv) as (l' & L1 & L2 & _). replace l with l' by congruence. rewrite L2. apply start_of_line; auto.
  - rewrite app_length in *. cbn [List.length] in *. apply text_at_app in HT1. destruct HT1 as (HT0 & HTc). apply text_at_cons in HTc. destruct HTc as (HTc & _).
    destruct (white_run B sp0 H0 (buffer s) p HW (fun _ => HU) HT0) as (k & b0 & K1 & W0 & _ & O0 & Z0 & P0 & S0). { intros A. apply HI, in_or_app. auto. }
    set (q := p + List.length sp0) in *. replace (p + (List.length sp0 + 1)) with (q + 1) in * by lia.
    assert (U0 : upcoming b0 q). { destruct sp0 as [|y sp0]; [rewrite (Z0 eq_refl); unfold q; cbn; rewrite Nat.add_0_r; exact HU|apply P0; [discriminate|lia]]. }
    destruct (flush_nextc B b0 q W0 U0 ltac:(lia)) as (b1 & R1 & R2 & R3 & R4 & R5 & R6 & R7). pose proof R1 as (W1 & N1 & E1). unfold blank in Hc.
    pose proof (w_pcur1 B b1 W1) as Wp. pose proof (w_pbeg B b1 W1) as Wb.
    assert (F : q + 1 < pend b1).
    { destruct (Nat.eq_dec (q + 1) (pend b1)) as [E|E]; [exfalso|lia]. pose proof (w_pend B b1 W1) as We. pose proof (w_last B b1 W1). pose proof (w_count B b1 W1).
      destruct (Nat.eq_dec (lastline b1 + 1) (NL B)) as [E2|E2].
      - destruct (line_last B _ E2) as (A & _). lia.
      - destruct (line_newline B (lastline b1)) as (_ & A & _); [lia|]. rewrite <- We, <- E in A. replace (q + 1 - 1) with q in A by lia. rewrite HTc in A. injection A as ->. lia. }
    assert (W2 : BWF B (set_pcur (q + 1) b1)).
    { destruct W1. constructor; cbn; auto; try lia. replace (q + 1 - 1) with q by lia. rewrite HTc. intros _ A. injection A as ->. lia. }
    exists (k + 1), (set_pcur (q + 1) b1). splits; auto; cbn [set_pcur pcur pbeg pend]; try lia. { split; auto. }
    intros e cs seen s1 m. rewrite <- Nat.add_assoc, S0. cbn [Nat.add loop_n]. unfold bind at 1.
    assert (ES : forall sn, lex_step cs seen sn e (set_buffer b0 s1) = Ok (inl true) (set_buffer (set_pcur (q + 1) b1) s1)).
    { intros sn. unfold lex_step. unfold bind at 1, gets at 1. unfold bind at 1. unfold token_flush, modb, modify at 1.
      cbn [buffer set_buffer]. unfold bind at 1. unfold nextc, inb, zoom. cbn [buffer set_buffer].
      rewrite R7, <- (rd_here e b1 _ R2), (rd_byte B e b1 R1 q c) by (auto; lia). unfold lex_char.
      replace (N.eqb c 0 || N.eqb c 4 || N.eqb c 26) with false by lia. replace (N.eqb c 13) with false by lia.
      replace (N.eqb c 32 || N.eqb c 9 || N.eqb c 12 || N.eqb c 11) with true by lia. reflexivity. }
    rewrite ES. replace (nonempty (sp0 ++ [c])) with true by (destruct sp0; reflexivity). reflexivity.
  - exfalso. apply HN1. right. rewrite app_length in *. cbn [List.length] in *. apply text_at_app in HT1. destruct HT1 as (_ & HT1). apply text_at_cons in HT1. destruct HT1 as (HT1 & _).
    replace (p + (List.length sp0 + 1) - 1) with (p + List.length sp0) by lia. exact HT1.
Qed.

(** A request whose first character stands inside a line *)
Lemma yylex_mid : forall B e s p sp x w (Q : Token -> Lexer -> Prop),
  LInv B s -> strterm s = None -> upcoming (buffer s) p ->
  text_at B p (sp ++ x :: w) -> spacing (buffer s) sp -> x <> 13%N -> List.length sp < fuel e ->
  ~ line_start B (p + List.length sp) -> ~ behind_mark B (p + List.length sp) ->
  (forall b, Ready B b -> pcur b = p + List.length sp -> ptok b = p + List.length sp -> p + List.length sp < pend b -> pbeg b < p + List.length sp ->
    (in_order (buffer s) -> in_order b) ->
    wp e (lex_char (Some x) (command_start s) (nonempty sp) (token_seen s) (lex_state s))
      (fun r s' => match r with
                   | Tk t => wp e (yytail t) Q s'
                   | Ident c => wp e (parse_ident c (command_start s)) (fun t s'' => wp e (yytail t) Q s'') s'
                   | Retry _ => False
                   end)
      (set_buffer (set_pcur (p + List.length sp + 1) b) (set_token_seen true (set_command_start false (set_lval None s))))) ->
  wp e yylex Q s.
Proof.
  intros B e s p sp x w Q HL S1 HU HT HS Hx Hf HN1 HN2 H.
  destruct (mid_line B s p sp x w HL HU HT HS HN1 HN2) as (k & b' & K1 & K2 & K3 & K4 & K5 & K6 & S').
  apply text_at_app in HT. destruct HT as (HT1 & HT2). apply text_at_cons in HT2. destruct HT2 as (HT2 & _).
  set (b1 := b_token_flush b'). set (q := p + List.length sp) in *.
  assert (R1 : Ready B b1). { destruct K2 as (W & N1 & E1). split; [apply BWF_set_ptok; auto; lia|split; auto]. }
  unfold yylex. ws. ws. ws. fold (yytail).
  set (Q1 := fun (t : Tok) (s' : Lexer) => wp e (yytail t) Q s').
  enough (HG : wp e parser_yylex Q1 (set_lval None s)) by exact HG.
  unfold parser_yylex. ws. ws. change (strterm (set_lval None s)) with (strterm s). rewrite S1.
  ws. ws. ws. ws. change (token_seen (set_lval None s)) with (token_seen s). change (command_start (set_lval None s)) with (command_start s).
  set (s1 := set_token_seen true (set_command_start false (set_lval None s))) in *.
  ws. apply wp_loop_fuel.
  eapply (wp_same _ _ _ _ (loop_n (S (fuel e - k - 1)) (lex_step (command_start s) (token_seen s)) (nonempty sp)) _ _ (set_buffer b' s1)).
  { replace (fuel e) with (k + S (fuel e - k - 1)) at 1 by lia. change s1 with (set_buffer (buffer s) s1) at 1. rewrite S'. reflexivity. }
  cbn [loop_n]. ws. unfold lex_step. ws. ws. ws. ws. ws.
  unfold nextc, inb. apply wp_zoom. eapply wp_eq.
  { cbn [buffer set_buffer]. change (b_token_flush b') with b1. rewrite <- (rd_here e b1 q K3). apply (rd_byte B e b1 R1 _ x); auto. }
  ws. eapply wp_conseq; [apply (H b1 R1 K3 K3 K5 K4)|].
  - intros A. exact (K6 A).
  - intros r s' Hr. destruct r as [|t|c]; [contradiction| |]; ws; ws; [ws|]; exact Hr.
Qed.

(** ** The equals sign *)
Lemma no_word : forall B b q, Ready B b -> pbeg b <= q -> pcur b = q -> q < pend b -> text_at B q (bs "=begin") -> word_goes_on B q ->
  is_word_match (set_pcur (q + 1) b) (bs "begin") = false.
Proof.
  intros B b q HR Hb HP Hq HT (c & Hc & Hn). pose proof HR as (W & _).
  assert (HT7 : text_at B q (bs "=begin" ++ [c])). { apply text_at_app. split; auto. apply text_at_cons. split; [exact Hc|apply text_at_nil]. }
  assert (F : q + List.length (bs "=begin" ++ [c]) <= pend b).
  { pose proof (w_pbeg B b W). apply (fits B b q); auto; try lia. intros A. apply in_app_or in A. destruct A as [A|[A|[]]]; [cbn in A; intuition discriminate|]. subst c. apply Hn. lia. }
  rewrite app_length in F. change (List.length (bs "=begin")) with 6 in F. cbn [List.length] in F.
  assert (W2 : BWF B (set_pcur (q + 1) b)).
  { apply wf_second; auto. change (bs "=begin") with (61%N :: bs "begin") in HT. apply text_at_cons in HT. tauto. }
  unfold is_word_match. cbn [pcur set_pcur pend]. change (List.length (bs "begin")) with 5. destruct (negb _); [reflexivity|].
  replace (q + 1 + 5 =? pend b) with false by lia. rewrite (byte_at_B B) by auto. replace (q + 1 + 5) with (q + 6) by lia. rewrite Hc.
  destruct (is_space (Some c) || mbeq (Some c) 0%N || mbeq (Some c) 26%N || mbeq (Some c) 4%N) eqn:E; [|auto]. exfalso. apply Hn, break_iff. exact E.
Qed.

Lemma equals_run : forall B e b s1 sp cs seen q, Ready B b -> ptok b = q -> pbeg b <= q -> lval s1 = None -> command_start s1 = false -> q + 1 < pend b -> InL B b (q + 1) ->
  text_at B q (bs "=begin") -> was_bol (set_pcur (q + 1) b) && is_word_match (set_pcur (q + 1) b) (bs "begin") = false ->
  wp e (lex_char (Some 61%N) cs sp seen (lex_state s1)) (OpPost b s1 (bs "=") (q + 1) tEQL (if ls_is_after_operator (lex_state s1) then EXPR_ARG else EXPR_BEG) false [])
    (set_buffer (set_pcur (q + 1) b) s1).
Proof.
  intros B e b s1 sp cs seen q HR Hq Hb HN HC HF HI T HM. assert (HL : q + 1 <= pend b) by lia. clear HF.
  match type of T with text_at ?B ?q ?w => let w' := eval vm_compute in w in change (text_at B q w') in T end.
  apply text_at_cons in T. destruct T as (TX & T). apply text_at_cons in T. destruct T as (TX1 & T). clear T.
  cbv beta iota zeta delta [lex_char mbeq N.eqb Pos.eqb orb b_is_digit in_range N.leb N.compare Pos.compare Pos.compare_cont andb].
  unfold lex_eq. unfold getb. ws. ws. cbn [buffer set_buffer]. rewrite HM. unfold set_arg_or_beg. remember (q + 1) as z eqn:Hz. ws. ws. repeat go.
  rewrite (next_not B z c 61 NX), (next_not B z c 126 NX), (next_not B z c 62 NX) by (try (split; discriminate); rewrite TX1; discriminate).
  repeat go. fields. post.
Qed.

Lemma equals_tail : forall B n upper s q b, Ready B b -> ptok b = q -> pcur b = q -> pbeg b <= q -> q < pend b -> lval_start s = None -> lval_end s = None -> strterm s = None ->
  text_at B q (bs "=begin") -> (in_order (buffer s) -> in_order b) -> was_bol (set_pcur (q + 1) b) && is_word_match (set_pcur (q + 1) b) (bs "begin") = false ->
  forall sp, wp (plain_env n upper) (lex_char (Some 61%N) (command_start s) sp (token_seen s) (lex_state s))
    (fun r s' => match r with
       | Tk t => wp (plain_env n upper) (yytail t) (fun t s' => t = mkToken tEQL (bs "=") (mkLoc q (q + 1)) /\ Passed B s s' (q + 1) (if ls_is_after_operator (lex_state s) then EXPR_ARG else EXPR_BEG) false []) s'
       | Ident c => wp (plain_env n upper) (parse_ident c (command_start s)) (fun t s'' => wp (plain_env n upper) (yytail t)
           (fun t s' => t = mkToken tEQL (bs "=") (mkLoc q (q + 1)) /\ Passed B s s' (q + 1) (if ls_is_after_operator (lex_state s) then EXPR_ARG else EXPR_BEG) false []) s'') s'
       | Retry _ => False
       end)
    (set_buffer (set_pcur (q + 1) b) (set_token_seen true (set_command_start false (set_lval None s)))).
Proof.
  intros B n upper s q b HR HP2 HP1 Hb HP3 L4 L5 ST HT HO HM sp. pose proof HR as (W & N1 & N2). pose proof (w_pbeg B b W) as WB.
  set (s1 := set_token_seen true (set_command_start false (set_lval None s))).
  assert (F : q + List.length (bs "=begin") <= pend b). { apply (fits B b q); auto; try lia. cbn. intuition discriminate. }
  change (List.length (bs "=begin")) with 6 in F.
  assert (HT1 : text_at B q (bs "=")). { change (bs "=begin") with (bs "=" ++ bs "begin") in HT. apply text_at_app in HT. apply HT. }
  assert (HI : InL B b (q + List.length (bs "="))). { apply (inl_text B b HR); auto; [cbn; lia|cbn; intuition discriminate..]. }
  change (q + List.length (bs "=")) with (q + 1) in HI.
  eapply wp_conseq; [apply (equals_run B (plain_env n upper) b s1 sp (command_start s) (token_seen s) q); auto; lia|].
  intros t s' [O1 O2 O3 O4 O5 O6 O7 O8 O9 O10 O11 O12 O13]. subst t.
  assert (HPT : ptok (buffer s') = q) by (rewrite (done_ptok _ _ _ O2); exact HP2).
  apply (tail_ok _ tEQL _ s' q (q + 1) (bs "=")).
  - rewrite O9. exact L4.
  - rewrite O10. exact L5.
  - reflexivity.
  - exact HPT.
  - exact (done_pcur _ _ _ O2).
  - destruct O8 as [V3|V3]; [left; exact V3|]. right. split; [exact V3|]. change (q + 1) with (q + List.length (bs "=")) in *. eapply fin_substr; eauto; [apply done_fin; exact O2|discriminate].
  - split; [reflexivity|]. constructor; cbn [buffer set_lval set_lval_end set_lval_start lex_state strterm command_start diagnostics comments paren_nest brace_nest lpar_beg cond cmdarg context static_env].
    + exact (done_pcur _ _ _ O2).
    + intros HqB. destruct O2 as [->|(V2 & ->)].
      * unfold upcoming. cbn. split; auto. left. splits; auto. lia.
      * exfalso. lia.
    + etransitivity; [exact O4|exact ST].
    + exact O3.
    + exact O5.
    + exact O6.
    + exact O7.
    + intros A. destruct O2 as [->|(_ & ->)]; exact (HO A).
    + exact O11.
    + exact O12.
    + exact O13.
Qed.

(** C58.  The word [=begin] inside a line, or with letters behind it, starts no document: it is the sign of an assignment *)
Theorem C58_no_document : forall B n upper s p sp,
  reached B n upper s -> strterm s = None -> upcoming (buffer s) p -> text_at B p (sp ++ bs "=begin") -> spacing (buffer s) sp ->
  no_document B (p + List.length sp) -> List.length B < n ->
  exists s' st', yylex (plain_env n upper) s = Ok (mkToken tEQL (bs "=") (mkLoc (p + List.length sp) (p + List.length sp + 1))) s' /\
    (name_place (lex_state s) -> st' = EXPR_ARG) /\ (~ name_place (lex_state s) -> st' = EXPR_BEG) /\
    Passed B s s' (p + List.length sp + 1) st' false [].
Proof.
  intros B n upper s p sp HR ST HU HT HS HD Hn. pose proof (reached_inv B n upper s HR) as HL. pose proof HL as [HW _ _ (L4 & L5)].
  assert (HT2 : text_at B (p + List.length sp) (bs "=begin")) by (apply text_at_app in HT; apply HT).
  assert (HLen : p + List.length sp + 6 <= List.length B) by (apply (text_at_len B _ (bs "=begin")); auto; discriminate).
  set (q := p + List.length sp) in *. set (st' := if ls_is_after_operator (lex_state s) then EXPR_ARG else EXPR_BEG).
  enough (HG : wp (plain_env n upper) yylex (fun t s' => t = mkToken tEQL (bs "=") (mkLoc q (q + 1)) /\ Passed B s s' (q + 1) st' false []) s).
  { unfold wp in HG. destruct (yylex (plain_env n upper) s) as [t s'|msg|]; try contradiction. destruct HG as (-> & HG). exists s', st'. pose proof (name_bits (lex_state s)) as NB. unfold st'.
    splits; auto; intros A; destruct (ls_is_after_operator (lex_state s)); auto; [apply NB in A; discriminate|]. exfalso. apply A, NB. reflexivity. }
  destruct HD as [(HD1 & HD2)|HD].
  - apply (yylex_mid B (plain_env n upper) s p sp 61%N (bs "begin")); auto; [discriminate|cbn; unfold q in *; lia|].
    fold q. intros b R1 R2 R3 R4 R5 R6. apply equals_tail; auto; try lia.
    replace (was_bol _) with false; [reflexivity|]. unfold was_bol. cbn [pcur set_pcur pbeg]. symmetry. apply Nat.eqb_neq. lia.
  - apply (yylex_start B (plain_env n upper) s p sp 61%N (bs "begin")); auto; [discriminate|cbn; unfold q in *; lia|].
    fold q. intros b R1 R2 R3 R4 R5 R6. pose proof R1 as (W & _). pose proof (w_pcur1 B b W). apply equals_tail; auto; try lia.
    rewrite (no_word B b q) by (auto; lia). apply andb_false_r.
Qed.
Print Assumptions C58_no_document.

(** ** The hypotheses are met *)
Example C58_no_document_middle :
  let src := bs "a =begin 1" in
  exists s, reached src 200 (fun _ => false) s /\ strterm s = None /\ upcoming (buffer s) 1 /\ text_at src 1 (bs " " ++ bs "=begin") /\ spacing (buffer s) (bs " ") /\ no_document src 2.
Proof.
  set (src := bs "a =begin 1"). cbn zeta. reach_state src [PNext]. splits; auto; try reflexivity.
  - split; [reflexivity|]. left. splits; auto. cbn. lia.
  - apply blank_spacing. constructor; [|constructor]. unfold blank. cbn. lia.
  - left. split; [intros [A|A]; vm_compute in A; discriminate|]. intros (A & _). discriminate.
Qed.
Example C58_no_document_word :
  let src := bs "=beginning" in
  exists s, reached src 200 (fun _ => false) s /\ strterm s = None /\ upcoming (buffer s) 0 /\ text_at src 0 ([] ++ bs "=begin") /\ spacing (buffer s) [] /\ no_document src 0.
Proof.
  set (src := bs "=beginning"). cbn zeta. reach_state src (@nil Action). splits; auto; try reflexivity.
  - split; [reflexivity|]. left. splits; auto. cbn. lia.
  - right. exists 110%N. split; [vm_compute; reflexivity|]. lia.
Qed.
