(** * C59: a comment that ends the source *)
Require Import Verif.Base Verif.MaybeByteM Verif.Utf8M Verif.InputM Verif.DiagnosticM Verif.TokensM Verif.BufferM Verif.LexStateM Verif.ScopesM
  Verif.LexerM Verif.LexIdentM Verif.LexMagicM Verif.LexMainM Verif.ParserClientM
  Verif.SourceSpec Verif.SourceProofs Verif.Wp Verif.BufInv Verif.LexSpec Verif.LexInv Verif.MagicInv Verif.NewlineInv Verif.MainInv Verif.RunInv Verif.FuelMono Verif.Prop_Lexer
  Verif.ReadSpec Verif.YylexSpec Verif.Reach Verif.NumberSpec Verif.NumRead Verif.Prop_Number Verif.IdentSpec Verif.IdentRead Verif.IdentStep Verif.Prop_Ident Verif.Prop_Var Verif.Prop_End Verif.Prop_White Verif.OpSpec Verif.OpStep Verif.Blind
  Verif.LineSpec Verif.LineStep Verif.DocStep Verif.LineRun Verif.LineAgree Verif.Prop_Line Verif.Prop_Encoding Verif.MagicSpec Verif.MagicRun Verif.MagicStep Verif.MagicCover Verif.Prop_Doc Verif.Prop_Magic.
Require Import ZifyBool ZifyNat ZifyN.

(** The last line of the source, with or without a terminator *)
Definition last_end (el : list N) : Prop := el = [] \/ eol el.

Lemma magic_last : forall B b0 q w el ms, BWF B b0 -> upcoming b0 q -> text_at B q (35%N :: w ++ el) -> ~ In 10%N w -> ~ In 13%N w -> last_end el -> magic_note (q + 1) w ms ->
  q + 1 + List.length w + List.length el = List.length B ->
  exists bE, BWF B bE /\ pcur bE = List.length B /\
    forall e, 4 * List.length B + 20 < fuel e -> decoder e = None -> forall cs seen sn s,
      lex_step cs seen sn e (set_buffer b0 s) =
      bind (newline_tail sn) step_end e (set_comments (comments s ++ [mkComment (mkLoc q (List.length B)) Inline]) (add_magic ms (set_token_seen seen (set_buffer bE s)))).
Proof.
  intros B b0 q w el ms HW HU HT H10 H13 [->|HEl] HN HEnd.
  2: { destruct (magic_step B b0 q w el ms HW HU HT H10 H13 HEl HN) as (bE & A1 & _ & _ & A3). exists bE. rewrite HEnd in A1, A3. destruct A1 as [X1 X2 X3 X4 X5 X6 X7 X8]. splits; auto. }
  cbn [List.length] in HEnd. rewrite Nat.add_0_r in HEnd.
  destruct (flush_nextc B _ q HW HU ltac:(lia)) as (b1 & R1 & R2 & R3 & R4 & R5 & R6 & R7).
  pose proof R1 as (W1 & N1 & E1). pose proof (w_pcur1 B b1 W1) as Wp. pose proof (w_pbeg B b1 W1) as Wb. pose proof (pend_le B b1 W1) as Wle.
  assert (HTu := HT). rewrite app_nil_r in HTu. apply text_at_cons in HT. destruct HT as (Hx & HT).
  assert (F : q + List.length (35%N :: w) <= pend b1). { apply (fits B b1 q); auto; try lia. intros [A|A]; [discriminate|auto]. } cbn [List.length] in F.
  assert (HP : pend b1 = List.length B) by lia.
  exists (set_pcur (List.length B) b1). splits; auto.
  - pose proof (BWF_goto_eol B b1 W1) as G. unfold goto_eol in G. rewrite HP in G. exact G.
  - intros e Hf Hd cs seen sn s. unfold lex_step. unfold bind at 1, gets at 1. unfold bind at 1. unfold token_flush, modb, modify at 1.
    cbn [buffer set_buffer]. unfold bind at 1. unfold nextc, inb, zoom. cbn [buffer set_buffer]. rewrite R7.
    rewrite <- (rd_here e b1 _ R2), (rd_byte B e b1 R1 q 35%N) by (auto; try discriminate; lia).
    change (lex_char (Some 35%N) cs sn seen (lex_state (set_buffer b0 s))) with (lex_newline (Some 35%N) sn seen). unfold lex_newline. change (mbeq (Some 35%N) "#") with true. cbv iota.
    change (set_buffer (set_pcur (q + 1) b1) (set_buffer (b_token_flush b0) (set_buffer b0 s))) with (set_buffer (set_pcur (q + 1) b1) s). unfold bind at 1 2.
    rewrite (comment_magic B e b1 q s seen w [] ms); auto; try lia; [|cbn [List.length]; lia].
    cbv iota. cbn [negb]. rewrite HP. destruct s; reflexivity.
Qed.

(** C59.  A comment on the last line, where no statement has begun, is recorded up to the end of the source, and the source
    ends.  Its terminator may be missing. *)
Theorem C59_last_comment : forall B n upper s p sp w el ms,
  reached B n upper s -> strterm s = None -> upcoming (buffer s) p -> text_at B p (sp ++ 35%N :: w ++ el) -> spacing (buffer s) sp ->
  ~ In 10%N w -> ~ In 13%N w -> last_end el -> magic_note (p + List.length sp + 1) w ms ->
  line_end_skipped (lex_state s) (ctx_get IN_KWARG (context s)) ->
  let q := p + List.length sp in
  q + 1 + List.length w + List.length el = List.length B -> enough B <= n ->
  exists tk s2, yylex (plain_env n upper) s = Ok tk s2 /\ token_type tk = END_OF_INPUT /\ diagnostics s2 = diagnostics s /\
    comments s2 = comments s ++ [mkComment (mkLoc q (List.length B)) Inline] /\ magic_comments s2 = magic_comments s ++ ms.
Proof.
  intros B n upper s p sp w el ms HR ST HU HT (HSp & HSO) H10 H13 HEl HN HC q HEnd Hn. set (e := plain_env n upper). pose proof (reached_inv B n upper s HR) as HL.
  assert (Hf : 4 * List.length B + 20 < fuel e) by (unfold enough in Hn; cbn; lia). pose proof HL as [HW _ _ (L1 & L2)].
  apply text_at_app in HT. destruct HT as (HT0 & HT). fold q in HT.
  destruct (white_run B sp HSp (buffer s) p HW (fun _ => HU) HT0 HSO) as (k0 & b1 & K1 & W1 & _ & O1 & Z1 & P1 & S1).
  assert (HU1 : upcoming b1 q).
  { destruct sp as [|x sp]; [rewrite (Z1 eq_refl); unfold q; cbn; rewrite Nat.add_0_r; exact HU|apply P1; [discriminate|unfold q in *; lia]]. }
  destruct (magic_last B b1 q w el ms W1 HU1 HT H10 H13 HEl HN HEnd) as (bE & W2 & P2 & A3). assert (AE2 : AtEnd B bE) by (right; auto).
  set (C := comments s ++ [mkComment (mkLoc q (List.length B)) Inline]). set (D := magic_comments s ++ ms).
  assert (HAg : agree (yylex e s) (yylex e (set_magic_comments D (set_comments C (set_buffer bE s))))).
  { apply (skip_agree_magic e s bE C D (k0 + 1)); auto.
    - unfold q in *. lia.
    - eapply request_ends; eauto.
    - intros v. apply (ind_end B); auto.
    - set (s1 := set_token_seen true (set_command_start false (set_lval None s))). exists (false || nonempty sp), (token_seen s). intros m.
      change s1 with (set_buffer (buffer s) s1) at 1. rewrite <- Nat.add_assoc, S1. cbn [Nat.add loop_n]. unfold bind at 1. rewrite A3 by auto. unfold bind at 1. rewrite tail_skip by exact HC. reflexivity. }
  assert (HG' : wp e yylex (fun tk s2 => token_type tk = END_OF_INPUT /\ diagnostics s2 = diagnostics s /\ comments s2 = C /\ magic_comments s2 = D) (set_magic_comments D (set_comments C (set_buffer bE s)))).
  { apply (blank_end B e _ (List.length B) []); auto.
    - left. splits; auto.
    - reflexivity.
    - cbn [List.length]. lia. }
  unfold wp in HG'. destruct (yylex e (set_magic_comments _ _)) as [tk s2| |]; try contradiction. destruct (yylex e s) as [tk' s2'| |]; cbn in HAg; try contradiction.
  destruct HAg as (-> & (v & ->)). cbn in HG'. exists tk, s2'. splits; tauto.
Qed.
Print Assumptions C59_last_comment.

(** ** The hypotheses are met *)
Example C59_last_comment_hypotheses :
  let src := bs "# warn-indent: true" in
  exists s, reached src 200 (fun _ => false) s /\ strterm s = None /\ upcoming (buffer s) 0 /\ text_at src 0 ([] ++ 35%N :: bs " warn-indent: true" ++ []) /\
    line_end_skipped (lex_state s) (ctx_get IN_KWARG (context s)) /\ magic_note 1 (bs " warn-indent: true") [mkMagic MC_WarnIndent (mkLoc 2 13) (mkLoc 15 19)] /\
    1 + List.length (bs " warn-indent: true") = List.length src /\ enough src <= 200.
Proof.
  set (src := bs "# warn-indent: true"). cbn zeta. reach_state src (@nil Action). splits; auto; try reflexivity.
  - split; [reflexivity|]. left. splits; auto. cbn. lia.
  - left. vm_compute. intuition discriminate.
  - apply mn_plain; [no_marker|].
    apply (pn_one 1 (bs " ") (bs "warn-indent") [] (bs " ") (bs "true") 0 (bs "true") []); try discriminate; try chars.
    + apply vl_bare. split; [discriminate|]. chars.
    + apply (rc_known (bs "warn-indent") 2 (bs "true") 15 MC_WarnIndent); [|discriminate]. exists (bs "warn_indent"). split; [in_table|spelt].
  - unfold enough. cbn. lia.
Qed.
