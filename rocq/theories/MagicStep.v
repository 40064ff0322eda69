(** * Magic comments and their line ends *)
Require Import Verif.Base Verif.MaybeByteM Verif.Utf8M Verif.InputM Verif.DiagnosticM Verif.TokensM Verif.BufferM Verif.LexStateM Verif.ScopesM
  Verif.LexerM Verif.LexIdentM Verif.LexMagicM Verif.LexMainM Verif.ParserClientM
  Verif.SourceSpec Verif.SourceProofs Verif.Wp Verif.BufInv Verif.LexSpec Verif.LexInv Verif.MagicInv Verif.NewlineInv Verif.MainInv Verif.RunInv Verif.FuelMono Verif.Prop_Lexer
  Verif.ReadSpec Verif.YylexSpec Verif.Reach Verif.IdentSpec Verif.Prop_Encoding Verif.LineSpec Verif.LineStep Verif.DocStep Verif.MagicSpec Verif.MagicRun.
Require Import ZifyBool ZifyNat ZifyN.

Lemma eol_spaces : forall el, eol el -> Forall sp_char el /\ 1 <= List.length el.
Proof. intros el H. destruct H; (split; [repeat constructor; unfold sp_char; lia|cbn; lia]). Qed.

(** A magic comment and its line end, read by one round of the main loop *)
Lemma magic_step : forall B b0 q w el ms, BWF B b0 -> upcoming b0 q -> text_at B q (35%N :: w ++ el) -> ~ In 10%N w -> ~ In 13%N w -> eol el -> magic_note (q + 1) w ms ->
  let t := q + 1 + List.length w in
  exists bE, AtE B bE t (t + List.length el) /\ ptok bE = q /\ (in_order b0 -> in_order bE) /\
    forall e, 4 * List.length B + 20 < fuel e -> decoder e = None -> forall cs seen sn s,
      lex_step cs seen sn e (set_buffer b0 s) =
      bind (newline_tail sn) step_end e (set_comments (comments s ++ [mkComment (mkLoc q (t + List.length el)) Inline]) (add_magic ms (set_token_seen seen (set_buffer bE s)))).
Proof.
  intros B b0 q w el ms HW HU HT H10 H13 HEl HN t. set (z := t + List.length el).
  pose proof (text_at_len _ _ _ HT ltac:(discriminate)) as HLen. cbn [List.length] in HLen. rewrite app_length in HLen.
  assert (Hel : 1 <= List.length el) by (destruct HEl; cbn; lia).
  assert (HqB : q < List.length B) by lia.
  destruct (flush_nextc B _ q HW HU HqB) as (b1 & R1 & R2 & R3 & R4 & R5 & R6 & R7).
  pose proof R1 as (W1 & N1 & E1). pose proof (w_pcur1 B b1 W1) as Wp. pose proof (w_pbeg B b1 W1) as Wb.
  pose proof (w_last B b1 W1) as Wl. pose proof (w_count B b1 W1) as Wc. pose proof (w_pend B b1 W1) as We. pose proof (pend_le B b1 W1) as Wle.
  assert (HT' := HT). apply text_at_cons in HT. destruct HT as (Hx & HT). assert (HTw := HT). apply text_at_app in HT. destruct HT as (HT1 & HT2). fold t in HT2.
  assert (HTu : text_at B q (35%N :: w)) by (apply text_at_cons; auto).
  assert (Ht : t < pend b1).
  { assert (F : q + List.length (35%N :: w) <= pend b1). { apply (fits B b1 q); auto; try lia. intros [A|A]; [discriminate|auto]. } cbn [List.length] in F.
    destruct (Nat.eq_dec t (pend b1)) as [E|E]; [exfalso|unfold t in *; lia].
    destruct (Nat.eq_dec (lastline b1 + 1) (NL B)) as [E2|E2]. { destruct (line_last B _ E2) as (A & _). unfold t in *. lia. }
    destruct (line_newline B (lastline b1)) as (_ & A & _); [lia|]. rewrite <- We, <- E in A.
    replace (t - 1) with (q + List.length w) in A by (unfold t; lia). rewrite (text_byte B q (35%N :: w)) in A by (auto; cbn; lia). apply nth_error_In in A. destruct A as [A|A]; [discriminate|auto]. }
  assert (HZ : pend b1 = z /\ nth_error B (z - 1) = Some 10%N /\ t + tlen B (lastline b1) = z).
  { unfold z. destruct HEl as [|]; cbn [List.length].
    - apply text_at_cons in HT2. destruct HT2 as (A & _). destruct (newline_last B (lastline b1) t) as (A1 & A2); auto; try (unfold t in *; lia).
      assert (EP : pend b1 = t + 1) by lia. splits; auto. { replace (t + 1 - 1) with t by lia. exact A. }
      apply tlen_lf; auto. right. replace (t - 1) with (q + List.length w) by (unfold t; lia). rewrite (text_byte B q (35%N :: w)) by (auto; cbn; lia).
      intros C. apply nth_error_In in C. destruct C as [C|C]; [discriminate|auto].
    - apply text_at_cons in HT2. destruct HT2 as (A & HT3). apply text_at_cons in HT3. destruct HT3 as (A' & _).
      destruct (rd_crlf B (mkEnv 0 None (fun _ => false)) b1 R1 t) as (K & _); auto; [unfold t; lia|].
      destruct (newline_last B (lastline b1) (t + 1)) as (A1 & A2); auto; try (unfold t in *; lia).
      assert (EP : pend b1 = t + 2) by lia. splits; auto. { replace (t + 2 - 1) with (t + 1) by lia. exact A'. }
      apply tlen_crlf; auto. unfold t; lia. }
  destruct HZ as (HZ1 & HZ2 & HZ3).
  exists (set_pcur z b1). splits; auto.
  - constructor; auto; cbn [pbeg set_pcur]; [|unfold z, t in *; lia].
    pose proof (BWF_goto_eol B b1 W1) as G. unfold goto_eol in G. rewrite HZ1 in G. exact G.
  - intros e Hf Hd cs seen sn s. unfold lex_step. unfold bind at 1, gets at 1. unfold bind at 1. unfold token_flush, modb, modify at 1.
    cbn [buffer set_buffer]. unfold bind at 1. unfold nextc, inb, zoom. cbn [buffer set_buffer]. rewrite R7.
    rewrite <- (rd_here e b1 _ R2), (rd_byte B e b1 R1 q 35%N) by (auto; try discriminate; lia).
    change (lex_char (Some 35%N) cs sn seen (lex_state (set_buffer b0 s))) with (lex_newline (Some 35%N) sn seen). unfold lex_newline. change (mbeq (Some 35%N) "#") with true. cbv iota.
    change (set_buffer (set_pcur (q + 1) b1) (set_buffer (b_token_flush b0) (set_buffer b0 s))) with (set_buffer (set_pcur (q + 1) b1) s). unfold bind at 1 2.
    destruct (eol_spaces el HEl) as (HSp & _). rewrite (comment_magic B e b1 q s seen w el ms); auto; try lia.
    cbv iota. cbn [negb]. rewrite HZ1. fold z. destruct s; reflexivity.
Qed.
