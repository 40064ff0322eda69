(** * C58: embedded documents *)
Require Import Verif.Base Verif.MaybeByteM Verif.Utf8M Verif.InputM Verif.DiagnosticM Verif.TokensM Verif.BufferM Verif.LexStateM Verif.ScopesM
  Verif.LexerM Verif.LexIdentM Verif.LexMagicM Verif.LexMainM Verif.ParserClientM
  Verif.SourceSpec Verif.SourceProofs Verif.Wp Verif.BufInv Verif.LexSpec Verif.LexInv Verif.MagicInv Verif.NewlineInv Verif.MainInv Verif.RunInv Verif.FuelMono Verif.Prop_Lexer
  Verif.ReadSpec Verif.YylexSpec Verif.Reach Verif.NumberSpec Verif.NumRead Verif.Prop_Number Verif.IdentSpec Verif.IdentRead Verif.IdentStep Verif.Prop_Ident Verif.Prop_Var Verif.Prop_End Verif.Prop_White Verif.OpSpec Verif.OpStep Verif.Blind
  Verif.LineSpec Verif.LineStep Verif.DocStep Verif.LineRun Verif.LineAgree Verif.Prop_Line.
Require Import ZifyBool ZifyNat ZifyN.

(** C58.  An embedded document is no token, whatever the lexer expects: a request in front of it agrees with the request
    behind it, and the document is recorded as a comment from the [=] of [=begin] to the end of the [=end] line. *)
Theorem C58_document : forall B n upper s p doc,
  reached B n upper s -> strterm s = None -> upcoming (buffer s) p -> in_order (buffer s) -> text_at B p doc -> document doc -> line_start B p ->
  plain_start B (p + List.length doc) -> enough B <= n ->
  exists b', upcoming b' (p + List.length doc) /\ in_order b' /\
    agree (yylex (plain_env n upper) s)
      (yylex (plain_env n upper) (set_comments (comments s ++ [mkComment (mkLoc p (p + List.length doc)) Document]) (set_buffer b' s))).
Proof.
  intros B n upper s p doc HR ST HU HO HT HD HS HP Hn. set (e := plain_env n upper). pose proof (reached_inv B n upper s HR) as HL.
  assert (Hf : 4 * List.length B + 20 < fuel e) by (unfold enough in Hn; cbn; lia). pose proof HL as [HW _ _ _].
  assert (HzL : p + List.length doc < List.length B).
  { destruct HP as [(i & Hi & A)|[(x & A & _)|(_ & y & A & _)]].
    - assert (Hin : i <> []) by (destruct Hi; discriminate). pose proof (text_at_len _ _ _ A Hin). destruct Hi; cbn [List.length] in *; lia.
    - apply nth_error_Some. congruence.
    - assert (p + List.length doc + 1 < List.length B) by (apply nth_error_Some; congruence). lia. }
  destruct (doc_step B (buffer s) p doc HW HU HO HT HD HS) as (bE & t & A1 & A2 & A3).
  destruct (atE_loaded B bE t _ A1 A2 HzL) as (b' & R1 & R2 & R3 & R4 & R5 & R6 & R7). pose proof R1 as (W1 & N1 & E1).
  assert (HU' : upcoming b' (p + List.length doc)) by (split; auto; left; splits; auto; lia).
  exists b'. splits; auto. set (C := comments s ++ _).
  apply (skip_agree e s b' C 1); auto; try lia.
  - eapply request_ends; eauto.
  - intros v. eapply ind_start; [| |exact HP]; auto.
  - set (s1 := set_token_seen true (set_command_start false (set_lval None s))). exists false, true. intros m.
    change s1 with (set_buffer (buffer s) s1) at 1. cbn [Nat.add loop_n]. unfold bind at 1. rewrite A3 by auto. destruct m as [|m]; [reflexivity|]. cbn [loop_n]. apply bind_same.
    set (X := set_comments C s1).
    change (lex_step (command_start s) (token_seen s) false e (set_buffer bE X) = lex_step (command_start s) (token_seen s) false e (set_buffer b' X)). apply R7.
Qed.
Print Assumptions C58_document.

(** ** Up to the end of the source *)
Lemma end_none : forall B e b, BWF B b -> AtEnd B b -> exists b', b_nextc e b = Ok None b' /\ BWF B b'.
Proof.
  intros B e b HW HA. assert (G : wp e b_nextc (fun c b' => c = None /\ BWF B b') b).
  { apply (b_nextc_ok B); auto. intros c b' HN. pose proof (n_wf _ _ _ _ HN) as W'. pose proof (pend_le B b' W'). pose proof (w_pcur2 B b' W'). pose proof (n_mono _ _ _ _ HN) as Hm. split; auto.
    destruct c as [x|]; auto. exfalso. destruct (n_some _ _ _ _ HN x eq_refl) as (S1 & S2 & _ & _ & _ & _ & S3 & _). destruct HA as [A|A]; [congruence|]. lia. }
  unfold wp in G. destruct (b_nextc e b) as [c b'| |]; try contradiction. destruct G as (-> & G). eauto.
Qed.

Lemma doc_eof : forall B e b l s, BWF B (goto_eol b) -> AtEnd B (goto_eol b) ->
  exists b', doc_body l tt e (set_buffer b s) = Ok (inr false) (set_diagnostics (diagnostics s ++ [mkDiag Error EmbeddedDocumentMeetsEof l]) (set_buffer b' s)).
Proof.
  intros B e b l s HW HA. destruct (end_none B e _ HW HA) as (b' & E & _). exists b'.
  unfold doc_body. unfold bind at 1. unfold modb, modify at 1. cbn [buffer set_buffer]. unfold bind at 1. unfold nextc, inb, zoom. cbn [buffer set_buffer]. rewrite E. reflexivity.
Qed.

Lemma yylex_end : forall e s s2, strterm s = None ->
  loop (lex_step (command_start s) (token_seen s)) false e (set_token_seen true (set_command_start false (set_lval None s))) = Ok (inl END_OF_INPUT) s2 ->
  exists tk s3, yylex e s = Ok tk s3 /\ token_type tk = END_OF_INPUT /\ comments s3 = comments s2 /\ diagnostics s3 = diagnostics s2.
Proof.
  intros e s s2 ST H. eexists. eexists. split.
  { unfold yylex. unfold bind at 1, modify at 1. unfold bind at 1. rewrite parser_yylex_none by exact ST.
    change (command_start (set_lval None s)) with (command_start s). change (token_seen (set_lval None s)) with (token_seen s). rewrite H. reflexivity. }
  splits; reflexivity.
Qed.

(** C58.  A document that ends with the source, with or without a last line feed, is recorded to the end of the source *)
Theorem C58_last_document : forall B n upper s p doc,
  reached B n upper s -> strterm s = None -> upcoming (buffer s) p -> in_order (buffer s) -> text_at B p doc -> last_document doc -> line_start B p ->
  p + List.length doc = List.length B -> enough B <= n ->
  exists tk s2, yylex (plain_env n upper) s = Ok tk s2 /\ token_type tk = END_OF_INPUT /\
    comments s2 = comments s ++ [mkComment (mkLoc p (List.length B)) Document] /\ diagnostics s2 = diagnostics s.
Proof.
  intros B n upper s p doc HR ST HU HO HT HD HS HEnd Hn. set (e := plain_env n upper). pose proof (reached_inv B n upper s HR) as HL.
  assert (Hf : 4 * List.length B + 20 < fuel e) by (unfold enough in Hn; cbn; lia). pose proof HL as [HW _ _ (L1 & L2)].
  set (C := comments s ++ [mkComment (mkLoc p (List.length B)) Document]).
  assert (HX : exists bE, BWF B bE /\ pcur bE = List.length B /\ forall cs seen sn s1, comments s1 = comments s ->
     lex_step cs seen sn e (set_buffer (buffer s) s1) = Ok (inl sn) (set_comments C (set_buffer bE s1))).
  { destruct HD as [doc HD|r0 ls r1 Hw0 Hl0 HF Hw1 Hl1].
    - destruct (doc_step B (buffer s) p doc HW HU HO HT HD HS) as (bE & t & A1 & A2 & A3). rewrite HEnd in *. exists bE. destruct A1 as [X1 X2 X3 X4 X5 X6 X7 X8]. splits; auto.
      intros cs seen sn s1 E. rewrite A3 by auto. unfold C. rewrite E. reflexivity.
    - set (doc := bs "=begin" ++ r0 ++ List.concat ls ++ bs "=end" ++ r1) in *.
      assert (Hd : 10 + List.length ls <= List.length doc). { pose proof (lines_short ls HF). unfold doc. rewrite !app_length. change (List.length (bs "=begin")) with 6. change (List.length (bs "=end")) with 4. lia. }
      assert (HT3 := HT). unfold doc in HT. rewrite app_assoc in HT. apply text_at_app in HT. destruct HT as (HT1 & HT2). apply text_at_app in HT2. destruct HT2 as (HT2 & HT4).
      destruct (doc_enter B (buffer s) p r0 HW HU HO HT1 (or_introl Hw0) HS) as (b1 & R1 & R2 & R3 & R4 & R5 & R6).
      destruct (line_end_at B b1 p (bs "=begin" ++ r0) R1) as (t1 & HE); auto; [lia| |].
      { apply full_app; auto. cbn. intuition discriminate. }
      destruct (doc_lines ls B (goto_eol b1) t1 _ HF HE R5 HT2) as (b2 & t2 & A1 & A2 & A3).
      assert (EL : p + List.length (bs "=begin" ++ r0) + List.length (List.concat ls) + List.length (bs "=end" ++ r1) = List.length B).
      { rewrite <- HEnd. unfold doc. rewrite !app_length. lia. }
      destruct (doc_tail B b2 t2 _ (bs "=end" ++ r1) A1 A2 HT4) as (b3 & C1 & C2 & C3 & _ & C4); auto; [discriminate| |].
      { intros A. apply in_app_or in A. destruct A as [A|A]; [cbn in A; intuition discriminate|auto]. }
      exists (goto_eol b3). splits; auto.
      intros cs seen sn s1 E. rewrite R6. set (l := mkLoc p (p + 6)). unfold bind at 1 2. unfold loop.
      replace (fuel e) with (List.length ls + S (fuel e - List.length ls - 1)) by lia. rewrite A3. cbn [loop_n]. unfold bind at 1. rewrite C4.
      2: { destruct Hw1 as [->|Hw1]; [right; rewrite app_nil_r; reflexivity|left; exists r1; auto]. }
      cbn [ret]. unfold doc_rest. cbn [negb].
      unfold bind at 1. unfold modb, modify at 1. cbn [buffer set_buffer]. unfold bind at 1. unfold modify at 1. cbn [buffer set_buffer comments].
      change (goto_eol (set_pcur (p + List.length (bs "=begin" ++ r0) + List.length (List.concat ls) + 1) b3)) with (goto_eol b3).
      assert (EC : comment_new (with_end l (pcur (goto_eol b3))) (input (goto_eol b3)) = mkComment (mkLoc p (List.length B)) Document).
      { change (pcur (goto_eol b3)) with (pend b3). rewrite C2. unfold comment_new, with_end, l. cbn [loc_begin].
        change (loc_source (mkLoc p (List.length B)) (input (goto_eol b3))) with (b_substr_at (goto_eol b3) p (List.length B)).
        rewrite (MagicInv.substr_some B) by (auto; lia). replace (List.length B - p) with (List.length doc) by lia.
        unfold text_at in HT3. rewrite HT3. reflexivity. }
      rewrite EC, E. reflexivity. }
  destruct HX as (bE & W2 & P2 & A3). assert (AE2 : AtEnd B bE) by (right; auto).
  assert (HAg : agree (yylex e s) (yylex e (set_comments C (set_buffer bE s)))).
  { apply (skip_agree e s bE C 1); auto; try lia.
    - eapply request_ends; eauto.
    - intros v. apply (ind_end B); auto.
    - set (s1 := set_token_seen true (set_command_start false (set_lval None s))). exists false, true. intros m.
      change s1 with (set_buffer (buffer s) s1) at 1. cbn [Nat.add loop_n]. unfold bind at 1. rewrite A3 by auto. reflexivity. }
  assert (HG' : wp e yylex (fun tk s2 => token_type tk = END_OF_INPUT /\ comments s2 = C /\ diagnostics s2 = diagnostics s) (set_comments C (set_buffer bE s))).
  { apply (blank_end B e _ (List.length B) []); auto.
    - left. splits; auto.
    - reflexivity.
    - cbn [List.length]. lia. }
  unfold wp in HG'. destruct (yylex e (set_comments _ _)) as [tk s2| |]; try contradiction. destruct (yylex e s) as [tk' s2'| |]; cbn in HAg; try contradiction.
  destruct HAg as (-> & (v & ->)). cbn in HG'. exists tk, s2'. splits; tauto.
Qed.
Print Assumptions C58_last_document.

(** C58.  A document that nothing closes is one error at its [=begin], and the source ends *)
Theorem C58_unclosed : forall B n upper s p w,
  reached B n upper s -> strterm s = None -> upcoming (buffer s) p -> in_order (buffer s) -> text_at B p w -> unclosed w -> line_start B p ->
  p + List.length w = List.length B -> enough B <= n ->
  exists tk s2, yylex (plain_env n upper) s = Ok tk s2 /\ token_type tk = END_OF_INPUT /\
    diagnostics s2 = diagnostics s ++ [mkDiag Error EmbeddedDocumentMeetsEof (mkLoc p (p + 6))] /\ comments s2 = comments s.
Proof.
  intros B n upper s p w HR ST HU HO HT HD HS HEnd Hn. set (e := plain_env n upper). pose proof (reached_inv B n upper s HR) as HL.
  assert (Hf : 4 * List.length B + 20 < fuel e) by (unfold enough in Hn; cbn; lia). pose proof HL as [HW _ _ (L1 & L2)].
  set (l := mkLoc p (p + 6)).
  assert (HX : forall cs seen sn s1, exists b', lex_step cs seen sn e (set_buffer (buffer s) s1) = Ok (inr (inl END_OF_INPUT)) (set_diagnostics (diagnostics s1 ++ [mkDiag Error EmbeddedDocumentMeetsEof l]) (set_buffer b' s1))).
  { destruct HD as [r0 ls v Hw0 Hl0 HF Hv Hc|r0 Hw0 Hl0].
    - assert (HLs : List.length ls <= List.length B). { pose proof (lines_short ls HF). rewrite !app_length in HEnd. lia. }
      rewrite app_assoc in HT. apply text_at_app in HT. destruct HT as (HT1 & HT2). apply text_at_app in HT2. destruct HT2 as (HT2 & HT4).
      destruct (doc_enter B (buffer s) p r0 HW HU HO HT1 (or_introl Hw0) HS) as (b1 & R1 & R2 & R3 & R4 & R5 & R6).
      destruct (line_end_at B b1 p (bs "=begin" ++ r0) R1) as (t1 & HE); auto; [lia| |].
      { apply full_app; auto. cbn. intuition discriminate. }
      destruct (doc_lines ls B (goto_eol b1) t1 _ HF HE R5 HT2) as (b2 & t2 & A1 & A2 & A3).
      assert (EL : p + List.length (bs "=begin" ++ r0) + List.length (List.concat ls) + List.length v = List.length B).
      { rewrite <- HEnd. rewrite !app_length. lia. }
      intros cs seen sn s1. destruct v as [|x v].
      + assert (HA : BWF B (goto_eol b2) /\ AtEnd B (goto_eol b2)). { destruct A1 as [X1 X2 X3 X4 X5 X6 X7 X8]. cbn [List.length] in EL. split; auto. right. lia. }
        destruct HA as (HA1 & HA2). destruct (doc_eof B e b2 l s1 HA1 HA2) as (b' & E). exists b'. rewrite R6. unfold bind at 1 2. unfold loop.
        replace (fuel e) with (List.length ls + S (fuel e - List.length ls - 1)) by lia. rewrite A3. cbn [loop_n]. unfold bind at 1. fold l. rewrite E. reflexivity.
      + destruct (doc_tail B b2 t2 _ (x :: v) A1 A2 HT4) as (b3 & C1 & C2 & C3 & C4 & _); auto; [discriminate|].
        destruct (doc_eof B e b3 l s1 C1) as (b' & E). { right. cbn. exact C2. }
        exists b'. rewrite R6. unfold bind at 1 2. unfold loop.
        replace (fuel e) with (List.length ls + S (S (fuel e - List.length ls - 2))) by lia. rewrite A3. cbn [loop_n]. unfold bind at 1. rewrite C4 by auto. unfold bind at 1. fold l. rewrite E. reflexivity.
    - destruct (doc_enter B (buffer s) p r0 HW HU HO HT) as (b1 & R1 & R2 & R3 & R4 & R5 & R6); auto.
      { destruct Hw0 as [->|Hw0]; [right|left; auto]. split; auto. }
      pose proof R1 as (W1 & N1 & E1). pose proof (pend_le B b1 W1). pose proof (w_pbeg B b1 W1).
      assert (F : p + List.length (bs "=begin" ++ r0) <= pend b1).
      { apply (fits B b1 p); auto; [lia|]. intros A. apply in_app_or in A. destruct A as [A|A]; [cbn in A; intuition discriminate|auto]. }
      intros cs seen sn s1. destruct (doc_eof B e (goto_eol b1) l s1) as (b' & E). { apply BWF_goto_eol, BWF_goto_eol; auto. } { right. cbn. lia. }
      exists b'. rewrite R6. unfold bind at 1 2. unfold loop. replace (fuel e) with (S (fuel e - 1)) by lia. cbn [loop_n]. unfold bind at 1. fold l. rewrite E. reflexivity. }
  set (s1 := set_token_seen true (set_command_start false (set_lval None s))).
  destruct (HX (command_start s) (token_seen s) false s1) as (b' & A).
  destruct (yylex_end e s (set_diagnostics (diagnostics s1 ++ [mkDiag Error EmbeddedDocumentMeetsEof l]) (set_buffer b' s1)) ST) as (tk & s3 & Y1 & Y2 & Y3 & Y4).
  { fold s1. unfold loop. replace (fuel e) with (S (fuel e - 1)) by lia. cbn [loop_n]. unfold bind. change s1 with (set_buffer (buffer s) s1) at 1. rewrite A. reflexivity. }
  exists tk, s3. splits; auto.
Qed.
Print Assumptions C58_unclosed.

(** ** The hypotheses are met *)
Lemma ascii_word_end : forall c v, word_break c = true -> word_end (c :: v).
Proof. intros c v H. exists c, v. split; [reflexivity|]. apply break_iff. exact H. Qed.
Lemma full_ok : forall u, existsb (fun c => N.eqb c 10) u = false -> full_line (u ++ [10%N]).
Proof.
  intros u H. constructor. intros A. assert (E : existsb (fun c => N.eqb c 10) u = true) by (apply existsb_exists; exists 10%N; split; auto). congruence.
Qed.
Lemma not_closing : forall w, firstn 4 w <> bs "=end" -> ~ closing w.
Proof. intros w H (r & -> & _). apply H. reflexivity. Qed.

(** A document with a line that only looks like its end *)
Example C58_sample_document : document (bs "=begin note
a =end
=endless

=end
").
Proof.
  apply (dc_lines (bs " note
") [bs "a =end
"; bs "=endless
"; [10%N]] [10%N]).
  - apply ascii_word_end. reflexivity.
  - apply (full_ok (bs " note")). reflexivity.
  - constructor; [|constructor; [|constructor; [|constructor]]]; split.
    + apply (full_ok (bs "a =end")). reflexivity.
    + apply not_closing. discriminate.
    + apply (full_ok (bs "=endless")). reflexivity.
    + intros (r & E & (c & v & -> & Hc)). cbn in E. injection E as <- _. lia.
    + apply (full_ok []). reflexivity.
    + apply not_closing. discriminate.
  - apply ascii_word_end. reflexivity.
  - apply (full_ok []). reflexivity.
Qed.

Example C58_document_hypotheses :
  let doc := bs "=begin note
a =end
=endless

=end
" in
  let src := bs "x
" ++ doc ++ bs "y" in
  exists s, reached src 200 (fun _ => false) s /\ strterm s = None /\ upcoming (buffer s) 2 /\ in_order (buffer s) /\ text_at src 2 doc /\ document doc /\ line_start src 2 /\
    plain_start src (2 + List.length doc).
Proof.
  set (doc := bs "=begin note
a =end
=endless

=end
"). set (src := bs "x
" ++ doc ++ bs "y"). cbn zeta. reach_state src [PNext; PNext]. splits; [assumption|reflexivity| |vm_compute; reflexivity|vm_compute; reflexivity|apply C58_sample_document|right; vm_compute; reflexivity|].
  - split; [reflexivity|]. right. eexists. splits; [vm_compute; reflexivity|reflexivity|discriminate].
  - right. left. exists 121%N. split; [vm_compute; reflexivity|]. left. lia.
Qed.

Example C58_last_document_hypotheses :
  let src := bs "=begin
=end x" in
  exists s, reached src 200 (fun _ => false) s /\ strterm s = None /\ upcoming (buffer s) 0 /\ in_order (buffer s) /\ text_at src 0 src /\ last_document src /\ line_start src 0.
Proof.
  set (src := bs "=begin
=end x"). cbn zeta. reach_state src (@nil Action). splits; auto; try reflexivity.
  - split; [reflexivity|]. left. splits; auto. cbn. lia.
  - apply (ld_tail [10%N] [] (bs " x")); auto.
    + apply ascii_word_end. reflexivity.
    + apply (full_ok []). reflexivity.
    + right. apply ascii_word_end. reflexivity.
    + cbn. intuition discriminate.
  - left. reflexivity.
Qed.

Example C58_unclosed_hypotheses :
  let src := bs "=begin
=ending" in
  exists s, reached src 200 (fun _ => false) s /\ strterm s = None /\ upcoming (buffer s) 0 /\ in_order (buffer s) /\ text_at src 0 src /\ unclosed src /\ line_start src 0.
Proof.
  set (src := bs "=begin
=ending"). cbn zeta. reach_state src (@nil Action). splits; auto; try reflexivity.
  - split; [reflexivity|]. left. splits; auto. cbn. lia.
  - apply (uc_lines [10%N] [] (bs "=ending")); auto.
    + apply ascii_word_end. reflexivity.
    + apply (full_ok []). reflexivity.
    + cbn. intuition discriminate.
    + intros [(r & E & (c & v & -> & Hc))|E]; cbn in E; [injection E as <- _; lia|discriminate].
  - left. reflexivity.
Qed.

(** Documents among the lines of a program *)
Example C58_program : program (fun _ => false) 0 (bs "12
=begin
=end
@a
") [mkToken tINTEGER (bs "12") (mkLoc 0 2); line_token 2; mkToken tIVAR (bs "@a") (mkLoc 15 17); line_token 17] [mkComment (mkLoc 3 15) Document].
Proof.
  apply (pg_line _ 0 [] [] [(tINTEGER, bs "12")] (bs "12") [mkToken tINTEGER (bs "12") (mkLoc 0 2)] [10%N] [] 2 (bs "=begin
=end
@a
") [mkToken tIVAR (bs "@a") (mkLoc 15 17); line_token 17] [mkComment (mkLoc 3 15) Document]).
  - constructor.
  - apply (lo_item _ 0 [] (bs "12") tINTEGER [] [] []); [constructor| | |].
    + apply it_number. left. apply (dl_int (bs "12") []); [|constructor]. apply (ip_run 49 (bs "2")); [lia|]. apply more_digit; [unfold dec; cbn; lia|]. apply more_nil.
    + left. reflexivity.
    + apply lo_end. constructor.
  - discriminate.
  - apply (el_one 2 [] [10%N]); constructor.
  - exists [], 61%N, (bs "begin
=end
@a
"). splits; try discriminate; try reflexivity; [constructor|unfold blank; lia].
  - apply (pg_done _ 3 (bs "=begin
=end
") [mkComment (mkLoc 3 15) Document] [(tIVAR, bs "@a")] (bs "@a") [mkToken tIVAR (bs "@a") (mkLoc 15 17)] [10%N] [] 17).
    + apply (gp_document 3 (bs "=begin
=end
") [] []); [|constructor]. apply (dc_lines [10%N] [] [10%N]); auto; try (apply (full_ok []); reflexivity); apply ascii_word_end; reflexivity.
    + apply (lo_item _ 15 [] (bs "@a") tIVAR [] [] []); [constructor| | |].
      * apply it_object. apply (ov_instance (bs "a")). apply (nm_ascii 97 []); [unfold letter; lia|constructor].
      * left. reflexivity.
      * apply lo_end. constructor.
    + discriminate.
    + apply (el_one 17 [] [10%N]); constructor.
Qed.
