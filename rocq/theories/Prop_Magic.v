(** * C59: magic comments are recorded completely *)
Require Import Verif.Base Verif.MaybeByteM Verif.Utf8M Verif.InputM Verif.DiagnosticM Verif.TokensM Verif.BufferM Verif.LexStateM Verif.ScopesM
  Verif.LexerM Verif.LexIdentM Verif.LexMagicM Verif.LexMainM Verif.ParserClientM
  Verif.SourceSpec Verif.SourceProofs Verif.Wp Verif.BufInv Verif.LexSpec Verif.LexInv Verif.MagicInv Verif.NewlineInv Verif.MainInv Verif.RunInv Verif.FuelMono Verif.Prop_Lexer
  Verif.ReadSpec Verif.YylexSpec Verif.Reach Verif.NumberSpec Verif.NumRead Verif.Prop_Number Verif.IdentSpec Verif.IdentRead Verif.IdentStep Verif.Prop_Ident Verif.Prop_Var Verif.Prop_End Verif.Prop_White Verif.OpSpec Verif.OpStep Verif.Blind
  Verif.LineSpec Verif.LineStep Verif.DocStep Verif.LineRun Verif.LineAgree Verif.Prop_Line Verif.Prop_Encoding Verif.MagicSpec Verif.MagicRun Verif.MagicStep Verif.MagicCover.
Require Import ZifyBool ZifyNat ZifyN.

(** [skip_agree] for text that also records magic comments *)
Lemma skip_agree_magic : forall e s b' C D k,
  strterm s = None -> k < fuel e -> yylex e s <> OutOfFuel ->
  (forall v, indifferent e (set_magic_comments D (set_comments C (set_token_seen v (set_buffer b' (set_command_start false (set_lval None s))))))) ->
  (exists sn' v, forall m, loop_n (k + m) (lex_step (command_start s) (token_seen s)) false e (set_token_seen true (set_command_start false (set_lval None s))) =
     loop_n m (lex_step (command_start s) (token_seen s)) sn' e (set_magic_comments D (set_comments C (set_token_seen v (set_buffer b' (set_command_start false (set_lval None s))))))) ->
  agree (yylex e s) (yylex e (set_magic_comments D (set_comments C (set_buffer b' s)))).
Proof.
  intros e s b' C D k ST Hk HNo HI (sn' & v & HL).
  set (body := lex_step (command_start s) (token_seen s)) in *.
  set (X := fun v => set_magic_comments D (set_comments C (set_token_seen v (set_buffer b' (set_command_start false (set_lval None s)))))) in *.
  assert (E1 : loop body false e (set_token_seen true (set_command_start false (set_lval None s))) = loop_n (fuel e - k) body false e (X v)).
  { unfold loop. replace (fuel e) with (k + (fuel e - k)) at 1 by lia. rewrite HL. replace (fuel e - k) with (S (fuel e - k - 1)) by lia. cbn [loop_n].
    apply bind_eq. apply (HI v (command_start s) (token_seen s) sn' false). }
  set (s2 := set_magic_comments D (set_comments C (set_buffer b' s))).
  assert (HA : agree (parser_yylex e (set_lval None s)) (parser_yylex e (set_lval None s2))).
  { assert (HNo' : parser_yylex e (set_lval None s) <> OutOfFuel).
    { intros A. apply HNo. unfold yylex. unfold bind at 1, modify at 1. unfold bind at 1. rewrite A. reflexivity. }
    revert HNo'. rewrite !parser_yylex_none by exact ST.
    change (command_start (set_lval None s2)) with (command_start s). change (token_seen (set_lval None s2)) with (token_seen s).
    change (command_start (set_lval None s)) with (command_start s). change (token_seen (set_lval None s)) with (token_seen s). fold body. intros HNo'.
    change (set_token_seen true (set_command_start false (set_lval None s2))) with (X true).
    apply agree_bind.
    2: { intros [t|c]; [apply rel_ret|apply blind_parse_ident]. }
    assert (E2 : loop_n (fuel e) body false e (X v) = loop_n (fuel e - k) body false e (X v)).
    { apply mono_loop_n; [intros x; unfold body; mono|lia|unfold more_fuel; auto|]. intros A. apply HNo'. rewrite E1, A. reflexivity. }
    rewrite E1, <- E2. change (loop_n (fuel e) body false e (X v)) with (loop body false e (X v)).
    apply rel_loop; [intros a; unfold body; apply rel_lex_step|]. exists true. reflexivity. }
  unfold yylex. match goal with |- agree (bind _ (fun _ => bind _ ?k) _ _) _ => apply (agree_bind _ _ k e _ _ HA) end. intros a. blind.
Qed.

(** C59.  Where a line end means nothing, a magic comment is passed over together with its line end; it is recorded as a
    comment, and each of its entries with a known key is recorded with its kind and the places of its key and its value. *)
Theorem C59_magic_comment : forall B n upper s p sp w el ms,
  reached B n upper s -> strterm s = None -> upcoming (buffer s) p -> in_order (buffer s) -> text_at B p (sp ++ 35%N :: w ++ el) -> white sp ->
  ~ In 10%N w -> ~ In 13%N w -> eol el -> magic_note (p + List.length sp + 1) w ms ->
  line_end_skipped (lex_state s) (ctx_get IN_KWARG (context s)) ->
  let q := p + List.length sp in let z := q + 1 + List.length w + List.length el in
  plain_start B z -> enough B <= n ->
  exists b', upcoming b' z /\ in_order b' /\
    agree (yylex (plain_env n upper) s)
      (yylex (plain_env n upper) (set_magic_comments (magic_comments s ++ ms) (set_comments (comments s ++ [mkComment (mkLoc q z) Inline]) (set_buffer b' s)))).
Proof.
  intros B n upper s p sp w el ms HR ST HU HO HT HSp H10 H13 HEl HN HC q z HP Hn. set (e := plain_env n upper). pose proof (reached_inv B n upper s HR) as HL.
  assert (Hf : 4 * List.length B + 20 < fuel e) by (unfold enough in Hn; cbn; lia). pose proof HL as [HW _ _ _].
  assert (HzL : z < List.length B).
  { destruct HP as [(i & Hi & A)|[(x & A & _)|(_ & y & A & _)]].
    - assert (Hin : i <> []) by (destruct Hi; discriminate). pose proof (text_at_len _ _ _ A Hin). destruct Hi; cbn [List.length] in *; lia.
    - apply nth_error_Some. congruence.
    - assert (z + 1 < List.length B) by (apply nth_error_Some; congruence). lia. }
  apply text_at_app in HT. destruct HT as (HT0 & HT). fold q in HT.
  destruct (white_run B sp HSp (buffer s) p HW (fun _ => HU) HT0 (fun _ => HO)) as (k0 & b1 & K1 & W1 & _ & O1 & Z1 & P1 & S1).
  assert (HU1 : upcoming b1 q).
  { destruct sp as [|x sp]; [rewrite (Z1 eq_refl); unfold q; cbn; rewrite Nat.add_0_r; exact HU|apply P1; [discriminate|unfold z, q in *; lia]]. }
  destruct (magic_step B b1 q w el ms W1 HU1 HT H10 H13 HEl HN) as (bE & A1 & A2 & A3 & A4). fold z in A1, A4.
  destruct (atE_loaded B bE _ z A1 (A3 (O1 HO)) HzL) as (b' & R1 & R2 & R3 & R4 & R5 & R6 & R7). pose proof R1 as (W2 & N1 & E1).
  assert (HU' : upcoming b' z) by (split; auto; left; splits; auto; lia).
  exists b'. splits; auto. set (C := comments s ++ _). set (D := magic_comments s ++ ms).
  apply (skip_agree_magic e s b' C D (k0 + 1)); auto.
  - unfold z, q in *. lia.
  - eapply request_ends; eauto.
  - intros v. eapply ind_start; [| |exact HP]; auto.
  - set (s1 := set_token_seen true (set_command_start false (set_lval None s))). exists (false || nonempty sp), (token_seen s). intros m.
    change s1 with (set_buffer (buffer s) s1) at 1. rewrite <- Nat.add_assoc, S1. cbn [Nat.add loop_n]. unfold bind at 1. rewrite A4 by auto. unfold bind at 1. rewrite tail_skip by exact HC. cbn [step_end ret].
    destruct m as [|m]; [reflexivity|]. cbn [loop_n]. apply bind_same.
    set (X := set_magic_comments D (set_comments C (set_token_seen (token_seen s) s1))).
    change (lex_step (command_start s) (token_seen s) (false || nonempty sp) e (set_buffer bE X) = lex_step (command_start s) (token_seen s) (false || nonempty sp) e (set_buffer b' X)). apply R7.
Qed.
Print Assumptions C59_magic_comment.

(** C59.  Where a line end counts, the magic comment is recorded in the same way, and the line end is the token *)
Theorem C59_magic_line_end : forall B n upper s p sp w el bl ms,
  reached B n upper s -> strterm s = None -> upcoming (buffer s) p -> in_order (buffer s) -> text_at B p (sp ++ 35%N :: w ++ el ++ bl) -> white sp ->
  ~ In 10%N w -> ~ In 13%N w -> eol el -> magic_note (p + List.length sp + 1) w ms -> line_end_counts (lex_state s) -> Forall blank bl ->
  let q := p + List.length sp in let t := q + 1 + List.length w in let z := t + List.length el in
  new_line B (z + List.length bl) \/ (z = List.length B /\ bl = []) -> enough B <= n ->
  exists s', yylex (plain_env n upper) s = Ok (mkToken tNL [10%N] (mkLoc t (t + 1))) s' /\
    LineDone B s s' [mkComment (mkLoc q z) Inline] z /\ magic_comments s' = magic_comments s ++ ms.
Proof.
  intros B n upper s p sp w el bl ms HR ST HU HO HT HSp H10 H13 HEl HNt HC HBl q t z HN Hn. set (e := plain_env n upper). pose proof (reached_inv B n upper s HR) as HL.
  assert (Hf : 4 * List.length B + 20 < fuel e) by (unfold enough in Hn; cbn; lia).
  pose proof HL as [HW _ _ (L1 & L2)].
  apply text_at_app in HT. destruct HT as (HT0 & HT). fold q in HT. rewrite app_assoc in HT. change (35%N :: (w ++ el) ++ bl) with ((35%N :: w ++ el) ++ bl) in HT. apply text_at_app in HT. destruct HT as (HT1 & HT2).
  cbn [List.length] in HT2. rewrite app_length in HT2. replace (q + S (List.length w + List.length el)) with z in HT2 by (unfold z, t; lia).
  pose proof (text_at_len _ _ _ HT1 ltac:(discriminate)) as HgL. cbn [List.length] in HgL. rewrite app_length in HgL.
  set (s1 := set_token_seen true (set_command_start false (set_lval None s))).
  destruct (white_run B sp HSp (buffer s) p HW (fun _ => HU) HT0 (fun _ => HO)) as (k0 & b1 & K1 & W1 & _ & O1 & Z1 & P1 & S1).
  assert (HU1 : upcoming b1 q).
  { destruct sp as [|x sp]; [rewrite (Z1 eq_refl); unfold q; cbn; rewrite Nat.add_0_r; exact HU|apply P1; [discriminate|unfold q in *; lia]]. }
  destruct (magic_step B b1 q w el ms W1 HU1 HT1 H10 H13 HEl HNt) as (bE & A2 & A2' & A3 & A4). fold t z in A2, A4. specialize (A3 (O1 HO)).
  set (sn' := false || nonempty sp).
  set (sE := set_comments (comments s1 ++ [mkComment (mkLoc q z) Inline]) (add_magic ms (set_token_seen (token_seen s) (set_buffer bE s1)))).
  assert (HM : exists bN, BWF B bN /\ eofp bN = false /\ pcur bN = t /\ ptok bN = t /\ pend bN = z /\ (z < List.length B -> upcoming bN z /\ in_order bN) /\
    (z = List.length B -> nextline bN = 0) /\
    loop nl_body sn' e sE = Ok (Tk tNL) (nl_done bN sE)).
  { destruct HN as [HN|(Hz & Hb)].
    - assert (HzL : z + List.length bl < List.length B) by (destruct HN as (x & Hx & _); apply nth_error_Some; congruence).
      destruct (nl_start B bE t z bl A2 A3 HBl HT2 HzL) as (b2 & N1 & N2 & N3 & N4 & N5 & N6 & N7 & N8 & N9 & N10 & N11).
      specialize (N11 e sn' sE ltac:(lia)). replace (fuel e - List.length bl) with (S (fuel e - List.length bl - 1)) in N11 by lia.
      destruct (nl_new B bE t z b2 (z + List.length bl) e (fuel e - List.length bl - 1) (sn' || nonempty bl) sE Hf A2 N1 N2 N5 N6 N7 N8 N9) as (bN & M1 & M2 & M3 & M4 & M5 & M6 & M7); auto; [lia|].
      exists bN. splits; auto; try lia; try apply M2. change sE with (set_buffer bE sE) at 1. rewrite N11. exact M7.
    - rewrite Hz in A2. destruct (nl_eof B bE t e sn' sE Hf A2 A3) as (bN & M1 & M2 & M3 & M4 & M5 & M6 & M7 & M8). exists bN. splits; auto; lia. }
  destruct HM as (bN & M1 & M2 & M3 & M4 & M5 & M6 & M7 & M8).
  assert (Hloop : loop (lex_step (command_start s) (token_seen s)) false e s1 = Ok (inl tNL) (nl_done bN sE)).
  { unfold loop. replace (fuel e) with (k0 + S (fuel e - k0 - 1)) by (unfold q in *; lia). change s1 with (set_buffer (buffer s) s1) at 1. rewrite S1. cbn [loop_n]. fold sn'. unfold bind at 1. rewrite A4 by auto. fold sE.
    unfold bind at 1. rewrite tail_counts by exact HC. rewrite M8. reflexivity. }
  pose proof (yylex_newline e s (nl_done bN sE) ST L1 Hloop) as HY.
  change (ptok (buffer (nl_done bN sE))) with (ptok bN) in HY. rewrite M4 in HY.
  eexists. split; [exact HY|]. split; [constructor; auto|reflexivity].
Qed.
Print Assumptions C59_magic_line_end.

(** A comment means one list of entries only *)
Lemma note_unique : forall B b q w el ms ms' n (upper : N -> bool) (s : Lexer), BWF B b -> upcoming b q -> text_at B q (35%N :: w ++ el) -> ~ In 10%N w -> ~ In 13%N w -> eol el -> enough B <= n ->
  magic_note (q + 1) w ms -> magic_note (q + 1) w ms' -> ms' = ms.
Proof.
  intros B b q w el ms ms' n upper s HW HU HT H10 H13 HEl Hn HN HN'. set (e := plain_env n upper).
  assert (Hf : 4 * List.length B + 20 < fuel e) by (unfold enough in Hn; cbn; lia).
  destruct (magic_step B b q w el ms HW HU HT H10 H13 HEl HN) as (bE & A1 & A2 & _ & _).
  destruct (eol_spaces el HEl) as (HS & HEl1). apply text_at_cons in HT. destruct HT as (_ & HT).
  assert (G : forall m, magic_note (q + 1) w m -> exists r, magic_comment (q + 1) (List.length w + List.length el) e (set_buffer bE s) = Ok (MagicOk r) (add_magic m (set_buffer bE s))).
  { intros m Hm. apply (magic_run (q + 1) w m el B); auto; destruct A1; cbn [buffer set_buffer]; auto; lia. }
  destruct (G ms HN) as (r & E1). destruct (G ms' HN') as (r' & E2). rewrite E1 in E2. injection E2 as _ E2.
  apply app_inv_head in E2. auto.
Qed.

(** C59.  Every comment in ASCII without double quotes that names no encoding is covered, and records one list only *)
Theorem C59_every_comment : forall B n upper s p sp w el,
  reached B n upper s -> strterm s = None -> upcoming (buffer s) p -> in_order (buffer s) -> text_at B p (sp ++ 35%N :: w ++ el) -> white sp ->
  ~ In 10%N w -> ~ In 13%N w -> eol el ->
  Forall (fun c => c < 128 /\ c <> 34)%N w -> (forall u key v, w = u ++ key ++ v -> ~ means key MC_Encoding) ->
  line_end_skipped (lex_state s) (ctx_get IN_KWARG (context s)) ->
  let q := p + List.length sp in let z := q + 1 + List.length w + List.length el in
  plain_start B z -> enough B <= n ->
  exists ms b', magic_note (q + 1) w ms /\ (forall ms', magic_note (q + 1) w ms' -> ms' = ms) /\ upcoming b' z /\ in_order b' /\
    agree (yylex (plain_env n upper) s)
      (yylex (plain_env n upper) (set_magic_comments (magic_comments s ++ ms) (set_comments (comments s ++ [mkComment (mkLoc q z) Inline]) (set_buffer b' s)))).
Proof.
  intros B n upper s p sp w el HR ST HU HO HT HSp H10 H13 HEl HA HE HC q z HP Hn.
  destruct (simple_covered (q + 1) w (conj HA HE)) as (ms & HN).
  destruct (C59_magic_comment B n upper s p sp w el ms HR ST HU HO HT HSp H10 H13 HEl HN HC HP Hn) as (b' & A1 & A2 & A3).
  exists ms, b'. splits; auto. intros ms' HN'. pose proof (reached_inv B n upper s HR) as [HW _ _ _].
  apply text_at_app in HT. destruct HT as (HT0 & HT). fold q in HT. pose proof (text_at_len _ _ _ HT ltac:(discriminate)) as HL. cbn [List.length] in HL.
  destruct (white_run B sp HSp (buffer s) p HW (fun _ => HU) HT0 (fun _ => HO)) as (k0 & b1 & _ & W1 & _ & _ & Z1 & P1 & _).
  assert (HU1 : upcoming b1 q).
  { destruct sp as [|x sp]; [rewrite (Z1 eq_refl); unfold q; cbn; rewrite Nat.add_0_r; exact HU|apply P1; [discriminate|unfold q in *; lia]]. }
  apply (note_unique B b1 q w el ms ms' n upper s); auto.
Qed.
Print Assumptions C59_every_comment.

(** C59 is not true of every comment: a comment of the form [key: value] whose key is not UTF-8 is not recorded and ends the
    source, and no diagnostic says so *)
Definition bad_key : list N := bs "# " ++ [233%N] ++ bs ": value
y
".
Theorem C59_comment_ends_source_refuted : exists n upper s, enough bad_key <= n /\
  run_lexer bad_key [] (plain_env n upper) = Ok [] s /\ diagnostics s = [] /\ comments s = [].
Proof. exists (enough bad_key), (fun _ => false). eexists. split; [lia|]. split; [vm_compute; reflexivity|]. split; reflexivity. Qed.
Print Assumptions C59_comment_ends_source_refuted.

(** ** The hypotheses are met *)
Ltac no_marker := let u := fresh in let v := fresh in let A := fresh in
  intros u v A; repeat (destruct u as [|? u]; [discriminate A|injection A as _ A]); destruct u; discriminate A.

Lemma first_spells : forall a b, Forall2 spells a b -> a <> [] -> spells (hd 0%N a) (hd 0%N b).
Proof. intros a b [|x y l m H _] Ha; [destruct Ha; reflexivity|exact H]. Qed.
Ltac in_table := first [left; reflexivity|right; in_table].
Ltac spelt := repeat (constructor; [unfold spells; cbn; lia|]); constructor.
Ltac chars := lazymatch goal with |- Forall _ _ => repeat (apply Forall_cons; [unfold junk, plain_char, sep, sp_char, mark; cbn; lia|]); apply Forall_nil end.

Example frozen_note : magic_note 1 (bs " frozen-string-literal: true") [mkMagic MC_FrozenStringLiteral (mkLoc 2 23) (mkLoc 25 29)].
Proof.
  apply mn_plain; [no_marker|].
  apply (pn_one 1 (bs " ") (bs "frozen-string-literal") [] (bs " ") (bs "true") 0 (bs "true") []); try discriminate; try chars.
  - apply vl_bare. split; [discriminate|]. chars.
  - apply (rc_known (bs "frozen-string-literal") 2 (bs "true") 25 MC_FrozenStringLiteral); [|discriminate]. exists (bs "frozen_string_literal"). split; [in_table|spelt].
Qed.

Example marked_note : magic_note 3 (bs " -*- warn_indent: ""a\""""; mode: ruby; coding: utf-8 -*- x")
  [mkMagic MC_WarnIndent (mkLoc 8 19) (mkLoc 22 25); mkMagic MC_Encoding (mkLoc 40 46) (mkLoc 48 53)].
Proof.
  apply (mn_marked 3 (bs " ") (bs " warn_indent: ""a\""""; mode: ruby; coding: utf-8 ") (bs " x")); [no_marker|no_marker|].
  apply (en_entry 7 (bs " ") (bs "warn_indent") [] (bs " ") (bs """a\""""") 1 (bs "a\""") (bs "; ") (bs "mode: ruby; coding: utf-8 ")
    [mkMagic MC_WarnIndent (mkLoc 8 19) (mkLoc 22 25)] [mkMagic MC_Encoding (mkLoc 40 46) (mkLoc 48 53)]); try discriminate; try chars.
  - apply (vl_quoted (bs "a\""")). apply qu_byte; [discriminate|discriminate|]. apply qu_escape. constructor.
  - right. do 2 eexists. split; [reflexivity|]. unfold sep, sp_char; cbn; lia.
  - apply (rc_known (bs "warn_indent") 8 (bs "a\""") 22 MC_WarnIndent); [|discriminate]. exists (bs "warn_indent"). split; [in_table|spelt].
  - apply (en_entry _ [] (bs "mode") [] (bs " ") (bs "ruby") 0 (bs "ruby") (bs "; ") (bs "coding: utf-8 ") [] [mkMagic MC_Encoding (mkLoc 40 46) (mkLoc 48 53)]); try discriminate; try chars.
    + apply vl_bare. split; [discriminate|]. chars.
    + right. do 2 eexists. split; [reflexivity|]. unfold sep, sp_char; cbn; lia.
    + apply rc_unknown; [|chars]. intros kind (name & A & F). apply first_spells in F; [|discriminate]. unfold meanings in A.
      repeat (destruct A as [A|A]; [injection A as <- <-; unfold spells in F; cbn in F; lia|]). destruct A.
    + apply (en_entry _ [] (bs "coding") [] (bs " ") (bs "utf-8") 0 (bs "utf-8") (bs " ") [] [mkMagic MC_Encoding (mkLoc 40 46) (mkLoc 48 53)] []); try discriminate; try chars.
      * apply vl_bare. split; [discriminate|]. chars.
      * left. reflexivity.
      * apply (rc_known (bs "coding") 40 (bs "utf-8") 48 MC_Encoding); [exists (bs "coding"); split; [in_table|spelt]|]. intros _. left. repeat constructor; unfold same_letter; cbn; lia.
      * apply en_none. constructor.
Qed.

Example C59_hypotheses : let src := bs " #coding: binary
7" in
  exists s, reached src 200 (fun _ => false) s /\ strterm s = None /\ upcoming (buffer s) 0 /\ in_order (buffer s) /\
    text_at src 0 (bs " " ++ 35%N :: bs "coding: binary" ++ [10%N]) /\ white (bs " ") /\
    line_end_skipped (lex_state s) (ctx_get IN_KWARG (context s)) /\ plain_start src 17 /\ enough src <= 200 /\
    magic_note 2 (bs "coding: binary") [mkMagic MC_Encoding (mkLoc 2 8) (mkLoc 10 16)].
Proof.
  set (src := bs " #coding: binary
7"). cbn zeta. reach_state src (@nil Action).
  split; [auto|]. split; [reflexivity|]. split; [split; [reflexivity|]; left; splits; auto; cbn; lia|]. split; [try reflexivity; auto|]. split; [reflexivity|].
  split; [apply blank_white; repeat constructor|]. split; [left; unfold operand_to_come, in_state; vm_compute; intuition discriminate|].
  split; [right; left; exists 55%N; split; [reflexivity|left; lia]|]. split; [vm_compute; lia|]. apply mn_plain; [no_marker|].
  apply (pn_one 2 [] (bs "coding") [] (bs " ") (bs "binary") 0 (bs "binary") []); try discriminate; try chars.
  - apply vl_bare. split; [discriminate|]. chars.
  - apply (rc_known (bs "coding") 2 (bs "binary") 10 MC_Encoding); [exists (bs "coding"); split; [in_table|spelt]|]. intros _. right. right. repeat constructor; unfold same_letter; cbn; lia.
Qed.

Example C59_line_end_hypotheses : let src := bs "7 # coding: utf-8
8" in
  exists s, reached src 200 (fun _ => false) s /\ strterm s = None /\ upcoming (buffer s) 1 /\ in_order (buffer s) /\
    text_at src 1 (bs " " ++ 35%N :: bs " coding: utf-8" ++ [10%N] ++ []) /\ white (bs " ") /\ line_end_counts (lex_state s) /\ new_line src 18 /\ enough src <= 200 /\
    magic_note 3 (bs " coding: utf-8") [mkMagic MC_Encoding (mkLoc 4 10) (mkLoc 12 17)].
Proof.
  set (src := bs "7 # coding: utf-8
8"). cbn zeta. reach_state src [PNext].
  split; [auto|]. split; [reflexivity|]. split; [split; [reflexivity|]; left; splits; auto; cbn; lia|]. split; [try reflexivity; auto|]. split; [reflexivity|].
  split; [apply blank_white; repeat constructor|]. split; [apply end_counts|].
  split. { exists 56%N. splits; try reflexivity; try discriminate. { unfold blank. lia. } unfold leading_dot. cbn. intros [(A & _)|(A & _)]; discriminate. }
  split; [vm_compute; lia|]. apply mn_plain; [no_marker|].
  apply (pn_one 3 (bs " ") (bs "coding") [] (bs " ") (bs "utf-8") 0 (bs "utf-8") []); try discriminate; try chars.
  - apply vl_bare. split; [discriminate|]. chars.
  - apply (rc_known (bs "coding") 4 (bs "utf-8") 12 MC_Encoding); [exists (bs "coding"); split; [in_table|spelt]|]. intros _. left. repeat constructor; unfold same_letter; cbn; lia.
Qed.

(** Comments that only look like one: text behind the value, a sentence, an opening marker alone *)
Example prose_notes : magic_note 1 (bs " warn_indent: true or false") [] /\ magic_note 1 (bs " The key coding: utf-8") [] /\ magic_note 1 (bs " -*- coding: utf-8") [].
Proof.
  splits.
  - apply mn_prose; [no_marker|]. apply (pr_more (bs " ") (bs "warn_indent") [] (bs " ") (bs "true") 0 (bs "true") (bs " ") 111 (bs "r false")); try discriminate; try chars.
    + apply vl_bare. split; [discriminate|]. chars.
    + unfold sp_char. lia.
  - apply mn_prose; [no_marker|]. apply (pr_word (bs " ") (bs "The") (bs " ") 107 (bs "ey coding: utf-8")); try discriminate; try chars. unfold sp_char. lia.
  - apply (mn_open 1 (bs " ") (bs " coding: utf-8")); no_marker.
Qed.

Example C59_every_comment_hypotheses : Forall (fun c => c < 128 /\ c <> 34)%N (bs " note: see [1]; warn") /\ forall u key v, bs " note: see [1]; warn" = u ++ key ++ v -> ~ means key MC_Encoding.
Proof.
  split; [repeat (constructor; [cbn; lia|]); constructor|]. intros u key v E (name & A & F).
  assert (HG : In 103%N key).
  { unfold meanings in A. repeat (destruct A as [A|A]; [try discriminate A; injection A as <-|]); [| |destruct A];
      repeat (match goal with H : Forall2 _ _ _ |- _ => inversion H; clear H; subst end); unfold spells in *;
      repeat match goal with H : _ \/ (_ /\ _) |- _ => destruct H as [->|(_ & H)]; [|discriminate H] end; cbn; tauto. }
  assert (HI : In 103%N (bs " note: see [1]; warn")) by (rewrite E, !in_app_iff; auto). cbn in HI. repeat (destruct HI as [HI|HI]; [discriminate|]). destruct HI.
Qed.

(** A comment with a colon that is not magic, as it may end the lines of C51 *)
Example colon_remark : remark (bs "# note: see there").
Proof.
  apply rk_silent; try (cbn; intuition discriminate). intros p. apply mn_prose; [no_marker|].
  apply (pr_more (bs " ") (bs "note") [] (bs " ") (bs "see") 0 (bs "see") (bs " ") 116 (bs "here")); try discriminate; try chars.
  - apply vl_bare. split; [discriminate|]. chars.
  - unfold sp_char. lia.
Qed.
