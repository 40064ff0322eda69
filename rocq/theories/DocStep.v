(** * Reading embedded documents *)
Require Import Verif.Base Verif.MaybeByteM Verif.Utf8M Verif.InputM Verif.DiagnosticM Verif.TokensM Verif.BufferM Verif.LexStateM Verif.ScopesM
  Verif.LexerM Verif.LexIdentM Verif.LexMagicM Verif.LexMainM Verif.ParserClientM
  Verif.SourceSpec Verif.SourceProofs Verif.Wp Verif.BufInv Verif.LexSpec Verif.LexInv Verif.MagicInv Verif.NewlineInv Verif.MainInv Verif.RunInv Verif.FuelMono Verif.Prop_Lexer
  Verif.ReadSpec Verif.YylexSpec Verif.Reach Verif.IdentSpec Verif.MagicRun Verif.LineSpec Verif.LineStep.
Require Verif.BuilderFacts.
Require Import ZifyBool ZifyNat ZifyN.

(** The first byte of a line, and the cursor put back *)
Lemma read_first : forall B b z c, Ready B b -> pcur b = z -> pbeg b = z -> z < pend b -> nth_error B z = Some c ->
  exists c' b', (forall e, b_nextc e b = Ok (Some c') b') /\ (forall e, b_pushback (Some c') e b' = Ok tt b) /\ (c <> 13%N -> c' = c /\ b' = set_pcur (z + 1) b) /\ (c = 13%N -> c' <> 61%N).
Proof.
  intros B b z c HR HP HB HL Hc. pose proof HR as (HW & N1 & E1).
  assert (HBk : forall i, byte_at b i = nth_error B i) by (intros i; apply (byte_at_B B); auto).
  assert (HP1 : forall e c0, b_pushback (Some c0) e (set_pcur (z + 1) b) = Ok tt b).
  { intros e c0. unfold b_pushback, pushback_byte, bind, get, sub_ck, modify, ret. cbn [pcur set_pcur pbeg].
    replace (1 <=? z + 1) with true by lia. replace (z + 1 - 1) with z by lia. cbn [pcur set_pcur pbeg]. replace (pbeg b <? z) with false by lia. cbn [andb].
    rewrite set_pcur_id. rewrite <- HP. rewrite set_pcur_same. reflexivity. }
  destruct (N.eq_dec c 13) as [->|Hn].
  - assert (HD : nth_error B (z + 1) = Some 10%N \/ nth_error B (z + 1) <> Some 10%N).
    { destruct (nth_error B (z + 1)) as [y|]; [destruct (N.eq_dec y 10) as [->|]; [left; auto|right; congruence]|right; discriminate]. }
    destruct HD as [HD|HD].
    + exists 10%N, (set_pcur (z + 2) b). splits; try discriminate; try congruence.
      * intros e. rewrite <- (rd_here e b z HP). apply (rd_crlf B e b HR z); auto. lia.
      * intros e. unfold b_pushback, pushback_byte, bind, get, sub_ck, modify, ret. cbn [pcur set_pcur pbeg].
        replace (1 <=? z + 2) with true by lia. replace (z + 2 - 1) with (z + 1) by lia. cbn [pcur set_pcur pbeg]. replace (pbeg b <? z + 1) with true by lia.
        change (byte_at (set_pcur (z + 1) (set_pcur (z + 2) b)) (z + 1)) with (byte_at b (z + 1)). rewrite HBk, HD. cbn [mbeq N.eqb Pos.eqb andb].
        replace (1 <=? z + 1) with true by lia. replace (z + 1 - 1) with z by lia.
        change (byte_at (set_pcur (z + 1) (set_pcur (z + 2) b)) z) with (byte_at b z). rewrite HBk, Hc. cbn [mbeq N.eqb Pos.eqb andb].
        rewrite !set_pcur_id. rewrite <- HP. rewrite set_pcur_same. reflexivity.
    + exists 13%N, (set_pcur (z + 1) b). splits; auto; try discriminate; try congruence.
      intros e. rewrite <- (rd_here e b z HP). unfold b_nextc, bind, get, modify, ret. cbn [pcur pend set_pcur eofp nextline]. rewrite N1, E1.
      replace (z =? pend b) with false by lia. cbn [orb negb Nat.eqb input set_pcur pcur]. rewrite (rd_at B b HR), Hc. cbn [N.eqb Pos.eqb].
      unfold parser_cr, b_peek, b_peek_n, bind, get, modify, ret, is_eol_n. cbn [pcur pend set_pcur input]. rewrite Nat.add_0_r.
      destruct (pend b <=? z + 1) eqn:E; [reflexivity|]. rewrite (rd_at B b HR).
      pose proof (pend_le B b HW). destruct (nth_error B (z + 1)) as [y|] eqn:Ey; [|apply nth_error_None in Ey; lia]. cbn [expect]. unfold ret.
      replace (N.eqb 10 y) with false by (symmetry; apply N.eqb_neq; congruence). reflexivity.
  - exists c, (set_pcur (z + 1) b). splits; auto; try congruence. intros e. rewrite <- (rd_here e b z HP). apply (rd_byte B e b HR); auto.
Qed.

(** How long a line is *)
Lemma line_extent : forall B b p w, BWF B b -> pbeg b <= p -> p < pend b -> text_at B p w -> full_line w -> pend b = p + List.length w.
Proof.
  intros B b p w HW HB HP HT HF. destruct HF as [u Hu]. pose proof (w_pbeg B b HW). pose proof (w_last B b HW). pose proof (w_count B b HW). pose proof (w_pend B b HW) as WE.
  apply text_at_app in HT. destruct HT as (HT1 & HT2). apply text_at_cons in HT2. destruct HT2 as (HL & _). rewrite app_length. cbn [List.length].
  assert (F : p + List.length u <= pend b) by (apply (fits B b p u); auto; lia).
  destruct (Nat.eq_dec (p + List.length u) (pend b)) as [E|E].
  - exfalso. assert (HLt : p + List.length u < List.length B) by (apply nth_error_Some; congruence).
    destruct (Nat.eq_dec (lastline b + 1) (NL B)) as [E2|E2]. { destruct (line_last B _ E2) as (A & _). lia. }
    destruct (line_newline B (lastline b)) as (_ & A & _); [lia|]. rewrite <- WE, <- E in A.
    destruct u as [|x u] using rev_ind; [cbn in E; lia|]. rewrite app_length in A. cbn [List.length] in A.
    apply text_at_app in HT1. destruct HT1 as (_ & HT1). apply text_at_cons in HT1. destruct HT1 as (HT1 & _).
    replace (p + (List.length u + 1) - 1) with (p + List.length u) in A by lia. apply Hu. apply in_or_app. right. left. congruence.
  - destruct (newline_last B (lastline b) (p + List.length u)) as (A1 & A2); auto; try lia.
Qed.

Lemma line_end_at : forall B b p w, Ready B b -> pbeg b <= p -> p < pend b -> text_at B p w -> full_line w ->
  exists t, AtE B (goto_eol b) t (p + List.length w).
Proof.
  intros B b p w HR HB HP HT HF. pose proof HR as (HW & N1 & E1). pose proof (line_extent B b p w HW HB HP HT HF) as HX.
  exists (p + List.length w - tlen B (lastline b)).
  assert (HLf : nth_error B (p + List.length w - 1) = Some 10%N).
  { destruct HF as [u Hu]. apply text_at_app in HT. destruct HT as (_ & HT). apply text_at_cons in HT. destruct HT as (HT & _). rewrite app_length. cbn [List.length].
    replace (p + (List.length u + 1) - 1) with (p + List.length u) by lia. exact HT. }
  constructor; cbn [goto_eol set_pcur eofp nextline pcur pend pbeg lastline]; auto; try lia.
  - apply BWF_goto_eol; auto.
  - assert (tlen B (lastline b) <= p + List.length w); [|lia]. pose proof (w_pend B b HW) as WE. unfold tlen. destruct (_ && _ && _) eqn:E; [|lia].
    apply andb_prop in E. destruct E as (E & _). apply andb_prop in E. destruct E as (E & _). lia.
Qed.

(** ** Words at the start of a line *)
Lemma text_prefix : forall B p w v, text_at B p w -> text_at B p v -> List.length v <= List.length w -> exists r, w = v ++ r.
Proof.
  intros B p w v. revert p w. induction v as [|x v IH]; intros p w Hw Hv HL; [exists w; reflexivity|].
  destruct w as [|y w]; [cbn in HL; lia|]. apply text_at_cons in Hw, Hv. destruct Hw as (A1 & A2), Hv as (B1 & B2). cbn [List.length] in HL.
  destruct (IH (p + 1) w A2 B2) as (r & ->); [lia|]. exists r. cbn. congruence.
Qed.

Definition word_break (c : N) : bool := is_space (Some c) || N.eqb c 0 || N.eqb c 26 || N.eqb c 4.
Lemma break_iff : forall c, word_break c = true <-> (9 <= c <= 13 \/ c = 32 \/ c = 0 \/ c = 4 \/ c = 26)%N.
Proof. intros c. unfold word_break. cbn [is_space mb_test]. unfold b_is_space, in_range. lia. Qed.

Lemma match_word : forall B b w r, BWF B b -> text_at B (pcur b) (w ++ r) -> word_end r -> is_word_match b w = true.
Proof.
  intros B b w r HW HT (c & v & -> & Hc). pose proof (text_at_len _ _ _ HT ltac:(destruct w; discriminate)) as HL. rewrite app_length in HL. cbn [List.length] in HL.
  apply text_at_app in HT. destruct HT as (HT1 & HT2). apply text_at_cons in HT2. destruct HT2 as (HT2 & _).
  unfold is_word_match. rewrite (MagicInv.substr_some B) by (auto; lia). replace (pcur b + List.length w - pcur b) with (List.length w) by lia.
  unfold text_at in HT1. rewrite HT1. cbn [opt_bytes_eqb]. rewrite BuilderFacts.bytes_eqb_refl. cbn [negb].
  destruct (_ =? _); [reflexivity|]. rewrite (byte_at_B B) by auto. rewrite HT2. apply break_iff in Hc. exact Hc.
Qed.

Lemma match_word_inv : forall B b w line, BWF B b -> w <> [] -> is_word_match b w = true -> text_at B (pcur b) line -> pend b = pcur b + List.length line -> full_line line ->
  ~ In 10%N w -> exists r, line = w ++ r /\ word_end r.
Proof.
  intros B b w line HW Hne HM HT HE HF Hn. pose proof (word_match_text B b w HW Hne HM) as HT2.
  unfold is_word_match in HM. destruct (negb _) in HM; [discriminate|].
  destruct HF as [u Hu]. rewrite app_length in HE. cbn [List.length] in HE.
  assert (HLn : List.length w <= List.length u).
  { destruct (Nat.le_gt_cases (List.length w) (List.length u)) as [A|A]; [exact A|exfalso]. apply text_at_app in HT. destruct HT as (_ & HT). apply text_at_cons in HT. destruct HT as (HT & _).
    rewrite (text_byte B _ w) in HT by auto. apply nth_error_In in HT. auto. }
  destruct (text_prefix B (pcur b) (u ++ [10%N]) w HT HT2) as (r & Hr); [rewrite app_length; lia|]. exists r. split; [exact Hr|].
  destruct r as [|c r]. { apply (f_equal (@List.length N)) in Hr. rewrite !app_length in Hr. cbn in Hr. lia. }
  exists c, r. split; [reflexivity|]. apply break_iff. rewrite Hr in HT. apply text_at_app in HT. destruct HT as (_ & HT). apply text_at_cons in HT. destruct HT as (HT & _).
  replace (pcur b + List.length w =? pend b) with false in HM by lia. rewrite (byte_at_B B), HT in HM by auto. exact HM.
Qed.

Lemma full_app : forall u r, ~ In 10%N u -> full_line r -> full_line (u ++ r).
Proof. intros u r Hu [v Hv]. rewrite app_assoc. constructor. rewrite in_app_iff. tauto. Qed.

(** ** The lines of a document *)
Definition doc_body (l : Loc) : unit -> M Lexer (unit + bool) := fun _ =>
  modb goto_eol ;;;
  c <- nextc ;;
  if is_eof c then compile_error EmbeddedDocumentMeetsEof l ;;; ret (inr false)
  else
    b <- getb ;;
    if mbeq c "=" && is_word_match b (bs "end") then ret (inr true)
    else pushback c ;;; ret (inl tt).

Lemma wf_second : forall B b z, Ready B b -> pcur b = z -> z < pend b -> nth_error B z = Some 61%N -> BWF B (set_pcur (z + 1) b).
Proof.
  intros B b z (HW & _) HP HL Hc. pose proof (w_pcur1 B b HW). pose proof (w_tok B b HW). apply BWF_set_pcur; auto; try lia.
  intros A. replace (z + 1 - 1) with z by lia. congruence.
Qed.

Lemma doc_line : forall B b t z w, AtE B (goto_eol b) t z -> in_order b -> text_at B z w -> full_line w ->
  exists b1 t1, AtE B (goto_eol b1) t1 (z + List.length w) /\ in_order b1 /\
    (~ closing w -> forall e l s, doc_body l tt e (set_buffer b s) = Ok (inl tt) (set_buffer b1 s)) /\
    (closing w -> forall e l s, doc_body l tt e (set_buffer b s) = Ok (inr true) (set_buffer (set_pcur (z + 1) b1) s)).
Proof.
  intros B b t z w HA HO HT HF.
  assert (Hne : w <> []) by (destruct HF as [[|]]; discriminate).
  pose proof (text_at_len _ _ _ HT Hne) as HLen. assert (H1 : 1 <= List.length w) by (destruct w; [congruence|cbn; lia]).
  destruct (next_line B (goto_eol b) t z HA HO) as (b1 & K1 & K2 & K3 & _ & _ & _ & _ & _ & K9 & K10 & K11 & _).
  specialize (K10 ltac:(lia)). specialize (K11 ltac:(lia)). pose proof K1 as (W1 & N1 & E1).
  destruct (line_end_at B b1 z w K1) as (t1 & HE); auto; [lia|].
  exists b1, t1. splits; auto.
  - intros HN e l s. destruct w as [|c w]; [congruence|]. pose proof HT as HT0. apply text_at_cons in HT0. destruct HT0 as (Hc & HT0).
    destruct (read_first B b1 z c K1 K2 K3 K10 Hc) as (c' & b' & R1 & R2 & R3 & R4).
    unfold doc_body. unfold bind at 1. unfold modb, modify at 1. cbn [buffer set_buffer]. unfold bind at 1. unfold nextc, inb, zoom. cbn [buffer set_buffer].
    rewrite K11, R1. cbn [is_eof]. unfold bind at 1. unfold getb, gets. cbn [buffer set_buffer].
    assert (EM : mbeq (Some c') "=" && is_word_match b' (bs "end") = false).
    { destruct (mbeq (Some c') "=") eqn:Em; [|reflexivity]. cbn [andb]. cbn [mbeq] in Em. apply N.eqb_eq in Em. subst c'.
      destruct (N.eq_dec c 13) as [E|E]; [apply R4 in E; congruence|]. destruct (R3 E) as (<- & ->).
      destruct (is_word_match _ _) eqn:EW; [|reflexivity]. exfalso. apply HN.
      assert (HP : pend b1 = z + S (List.length w)). { pose proof (ae_pend _ _ _ _ HE) as A. cbn in A. exact A. }
      assert (HFw : full_line w). { inversion HF as [u Hu Eu]. destruct u as [|y u]; [discriminate|]. cbn in Eu. injection Eu as Ey Ew. rewrite <- Ew. constructor. intros A. apply Hu. right. exact A. }
      destruct (match_word_inv B (set_pcur (z + 1) b1) (bs "end") w) as (r & -> & Hr); auto; try discriminate.
      - apply wf_second; auto.
      - cbn. lia.
      - cbn. intuition discriminate.
      - exists r. split; auto. }
    rewrite EM. unfold bind at 1. unfold pushback, inb, zoom. cbn [buffer set_buffer]. rewrite R2. reflexivity.
  - intros (r & -> & Hr) e l s. change (bs "=end" ++ r) with (61%N :: (bs "end" ++ r)) in HT. apply text_at_cons in HT. destruct HT as (Hc & HT).
    destruct (read_first B b1 z 61%N K1 K2 K3 K10 Hc) as (c' & b' & R1 & R2 & R3 & R4). destruct R3 as (-> & ->); [discriminate|].
    unfold doc_body. unfold bind at 1. unfold modb, modify at 1. cbn [buffer set_buffer]. unfold bind at 1. unfold nextc, inb, zoom. cbn [buffer set_buffer].
    rewrite K11, R1. cbn [is_eof]. unfold bind at 1. unfold getb, gets. cbn [buffer set_buffer].
    rewrite (match_word B _ (bs "end") r); auto. apply wf_second; auto.
Qed.

(** ** Documents at the end of the source *)
Lemma tail_word : forall B b w line, BWF B b -> w <> [] -> is_word_match b w = true -> text_at B (pcur b) line -> pend b = pcur b + List.length line -> pend b = List.length B ->
  exists r, line = w ++ r /\ (r = [] \/ word_end r).
Proof.
  intros B b w line HW Hne HM HT HE HB. pose proof (word_match_text B b w HW Hne HM) as HT2. pose proof (text_at_len _ _ _ HT2 Hne) as HL.
  unfold is_word_match in HM. destruct (negb _) in HM; [discriminate|].
  destruct (text_prefix B (pcur b) line w HT HT2) as (r & ->); [lia|]. exists r. split; [reflexivity|]. destruct r as [|c r]; [auto|]. right. exists c, r. split; [reflexivity|]. apply break_iff.
  apply text_at_app in HT. destruct HT as (_ & HT). apply text_at_cons in HT. destruct HT as (HT & _). rewrite app_length in HE. cbn [List.length] in HE.
  replace (pcur b + List.length w =? pend b) with false in HM by lia. rewrite (byte_at_B B), HT in HM by auto. exact HM.
Qed.

Lemma doc_tail : forall B b t z w, AtE B (goto_eol b) t z -> in_order b -> text_at B z w -> w <> [] -> ~ In 10%N w -> z + List.length w = List.length B ->
  exists b1, BWF B (goto_eol b1) /\ pend b1 = List.length B /\ eofp b1 = false /\
    (~ closes w -> forall e l s, doc_body l tt e (set_buffer b s) = Ok (inl tt) (set_buffer b1 s)) /\
    (closes w -> forall e l s, doc_body l tt e (set_buffer b s) = Ok (inr true) (set_buffer (set_pcur (z + 1) b1) s)).
Proof.
  intros B b t z w HA HO HT Hne HN10 HLen. assert (H1 : 1 <= List.length w) by (destruct w; [congruence|cbn; lia]).
  destruct (next_line B (goto_eol b) t z HA HO) as (b1 & K1 & K2 & K3 & _ & K5 & _ & _ & _ & K9 & K10 & K11 & _).
  specialize (K10 ltac:(lia)). specialize (K11 ltac:(lia)). pose proof K1 as (W1 & N1 & E1). pose proof (pend_le B b1 W1) as PL.
  assert (F : z + List.length w <= pend b1). { apply (fits B b1 z w); auto. rewrite <- K5. lia. }
  exists b1. splits; auto; [apply BWF_goto_eol; auto|lia| |].
  - intros HN e l s. destruct w as [|c w]; [congruence|]. pose proof HT as HT0. apply text_at_cons in HT0. destruct HT0 as (Hc & HT0).
    destruct (read_first B b1 z c K1 K2 K3 K10 Hc) as (c' & b' & R1 & R2 & R3 & R4).
    unfold doc_body. unfold bind at 1. unfold modb, modify at 1. cbn [buffer set_buffer]. unfold bind at 1. unfold nextc, inb, zoom. cbn [buffer set_buffer].
    rewrite K11, R1. cbn [is_eof]. unfold bind at 1. unfold getb, gets. cbn [buffer set_buffer].
    assert (EM : mbeq (Some c') "=" && is_word_match b' (bs "end") = false).
    { destruct (mbeq (Some c') "=") eqn:Em; [|reflexivity]. cbn [andb]. cbn [mbeq] in Em. apply N.eqb_eq in Em. subst c'.
      destruct (N.eq_dec c 13) as [E|E]; [apply R4 in E; congruence|]. destruct (R3 E) as (<- & ->).
      destruct (is_word_match _ _) eqn:EW; [|reflexivity]. exfalso. apply HN. cbn [List.length] in HLen, F.
      destruct (tail_word B (set_pcur (z + 1) b1) (bs "end") w) as (r & -> & Hr); auto; try discriminate.
      - apply wf_second; auto.
      - cbn. lia.
      - cbn. lia.
      - destruct Hr as [->|Hr]; [right; reflexivity|left; exists r; auto]. }
    rewrite EM. unfold bind at 1. unfold pushback, inb, zoom. cbn [buffer set_buffer]. rewrite R2. reflexivity.
  - intros HC e l s. assert (HX : exists r, w = bs "=end" ++ r /\ (r = [] \/ word_end r)).
    { destruct HC as [(r & -> & Hr)| ->]; [exists r; auto|exists []; auto]. }
    destruct HX as (r & -> & Hr). change (bs "=end" ++ r) with (61%N :: (bs "end" ++ r)) in HT. apply text_at_cons in HT. destruct HT as (Hc & HT).
    destruct (read_first B b1 z 61%N K1 K2 K3 K10 Hc) as (c' & b' & R1 & R2 & R3 & R4). destruct R3 as (-> & ->); [discriminate|].
    unfold doc_body. unfold bind at 1. unfold modb, modify at 1. cbn [buffer set_buffer]. unfold bind at 1. unfold nextc, inb, zoom. cbn [buffer set_buffer].
    rewrite K11, R1. cbn [is_eof]. unfold bind at 1. unfold getb, gets. cbn [buffer set_buffer].
    assert (EW : is_word_match (set_pcur (z + 1) b1) (bs "end") = true).
    { assert (W2 : BWF B (set_pcur (z + 1) b1)) by (apply wf_second; auto). destruct Hr as [->|Hr]; [|eapply match_word; eauto].
      rewrite app_nil_r in HT, HLen, F. change (List.length (bs "=end")) with 4 in HLen, F.
      unfold is_word_match. cbn [pcur set_pcur pend]. change (List.length (bs "end")) with 3. rewrite (MagicInv.substr_some B) by (auto; lia).
      replace (z + 1 + 3 - (z + 1)) with 3 by lia. unfold text_at in HT. change (List.length (bs "end")) with 3 in HT. rewrite HT. cbn [opt_bytes_eqb]. rewrite BuilderFacts.bytes_eqb_refl. cbn [negb].
      replace (z + 1 + 3 =? pend b1) with true by lia. reflexivity. }
    rewrite EW. reflexivity.
Qed.

(** The lines before it *)
Lemma doc_lines : forall ls B b t z, Forall body_line ls -> AtE B (goto_eol b) t z -> in_order b -> text_at B z (List.concat ls) ->
  exists b2 t2, AtE B (goto_eol b2) t2 (z + List.length (List.concat ls)) /\ in_order b2 /\
    forall e l s m, loop_n (List.length ls + m) (doc_body l) tt e (set_buffer b s) = loop_n m (doc_body l) tt e (set_buffer b2 s).
Proof.
  intros ls. induction ls as [|w ls IH]; intros B b t z HF HA HO HT.
  - exists b, t. cbn [List.concat List.length]. rewrite Nat.add_0_r. splits; auto.
  - inversion HF as [|? ? (Hw1 & Hw2) HF']; subst. cbn [List.concat] in *. apply text_at_app in HT. destruct HT as (HT1 & HT2).
    destruct (doc_line B b t z w HA HO HT1 Hw1) as (b1 & t1 & A1 & A2 & A3 & _).
    destruct (IH B b1 t1 (z + List.length w)) as (b2 & t2 & C1 & C2 & C3); auto.
    exists b2, t2. splits; auto.
    + rewrite app_length, Nat.add_assoc. exact C1.
    + intros e l s m. cbn [List.length Nat.add loop_n]. unfold bind at 1. rewrite A3 by auto. apply C3.
Qed.

(** The cursor stands at the start of a line *)
Lemma at_start : forall B b p, BWF B b -> pcur b = p -> p < pend b -> line_start B p -> pbeg b = p.
Proof.
  intros B b p HW HP HL HS. pose proof (w_pcur1 B b HW). pose proof (w_pbeg B b HW). pose proof (w_pend B b HW). pose proof (w_last B b HW). pose proof (w_count B b HW).
  destruct (Nat.eq_dec (pbeg b) p) as [E|E]; [exact E|exfalso]. destruct HS as [->|HS]; [lia|].
  destruct (newline_last B (lastline b) (p - 1)) as (A & _); auto; lia.
Qed.

Lemma lines_short : forall ls, Forall body_line ls -> List.length ls <= List.length (List.concat ls).
Proof.
  intros ls H. induction H as [|w ls (Hw & _) _ IH]; [cbn; lia|]. cbn [List.concat List.length]. rewrite app_length. destruct Hw as [u _]. rewrite app_length. cbn [List.length]. lia.
Qed.

(** What follows the loop over the lines *)
Definition doc_rest (l : Loc) (sn : bool) (closed : bool) : M Lexer Step :=
  if negb closed then tk END_OF_INPUT
  else
    modb goto_eol ;;;
    modify (fun s => set_comments (comments s ++ [comment_new (with_end l (pcur (buffer s))) (input (buffer s))]) s) ;;;
    ret (Retry sn).

Lemma begin_word : forall B b p r0, Ready B b -> pcur b = p -> p < pend b -> text_at B p (bs "=begin" ++ r0) -> word_end r0 \/ (r0 = [] /\ p + 6 = List.length B) ->
  is_word_match (set_pcur (p + 1) b) (bs "begin") = true.
Proof.
  intros B b p r0 HR HP HL HT HX. pose proof HR as (HW & _). change (bs "=begin" ++ r0) with (61%N :: (bs "begin" ++ r0)) in HT. pose proof HT as HT6. apply text_at_cons in HT. destruct HT as (Hc & HT).
  assert (W2 : BWF B (set_pcur (p + 1) b)) by (apply wf_second; auto). destruct HX as [Hr|(-> & H6)]; [eapply match_word; eauto|].
  rewrite app_nil_r in HT, HT6. pose proof (w_pcur1 B b HW). pose proof (w_pbeg B b HW).
  assert (F : p + List.length (61%N :: bs "begin") <= pend b). { apply (fits B b p _); auto; [lia|]. cbn. intuition discriminate. }
  change (List.length (61%N :: bs "begin")) with 6 in F. pose proof (pend_le B b HW).
  unfold is_word_match. cbn [pcur set_pcur pend]. change (List.length (bs "begin")) with 5. rewrite (MagicInv.substr_some B) by (auto; lia).
  replace (p + 1 + 5 - (p + 1)) with 5 by lia. unfold text_at in HT. change (List.length (bs "begin")) with 5 in HT. rewrite HT. cbn [opt_bytes_eqb]. rewrite BuilderFacts.bytes_eqb_refl. cbn [negb].
  replace (p + 1 + 5 =? pend b) with true by lia. reflexivity.
Qed.

(** Up to the loop over the lines *)
Lemma doc_enter : forall B b0 p r0, BWF B b0 -> upcoming b0 p -> in_order b0 -> text_at B p (bs "=begin" ++ r0) -> word_end r0 \/ (r0 = [] /\ p + 6 = List.length B) -> line_start B p ->
  exists b1, Ready B b1 /\ pcur b1 = p /\ pbeg b1 = p /\ p < pend b1 /\ in_order b1 /\
    forall e cs seen sn s, lex_step cs seen sn e (set_buffer b0 s) =
      bind (bind (loop (doc_body (mkLoc p (p + 6))) tt) (doc_rest (mkLoc p (p + 6)) sn)) step_end e (set_buffer (goto_eol b1) s).
Proof.
  intros B b0 p r0 HW HU HO HT HX HS. pose proof (text_at_len _ _ _ HT ltac:(discriminate)) as HLen. rewrite app_length in HLen. change (List.length (bs "=begin")) with 6 in HLen.
  destruct (flush_nextc B _ p HW HU ltac:(lia)) as (b1 & R1 & R2 & R3 & R4 & R5 & R6 & R7). pose proof R1 as (W1 & N1 & E1).
  pose proof (at_start B b1 p W1 R2 R4 HS) as HB. exists b1. splits; auto. intros e cs seen sn s.
  assert (Hc : nth_error B p = Some 61%N). { change (bs "=begin" ++ r0) with (61%N :: bs "begin" ++ r0) in HT. apply text_at_cons in HT. tauto. }
  unfold lex_step. unfold bind at 1, gets at 1. unfold bind at 1. unfold token_flush, modb, modify at 1.
  cbn [buffer set_buffer]. unfold bind at 1. unfold nextc, inb, zoom. cbn [buffer set_buffer]. rewrite R7.
  rewrite <- (rd_here e b1 _ R2), (rd_byte B e b1 R1 p 61%N) by (auto; discriminate).
  change (lex_char (Some 61%N) cs sn seen (lex_state (set_buffer b0 s))) with (lex_eq sn).
  change (set_buffer (set_pcur (p + 1) b1) (set_buffer (b_token_flush b0) (set_buffer b0 s))) with (set_buffer (set_pcur (p + 1) b1) s).
  assert (E : lex_eq sn e (set_buffer (set_pcur (p + 1) b1) s) = bind (loop (doc_body (mkLoc p (p + 6))) tt) (doc_rest (mkLoc p (p + 6)) sn) e (set_buffer (goto_eol b1) s)).
  { unfold lex_eq. unfold bind at 1. unfold getb, gets at 1. cbn [buffer set_buffer].
    replace (was_bol (set_pcur (p + 1) b1)) with true by (unfold was_bol; cbn; lia). cbn [andb]. rewrite (begin_word B b1 p r0) by auto.
    unfold lex_embdoc. unfold bind at 1. unfold getb, gets at 1. cbn [buffer set_buffer pcur set_pcur]. unfold bind at 1. unfold sub_ck at 1. replace (1 <=? p + 1) with true by lia. cbn [ret].
    replace (p + 1 - 1) with p by lia. replace (p + 1 + 5) with (p + 6) by lia. unfold bind at 1. unfold modb at 1, modify at 1. cbn [buffer set_buffer]. reflexivity. }
  unfold bind at 1. rewrite E. unfold bind at 3. reflexivity.
Qed.

(** A document, read by one round of the main loop *)
Lemma doc_step : forall B b0 p doc, BWF B b0 -> upcoming b0 p -> in_order b0 -> text_at B p doc -> document doc -> line_start B p ->
  exists bE t, AtE B bE t (p + List.length doc) /\ in_order bE /\
    forall e, 4 * List.length B + 20 < fuel e -> forall cs seen sn s,
      lex_step cs seen sn e (set_buffer b0 s) =
      Ok (inl sn) (set_comments (comments s ++ [mkComment (mkLoc p (p + List.length doc)) Document]) (set_buffer bE s)).
Proof.
  intros B b0 p doc HW HU HO HT HD HS. destruct HD as [r0 ls r1 Hw0 Hl0 HF Hw1 Hl1].
  set (doc := bs "=begin" ++ r0 ++ List.concat ls ++ bs "=end" ++ r1) in *.
  pose proof (text_at_len _ _ _ HT ltac:(discriminate)) as HLen.
  assert (Hd : 10 + List.length ls <= List.length doc). { pose proof (lines_short ls HF). unfold doc. rewrite !app_length. change (List.length (bs "=begin")) with 6. change (List.length (bs "=end")) with 4. lia. }
  assert (HT3 := HT). unfold doc in HT. rewrite app_assoc in HT. apply text_at_app in HT. destruct HT as (HT1 & HT2). apply text_at_app in HT2. destruct HT2 as (HT2 & HT4).
  destruct (doc_enter B b0 p r0 HW HU HO HT1 (or_introl Hw0) HS) as (b1 & R1 & R2 & R3 & R4 & R5 & R6).
  destruct (line_end_at B b1 p (bs "=begin" ++ r0) R1) as (t1 & HE); auto; [lia| |].
  { apply full_app; auto. cbn. intuition discriminate. }
  destruct (doc_lines ls B (goto_eol b1) t1 _ HF HE R5 HT2) as (b2 & t2 & A1 & A2 & A3).
  destruct (doc_line B b2 t2 _ (bs "=end" ++ r1) A1 A2 HT4) as (b3 & t3 & C1 & C2 & _ & C4).
  { apply full_app; auto. cbn. intuition discriminate. }
  assert (EL : p + List.length (bs "=begin" ++ r0) + List.length (List.concat ls) + List.length (bs "=end" ++ r1) = p + List.length doc).
  { unfold doc. rewrite !app_length. lia. }
  rewrite EL in C1. exists (goto_eol b3), t3. splits; auto.
  intros e Hf cs seen sn s. rewrite R6. set (l := mkLoc p (p + 6)). unfold bind at 1 2. unfold loop.
  replace (fuel e) with (List.length ls + S (fuel e - List.length ls - 1)) by lia. rewrite A3. cbn [loop_n]. unfold bind at 1. rewrite C4 by (exists r1; auto). cbn [ret]. unfold doc_rest. cbn [negb].
  unfold bind at 1. unfold modb, modify at 1. cbn [buffer set_buffer]. unfold bind at 1. unfold modify at 1. cbn [buffer set_buffer comments].
  change (goto_eol (set_pcur (p + List.length (bs "=begin" ++ r0) + List.length (List.concat ls) + 1) b3)) with (goto_eol b3).
  assert (EC : comment_new (with_end l (pcur (goto_eol b3))) (input (goto_eol b3)) = mkComment (mkLoc p (p + List.length doc)) Document).
  { rewrite (ae_pcur _ _ _ _ C1). unfold comment_new, with_end, l. cbn [loc_begin].
    change (loc_source (mkLoc p (p + List.length doc)) (input (goto_eol b3))) with (b_substr_at (goto_eol b3) p (p + List.length doc)).
    rewrite (MagicInv.substr_some B) by (try (exact (ae_wf _ _ _ _ C1)); lia). replace (p + List.length doc - p) with (List.length doc) by lia.
    unfold text_at in HT3. rewrite HT3. reflexivity. }
  rewrite EC. reflexivity.
Qed.
