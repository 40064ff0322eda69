(** * Heredocs without interpolation: how the lexer reads them *)
Require Import Verif.Base Verif.MaybeByteM Verif.Utf8M Verif.InputM Verif.DiagnosticM Verif.TokensM Verif.BufferM Verif.LexStateM
  Verif.LexerM Verif.LexStringM Verif.LexIdentM Verif.LexHeredocM Verif.LexMainM
  Verif.SourceSpec Verif.SourceProofs Verif.Wp Verif.BufInv Verif.LexSpec Verif.NewlineInv Verif.MainInv
  Verif.ReadSpec Verif.YylexSpec Verif.Reach Verif.NumRead Verif.IdentRead Verif.IdentStep Verif.Prop_Ident Verif.Prop_Crlf
  Verif.StringSpec Verif.StrStep Verif.StrOpen Verif.HereSpec.
Require Import ZifyBool ZifyNat ZifyN.

(** ** Texts *)
Lemma bytes_eqb_iff : forall a b, bytes_eqb a b = true <-> a = b.
Proof.
  induction a as [|x a IH]; intros [|y b]; cbn; try (split; congruence). rewrite andb_true_iff, IH, N.eqb_eq. split; [intros (-> & ->); reflexivity|intros E; injection E as -> ->; auto].
Qed.

Lemma text_same : forall B p u w, text_at B p u -> text_at B p w -> List.length u = List.length w -> u = w.
Proof. intros B p u w H1 H2 H3. unfold text_at in *. rewrite H3 in H1. congruence. Qed.

Lemma text_prefix : forall B p u w, text_at B p (u ++ w) -> text_at B p u.
Proof. intros B p u w H. apply text_at_app in H. apply H. Qed.

Lemma text_nth : forall B w p i, text_at B p w -> i < List.length w -> nth_error B (p + i) = nth_error w i.
Proof.
  intros B w. induction w as [|x w IH]; intros p i H Hi; [cbn in Hi; lia|]. apply text_at_cons in H. destruct H as (H & H').
  destruct i; [rewrite Nat.add_0_r; exact H|]. cbn [nth_error List.length] in *. rewrite <- (IH (p + 1)); auto; [f_equal; lia|lia].
Qed.

Lemma drop_other : forall x l, x <> 32%N -> drop_spaces (x :: l) = x :: l.
Proof. intros [|p] l H; [reflexivity|]. cbn. do 6 (destruct p as [p|p|]; try reflexivity). congruence. Qed.

Section Lines.
  Variable B : list N.

  (** The line of the table that starts with the text [l] *)
  Lemma line_here : forall k p l, lstart B k = p -> text_at B p (l ++ [10%N]) -> ~ In 10%N l ->
    k + 1 < NL B /\ lend B k = p + List.length l + 1 /\ lstart B (k + 1) = p + List.length l + 1.
  Proof using.
    intros k p l Hk HT Hl. pose proof (text_at_app B l p [10%N]) as (HA & _). destruct (HA HT) as (HT1 & HT2). apply text_at_cons in HT2. destruct HT2 as (HT2 & _).
    assert (Hp : p + List.length l < List.length B) by (apply nth_error_Some; congruence).
    assert (HkN : k < NL B). { destruct (Nat.lt_ge_cases k (NL B)) as [A|A]; auto. rewrite (lstart_out B k A) in Hk. lia. }
    pose proof (line_bounds B k HkN) as (LB1 & LB2).
    assert (HE : p + List.length l < lend B k).
    { destruct (Nat.lt_ge_cases (p + List.length l) (lend B k)) as [A|A]; auto. exfalso.
      destruct (Nat.eq_dec (k + 1) (NL B)) as [E|E]; [destruct (line_last B k E); lia|].
      destruct (line_newline B k) as (N1 & N2 & _); [lia|].
      replace (lend B k - 1) with (p + (lend B k - 1 - p)) in N2 by lia. rewrite (text_nth B l p) in N2 by (auto; lia). apply nth_error_In in N2. auto. }
    destruct (newline_last B k (p + List.length l)) as (A1 & A2); auto; try lia.
    splits; auto; [lia|]. rewrite <- lend_next by lia. lia.
  Qed.

  Lemma line_rest : forall k p l, lstart B k = p -> text_at B p l -> ~ In 10%N l -> p + List.length l = List.length B -> l <> [] -> k + 1 = NL B /\ lend B k = List.length B.
  Proof using.
    intros k p l Hk HT Hl He Hne. assert (Hp : p < List.length B) by (destruct l; [congruence|cbn in *; lia]).
    assert (HkN : k < NL B). { destruct (Nat.lt_ge_cases k (NL B)) as [A|A]; auto. rewrite (lstart_out B k A) in Hk. lia. }
    destruct (Nat.eq_dec (k + 1) (NL B)) as [E|E]; [split; auto; apply (line_last B k E)|exfalso].
    destruct (line_newline B k) as (N1 & N2 & _); [lia|]. pose proof (line_bounds B k HkN).
    replace (lend B k - 1) with (p + (lend B k - 1 - p)) in N2 by lia. rewrite (text_nth B l p) in N2 by (auto; lia). apply nth_error_In in N2. auto.
  Qed.

  (** *** The first character of the next line *)
  Lemma load_next : forall b k p, Ready B b -> pcur b = pend b -> line_count b = k -> lstart B k = p -> p < List.length B ->
    exists b1, Ready B b1 /\ pcur b1 = p /\ ptok b1 = p /\ pbeg b1 = p /\ lastline b1 = k /\ line_count b1 = k + 1 /\ pend b1 = lend B k /\ p < pend b1 /\
      heredoc_indent b1 = heredoc_indent b /\ heredoc_line_indent b1 = heredoc_line_indent b /\
      (forall e, b_nextc e b = b_nextc e b1).
  Proof using.
    intros b k p (HW & N0 & E0) HP HC Hk Hp.
    assert (HkN : k < NL B). { destruct (Nat.lt_ge_cases k (NL B)) as [A|A]; auto. rewrite (lstart_out B k A) in Hk. lia. }
    pose proof (line_bounds B k HkN) as LB. pose proof (w_last B b HW) as WL. pose proof (w_count B b HW) as WC.
    assert (HL : lstart B k < lend B k).
    { destruct (Nat.eq_dec (lstart B k) (lend B k)) as [E|E]; [|lia]. destruct (empty_last_line B k HkN E) as (_ & A & _). lia. }
    set (b0 := set_cr_seen false (set_line_count (line_count b + 1) (set_nextline 0 b))).
    assert (HLd : forall e, wp e (load_line k) (fun r b1 => r = true /\ Ready B b1 /\ pcur b1 = p /\ ptok b1 = p /\ pbeg b1 = p /\ lastline b1 = k /\ line_count b1 = k + 1 /\
        pend b1 = lend B k /\ heredoc_indent b1 = heredoc_indent b /\ heredoc_line_indent b1 = heredoc_line_indent b) b0).
    { intros e. apply (load_line_ok B); auto. { exact (w_lines B b HW). }
      intros b1 I1 I2 I3 I4 I5 I6 I7 I8 I9 I10 I11 I12 I13 I14. cbn in I1, I2, I3, I5, I10.
      unfold Ready. splits; auto; try congruence; try lia.
      constructor; rewrite ?I2, ?I3, ?I4, ?I5, ?I6, ?I7, ?I8, ?I9; auto; try lia.
      - unfold bytes. rewrite I1. apply (w_bytes B b HW).
      - rewrite I1. apply (w_lines B b HW).
      - intros q E. injection E as <-. lia. }
    assert (HD : forall e e', load_line k e b0 = load_line k e' b0).
    { intros e e'. unfold load_line, bind, get, when, modify, expect. destruct (line_at _ _); [destruct (0 <? _)|]; reflexivity. }
    destruct (load_line k (mkEnv 0 None (fun _ => false)) b0) as [r b1|m|] eqn:EL.
    2,3: specialize (HLd (mkEnv 0 None (fun _ => false))); unfold wp in HLd; rewrite EL in HLd; contradiction.
    pose proof (HLd (mkEnv 0 None (fun _ => false))) as HK. unfold wp in HK. rewrite EL in HK. destruct HK as (-> & K1 & K2 & K3 & K4 & K5 & K6 & K7 & K8 & K9).
    exists b1. splits; auto; [lia|]. intros e.
    assert (E1 : b_nextc e b1 = bind get (fun b => match in_byte_at (input b) (pcur b) with
        | None => ret None
        | Some c => modify (fun b => set_pcur (pcur b + 1) b) ;;; c <- (if N.eqb c 13 then parser_cr c else ret c) ;; ret (Some c) end) e b1).
    { unfold b_nextc. unfold bind at 1. unfold get at 1. destruct K1 as (_ & A2 & A3). rewrite A2, A3.
      replace (pcur b1 =? pend b1) with false by lia. cbn [orb negb Nat.eqb]. reflexivity. }
    rewrite E1. unfold b_nextc. unfold bind at 1. unfold get at 1. rewrite HP, Nat.eqb_refl. cbn [orb]. unfold bind at 1.
    assert (E3 : b_nextline e b = Ok true b1).
    { rewrite <- EL. rewrite (HD _ e). clear HD HLd EL E1. unfold b_nextline. unfold bind at 1. unfold get at 1. unfold bind at 1, modify at 1.
      rewrite N0, E0. cbn [Nat.eqb].
      assert (EN : forall A (f : bool -> M Buffer A) s, bind (if pbeg b <? pend b then x <- expect (in_byte_at (input b) (pend b - 1)) "index out of bounds" ;; ret (negb (N.eqb x 10)) else ret false) f e s = f false e s).
      { intros A f s. destruct (pbeg b <? pend b) eqn:Ep; [|reflexivity].
        destruct (line_newline B (lastline b)) as (_ & A1 & _); [lia|]. rewrite <- (w_pend B b HW) in A1.
        rewrite in_byte_at_B with (B := B) by exact HW. rewrite A1. reflexivity. }
      rewrite EN. unfold bind at 1, getline. unfold bind at 1, get at 1. cbn [set_nextline line_count input].
      rewrite (w_lines B b HW). fold (NL B). rewrite HC. replace (k <? NL B) with true by lia. unfold b0. rewrite HC.
      destruct b; reflexivity. }
    rewrite E3. cbn [negb]. reflexivity.
  Qed.

  (** *** The line that ends a heredoc *)
  Lemma match_at : forall b ptr l id z, BWF B b -> text_at B ptr l -> ~ In 10%N l -> ~ In 13%N l -> ~ In 10%N id ->
    (z = ptr + List.length l /\ z = List.length B) \/ (z = ptr + List.length l + 1 /\ nth_error B (ptr + List.length l) = Some 10%N) -> pend b = z ->
    (if z <? ptr + List.length id then false
     else if (0 <? z - (ptr + List.length id)) && negb (mbeq (byte_at b (ptr + List.length id)) 10%N) &&
          (negb (mbeq (byte_at b (ptr + List.length id)) 13%N) || (z - (ptr + List.length id) <=? 1) || negb (mbeq (byte_at b (ptr + List.length id + 1)) 10%N))
     then false else opt_bytes_eqb (b_substr_at b ptr (ptr + List.length id)) id) = true <-> l = id.
  Proof using.
    intros b ptr l id z HW HT H10 H13 Hid HZ Hz. rewrite !(byte_at_B B b _ HW).
    assert (HlB : ptr + List.length l <= List.length B).
    { destruct HZ as [(A & C)|(A & C)]; [lia|]. assert (nth_error B (ptr + List.length l) <> None) by congruence. apply nth_error_Some in H. lia. }
    assert (HzB : z <= List.length B) by (rewrite <- Hz; apply pend_le; auto).
    assert (HS : ptr + List.length id <= List.length B -> opt_bytes_eqb (b_substr_at b ptr (ptr + List.length id)) id = true <-> text_at B ptr id).
    { intros HL. unfold b_substr_at, substr_at. pose proof (w_bytes B b HW) as WB. unfold bytes in WB. rewrite WB.
      replace (ptr <=? ptr + List.length id) with true by lia. replace (ptr + List.length id <=? List.length B) with true by lia. cbn [andb opt_bytes_eqb].
      rewrite bytes_eqb_iff. replace (ptr + List.length id - ptr) with (List.length id) by lia. reflexivity. }
    destruct (z <? ptr + List.length id) eqn:E1.
    { split; [discriminate|]. intros <-. destruct HZ; lia. }
    destruct (Nat.lt_ge_cases (List.length id) (List.length l)) as [C|C].
    - assert (HN : exists x, nth_error B (ptr + List.length id) = Some x /\ In x l).
      { destruct (nth_error l (List.length id)) as [x|] eqn:Ex; [|apply nth_error_None in Ex; lia]. exists x. split; [|eapply nth_error_In; eauto].
        rewrite (text_nth B l) by auto. exact Ex. }
      destruct HN as (x & Hx & HI). rewrite Hx. cbn [mbeq].
      replace (N.eqb x 10) with false by (symmetry; apply N.eqb_neq; congruence). replace (N.eqb x 13) with false by (symmetry; apply N.eqb_neq; congruence).
      cbn [negb orb]. replace (0 <? z - (ptr + List.length id)) with true by (destruct HZ; lia). cbn [andb]. split; [discriminate|]. intros ->. lia.
    - assert (HC : List.length id = List.length l \/ (List.length id = List.length l + 1 /\ nth_error B (ptr + List.length l) = Some 10%N)) by (destruct HZ as [(A & A')|(A & A')]; [left; lia|]; destruct (Nat.eq_dec (List.length id) (List.length l)); [left; assumption|right; split; [lia|exact A']]).
      assert (HF : ((0 <? z - (ptr + List.length id)) && negb (mbeq (nth_error B (ptr + List.length id)) 10%N)) = false).
      { destruct HC as [HC|(HC & HC')]; [rewrite HC|destruct HZ; replace (0 <? z - (ptr + List.length id)) with false by lia; reflexivity].
        destruct HZ as [(A & A')|(A & A')]; [replace (0 <? z - (ptr + List.length l)) with false by lia; reflexivity|]. rewrite A'. apply andb_false_r. }
      rewrite HF. cbn [andb]. rewrite HS by lia. split.
      + intros HTi. destruct HC as [HC|(HC & HC')]; [apply (text_same B ptr); auto|exfalso].
        apply Hid. apply (nth_error_In id (List.length l)). rewrite <- (text_nth B id ptr) by (auto; lia). exact HC'.
      + intros <-. exact HT.
  Qed.

  Definition whole (b : Buffer) (ptr : nat) (l : list N) : Prop :=
    (pend b = ptr + List.length l /\ pend b = List.length B) \/ (pend b = ptr + List.length l + 1 /\ nth_error B (ptr + List.length l) = Some 10%N).

  Lemma skipn_cons : forall p x, nth_error B p = Some x -> skipn p B = x :: skipn (p + 1) B.
  Proof using. intros p x. replace (p + 1) with (S p) by lia. generalize B. induction p as [|p IH]; intros [|y l] H; cbn in *; try discriminate; [congruence|]. apply IH. exact H. Qed.

  Lemma indent_ws : forall c, c <> 10%N -> c <> 13%N -> b_is_ascii_whitespace c = true <-> indent_byte c.
  Proof using. intros c H1 H2. unfold b_is_ascii_whitespace, indent_byte. lia. Qed.

  Lemma whole_match : forall b indent id l, BWF B b -> text_at B (pbeg b) l -> whole b (pbeg b) l -> plain_line l -> here_name indent id ->
    (is_whole_match b id indent = true <-> ends_here indent id l).
  Proof using.
    intros b indent id l HW HT HZ (H10 & H13) (I1 & I2 & I4). unfold is_whole_match. cbv zeta. destruct indent.
    2:{ rewrite (match_at b (pbeg b) l id (pend b)) by auto. unfold ends_here. split.
        - intros ->. exists []. splits; auto.
        - intros (ws & -> & _ & E). rewrite E by reflexivity. reflexivity. }
    destruct (I4 eq_refl) as (c & r & Eid & Hc).
    (* leading white space of the line *)
    assert (HX : exists ws v, l = ws ++ v /\ Forall indent_byte ws /\ (v = [] \/ exists d u, v = d :: u /\ ~ indent_byte d)).
    { clear - H10 H13. induction l as [|x l IH]; [exists [], []; splits; auto|].
      destruct (IH (fun K => H10 (or_intror K)) (fun K => H13 (or_intror K))) as (ws & v & -> & W1 & W2). clear IH.
      destruct (b_is_ascii_whitespace x) eqn:E.
      - exists (x :: ws), v. splits; auto. constructor; auto. apply indent_ws; auto; intros ->; [apply H10|apply H13]; left; reflexivity.
      - exists [], (x :: ws ++ v). splits; auto. right. exists x, (ws ++ v). split; auto. intros K. apply indent_ws in K; [congruence| |]; intros ->; [apply H10|apply H13]; left; reflexivity. }
    destruct HX as (ws & v & El & W1 & W2).
    assert (HSk : forall ws0 p rest, text_at B p ws0 -> Forall indent_byte ws0 -> skipn (p + List.length ws0) B = rest -> skip_ws (skipn p B) = List.length ws0 + skip_ws rest).
    { clear. induction ws0 as [|x w IH]; intros p rest HT HF HR; [cbn in *; rewrite Nat.add_0_r in HR; rewrite HR; reflexivity|].
      apply text_at_cons in HT. destruct HT as (HT1 & HT2). inversion HF as [|? ? F1 F2]; subst. rewrite (skipn_cons p x HT1). cbn [skip_ws].
      replace (b_is_ascii_whitespace x) with true by (symmetry; unfold b_is_ascii_whitespace, indent_byte in *; lia). cbn [List.length Nat.add]. f_equal.
      rewrite (IH (p + 1) _ HT2 F2 eq_refl). cbn [List.length]. replace (p + S (List.length w)) with (p + 1 + List.length w) by lia. reflexivity. }
    rewrite El in HT. apply text_at_app in HT. destruct HT as (T1 & T2).
    pose proof (w_bytes B b HW) as WB. rewrite WB. rewrite (HSk ws (pbeg b) _ T1 W1 eq_refl).
    assert (Hl : List.length l = List.length ws + List.length v) by (rewrite El, app_length; reflexivity).
    assert (HEnd : ends_here true id l <-> v = id).
    { unfold ends_here. split.
      - intros (ws' & E & F & _). rewrite El in E. clear - E F W1 W2 Eid Hc. revert ws' E F. induction ws as [|x ws IH]; intros ws' E F.
        + destruct ws' as [|y ws']; [exact E|]. cbn in E. pose proof (Forall_inv F) as F1. destruct W2 as [W2|(d & u & W2 & Hd)]; rewrite W2 in E; [discriminate E|]. injection E as E _. congruence.
        + pose proof (Forall_inv W1) as F1. pose proof (Forall_inv_tail W1) as F2. destruct ws' as [|y ws']; [cbn in E; rewrite Eid in E; injection E as E _; congruence|].
          cbn in E. injection E as _ E. exact (IH F2 ws' E (Forall_inv_tail F)).
      - intros ->. exists ws. splits; auto. discriminate. }
    rewrite HEnd. destruct W2 as [Ev|(d & u & Ev & Hd)].
    - assert (HG : pend b < pbeg b + (List.length ws + skip_ws (skipn (pbeg b + List.length ws) B)) + List.length id).
      { rewrite Eid. cbn [List.length]. rewrite Ev in Hl. cbn [List.length] in Hl. rewrite Nat.add_0_r in Hl. destruct HZ as [(A & _)|(A & A')]; [lia|].
        rewrite Hl in A'. rewrite (skipn_cons _ _ A'). cbn [skip_ws]. change (b_is_ascii_whitespace 10) with true. cbv iota. lia. }
      replace (pend b <? pbeg b + (List.length ws + skip_ws (skipn (pbeg b + List.length ws) B)) + List.length id) with true by lia.
      split; [discriminate|]. intros E. rewrite Ev, Eid in E. discriminate.
    - assert (E0 : skip_ws (skipn (pbeg b + List.length ws) B) = 0).
      { rewrite Ev in T2. apply text_at_cons in T2. destruct T2 as (T2 & _). rewrite (skipn_cons _ _ T2). cbn [skip_ws].
        replace (b_is_ascii_whitespace d) with false; [reflexivity|]. symmetry. destruct (b_is_ascii_whitespace d) eqn:E; auto. exfalso. apply Hd. apply indent_ws; auto.
        - intros ->. apply H10. rewrite El, Ev. apply in_or_app. right. left. reflexivity.
        - intros ->. apply H13. rewrite El, Ev. apply in_or_app. right. left. reflexivity. }
      rewrite E0, Nat.add_0_r. replace (pbeg b + List.length ws) with (pbeg b + List.length ws) by reflexivity.
      apply (match_at b (pbeg b + List.length ws) v id (pend b)); auto.
      + intros K. apply H10. rewrite El. apply in_or_app. auto.
      + intros K. apply H13. rewrite El. apply in_or_app. auto.
      + unfold whole in HZ. rewrite Hl in HZ. rewrite !Nat.add_assoc in HZ. exact HZ.
  Qed.

  (** *** The text of the last line *)
  Lemma heredoc_end_text : forall b l, text_at B (pbeg b) l -> ~ In 10%N l -> BWF B b -> whole b (pbeg b) l ->
    let a := pbeg b + count_spaces (skipn (pbeg b) B) in
    a + count_to_newline (skipn a B) = pbeg b + List.length l /\ b_substr_at b a (pbeg b + List.length l) = Some (drop_spaces l).
  Proof using.
    intros b l HT H10 HW HZ.
    assert (HX : exists n v, l = repeat 32%N n ++ v /\ drop_spaces l = v /\ hd_error v <> Some 32%N).
    { clear. induction l as [|x l IH]; [exists 0, []; splits; auto; discriminate|]. destruct IH as (n & v & E1 & E2 & E3).
      destruct (N.eq_dec x 32) as [->|Hx].
      - exists (S n), v. cbn [repeat app]. splits; auto. congruence.
      - exists 0, (x :: l). splits; auto; [|cbn; congruence]. apply drop_other; exact Hx. }
    destruct HX as (n & v & El & Ed & Hv).
    assert (HlB : pbeg b + List.length l <= List.length B).
    { destruct HZ as [(A & C)|(A & C)]; [lia|]. assert (nth_error B (pbeg b + List.length l) <> None) by congruence. apply nth_error_Some in H. lia. }
    assert (HAft : nth_error B (pbeg b + List.length l) = Some 10%N \/ pbeg b + List.length l = List.length B) by (destruct HZ as [(A & C)|(A & C)]; [right; lia|left; exact C]).
    assert (Hll : List.length l = n + List.length v) by (rewrite El, app_length, repeat_length; reflexivity).
    assert (HA : count_spaces (skipn (pbeg b) B) = n).
    { assert (HG : forall m p, text_at B p (repeat 32%N m) -> nth_error B (p + m) <> Some 32%N -> count_spaces (skipn p B) = m).
      { clear. induction m as [|m IH]; intros p HT HN.
        - rewrite Nat.add_0_r in HN. destruct (nth_error B p) as [x|] eqn:Ex.
          + rewrite (skipn_cons p x Ex). cbn. destruct (N.eqb_spec x 32); congruence.
          + apply nth_error_None in Ex. rewrite skipn_all2 by lia. reflexivity.
        - cbn [repeat] in HT. apply text_at_cons in HT. destruct HT as (T1 & T2). rewrite (skipn_cons p 32%N T1). cbn [count_spaces]. change (N.eqb 32 32) with true. cbv iota. f_equal.
          apply IH; auto. replace (p + 1 + m) with (p + S m) by lia. exact HN. }
      apply HG. { rewrite El in HT. apply text_prefix in HT. exact HT. }
      destruct v as [|d u].
      - cbn [List.length] in Hll. replace (pbeg b + n) with (pbeg b + List.length l) by lia. destruct HAft as [A|A]; [rewrite A; discriminate|].
        intros K. assert (nth_error B (pbeg b + List.length l) <> None) by congruence. apply nth_error_Some in H. lia.
      - rewrite (text_nth B l) by (auto; rewrite Hll; cbn; lia). rewrite El, nth_error_app2 by (rewrite repeat_length; lia). rewrite repeat_length, Nat.sub_diag. cbn in Hv |- *. exact Hv. }
    cbv zeta. rewrite HA.
    assert (HTv : text_at B (pbeg b + n) v). { rewrite El in HT. apply text_at_app in HT. destruct HT as (_ & HT). rewrite repeat_length in HT. exact HT. }
    split.
    - assert (HG : forall w p, text_at B p w -> ~ In 10%N w -> nth_error B (p + List.length w) = Some 10%N \/ p + List.length w = List.length B -> count_to_newline (skipn p B) = List.length w).
      { clear. induction w as [|x w IH]; intros p HT HN HE.
        - cbn [List.length] in *. rewrite Nat.add_0_r in HE. destruct HE as [HE|HE]; [rewrite (skipn_cons p _ HE); reflexivity|rewrite skipn_all2 by lia; reflexivity].
        - apply text_at_cons in HT. destruct HT as (T1 & T2). rewrite (skipn_cons p x T1). cbn [count_to_newline List.length].
          replace (N.eqb x 10) with false by (symmetry; apply N.eqb_neq; intros ->; apply HN; left; reflexivity). f_equal. apply IH; auto.
          + intros K. apply HN. right. exact K.
          + cbn [List.length] in HE. replace (p + S (List.length w)) with (p + 1 + List.length w) in HE by lia. exact HE. }
      rewrite (HG v); auto; [lia| |].
      + intros K. apply H10. rewrite El. apply in_or_app. auto.
      + replace (pbeg b + n + List.length v) with (pbeg b + List.length l) by lia. exact HAft.
    - rewrite Ed. unfold b_substr_at, substr_at. pose proof (w_bytes B b HW) as WB. unfold bytes in WB. rewrite WB.
      replace (pbeg b + n <=? pbeg b + List.length l) with true by lia. replace (pbeg b + List.length l <=? List.length B) with true by lia. cbn [andb].
      replace (pbeg b + List.length l - (pbeg b + n)) with (List.length v) by lia. unfold text_at in HTv. rewrite HTv. reflexivity.
  Qed.
End Lines.
