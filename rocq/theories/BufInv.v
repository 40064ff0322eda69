(** * Invariant of the character reader (src/source/buffer.rs) *)
Require Import Verif.Base Verif.MaybeByteM Verif.InputM Verif.BufferM Verif.SourceSpec Verif.SourceProofs Verif.Wp.
Require Import ZifyBool ZifyNat ZifyN.

(** ** The line table as arithmetic *)
Section Lines.
  Variable B : list N.
  Definition LN : list SourceLine := d_lines (update_bytes B (named [])).
  Definition NL : nat := List.length LN.
  Definition lstart (k : nat) : nat := match nth_error LN k with Some l => l_start l | None => List.length B end.
  Definition lend (k : nat) : nat := match nth_error LN k with Some l => l_end l | None => List.length B end.

  Lemma LN_table : table_from B 0 LN.
  Proof using. unfold LN. destruct (update_bytes_table B (named [])) as (_ & _ & H). exact H. Qed.

  Lemma update_bytes_lines : forall d, d_lines (update_bytes B d) = LN.
  Proof using. intros. unfold LN, update_bytes. destruct (update_loop B 0 (mkLine 0 0 true) []). reflexivity. Qed.

  Lemma NL_pos : 1 <= NL.
  Proof using. unfold NL. pose proof LN_table as H. destruct LN; [destruct H|simpl; lia]. Qed.

  Lemma line_some : forall k, k < NL -> exists l, nth_error LN k = Some l /\ l_start l = lstart k /\ l_end l = lend k.
  Proof using.
    intros k H. unfold lstart, lend. destruct (nth_error LN k) eqn:E.
    - exists s. auto.
    - apply nth_error_None in E. unfold NL in H. lia.
  Qed.

  Lemma lstart_0 : lstart 0 = 0.
  Proof using.
    unfold lstart. pose proof LN_table as H. destruct (table_first _ _ _ H) as (l & H1 & H2).
    rewrite H1. exact H2.
  Qed.

  Lemma lstart_out : forall k, NL <= k -> lstart k = List.length B.
  Proof using.
    intros k H. unfold lstart. destruct (nth_error LN k) eqn:E; auto.
    assert (nth_error LN k <> None) by congruence. apply nth_error_Some in H0. unfold NL in H. lia.
  Qed.

  Lemma line_bounds : forall k, k < NL -> lstart k <= lend k /\ lend k <= List.length B.
  Proof using.
    intros k H. destruct (line_some k H) as (l & H1 & H2 & H3).
    pose proof (table_nth _ _ _ _ _ LN_table H1) as (_ & A & C & _). lia.
  Qed.

  Lemma lend_next : forall k, k < NL -> lend k = lstart (k + 1).
  Proof using.
    intros k H. destruct (line_some k H) as (l & H1 & H2 & H3).
    pose proof (table_nth _ _ _ _ _ LN_table H1) as (_ & _ & _ & A & C).
    destruct (Nat.eq_dec (k + 1) NL) as [E|E].
    - rewrite (lstart_out (k + 1)) by lia. destruct (C E) as (_ & C2 & _). lia.
    - destruct A as (_ & _ & _ & _ & l' & A1 & A2). { unfold NL in *; lia. }
      rewrite <- H3. unfold lstart. rewrite A1. lia.
  Qed.

  Lemma line_newline : forall k, k + 1 < NL ->
    lstart k < lend k /\ nth_error B (lend k - 1) = Some 10%N /\
    (forall i, lstart k <= i -> i < lend k - 1 -> nth_error B i <> Some 10%N).
  Proof using.
    intros k H. destruct (line_some k) as (l & H1 & H2 & H3); [lia|].
    pose proof (table_nth _ _ _ _ _ LN_table H1) as (_ & _ & _ & A & _).
    destruct A as (A1 & _ & A2 & A3 & _). { unfold NL in *; lia. }
    rewrite <- H2, <- H3. split; [lia|]. split; [exact A2|].
    intros i I1 I2. apply A3. lia.
  Qed.

  Lemma line_last : forall k, k + 1 = NL ->
    lend k = List.length B /\ (forall i, lstart k <= i -> i < lend k -> nth_error B i <> Some 10%N).
  Proof using.
    intros k H. destruct (line_some k) as (l & H1 & H2 & H3); [lia|].
    pose proof (table_nth _ _ _ _ _ LN_table H1) as (_ & _ & _ & _ & A).
    destruct A as (_ & A2 & A3). { unfold NL in *; lia. }
    rewrite <- H2, <- H3. split; [lia|].
    intros i I1 I2. apply A3. lia.
  Qed.

  (** A newline byte is the last byte of its line *)
  Lemma newline_last : forall k i, k < NL -> lstart k <= i -> i < lend k ->
    nth_error B i = Some 10%N -> i = lend k - 1 /\ k + 1 < NL.
  Proof using.
    intros k i H H1 H2 H3. destruct (Nat.eq_dec (k + 1) NL) as [E|E].
    - destruct (line_last k E) as (_ & C). exfalso. eapply C; eauto.
    - destruct (line_newline k) as (A1 & A2 & A3); [lia|].
      destruct (Nat.lt_ge_cases i (lend k - 1)) as [L|L]; [exfalso; eapply A3; eauto|]. lia.
  Qed.

  Lemma lstart_mono : forall j, j <= NL -> forall i, i < j -> lend i <= lstart j.
  Proof using.
    induction j as [|j IH]; intros Hj i Hi; [lia|].
    destruct (Nat.eq_dec i j) as [->|E].
    - rewrite lend_next by lia. replace (j + 1) with (S j) by lia. lia.
    - specialize (IH ltac:(lia) i ltac:(lia)).
      pose proof (lend_next j ltac:(lia)). pose proof (line_bounds j ltac:(lia)).
      replace (S j) with (j + 1) by lia. lia.
  Qed.

  Lemma lstart_le : forall k, lstart k <= List.length B.
  Proof using.
    intros k. destruct (Nat.lt_ge_cases k NL) as [H|H].
    - pose proof (line_bounds k H). lia.
    - rewrite lstart_out; lia.
  Qed.

  Lemma empty_last_line : forall k, k < NL -> lstart k = lend k -> k + 1 = NL /\ lend k = List.length B /\
    (lend k = 0 \/ nth_error B (lend k - 1) = Some 10%N).
  Proof using.
    intros k H E. destruct (Nat.eq_dec (k + 1) NL) as [E1|E1].
    - destruct (line_last k E1) as (A & _). split; [exact E1|]. split; [exact A|].
      destruct (line_some k H) as (l & H1 & H2 & H3).
      pose proof (table_start_ok _ _ _ _ _ LN_table H1) as T. rewrite H2, E in T. apply T. left; reflexivity.
    - destruct (line_newline k) as (A & _); lia.
  Qed.

  (** ** The buffer invariant *)
  Record BWF (b : Buffer) : Prop := mkBWF {
    w_bytes : bytes b = B;
    w_lines : d_lines (input b) = LN;
    w_pbeg : lstart (lastline b) <= pbeg b;
    w_pend : pend b = lend (lastline b);
    w_pcur1 : pbeg b <= pcur b;
    w_pcur2 : pcur b <= pend b;
    w_tok : ptok b <= pcur b;
    w_last : lastline b < line_count b;
    w_count : line_count b <= NL;
    w_prev : forall p, prevline b = Some p -> p < line_count b;
    w_next : nextline b <> 0 -> lastline b < nextline b /\ nextline b < line_count b /\
               lstart (nextline b) < lend (nextline b);
    w_eof : eofp b = true -> nextline b = 0;
    w_nosplit : pbeg b < pcur b -> nth_error B (pcur b - 1) = Some 13%N ->
                nth_error B (pcur b) = Some 10%N -> False
  }.

  (** Bytes that can still be read *)
  Definition Rm (b : Buffer) : nat :=
    (if eofp b then 0
     else if nextline b =? 0 then pend b - pcur b
     else lend (nextline b) - lstart (nextline b))
    + (List.length B - lstart (line_count b)).

  (** Bytes of a byte order mark skipped at the start of the current line *)
  Definition bonus (b : Buffer) : nat := pbeg b - lstart (lastline b).

  Lemma Rm_le : forall b, BWF b -> Rm b <= List.length B.
  Proof using.
    intros b []. unfold Rm.
    pose proof (lstart_mono (line_count b) w_count0 (lastline b) w_last0).
    pose proof (lstart_le (line_count b)).
    pose proof (line_bounds (lastline b) ltac:(lia)).
    destruct (eofp b); [lia|]. destruct (nextline b =? 0) eqn:E; [lia|].
    apply Nat.eqb_neq in E. destruct (w_next0 E) as (A & C & D).
    pose proof (lstart_mono (line_count b) w_count0 (nextline b) C). lia.
  Qed.

  Lemma pend_le : forall b, BWF b -> pend b <= List.length B.
  Proof using. intros b []. pose proof (line_bounds (lastline b) ltac:(lia)). lia. Qed.

  Lemma bwf_newline : forall b i, BWF b -> pbeg b <= i -> i < pend b ->
    nth_error B i = Some 10%N -> i = pend b - 1 /\ lastline b + 1 < NL.
  Proof using.
    intros b i [] H1 H2 H3. rewrite w_pend0 in *. apply newline_last; auto; lia.
  Qed.

  Lemma bwf_byte : forall b i, BWF b -> i < pend b -> exists x, nth_error B i = Some x.
  Proof using.
    intros b i H Hi. destruct (nth_error B i) eqn:E; [eauto|].
    apply nth_error_None in E. pose proof (pend_le b H). lia.
  Qed.

  Lemma byte_at_B : forall b i, BWF b -> byte_at b i = nth_error B i.
  Proof using. intros b i []. unfold byte_at, in_byte_at. unfold bytes in *. congruence. Qed.

  Lemma in_byte_at_B : forall b i, BWF b -> in_byte_at (input b) i = nth_error B i.
  Proof using. intros b i []. unfold in_byte_at. unfold bytes in *. congruence. Qed.

  (** Result of pushing back [c] *)
  Definition back (c : MaybeByte) (b : Buffer) : Buffer :=
    match c with
    | None => b
    | Some _ =>
        let p := pcur b - 1 in
        if (pbeg b <? p) && mbeq (byte_at b p) 10%N && mbeq (byte_at b (p - 1)) 13%N
        then set_pcur (p - 1) b else set_pcur p b
    end.

  Lemma pushback_back : forall e c b (Q : unit -> Buffer -> Prop),
    (c <> None -> 1 <= pcur b) -> Q tt (back c b) -> wp e (b_pushback c) Q b.
  Proof using.
    intros e [x|] b Q H HQ.
    2: { apply wp_ret. exact HQ. }
    assert (1 <= pcur b) by (apply H; congruence).
    unfold b_pushback, pushback_byte. apply wp_bind, wp_get. apply wp_bind. apply wp_sub_ck; [lia|].
    apply wp_bind, wp_modify, wp_bind, wp_get. unfold back in HQ.
    cbv zeta in HQ. cbn [pcur set_pcur pbeg]. unfold byte_at in *. cbn [input set_pcur].
    destruct ((pbeg b <? pcur b - 1) && mbeq (in_byte_at (input b) (pcur b - 1)) 10%N) eqn:E.
    - apply wp_bind, wp_sub_ck; [lia|].
      destruct (mbeq (in_byte_at (input b) (pcur b - 1 - 1)) 13%N) eqn:E2; simpl in HQ.
      + apply wp_modify. exact HQ.
      + apply wp_ret. exact HQ.
    - simpl in HQ. apply wp_ret. exact HQ.
  Qed.

  Lemma peek_ok : forall e c n b (Q : bool -> Buffer -> Prop), BWF b ->
    (nth_error B (pcur b + n) = Some c -> pcur b + n < pend b -> Q true b) ->
    (pcur b + n < pend b -> nth_error B (pcur b + n) <> Some c -> Q false b) ->
    (pend b <= pcur b + n -> Q false b) ->
    wp e (b_peek_n c n) Q b.
  Proof using.
    intros e c n b Q HW H1 H2 H3. unfold b_peek_n. apply wp_bind, wp_get. unfold is_eol_n.
    destruct (pend b <=? pcur b + n) eqn:E.
    - apply wp_ret. apply H3. lia.
    - destruct (bwf_byte b (pcur b + n) HW) as (x & Hx); [lia|].
      apply wp_bind. eapply wp_expect. { rewrite in_byte_at_B; eauto. }
      apply wp_ret. destruct (N.eqb c x) eqn:Ex.
      + apply N.eqb_eq in Ex. subst. apply H1; auto; lia.
      + apply N.eqb_neq in Ex. apply H2; [lia|congruence].
  Qed.

  (** Reading inside a line: nothing but the cursor changes *)
  Lemma read_here : forall e b (Q : MaybeByte -> Buffer -> Prop),
    BWF b ->
    (pcur b = pend b -> pend b = List.length B -> Q None b) ->
    (forall x, pcur b < pend b -> nth_error B (pcur b) = Some x ->
       (x = 13%N -> nth_error B (pcur b + 1) <> Some 10%N) -> Q (Some x) (set_pcur (pcur b + 1) b)) ->
    (pcur b + 1 < pend b -> nth_error B (pcur b) = Some 13%N -> nth_error B (pcur b + 1) = Some 10%N ->
       Q (Some 10%N) (set_pcur (pcur b + 2) b)) ->
    (pcur b < pend b \/ pend b = List.length B) ->
    wp e (b <- get ;;
          match in_byte_at (input b) (pcur b) with
          | None => ret None
          | Some c =>
              modify (fun b => set_pcur (pcur b + 1) b) ;;;
              c <- (if N.eqb c 13 then parser_cr c else ret c) ;;
              ret (Some c)
          end) Q b.
  Proof using.
    intros e b Q HW HN H1 H2 Hd. apply wp_bind, wp_get. rewrite in_byte_at_B; auto.
    pose proof (w_pcur2 b HW) as P2. pose proof (pend_le b HW) as PL.
    destruct (nth_error B (pcur b)) as [x|] eqn:Ex.
    - assert (pcur b < List.length B). { apply nth_error_Some. congruence. }
      assert (HL : pcur b < pend b) by lia.
      apply wp_bind, wp_modify, wp_bind.
      destruct (N.eqb x 13) eqn:E13.
      + apply N.eqb_eq in E13. subst x.
        unfold parser_cr, b_peek. apply wp_bind.
        unfold b_peek_n. apply wp_bind, wp_get. unfold is_eol_n. cbn [pcur pend input set_pcur].
        rewrite Nat.add_0_r.
        destruct (pend b <=? pcur b + 1) eqn:E.
        * apply wp_ret. apply wp_ret. apply wp_ret. apply H1; auto. intros _ C.
          pose proof (w_pend b HW). pose proof (w_last b HW). pose proof (w_count b HW).
          destruct (Nat.eq_dec (lastline b + 1) NL) as [E1|E1].
          { destruct (line_last _ E1) as (A & _).
            assert (Hn : nth_error B (pcur b + 1) <> None) by congruence. apply nth_error_Some in Hn. lia. }
          { destruct (line_newline (lastline b)) as (_ & A & _); [lia|].
            replace (lend (lastline b) - 1) with (pcur b) in A by lia. congruence. }
        * destruct (bwf_byte b (pcur b + 1) HW) as (y & Hy); [lia|].
          apply wp_bind. eapply wp_expect. { rewrite in_byte_at_B; eauto. }
          apply wp_ret. destruct (N.eqb 10 y) eqn:Ey.
          { apply N.eqb_eq in Ey. subst y. apply wp_bind, wp_modify, wp_ret, wp_ret.
            cbn [pcur set_pcur]. replace (pcur b + 1 + 1) with (pcur b + 2) by lia. apply H2; auto. lia. }
          { apply N.eqb_neq in Ey. apply wp_ret, wp_ret. apply H1; auto. intros _ C. congruence. }
      + apply N.eqb_neq in E13. apply wp_ret, wp_ret. apply H1; auto; try (intros; congruence).
    - apply nth_error_None in Ex. apply wp_ret. apply HN; lia.
  Qed.

  Lemma BWF_set_pcur : forall b p, BWF b -> pbeg b <= p -> p <= pend b -> ptok b <= p ->
    (pbeg b < p -> nth_error B (p - 1) = Some 13%N -> nth_error B p = Some 10%N -> False) ->
    BWF (set_pcur p b).
  Proof using. intros b p [] H1 H2 H3 H4. constructor; cbn; auto. Qed.

  Lemma BWF_set_ptok : forall b p, BWF b -> p <= pcur b -> BWF (set_ptok p b).
  Proof using. intros b p [] H1. constructor; cbn; auto. Qed.

  Lemma BWF_eof : forall b, BWF b -> nextline b = 0 -> BWF (set_eofp true b).
  Proof using. intros b [] H1. constructor; cbn; auto. Qed.

  Lemma nosplit_end : forall b, BWF b -> nth_error B (pend b - 1) = Some 13%N ->
    nth_error B (pend b) = Some 10%N -> pbeg b < pend b -> False.
  Proof using.
    intros b HW H1 H2 H3. pose proof (w_pend b HW). pose proof (w_last b HW). pose proof (w_count b HW).
    pose proof (w_pbeg b HW).
    destruct (Nat.eq_dec (lastline b + 1) NL) as [E1|E1].
    - destruct (line_last _ E1) as (A & _).
      assert (Hn : nth_error B (pend b) <> None) by congruence. apply nth_error_Some in Hn. lia.
    - destruct (line_newline (lastline b)) as (_ & A & _); [lia|].
      replace (lend (lastline b)) with (pend b) in A by lia. congruence.
  Qed.

  Lemma BWF_goto_eol : forall b, BWF b -> BWF (goto_eol b).
  Proof using.
    intros b HW. unfold goto_eol. pose proof (w_pcur1 b HW). pose proof (w_pcur2 b HW). pose proof (w_tok b HW).
    apply BWF_set_pcur; auto; try lia. intros. eapply nosplit_end; eauto.
  Qed.

  (** One character consumed at cursor [pcur b]: the state after, and after pushing it back *)
  Record Read1 (b : Buffer) (x : N) (b' : Buffer) : Prop := mkRead1 {
    r1_wf : BWF b';
    r1_lt : pcur b < pcur b';
    r1_le : pcur b' <= pcur b + 2;
    r1_byte : nth_error B (pcur b' - 1) = Some x;
    r1_set : b' = set_pcur (pcur b') b;
    r1_back : back (Some x) b' = set_pcur (pcur b) b';
    r1_one : x <> 10%N -> pcur b' = pcur b + 1
  }.

  Lemma read1_plain : forall b x, BWF b -> pcur b < pend b -> nth_error B (pcur b) = Some x ->
    (x = 13%N -> nth_error B (pcur b + 1) <> Some 10%N) -> Read1 b x (set_pcur (pcur b + 1) b).
  Proof using.
    intros b x HW HL Hx H13. pose proof HW as HW0. destruct HW0.
    assert (HW' : BWF (set_pcur (pcur b + 1) b)).
    { apply BWF_set_pcur; auto; try lia. intros _ C1 C2. replace (pcur b + 1 - 1) with (pcur b) in C1 by lia.
      apply H13; congruence. }
    constructor; cbn [pcur set_pcur]; auto; try lia.
    - replace (pcur b + 1 - 1) with (pcur b) by lia. auto.
    - unfold back. rewrite !byte_at_B by auto. cbn [pcur set_pcur pbeg].
      replace (pcur b + 1 - 1) with (pcur b) by lia.
      destruct ((pbeg b <? pcur b) && mbeq (nth_error B (pcur b)) 10%N && mbeq (nth_error B (pcur b - 1)) 13%N) eqn:E;
        [|reflexivity].
      exfalso. rewrite Hx in E.
      destruct (nth_error B (pcur b - 1)) eqn:E2; [|rewrite andb_false_r in E; discriminate].
      cbn [mbeq] in E. assert (n = 13%N) by lia. assert (x = 10%N) by lia. subst.
      apply w_nosplit0; auto; lia.
  Qed.

  Lemma read1_crlf : forall b, BWF b -> pcur b + 1 < pend b -> nth_error B (pcur b) = Some 13%N ->
    nth_error B (pcur b + 1) = Some 10%N -> Read1 b 10%N (set_pcur (pcur b + 2) b).
  Proof using.
    intros b HW HL Hx Hy. pose proof HW as HW0. destruct HW0.
    assert (HW' : BWF (set_pcur (pcur b + 2) b)).
    { apply BWF_set_pcur; auto; try lia. intros _ C1 C2. replace (pcur b + 2 - 1) with (pcur b + 1) in C1 by lia.
      congruence. }
    constructor; cbn [pcur set_pcur]; auto; try lia; try congruence.
    - replace (pcur b + 2 - 1) with (pcur b + 1) by lia. auto.
    - unfold back. rewrite !byte_at_B by auto. cbn [pcur set_pcur pbeg].
      replace (pcur b + 2 - 1) with (pcur b + 1) by lia.
      replace (pcur b + 1 - 1) with (pcur b) by lia.
      rewrite Hx, Hy. cbn [mbeq]. replace (pbeg b <? pcur b + 1) with true by lia. reflexivity.
  Qed.

  (** *** nextc *)
  Record NextPost (b : Buffer) (c : MaybeByte) (b' : Buffer) : Prop := mkNextPost {
    n_wf : BWF b';
    n_back : BWF (back c b');
    n_nextline : nextline b' = 0;
    n_count : line_count b <= line_count b';
    n_indent : heredoc_indent b' = heredoc_indent b;
    n_lindent : heredoc_line_indent b' = heredoc_line_indent b;
    n_shebang : has_shebang b' = has_shebang b;
    n_mono : pcur b <= pcur (back c b');
    n_Rback : Rm (back c b') <= Rm b;
    n_some : forall x, c = Some x ->
      eofp b = false /\ eofp b' = false /\ pbeg b' < pcur b' /\ nth_error B (pcur b' - 1) = Some x /\
      Rm b' < Rm b /\ (x <> 10%N -> pcur (back c b') = pcur b' - 1) /\
      pcur (back c b') < pcur b' /\ pcur b' <= pcur (back c b') + 2;
    n_none : c = None ->
      eofp b' = true \/
      (eofp b' = false /\ pcur b' = List.length B /\ pbeg b' = pcur b' /\ pend b' = pcur b' /\
       (pcur b' = 0 \/ nth_error B (pcur b' - 1) = Some 10%N));
    n_end : c = None -> eofp b = false ->
      pcur b = pend b /\ nextline b = 0 /\ pcur b' = pend b' /\ line_count b' = NL /\
      (eofp b' = true \/ line_count b < NL);
    n_line :
      (lastline b' = lastline b /\ prevline b' = prevline b /\ pbeg b' = pbeg b /\ pend b' = pend b /\
       ptok b' = ptok b /\ ruby_sourceline b' = ruby_sourceline b /\ line_count b' = line_count b /\
       heredoc_end b' = heredoc_end b /\
       nextline b = 0 /\ pcur (back c b') = pcur b /\ (c = None -> eofp b' = true)) \/
      (lastline b < lastline b' /\ prevline b' = Some (lastline b) /\ pbeg b' = lstart (lastline b') /\
       ptok b' = pbeg b' /\ pcur (back c b') = pbeg b' /\ 1 <= ruby_sourceline b' /\ eofp b = false /\
       eofp b' = false /\
       (nextline b <> 0 \/
        (pcur b = pend b /\ (pbeg b = pend b \/ nth_error B (pend b - 1) = Some 10%N))))
  }.

  Lemma load_line_ok : forall e v b (Q : bool -> Buffer -> Prop),
    d_lines (input b) = LN -> v < NL ->
    (forall b1,
       input b1 = input b -> line_count b1 = line_count b -> prevline b1 = Some (lastline b) ->
       lastline b1 = v -> nextline b1 = nextline b -> pbeg b1 = lstart v -> pcur b1 = lstart v ->
       pend b1 = lend v -> ptok b1 = lstart v -> eofp b1 = eofp b ->
       heredoc_indent b1 = heredoc_indent b -> heredoc_line_indent b1 = heredoc_line_indent b ->
       has_shebang b1 = has_shebang b -> 1 <= ruby_sourceline b1 ->
       Q true b1) ->
    wp e (load_line v) Q b.
  Proof using.
    intros e v b Q HL Hv HQ. destruct (line_some v Hv) as (l & H1 & H2 & H3).
    unfold load_line. apply wp_bind, wp_get. apply wp_bind. eapply wp_expect.
    { unfold line_at. rewrite HL. exact H1. }
    apply wp_bind. apply wp_when; intros Hh.
    - apply wp_modify. do 3 apply wp_bind, wp_modify. apply wp_bind. apply wp_modify. apply wp_ret.
      apply HQ; destruct b; cbn in *; auto; try congruence; try lia.
    - do 3 apply wp_bind, wp_modify. apply wp_bind. apply wp_modify. apply wp_ret.
      apply HQ; destruct b; cbn in *; auto; try congruence; try lia.
  Qed.

  Lemma mbeq_iff : forall c x, mbeq c x = true <-> c = Some x.
  Proof using. intros [y|] x; cbn; split; intros H; try discriminate. { f_equal. lia. } { inversion H. lia. } Qed.

  Lemma set_pcur_same : forall b, set_pcur (pcur b) b = b.
  Proof using. intros []. reflexivity. Qed.

  Lemma set_nextline_same : forall b, nextline b = 0 -> set_nextline 0 b = b.
  Proof using. intros b H. destruct b. unfold set_nextline. cbn in *. rewrite H. reflexivity. Qed.

  (** From a loaded / unchanged line with a readable byte *)
  Lemma read1_next_same : forall b x b', BWF b -> nextline b = 0 -> eofp b = false -> pcur b < pend b ->
    Read1 b x b' -> NextPost b (Some x) b'.
  Proof using.
    intros b x b' HW HN HE HL [].
    assert (Hp : pcur b' <= pend b). { rewrite r1_set0 in r1_wf0. destruct r1_wf0; cbn in *; auto. }
    assert (HB : back (Some x) b' = b).
    { rewrite r1_back0, r1_set0. destruct b; reflexivity. }
    assert (Hb : BWF (back (Some x) b')) by (rewrite HB; auto).
    assert (F : eofp b' = false /\ nextline b' = 0 /\ line_count b' = line_count b /\ pbeg b' = pbeg b /\
                pend b' = pend b /\ lastline b' = lastline b /\ prevline b' = prevline b /\ ptok b' = ptok b /\
                ruby_sourceline b' = ruby_sourceline b /\ heredoc_end b' = heredoc_end b /\
                heredoc_indent b' = heredoc_indent b /\
                heredoc_line_indent b' = heredoc_line_indent b /\ has_shebang b' = has_shebang b).
    { rewrite r1_set0. cbn. repeat split; auto. }
    destruct F as (F1 & F2 & F3 & F4 & F5 & F6 & F7 & F8 & F9 & F10 & F11 & F12 & F13).
    pose proof (w_pcur1 b HW).
    constructor; auto; try lia; try discriminate.
    - rewrite HB. lia.
    - rewrite HB. lia.
    - intros y Ey. inversion Ey; subst y. rewrite HB. repeat split; auto; try lia.
      unfold Rm. rewrite F1, F2, F3, F5, HE, HN. cbn [Nat.eqb]. lia.
    - left. rewrite HB. repeat split; auto. discriminate.
  Qed.

  (** Crossing to line [v], loaded as [b1] *)
  Lemma read1_next_cross : forall b b1 c b',
    BWF b -> BWF b1 ->
    eofp b = false -> lastline b < lastline b1 -> nextline b1 = 0 -> eofp b1 = false ->
    line_count b <= line_count b1 -> prevline b1 = Some (lastline b) ->
    pbeg b1 = lstart (lastline b1) -> pcur b1 = pbeg b1 -> ptok b1 = pbeg b1 -> 1 <= ruby_sourceline b1 ->
    heredoc_indent b1 = heredoc_indent b -> heredoc_line_indent b1 = heredoc_line_indent b ->
    has_shebang b1 = has_shebang b ->
    Rm b1 <= Rm b ->
    (nextline b <> 0 \/
        (pcur b = pend b /\ (pbeg b = pend b \/ nth_error B (pend b - 1) = Some 10%N))) ->
    match c with
    | Some x => pcur b1 < pend b1 /\ Read1 b1 x b'
    | None => b' = b1 /\ pcur b1 = pend b1 /\ pend b1 = List.length B /\ pcur b = pend b /\ nextline b = 0 /\
        line_count b < line_count b1
    end ->
    NextPost b c b'.
  Proof using.
    intros b b1 c b' HW HW1 He Hll Hn1 He1 Hc Hp Hpb Hpc Hpt Hrs G1 G2 G3 HR Hor H.
    assert (Hlc : lastline b1 < NL). { destruct HW1. lia. }
    assert (HM : pcur b <= pcur b1).
    { pose proof (lstart_mono (lastline b1) ltac:(lia) (lastline b) Hll). destruct HW. lia. }
    destruct c as [x|].
    - destruct H as (HL & HR1).
      pose proof (read1_next_same b1 x b' HW1 Hn1 He1 HL HR1) as N1. destruct N1.
      destruct n_line0 as [L|L]; [|lia].
      destruct L as (L1 & L2 & L3 & L4 & L5 & L6 & L7 & L8 & L9 & L10 & L11).
      constructor; auto; try lia; try congruence.
      + intros y Ey. destruct (n_some0 y Ey) as (S1 & S2 & S3 & S4 & S5 & S6 & S7 & S8).
        repeat split; auto. lia.
      + right. rewrite L1, L2, L3, L5, L6, L10. rewrite Hpc.
        destruct (n_some0 x eq_refl) as (S1 & S2 & _). repeat split; auto; lia.
    - destruct H as (-> & H1 & H2 & H3 & H4 & H5).
      constructor; auto; try lia; try discriminate; cbn [back]; auto.
      + intros _. right. rewrite <- H2. repeat split; auto; try lia.
        destruct (empty_last_line (lastline b1) Hlc) as (_ & _ & E); [destruct HW1; lia|].
        destruct HW1. rewrite w_pend0 in *. lia || (destruct E as [E|E]; [left; lia|right; rewrite H1; exact E]).
      + intros _ _. destruct (empty_last_line (lastline b1) Hlc) as (E & _); [destruct HW1; lia|].
        destruct HW1. repeat split; auto; try lia.
      + right. repeat split; auto; lia.
  Qed.

  Lemma b_nextc_ok : forall e b (Q : MaybeByte -> Buffer -> Prop),
    BWF b -> (forall c b', NextPost b c b' -> Q c b') -> wp e b_nextc Q b.
  Proof using.
    intros e b Q HW HQ. pose proof HW as HW0. destruct HW0.
    unfold b_nextc. apply wp_bind, wp_get. apply wp_bind.
    destruct ((pcur b =? pend b) || eofp b || negb (nextline b =? 0)) eqn:E.
    2: { (* inside the line *)
      apply wp_ret. cbn [negb]. assert (HL : pcur b < pend b) by lia.
      assert (eofp b = false) by (destruct (eofp b); auto; rewrite !orb_true_r in E; cbn in E; lia).
      assert (nextline b = 0) by lia.
      apply read_here; auto; try lia.
      - intros x H1 H2 H3. apply HQ. apply read1_next_same; auto. apply read1_plain; auto.
      - intros H1 H2 H3. apply HQ. apply read1_next_same; auto. apply read1_crlf; auto. }
    unfold b_nextline. apply wp_bind, wp_get. apply wp_bind, wp_modify.
    destruct (nextline b =? 0) eqn:E0.
    2: { (* a line is waiting in nextline *)
      apply Nat.eqb_neq in E0. destruct (w_next0 E0) as (N1 & N2 & N3).
      assert (He : eofp b = false). { destruct (eofp b); auto. exfalso. auto. }
      apply load_line_ok; [exact w_lines0|lia|].
      intros b1 I1 I2 I3 I4 I5 I6 I7 I8 I9 I10 I11 I12 I13 I14.
      cbn [set_nextline input line_count lastline nextline eofp heredoc_indent heredoc_line_indent has_shebang] in *.
      assert (HW1 : BWF b1).
      { constructor; rewrite ?I2, ?I3, ?I4, ?I5, ?I6, ?I7, ?I8, ?I9; auto; try lia.
        - unfold bytes. rewrite I1. exact w_bytes0.
        - rewrite I1. auto.
        - intros p Ep. inversion Ep; subst. lia. }
      assert (HRm : Rm b1 = Rm b).
      { unfold Rm. rewrite I10, He, I5, I8, I7, I2. cbn [Nat.eqb].
        replace (nextline b =? 0) with false by lia. reflexivity. }
      cbn [negb]. apply read_here; auto; try lia.
      + intros x H1 H2 H3. apply HQ. eapply (read1_next_cross b b1 (Some x)); eauto; try congruence; try lia.
        split; auto. apply read1_plain; auto.
      + intros H1 H2 H3. apply HQ. eapply (read1_next_cross b b1 (Some 10%N)); eauto; try congruence; try lia.
        split; [lia|]. apply read1_crlf; auto. }
    apply Nat.eqb_eq in E0. cbn [orb negb] in E.
    destruct (eofp b) eqn:He.
    { (* end of input already seen *)
      apply wp_ret. cbn [negb]. apply wp_ret. apply HQ.
      assert (Hs : set_nextline 0 b = b) by (apply set_nextline_same; auto).
      rewrite Hs.
      constructor; auto; try lia; try discriminate; try congruence. left. cbn [back]. repeat split; auto. }
    assert (Hpe : pcur b = pend b) by lia.
    assert (Hs : set_nextline 0 b = b) by (apply set_nextline_same; auto).
    rewrite Hs.
    assert (Heof : line_count b = NL -> NextPost b None (goto_eol (set_eofp true b))).
    { intros Hlc. assert (HW1 : BWF (goto_eol (set_eofp true b))) by (apply BWF_goto_eol, BWF_eof; auto).
      constructor; auto; cbn [back goto_eol set_pcur set_eofp nextline line_count heredoc_indent heredoc_line_indent
        has_shebang pcur pend eofp lastline prevline pbeg ptok ruby_sourceline]; auto; try lia; try discriminate.
      - unfold Rm. cbn [eofp nextline line_count goto_eol set_pcur set_eofp]. destruct (eofp b); lia.
      - left. repeat split; auto. }
    apply wp_bind.
    assert (Hcont : (pbeg b = pend b \/ nth_error B (pend b - 1) = Some 10%N) ->
      wp e (r <- getline ;;
            match r with
            | inl line => modify (set_cr_seen false) ;;; load_line line
            | inr _ => modify (fun b => goto_eol (set_eofp true b)) ;;; ret false
            end)
        (fun a s' => wp e (if negb a then ret None
                           else b <- get ;;
                                match in_byte_at (input b) (pcur b) with
                                | None => ret None
                                | Some c =>
                                    modify (fun b => set_pcur (pcur b + 1) b) ;;;
                                    c <- (if N.eqb c 13 then parser_cr c else ret c) ;;
                                    ret (Some c)
                                end) Q s') b).
    { intros Hnl. apply wp_bind. unfold getline. apply wp_bind, wp_get. rewrite w_lines0. fold NL.
      destruct (line_count b <? NL) eqn:Elc.
      - apply wp_bind, wp_modify, wp_ret. apply wp_bind, wp_modify.
        apply load_line_ok; [exact w_lines0|lia|].
        intros b1 I1 I2 I3 I4 I5 I6 I7 I8 I9 I10 I11 I12 I13 I14.
        cbn [set_cr_seen set_line_count input line_count lastline nextline eofp heredoc_indent heredoc_line_indent has_shebang] in *.
        pose proof (line_bounds (line_count b) ltac:(lia)) as LB.
        assert (HW1 : BWF b1).
        { constructor; rewrite ?I2, ?I3, ?I4, ?I5, ?I6, ?I7, ?I8, ?I9; auto; try lia.
          - unfold bytes. rewrite I1. exact w_bytes0.
          - rewrite I1. auto.
          - intros p Ep. inversion Ep; subst. lia. }
        assert (HRm : Rm b1 <= Rm b).
        { unfold Rm. rewrite I10, He, I5, E0, I8, I7, I2. cbn [Nat.eqb].
          pose proof (lend_next (line_count b) ltac:(lia)). pose proof (lstart_le (line_count b + 1)). lia. }
        cbn [negb]. apply read_here; auto; try lia.
        + intros H1 H2. apply HQ. eapply (read1_next_cross b b1 None); eauto; try congruence; try lia. splits; auto; lia.
        + intros x H1 H2 H3. apply HQ. eapply (read1_next_cross b b1 (Some x)); eauto; try congruence; try lia.
          split; auto. apply read1_plain; auto.
        + intros H1 H2 H3. apply HQ. eapply (read1_next_cross b b1 (Some 10%N)); eauto; try congruence; try lia.
          split; [lia|]. apply read1_crlf; auto.
        + destruct (Nat.eq_dec (lstart (line_count b)) (lend (line_count b))) as [E1|E1]; [|lia].
          destruct (empty_last_line (line_count b)) as (_ & E2 & _); lia.
      - apply wp_ret. apply wp_bind, wp_modify, wp_ret. cbn [negb]. apply wp_ret. apply HQ, Heof. lia. }
    destruct (pbeg b <? pend b) eqn:Ep.
    - destruct (bwf_byte b (pend b - 1) HW) as (x & Hx); [lia|].
      apply wp_bind. eapply wp_expect. { rewrite in_byte_at_B; eauto. }
      apply wp_ret. destruct (N.eqb x 10) eqn:Ex; cbn [negb].
      + apply Hcont. right. rewrite Hx. f_equal. lia.
      + apply wp_bind, wp_modify, wp_ret. cbn [negb]. apply wp_ret. apply HQ, Heof.
        destruct (Nat.eq_dec (lastline b + 1) NL) as [E1|E1]; [lia|].
        destruct (line_newline (lastline b)) as (_ & A & _); [lia|]. rewrite <- w_pend0, Hx in A. inversion A. lia.
    - apply wp_ret. apply Hcont. left. lia.
  Qed.
End Lines.
