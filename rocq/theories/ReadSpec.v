(** * Exact behaviour of the reader inside one line *)
Require Import Verif.Base Verif.MaybeByteM Verif.InputM Verif.BufferM Verif.LexerM Verif.SourceSpec Verif.SourceProofs
  Verif.Wp Verif.BufInv Verif.LexSpec.
Require Import ZifyBool ZifyNat ZifyN.

(** ** Text at a position *)
Lemma text_at_cons : forall B p x w, text_at B p (x :: w) <-> nth_error B p = Some x /\ text_at B (p + 1) w.
Proof.
  intros B p x w. unfold text_at. cbn [List.length].
  replace (p + 1) with (S p) by lia. revert p. induction B as [|y B IH]; intros p.
  - rewrite !skipn_nil. cbn. destruct p; cbn; split; [intros H; discriminate|intros (H & _); discriminate|intros H; discriminate|intros (H & _); discriminate].
  - destruct p as [|p].
    + cbn [skipn firstn nth_error]. split.
      * intros H. injection H as -> H. auto.
      * intros (H1 & H2). injection H1 as ->. congruence.
    + cbn [skipn nth_error]. apply IH.
Qed.

Lemma text_at_nil : forall B p, text_at B p [].
Proof. reflexivity. Qed.

Lemma text_at_app : forall B u p w, text_at B p (u ++ w) <-> text_at B p u /\ text_at B (p + List.length u) w.
Proof.
  intros B. induction u as [|x u IH]; intros p w.
  - cbn [app List.length]. rewrite Nat.add_0_r. split; [intros H; split; [reflexivity|exact H]|intros (_ & H); exact H].
  - cbn [app List.length]. rewrite !text_at_cons, IH. replace (p + 1 + List.length u) with (p + S (List.length u)) by lia. tauto.
Qed.

Lemma text_at_len : forall B p w, text_at B p w -> w <> [] -> p + List.length w <= List.length B.
Proof.
  intros B p w H Hw. unfold text_at in H. apply (f_equal (@List.length N)) in H.
  rewrite firstn_length, skipn_length in H. destruct w; [congruence|]. cbn [List.length] in *. lia.
Qed.

(** A lexer that has only moved its reader *)
Lemma buffer_set : forall b s, buffer (set_buffer b s) = b.
Proof. reflexivity. Qed.

Section Read.
  Variables (B : list N) (e : Env) (b : Buffer).

  (** The reader is inside its current line *)
  Definition Ready : Prop := BWF B b /\ nextline b = 0 /\ eofp b = false.

  Hypothesis HR : Ready.

  Lemma rd_at : forall i, in_byte_at (input b) i = nth_error B i.
  Proof using HR. intros i. destruct HR as (H & _). apply in_byte_at_B. exact H. Qed.

  Lemma rd_pend : pend b <= List.length B.
  Proof using HR. destruct HR as (H & _). apply pend_le. exact H. Qed.

  Lemma rd_byte : forall p x, p < pend b -> nth_error B p = Some x -> x <> 13%N ->
    b_nextc e (set_pcur p b) = Ok (Some x) (set_pcur (p + 1) b).
  Proof using HR.
    intros p x Hp Hx Hn. destruct HR as (_ & H1 & H2). unfold b_nextc, bind, get, modify, ret.
    cbn [pcur pend set_pcur eofp nextline]. rewrite H1, H2.
    replace (p =? pend b) with false by lia. cbn [orb negb Nat.eqb].
    cbn [input set_pcur pcur]. rewrite rd_at, Hx. replace (N.eqb x 13) with false by lia. reflexivity.
  Qed.

  (** CR LF is read as LF *)
  Lemma rd_crlf : forall p, pbeg b <= p -> p < pend b -> nth_error B p = Some 13%N -> nth_error B (p + 1) = Some 10%N ->
    p + 1 < pend b /\ b_nextc e (set_pcur p b) = Ok (Some 10%N) (set_pcur (p + 2) b).
  Proof using HR.
    intros p Hp0 Hp Hx Ey. pose proof HR as (HW & N1 & N2).
    assert (Hp1 : p + 1 < pend b).
    { destruct (Nat.lt_ge_cases (p + 1) (pend b)); auto. exfalso.
      eapply (nosplit_end B b HW); try lia.
      - replace (pend b - 1) with p by lia. exact Hx.
      - replace (pend b) with (p + 1) by lia. exact Ey. }
    split; [exact Hp1|].
    unfold b_nextc, bind, get, modify, ret. cbn [pcur pend set_pcur eofp nextline]. rewrite N1, N2.
    replace (p =? pend b) with false by lia. cbn [orb negb Nat.eqb input set_pcur pcur]. rewrite rd_at, Hx.
    cbn [N.eqb Pos.eqb]. unfold parser_cr, b_peek, b_peek_n, bind, get, modify, ret, is_eol_n.
    cbn [pcur pend set_pcur input]. rewrite Nat.add_0_r. replace (pend b <=? p + 1) with false by lia.
    rewrite rd_at, Ey. cbn [expect]. unfold ret. cbn [N.eqb Pos.eqb]. cbn [pcur set_pcur].
    replace (p + 1 + 1) with (p + 2) by lia. reflexivity.
  Qed.

  (** The reader stopped at [p]; end of input may have been seen: at [p], or behind a dot at [p] *)
  Definition Fin (p : nat) (b' : Buffer) : Prop := b' = set_pcur p b \/
    ((p = pend b \/ byte_at b p = Some 46%N) /\ b' = set_eofp true (set_pcur p b)).

  Lemma fin_pcur : forall p b', Fin p b' -> pcur b' = p.
  Proof using. intros p b' [->|(_ & ->)]; reflexivity. Qed.

  (** What can be read at [p]: the byte there (CR LF read as LF), or nothing *)
  Definition can_read (p : nat) (c : MaybeByte) : Prop :=
    c = None \/ c = nth_error B p \/ (c = Some 10%N /\ nth_error B p = Some 13%N).

  Lemma rd_eof : forall p, p = pend b -> pend b = List.length B ->
    line_count b = NL B ->
    b_nextc e (set_pcur p b) = Ok None (set_eofp true (set_pcur p b)).
  Proof using HR.
    intros p -> H1 H3. destruct HR as (HW & N1 & N2). unfold b_nextc, bind, get, modify, ret.
    cbn [pcur pend set_pcur eofp nextline]. rewrite N1, N2, Nat.eqb_refl. cbn [orb].
    unfold b_nextline, bind, get, modify, ret. cbn [pcur pend pbeg set_pcur set_nextline eofp nextline].
    rewrite N1, N2. cbn [Nat.eqb].
    assert (HG : forall s, input s = input b -> line_count s = line_count b -> getline e s = Ok (inr tt) s).
    { intros s S1 S2. unfold getline, bind, get, modify, ret. rewrite S1, S2. rewrite (w_lines B b HW). fold (NL B).
      replace (line_count b <? NL B) with false by lia. reflexivity. }
    assert (E0 : set_nextline 0 (set_pcur (pend b) b) = set_pcur (pend b) b).
    { destruct b; cbn in *; subst; reflexivity. }
    rewrite E0. destruct (pbeg b <? pend b) eqn:Ep.
    - destruct (bwf_byte B b (pend b - 1) HW) as (x & Hx); [lia|]. cbn [input set_pcur set_nextline].
      rewrite rd_at, Hx. cbn [expect]. unfold ret. destruct (N.eqb x 10) eqn:Ex; cbn [negb].
      + rewrite HG by reflexivity. reflexivity.
      + reflexivity.
    - rewrite HG by reflexivity. reflexivity.
  Qed.

  Lemma back_eofp : forall c b', back c (set_eofp true b') = set_eofp true (back c b').
  Proof using.
    intros [x|] b'; [|reflexivity]. unfold back. destruct b'; cbn. destruct (_ && _ && _); reflexivity.
  Qed.

  (** Position [p] is in the line, or at the end of the last line *)
  Definition InL (p : nat) : Prop :=
    pbeg b <= p /\ (p < pend b \/ (p = pend b /\ lastline b + 1 = NL B)) /\
    (pbeg b < p -> nth_error B (p - 1) = Some 13%N -> nth_error B p = Some 10%N -> False).

  Lemma inl_text : forall p w, pbeg b <= p -> text_at B p w -> p + List.length w <= pend b -> ~ In 10%N w -> ~ In 13%N w ->
    w <> [] -> InL (p + List.length w).
  Proof using HR.
    intros p w Hp Ht Hl Hn Hn' Hw. destruct HR as (HW & _).
    destruct (exists_last Hw) as (u & x & ->). rewrite text_at_app in Ht. destruct Ht as (_ & Ht).
    apply text_at_cons in Ht. destruct Ht as (Ht & _). rewrite app_length in *. cbn [List.length] in *.
    unfold InL. splits; [lia| |].
    - destruct (Nat.eq_dec (p + (List.length u + 1)) (pend b)) as [E|E]; [|lia]. right. split; [exact E|].
      pose proof (w_last B b HW). pose proof (w_count B b HW).
      destruct (Nat.eq_dec (lastline b + 1) (NL B)) as [E1|E1]; [exact E1|exfalso].
      destruct (line_newline B (lastline b)) as (_ & A & _); [lia|]. rewrite <- (w_pend B b HW) in A.
      replace (p + List.length u) with (pend b - 1) in Ht by lia. rewrite A in Ht. injection Ht as <-.
      apply Hn, in_or_app. right. left. reflexivity.
    - intros _ A _. replace (p + (List.length u + 1) - 1) with (p + List.length u) in A by lia. rewrite A in Ht.
      injection Ht as <-. apply Hn', in_or_app. right. left. reflexivity.
  Qed.

  (** Reading at [p] and pushing back *)
  Lemma rd_follow : forall p b0, InL p -> Fin p b0 ->
    exists c b', b_nextc e b0 = Ok c b' /\ can_read p c /\ Fin p (back c b') /\ (c <> None -> 1 <= pcur b') /\
      (c <> None -> c <> Some 10%N -> b' = set_pcur (p + 1) b) /\
      match c with None => eofp b' = true | Some x => eofp b' = false /\ nth_error B (pcur b' - 1) = Some x end.
  Proof using HR.
    intros p b0 (Hp0 & Hp & Hsp) HF. pose proof HR as (HW & N1 & N2).
    destruct HF as [->|(Hpe & ->)].
    2: { exists None, (set_eofp true (set_pcur p b)). splits; try congruence.
      - unfold b_nextc, bind, get, modify, ret. cbn [pcur pend set_pcur eofp nextline set_eofp]. rewrite orb_true_r. cbn [orb].
        unfold b_nextline, bind, get, modify, ret. cbn [pcur pend pbeg set_pcur set_nextline eofp nextline set_eofp].
        rewrite N1. cbn [Nat.eqb negb]. destruct b; cbn in *; subst; reflexivity.
      - left; reflexivity.
      - right; auto.
      - reflexivity. }
    destruct Hp as [Hp|(Hp1 & Hp2)].
    - destruct (bwf_byte B b p HW Hp) as (x & Hx).
      destruct (N.eq_dec x 13) as [->|Hx13].
      + (* CR *)
        destruct (nth_error B (p + 1)) as [y|] eqn:Ey; [destruct (N.eq_dec y 10) as [->|Hy]|].
        * assert (Hp1 : p + 1 < pend b).
          { destruct (Nat.lt_ge_cases (p + 1) (pend b)); auto. exfalso.
            eapply (nosplit_end B b HW); try lia.
            - replace (pend b - 1) with p by lia. exact Hx.
            - replace (pend b) with (p + 1) by lia. exact Ey. }
          exists (Some 10%N), (set_pcur (p + 2) b). splits; try congruence.
          -- unfold b_nextc, bind, get, modify, ret. cbn [pcur pend set_pcur eofp nextline]. rewrite N1, N2.
             replace (p =? pend b) with false by lia. cbn [orb negb Nat.eqb input set_pcur pcur]. rewrite rd_at, Hx.
             cbn [N.eqb Pos.eqb]. unfold parser_cr, b_peek, b_peek_n, bind, get, modify, ret, is_eol_n.
             cbn [pcur pend set_pcur input]. rewrite Nat.add_0_r. replace (pend b <=? p + 1) with false by lia.
             rewrite rd_at, Ey. cbn [expect]. unfold ret. cbn [N.eqb Pos.eqb]. cbn [pcur set_pcur].
             replace (p + 1 + 1) with (p + 2) by lia. reflexivity.
          -- right; right. auto.
          -- left. unfold back. cbn [pcur set_pcur pbeg]. unfold byte_at. cbn [input set_pcur]. rewrite !rd_at.
             replace (p + 2 - 1) with (p + 1) by lia. replace (p + 1 - 1) with p by lia. rewrite Hx, Ey. cbn [mbeq N.eqb Pos.eqb].
             replace (pbeg b <? p + 1) with true by lia. reflexivity.
          -- intros _. cbn. lia.
          -- exact N2.
          -- cbn [pcur set_pcur]. replace (p + 2 - 1) with (p + 1) by lia. exact Ey.
        * exists (Some 13%N), (set_pcur (p + 1) b). splits; auto.
          -- unfold b_nextc, bind, get, modify, ret. cbn [pcur pend set_pcur eofp nextline]. rewrite N1, N2.
             replace (p =? pend b) with false by lia. cbn [orb negb Nat.eqb input set_pcur pcur]. rewrite rd_at, Hx.
             cbn [N.eqb Pos.eqb]. unfold parser_cr, b_peek, b_peek_n, bind, get, modify, ret, is_eol_n.
             cbn [pcur pend set_pcur input]. rewrite Nat.add_0_r. destruct (pend b <=? p + 1); [reflexivity|].
             rewrite rd_at, Ey. cbn [expect]. unfold ret. replace (N.eqb 10 y) with false by lia. reflexivity.
          -- right; left. congruence.
          -- left. unfold back. cbn [pcur set_pcur pbeg]. unfold byte_at. cbn [input set_pcur]. rewrite !rd_at.
             replace (p + 1 - 1) with p by lia. rewrite Hx. cbn [mbeq N.eqb Pos.eqb]. rewrite andb_false_r. reflexivity.
          -- intros _. cbn. lia.
          -- cbn [pcur set_pcur]. replace (p + 1 - 1) with p by lia. exact Hx.
        * exists (Some 13%N), (set_pcur (p + 1) b). splits; auto.
          -- unfold b_nextc, bind, get, modify, ret. cbn [pcur pend set_pcur eofp nextline]. rewrite N1, N2.
             replace (p =? pend b) with false by lia. cbn [orb negb Nat.eqb input set_pcur pcur]. rewrite rd_at, Hx.
             cbn [N.eqb Pos.eqb]. unfold parser_cr, b_peek, b_peek_n, bind, get, modify, ret, is_eol_n.
             cbn [pcur pend set_pcur input]. rewrite Nat.add_0_r.
             apply nth_error_None in Ey. pose proof rd_pend. replace (pend b <=? p + 1) with true by lia. reflexivity.
          -- right; left. congruence.
          -- left. unfold back. cbn [pcur set_pcur pbeg]. unfold byte_at. cbn [input set_pcur]. rewrite !rd_at.
             replace (p + 1 - 1) with p by lia. rewrite Hx. cbn [mbeq N.eqb Pos.eqb]. rewrite andb_false_r. reflexivity.
          -- intros _. cbn. lia.
          -- cbn [pcur set_pcur]. replace (p + 1 - 1) with p by lia. exact Hx.
      + (* any other byte; LF after CR cannot be reached by reading *)
        exists (Some x), (set_pcur (p + 1) b). splits; auto.
        * apply rd_byte; auto.
        * right; left. congruence.
        * left. unfold back. cbn [pcur set_pcur pbeg]. unfold byte_at. cbn [input set_pcur]. rewrite !rd_at.
          replace (p + 1 - 1) with p by lia. rewrite Hx.
          destruct ((pbeg b <? p) && mbeq (Some x) 10%N && mbeq (nth_error B (p - 1)) 13%N) eqn:E; [exfalso|reflexivity].
          apply andb_prop in E. destruct E as (E & E3). apply andb_prop in E. destruct E as (E1 & E2).
          rewrite mbeq_iff in E2, E3. apply Hsp; [lia|exact E3|congruence].
        * intros _. cbn. lia.
        * cbn [pcur set_pcur]. replace (p + 1 - 1) with p by lia. exact Hx.
    - exists None, (set_eofp true (set_pcur p b)). splits; try congruence.
      + apply rd_eof; auto.
        * destruct (line_last B _ Hp2) as (A & _). rewrite (w_pend B b HW). exact A.
        * pose proof (w_last B b HW). pose proof (w_count B b HW). lia.
      + left; reflexivity.
      + right; auto.
      + reflexivity.
  Qed.

  (** *** The same for the lexer *)
  Lemma wp_nx : forall s p x (Q : MaybeByte -> Lexer -> Prop),
    buffer s = set_pcur p b -> p < pend b -> nth_error B p = Some x -> x <> 13%N ->
    Q (Some x) (set_buffer (set_pcur (p + 1) b) s) -> wp e nextc Q s.
  Proof using HR.
    intros s p x Q Hb Hp Hx Hn HQ. unfold nextc, inb. apply wp_zoom. unfold wp. rewrite Hb, (rd_byte p x) by auto. exact HQ.
  Qed.

  Lemma wp_nx_follow : forall s p (Q : MaybeByte -> Lexer -> Prop), InL p -> Fin p (buffer s) ->
    (forall c b', can_read p c -> Fin p (back c b') -> (c <> None -> 1 <= pcur b') ->
       (c <> None -> c <> Some 10%N -> b' = set_pcur (p + 1) b) -> Q c (set_buffer b' s)) ->
    wp e nextc Q s.
  Proof using HR.
    intros s p Q HI HF HQ. unfold nextc, inb. apply wp_zoom. unfold wp.
    destruct (rd_follow p (buffer s) HI HF) as (c & b' & H1 & H2 & H3 & H4 & H5 & _). rewrite H1. apply HQ; auto.
  Qed.

  Lemma wp_nx_follow' : forall s p (Q : MaybeByte -> Lexer -> Prop), InL p -> Fin p (buffer s) ->
    (forall c b', can_read p c -> Fin p (back c b') -> (c <> None -> 1 <= pcur b') ->
       (c <> None -> c <> Some 10%N -> b' = set_pcur (p + 1) b) ->
       match c with None => eofp b' = true | Some x => eofp b' = false /\ nth_error B (pcur b' - 1) = Some x end ->
       Q c (set_buffer b' s)) ->
    wp e nextc Q s.
  Proof using HR.
    intros s p Q HI HF HQ. unfold nextc, inb. apply wp_zoom. unfold wp.
    destruct (rd_follow p (buffer s) HI HF) as (c & b' & H1 & H2 & H3 & H4 & H5 & H6). rewrite H1. apply HQ; auto.
  Qed.

  Lemma wp_push : forall s c (Q : unit -> Lexer -> Prop), (c <> None -> 1 <= pcur (buffer s)) ->
    Q tt (set_buffer (back c (buffer s)) s) -> wp e (pushback c) Q s.
  Proof using.
    clear HR. intros s c Q H HQ. unfold pushback, inb. apply wp_zoom. apply pushback_back; auto.
  Qed.

  Lemma back_byte : forall p x, nth_error B p = Some x -> x <> 10%N ->
    back (Some x) (set_pcur (p + 1) b) = set_pcur p b.
  Proof using HR.
    intros p x Hx Hn. unfold back. cbn [pcur set_pcur pbeg]. unfold byte_at. cbn [input set_pcur]. rewrite !rd_at.
    replace (p + 1 - 1) with p by lia. rewrite Hx. cbn [mbeq]. replace (N.eqb x 10) with false by lia.
    rewrite andb_false_r. reflexivity.
  Qed.

  Lemma wp_push_byte : forall s p x (Q : unit -> Lexer -> Prop), buffer s = set_pcur (p + 1) b ->
    nth_error B p = Some x -> x <> 10%N ->
    Q tt (set_buffer (set_pcur p b) s) -> wp e (pushback (Some x)) Q s.
  Proof using HR.
    intros s p x Q Hb Hx Hn HQ. apply wp_push; [rewrite Hb; cbn [pcur set_pcur]; lia|].
    rewrite Hb, back_byte by auto. exact HQ.
  Qed.

  Lemma wp_peek_at : forall s c n p (Q : bool -> Lexer -> Prop), buffer s = set_pcur p b ->
    Q ((p + n <? pend b) && mbeq (nth_error B (p + n)) c) s -> wp e (peek_n c n) Q s.
  Proof using HR.
    intros s c n p Q Hb HQ. unfold peek_n, inb. apply wp_zoom. rewrite Hb. unfold b_peek_n. apply wp_bind, wp_get.
    assert (Es : set_buffer (set_pcur p b) s = s) by (rewrite <- Hb; destruct s; reflexivity).
    unfold is_eol_n. cbn [pcur pend set_pcur input]. destruct (pend b <=? p + n) eqn:E.
    - apply wp_ret. replace (p + n <? pend b) with false in HQ by lia. rewrite Es. exact HQ.
    - replace (p + n <? pend b) with true in HQ by lia. destruct HR as (HW & _).
      destruct (bwf_byte B b (p + n) HW) as (x & Hx); [lia|].
      apply wp_bind. eapply wp_expect. { rewrite rd_at. exact Hx. } apply wp_ret.
      rewrite Hx in HQ. cbn [mbeq andb] in HQ. rewrite Es. rewrite N.eqb_sym. exact HQ.
  Qed.
End Read.

Lemma wp_loop_fuel : forall S X R e (body : X -> M S (X + R)) x (Q : R -> S -> Prop) s,
  wp e (loop_n (fuel e) body x) Q s -> wp e (loop body x) Q s.
Proof. intros. exact H. Qed.

(** One monadic step *)
Ltac ws :=
  lazymatch goal with
  | |- wp _ (bind _ _) _ _ => apply wp_bind
  | |- wp _ (ret _) _ _ => apply wp_ret
  | |- wp _ get _ _ => apply wp_get
  | |- wp _ (gets _) _ _ => apply wp_gets
  | |- wp _ getb _ _ => apply wp_gets
  | |- wp _ ask _ _ => apply wp_ask
  | |- wp _ (modify _) _ _ => apply wp_modify
  | |- wp _ (modb _) _ _ => apply wp_modify
  | |- wp _ (tokadd _) _ _ => apply wp_modify
  | |- wp _ (tokadd_mb (Some _)) _ _ => apply wp_modify
  | |- wp _ (lex_state_set _) _ _ => apply wp_modify
  | |- wp _ newtok _ _ => apply wp_modify
  | |- wp _ token_flush _ _ => apply wp_modify
  | |- wp _ (set_yylval _) _ _ => apply wp_modify
  | |- wp _ set_yylval_name _ _ => apply wp_modify
  end.
