(** * C12: CR LF is read as LF *)
Require Import Verif.Base Verif.MaybeByteM Verif.InputM Verif.BufferM Verif.LexerM Verif.LexMainM
  Verif.SourceSpec Verif.SourceProofs Verif.Wp Verif.BufInv Verif.LexSpec Verif.NewlineInv Verif.MainInv Verif.RunInv Verif.Prop_Lexer
  Verif.ReadSpec Verif.YylexSpec Verif.Reach Verif.IdentSpec Verif.IdentStep Verif.Prop_Ident Verif.Prop_End Verif.ParserClientM Verif.Prop_Client.
Require Import ZifyBool ZifyNat ZifyN.

(** ** Specification *)

(** The characters of a text: each CR LF counts as one line feed *)
Fixpoint collapse (l : list N) : list N :=
  match l with
  | [] => []
  | c :: r => match r with
              | d :: _ => if (N.eqb c 13 && N.eqb d 10)%bool then collapse r else c :: collapse r
              | [] => [c]
              end
  end.

(** The text with its line feeds written CR LF *)
Definition crlf (l : list N) : list N := flat_map (fun c => if N.eqb c 10 then [13; 10]%N else [c]) l.

(** A sequence of reads *)
Inductive delivers (e : Env) : Buffer -> list N -> Buffer -> Prop :=
| dl_nil : forall b, delivers e b [] b
| dl_cons : forall b c b1 l b2, b_nextc e b = Ok (Some c) b1 -> delivers e b1 l b2 -> delivers e b (c :: l) b2.

Lemma collapse_cons : forall c r, (c <> 13 \/ hd_error r <> Some 10)%N -> collapse (c :: r) = c :: collapse r.
Proof.
  intros c r H. cbn [collapse]. destruct r as [|d r]; [reflexivity|].
  destruct (N.eqb c 13 && N.eqb d 10)%bool eqn:E; auto. exfalso. cbn in H. destruct H as [H|H]; [lia|]. apply H. f_equal. lia.
Qed.

Lemma collapse_same : forall l, ~ In 13%N l -> collapse l = l.
Proof.
  intros l. induction l as [|c l IH]; intros H; [reflexivity|]. cbn [In] in H. rewrite collapse_cons; [rewrite IH; tauto|]. left. intros ->. tauto.
Qed.

Lemma collapse_crlf : forall l, ~ In 13%N l -> collapse (crlf l) = l.
Proof.
  intros l. induction l as [|c l IH]; intros H; [reflexivity|]. cbn [In] in H. unfold crlf. cbn [flat_map]. fold (crlf l).
  destruct (N.eqb c 10) eqn:E.
  - apply N.eqb_eq in E. subst c. cbn [app]. change (collapse (13 :: 10 :: crlf l)%N) with (collapse (10%N :: crlf l)). rewrite collapse_cons by (left; discriminate). rewrite IH by tauto. reflexivity.
  - cbn [app]. rewrite collapse_cons by (left; intros ->; tauto). rewrite IH by tauto. reflexivity.
Qed.

(** ** One read *)
Lemma bget : forall S A (f : S -> M S A) e s, bind get f e s = f s e s.
Proof. reflexivity. Qed.
Lemma bmod : forall S A g (f : unit -> M S A) e s, bind (modify g) f e s = f tt e (g s).
Proof. reflexivity. Qed.

Lemma nextc_flush : forall B b, BWF B b -> eofp b = false -> pcur b = pend b \/ nextline b <> 0 -> (nextline b = 0 -> line_count b < NL B) ->
  forall e, b_nextc e (b_token_flush b) = b_nextc e b.
Proof.
  intros B b HW HE HP HN e.
  assert (E2 : ((pcur b =? pend b) || eofp b || negb (nextline b =? 0)) = true) by lia.
  assert (EL : b_nextline e (b_token_flush b) = b_nextline e b).
  { unfold b_nextline. rewrite !bget. cbv zeta. rewrite !bmod.
    change (nextline (b_token_flush b)) with (nextline b). change (eofp (b_token_flush b)) with (eofp b). change (pbeg (b_token_flush b)) with (pbeg b).
    change (pend (b_token_flush b)) with (pend b). change (input (b_token_flush b)) with (input b).
    destruct (nextline b =? 0) eqn:E.
    - rewrite HE.
      assert (EN : forall A (f : bool -> M Buffer A) s, bind (if pbeg b <? pend b then x <- expect (in_byte_at (input b) (pend b - 1)) "index out of bounds" ;; ret (negb (N.eqb x 10)) else ret false) f e s = f false e s).
      { intros A f s. destruct (pbeg b <? pend b) eqn:Ep; [|reflexivity].
        pose proof (w_last B b HW). pose proof (w_count B b HW).
        destruct (line_newline B (lastline b)) as (_ & A1 & _); [lia|]. rewrite <- (w_pend B b HW) in A1.
        rewrite in_byte_at_B with (B := B) by exact HW. rewrite A1. reflexivity. }
      rewrite !EN. unfold getline, bind, get, modify, ret. cbn [set_nextline b_token_flush set_ptok line_count input].
      rewrite (w_lines B b HW). fold (NL B). replace (line_count b <? NL B) with true by lia.
      unfold load_line, bind, get, modify, ret, when, expect. cbn [set_nextline set_line_count set_cr_seen b_token_flush set_ptok line_count input heredoc_end].
      destruct (line_at (input b) (line_count b)); [|reflexivity]. unfold ret. destruct (0 <? heredoc_end b); reflexivity.
    - unfold load_line, bind, get, modify, ret, when, expect. cbn [set_nextline set_line_count set_cr_seen b_token_flush set_ptok line_count input heredoc_end].
      destruct (line_at (input b) (nextline b)); [|reflexivity]. unfold ret. destruct (0 <? heredoc_end b); reflexivity. }
  unfold b_nextc. rewrite !bget. unfold b_token_flush at 1 2 3 4. cbn [pcur pend eofp nextline set_ptok]. rewrite E2.
  unfold bind. rewrite EL. reflexivity.
Qed.

Lemma read_upcoming : forall B b p, BWF B b -> upcoming b p -> p < List.length B ->
  exists b1, Ready B b1 /\ pcur b1 = p /\ p < pend b1 /\ (in_order b -> in_order b1) /\ (forall e, b_nextc e b = b_nextc e b1) /\ heredoc_indent b1 = heredoc_indent b.
Proof.
  intros B b p HW HU Hp. pose proof HU as (HE & [(H1 & H2 & ->)|(l & H1 & H2 & H3)]).
  - exists b. unfold Ready. splits; auto.
  - destruct (flush_nextc B b p HW HU Hp) as (b1 & R1 & R2 & R3 & R4 & R5 & R6 & R7). exists b1. splits; auto.
    intros e. specialize (R7 e). rewrite <- R7. symmetry. apply (nextc_flush B); auto.
    + destruct (nextline b); [left; auto|right; lia].
    + intros E. rewrite E in H1. cbn [Nat.eqb] in H1. unfold line_at in H1. rewrite (w_lines B b HW) in H1. apply nth_error_Some. congruence.
Qed.

Lemma rd_cr : forall B e b p, Ready B b -> pbeg b <= p -> p < pend b -> nth_error B p = Some 13%N -> nth_error B (p + 1) <> Some 10%N ->
  b_nextc e (set_pcur p b) = Ok (Some 13%N) (set_pcur (p + 1) b).
Proof.
  intros B e b p HR Hp0 Hp Hx Ey. pose proof HR as (HW & N1 & N2).
  unfold b_nextc, bind, get, modify, ret. cbn [pcur pend set_pcur eofp nextline]. rewrite N1, N2.
  replace (p =? pend b) with false by lia. cbn [orb negb Nat.eqb input set_pcur pcur]. rewrite (rd_at B b HR), Hx.
  cbn [N.eqb Pos.eqb]. unfold parser_cr, b_peek, b_peek_n, bind, get, modify, ret, is_eol_n.
  cbn [pcur pend set_pcur input]. rewrite Nat.add_0_r. destruct (pend b <=? p + 1) eqn:E; [reflexivity|].
  rewrite (rd_at B b HR). destruct (bwf_byte B b (p + 1) HW) as (y & Hy); [lia|]. rewrite Hy in *. cbn [expect]. unfold ret.
  replace (N.eqb 10 y) with false; [reflexivity|]. symmetry. apply N.eqb_neq. congruence.
Qed.

(** The reader behind position [q] of the line *)
Lemma behind : forall B b q, Ready B b -> pcur b <= q -> q < pend b -> ~ (nth_error B q = Some 13%N /\ nth_error B (q + 1) = Some 10%N) ->
  BWF B (set_pcur (q + 1) b) /\ (in_order b -> q + 1 < List.length B -> upcoming (set_pcur (q + 1) b) (q + 1)).
Proof.
  intros B b q (W1 & N1 & E1) Hb Hq Hs.
  pose proof (w_last B b W1) as Wl. pose proof (w_count B b W1) as Wc. pose proof (w_pend B b W1) as We. pose proof (w_pbeg B b W1) as Wb. pose proof (pend_le B b W1) as Wle.
  split.
  - destruct W1. constructor; cbn; auto; try lia. intros _ A C. replace (q + 1 - 1) with q in A by lia. auto.
  - intros HO HL. split; [exact E1|]. cbn [set_pcur nextline line_count pcur pend input]. rewrite N1. cbn [Nat.eqb].
    destruct (Nat.eq_dec (q + 1) (pend b)) as [E|E]; [right|left; splits; auto; lia].
    unfold in_order in HO. rewrite N1 in HO. cbn [Nat.eqb] in HO.
    assert (HNl : lastline b + 1 < NL B).
    { destruct (Nat.eq_dec (lastline b + 1) (NL B)) as [E2|E2]; [|lia]. destruct (line_last B _ E2) as (A & _). lia. }
    destruct (line_some B (line_count b)) as (l & L1 & L2 & L3); [lia|]. exists l. unfold line_at. rewrite (w_lines B b W1). split; [exact L1|].
    rewrite L2, HO, <- lend_next by lia. rewrite <- We. split; [|intros _]; lia.
Qed.

Lemma end_read : forall B e b, BWF B b -> AtEnd B b -> exists b', b_nextc e b = Ok None b' /\ BWF B b' /\ AtEnd B b'.
Proof.
  intros B e b HW HA.
  assert (H : wp e b_nextc (fun c b' => c = None /\ BWF B b' /\ AtEnd B b') b).
  { apply (b_nextc_ok B); auto. intros c b' HN.
    pose proof (n_wf _ _ _ _ HN) as W'. pose proof (pend_le B b' W'). pose proof (w_pcur2 B b' W').
    pose proof (n_mono _ _ _ _ HN) as Hm.
    assert (c = None).
    { destruct c as [x|]; auto. exfalso. destruct (n_some _ _ _ _ HN x eq_refl) as (S1 & S2 & _ & _ & _ & _ & S3 & _).
      destruct HA as [A|A]; [congruence|]. lia. }
    subst c. splits; auto. destruct (n_none _ _ _ _ HN eq_refl) as [A|(_ & A & _)]; [left|right]; auto. }
  unfold wp in H. destruct (b_nextc e b) as [c b'| |]; try contradiction. destruct H as (-> & H). eauto.
Qed.

Lemma skipn_step : forall (B : list N) p x, nth_error B p = Some x -> skipn p B = x :: skipn (p + 1) B.
Proof.
  induction B as [|y B IH]; intros p x H; destruct p; try discriminate; cbn [nth_error] in H.
  - injection H as ->. reflexivity.
  - cbn [skipn Nat.add]. apply IH. exact H.
Qed.

(** C12.  Whatever the source, reading from position [p] on delivers the characters of the rest, CR LF as one line feed, and
    then the end. *)
Lemma stream : forall B e m b p, BWF B b -> in_order b -> List.length B - p <= m -> (p < List.length B -> upcoming b p) -> (List.length B <= p -> AtEnd B b) ->
  exists b1 b2, delivers e b (collapse (skipn p B)) b1 /\ b_nextc e b1 = Ok None b2.
Proof.
  intros B e m. induction m as [|m IH]; intros b p HW HO Hm HU HE.
  - destruct (end_read B e b HW) as (b' & H & _); [apply HE; lia|]. exists b, b'. rewrite skipn_all2 by lia. split; [constructor|exact H].
  - destruct (Nat.lt_ge_cases p (List.length B)) as [Hp|Hp].
    2: { destruct (end_read B e b HW) as (b' & H & _); [apply HE; lia|]. exists b, b'. rewrite skipn_all2 by lia. split; [constructor|exact H]. }
    destruct (read_upcoming B b p HW (HU Hp) Hp) as (b1 & R1 & R2 & R3 & R4 & R5 & _). pose proof R1 as (W1 & _ & E1).
    pose proof (w_pcur1 B b1 W1) as Wp. specialize (R4 HO).
    destruct (nth_error B p) as [x|] eqn:Hx; [|apply nth_error_None in Hx; lia].
    assert (HGo : forall q c, p <= q -> q < pend b1 -> ~ (nth_error B q = Some 13%N /\ nth_error B (q + 1) = Some 10%N) ->
      b_nextc e (set_pcur p b1) = Ok (Some c) (set_pcur (q + 1) b1) -> collapse (skipn p B) = c :: collapse (skipn (q + 1) B) ->
      exists b2 b3, delivers e b (collapse (skipn p B)) b2 /\ b_nextc e b2 = Ok None b3).
    { intros q c Hq1 Hq2 Hq3 Hq4 Hq5. destruct (behind B b1 q R1 ltac:(lia) Hq2 Hq3) as (G1 & G2).
      destruct (IH (set_pcur (q + 1) b1) (q + 1)) as (b2 & b3 & D1 & D2); auto.
      { lia. }
      { intros A. right. cbn. pose proof (pend_le B b1 W1). lia. }
      exists b2, b3. split; auto. rewrite Hq5. econstructor; [|exact D1]. rewrite R5, <- (rd_here e b1 p R2). exact Hq4. }
    pose proof (skipn_step B p x Hx) as Hsk.
    assert (Hnx : forall d, hd_error (skipn (p + 1) B) = Some d -> nth_error B (p + 1) = Some d).
    { intros d Hd. destruct (nth_error B (p + 1)) as [y|] eqn:Hy.
      - rewrite (skipn_step _ _ _ Hy) in Hd. exact Hd.
      - apply nth_error_None in Hy. rewrite skipn_all2 in Hd by lia. discriminate. }
    destruct (N.eq_dec x 13) as [->|Hx13].
    + destruct (nth_error B (p + 1)) as [y|] eqn:Hy.
      * destruct (N.eq_dec y 10) as [->|Hy10].
        -- destruct (rd_crlf B e b1 R1 p ltac:(lia) R3 Hx Hy) as (H1 & H2). replace (p + 2) with (p + 1 + 1) in H2 by lia.
           apply (HGo (p + 1) 10%N); auto; [lia|rewrite Hy; intros (A & _); discriminate|].
           rewrite Hsk, (skipn_step _ _ _ Hy). change (collapse (13 :: 10 :: skipn (p + 1 + 1) B)%N) with (collapse (10%N :: skipn (p + 1 + 1) B)).
           apply collapse_cons. left. discriminate.
        -- apply (HGo p 13%N); auto; [rewrite Hy; intros (_ & A); congruence| |].
           ++ apply (rd_cr B); auto; [lia|congruence].
           ++ rewrite Hsk. apply collapse_cons. right. intros A. apply Hnx in A. congruence.
      * apply (HGo p 13%N); auto; [rewrite Hy; intros (_ & A); congruence| |].
        -- apply (rd_cr B); auto; [lia|congruence].
        -- rewrite Hsk. apply collapse_cons. right. intros A. apply Hnx in A. congruence.
    + apply (HGo p x); auto.
      * rewrite Hx. intros (A & _). congruence.
      * apply (rd_byte B e b1 R1); auto.
      * rewrite Hsk. apply collapse_cons. auto.
Qed.

Theorem C12_reading : forall B n upper s e p, reached B n upper s -> in_order (buffer s) -> upcoming (buffer s) p -> p < List.length B ->
  exists b1 b2, delivers e (buffer s) (collapse (skipn p B)) b1 /\ b_nextc e b1 = Ok None b2.
Proof.
  intros B n upper s e p HR HO HU Hp. pose proof (reached_inv _ _ _ _ HR) as [HW _ _ _].
  eapply (stream B e (List.length B) (buffer s) p); auto; lia.
Qed.
Print Assumptions C12_reading.

Lemma crlf_app : forall u v, crlf (u ++ v) = crlf u ++ crlf v.
Proof. intros u v. unfold crlf. apply flat_map_app. Qed.

(** C12.  At corresponding positions, the LF source and the CR LF source deliver the same characters *)
Theorem C12_same_characters : forall u v n upper s s' e, v <> [] -> ~ In 13%N (u ++ v) ->
  reached (u ++ v) n upper s -> in_order (buffer s) -> upcoming (buffer s) (List.length u) ->
  reached (crlf (u ++ v)) n upper s' -> in_order (buffer s') -> upcoming (buffer s') (List.length (crlf u)) ->
  (exists b1 b2, delivers e (buffer s) v b1 /\ b_nextc e b1 = Ok None b2) /\
  (exists b1 b2, delivers e (buffer s') v b1 /\ b_nextc e b1 = Ok None b2).
Proof.
  intros u v n upper s s' e Hv Hcr R1 O1 U1 R2 O2 U2.
  assert (Hcv : ~ In 13%N v) by (intros A; apply Hcr, in_or_app; auto).
  assert (Hlv : 0 < List.length (crlf v)). { destruct v as [|c v]; [congruence|]. unfold crlf. cbn [flat_map]. destruct (N.eqb c 10); cbn; lia. }
  split.
  - destruct (C12_reading _ _ _ s e (List.length u) R1 O1 U1) as (b1 & b2 & H1 & H2).
    { rewrite app_length. destruct v; [congruence|cbn; lia]. }
    exists b1, b2. rewrite skipn_app, skipn_all, Nat.sub_diag in H1. cbn [app skipn] in H1. rewrite collapse_same in H1 by auto. auto.
  - destruct (C12_reading _ _ _ s' e (List.length (crlf u)) R2 O2 U2) as (b1 & b2 & H1 & H2).
    { rewrite crlf_app, app_length. lia. }
    exists b1, b2. rewrite crlf_app, skipn_app, skipn_all, Nat.sub_diag in H1. cbn [app skipn] in H1. rewrite collapse_crlf in H1 by auto. auto.
Qed.
Print Assumptions C12_same_characters.

(** ** Reading, un-reading, reading again *)
Lemma some_upcoming : forall B e b c b1, BWF B b -> b_nextc e b = Ok (Some c) b1 -> exists p, upcoming b p /\ p < List.length B.
Proof.
  intros B e b c b1 HW H.
  assert (HN : NextPost B b (Some c) b1).
  { pose proof (b_nextc_ok B e b (fun c b' => NextPost B b c b') HW (fun _ _ H => H)) as K. unfold wp in K. rewrite H in K. exact K. }
  destruct (n_some _ _ _ _ HN c eq_refl) as (S1 & S2 & _ & _ & S5 & _). pose proof (pend_le B b HW) as Hle. pose proof (w_pcur2 B b HW) as Hp2.
  unfold Rm in S5. rewrite S1 in S5.
  destruct (Nat.eq_dec (nextline b) 0) as [E|E].
  - rewrite E in S5. cbn [Nat.eqb] in S5.
    destruct (Nat.eq_dec (pcur b) (pend b)) as [Ep|Ep].
    + assert (HL : line_count b < NL B).
      { destruct (Nat.lt_ge_cases (line_count b) (NL B)) as [|C]; auto. exfalso. rewrite (lstart_out B (line_count b)) in S5 by exact C. lia. }
      destruct (line_some B _ HL) as (l & L1 & L2 & L3). exists (lstart B (line_count b)). split; [|lia].
      split; [exact S1|]. right. exists l. rewrite E. cbn [Nat.eqb]. unfold line_at. rewrite (w_lines B b HW). splits; auto.
    + exists (pcur b). split; [|lia]. split; [exact S1|]. left. splits; auto. lia.
  - destruct (w_next B b HW E) as (A1 & A2 & A3). pose proof (w_count B b HW). assert (HL : nextline b < NL B) by lia.
    destruct (line_some B _ HL) as (l & L1 & L2 & L3). exists (lstart B (nextline b)). pose proof (line_bounds B _ HL). split; [|lia].
    split; [exact S1|]. right. exists l. replace (nextline b =? 0) with false by lia. unfold line_at. rewrite (w_lines B b HW). splits; auto. contradiction.
Qed.

Theorem C12_unread : forall B n upper s e c b1, reached B n upper s -> b_nextc e (buffer s) = Ok (Some c) b1 ->
  exists b2, b_pushback (Some c) e b1 = Ok tt b2 /\ b_nextc e b2 = Ok (Some c) b1.
Proof.
  intros B n upper s e c b1 HR H. pose proof (reached_inv _ _ _ _ HR) as [HW _ _ _].
  destruct (some_upcoming B e (buffer s) c b1 HW H) as (p & HU & Hp).
  destruct (read_upcoming B (buffer s) p HW HU Hp) as (r & R1 & R2 & R3 & _ & R5 & _). pose proof R1 as (W1 & _).
  pose proof (w_pcur1 B r W1) as Wp.
  assert (HI : InL B r p).
  { unfold InL. splits; auto; [lia|]. intros A1 A2 A3. apply (w_nosplit B r W1); rewrite R2; auto. }
  destruct (rd_follow B e r R1 p (set_pcur p r) HI (or_introl eq_refl)) as (c' & b' & F1 & F2 & F3 & F4 & F5 & F6).
  assert (E : b_nextc e (set_pcur p r) = Ok (Some c) b1) by (rewrite <- H, R5; apply (rd_here e r p R2)).
  rewrite E in F1. injection F1 as <- <-.
  assert (HB : back (Some c) b1 = set_pcur p r).
  { destruct F3 as [->|(_ & F3)]; auto. exfalso. destruct F6 as (F6 & _).
    assert (eofp (back (Some c) b1) = true) by (rewrite F3; reflexivity). unfold back in H0. destruct (_ && _ && _) in H0; cbn in H0; congruence. }
  exists (set_pcur p r). split; [|exact E].
  pose proof (pushback_back e (Some c) b1 (fun _ b => b = back (Some c) b1) F4 eq_refl) as K. unfold wp in K.
  destruct (b_pushback (Some c) e b1) as [[] b2| |]; try contradiction. subst b2. rewrite HB. reflexivity.
Qed.
Print Assumptions C12_unread.

(** C12.  A whole source and the same source with CR LF line ends, from the start.  (A source that starts with the byte 239
    may start with a byte order mark, which is skipped.) *)
Theorem C12_whole_source : forall B e name, B <> [] -> hd_error B <> Some 239%N -> ~ In 13%N B ->
  (exists b b1 b2, lexer_new B name e = Ok tt (lexer_init b) /\ delivers e b B b1 /\ b_nextc e b1 = Ok None b2) /\
  (exists b b1 b2, lexer_new (crlf B) name e = Ok tt (lexer_init b) /\ delivers e b B b1 /\ b_nextc e b1 = Ok None b2).
Proof.
  intros B e name HB H239 H13.
  assert (HG : forall C, C <> [] -> hd_error C <> Some 239%N -> collapse C = B ->
    exists b b1 b2, lexer_new C name e = Ok tt (lexer_init b) /\ delivers e b B b1 /\ b_nextc e b1 = Ok None b2).
  { intros C HC Hh Hcol. destruct C as [|x r] eqn:EC; [congruence|]. rewrite <- EC in *.
    destruct (start_reading C e name x r EC) as (b & S1 & S2 & S3 & S4 & S5). { intros ->. apply Hh. rewrite EC. reflexivity. }
    destruct (stream C e (List.length C) b 0) as (b1 & b2 & D1 & D2); auto; try lia.
    { apply S2. }
    { rewrite EC. cbn. lia. }
    exists b, b1, b2. cbn [skipn] in D1. rewrite Hcol in D1. auto. }
  split.
  - apply HG; auto. apply collapse_same; auto.
  - apply HG; [| |apply collapse_crlf; auto]; destruct B as [|x r]; try congruence; unfold crlf; cbn [flat_map]; destruct (N.eqb x 10) eqn:E; cbn in *; try congruence; auto.
Qed.
Print Assumptions C12_whole_source.

(** ** The hypotheses are met *)
Example C12_example : collapse (crlf (bs "a
b
")) = bs "a
b
" /\ crlf (bs "a
b") = [97; 13; 10; 98]%N /\ collapse [97; 13; 13; 10; 13]%N = [97; 13; 10; 13]%N.
Proof. splits; reflexivity. Qed.

Example C12_hypotheses :
  let src := [97; 13; 10; 98; 13; 10; 99]%N in
  exists s, reached src 200 (fun _ => false) s /\ upcoming (buffer s) 3 /\ in_order (buffer s).
Proof.
  set (src := [97; 13; 10; 98; 13; 10; 99]%N). cbn zeta. reach_state src [PNext; PNext]. splits; auto; try reflexivity.
  split; [reflexivity|]. right. vm_compute. eexists. split; [reflexivity|]. split; [reflexivity|]. intros. discriminate || reflexivity.
Qed.

Example C12_unread_hypotheses :
  let src := [97; 13; 10; 98; 13; 10; 99]%N in
  exists s b1, reached src 200 (fun _ => false) s /\ b_nextc (plain_env 200 (fun _ => false)) (buffer s) = Ok (Some 10%N) b1.
Proof.
  set (src := [97; 13; 10; 98; 13; 10; 99]%N). cbn zeta. reach_state src [PNext]. eexists. splits; auto. vm_compute. reflexivity.
Qed.
