(** * C22, C23, C47: heredocs *)
Require Import Verif.Base Verif.MaybeByteM Verif.Utf8M Verif.InputM Verif.DiagnosticM Verif.TokensM Verif.BufferM Verif.LexStateM
  Verif.LexerM Verif.LexStringM Verif.LexIdentM Verif.LexHeredocM Verif.LexMainM Verif.ParserClientM
  Verif.SourceSpec Verif.SourceProofs Verif.Wp Verif.BufInv Verif.LexSpec Verif.NewlineInv Verif.MainInv Verif.RunInv Verif.Prop_Lexer
  Verif.ReadSpec Verif.YylexSpec Verif.Reach Verif.NumRead Verif.IdentRead Verif.IdentStep Verif.Prop_Ident Verif.Prop_Crlf Verif.Prop_End
  Verif.StringSpec Verif.StrStep Verif.StrOpen Verif.Prop_String Verif.HereSpec Verif.HereStep Verif.HereText Verif.HereBody Verif.HereOpen.
Require Import ZifyBool ZifyNat ZifyN.

(** The source from [p] on: the opening, the rest of its line, the lines of the text, the last line and its end.  The last line may be the last of
    the file. *)
Definition here_source (B : list N) (p : nat) (sp pre ql id rest : list N) (ls : list (list N)) (last eol : list N) : Prop :=
  text_at B p (sp ++ here_opener pre ql id ++ rest ++ [10%N] ++ lines_text ls ++ last ++ eol) /\ ~ In 10%N rest /\
  (eol = [10%N] \/ (eol = [] /\ p + List.length (sp ++ here_opener pre ql id ++ rest ++ [10%N] ++ lines_text ls ++ last) = List.length B /\ last <> [])).

(** Some parser reaches [s], where a heredoc may start; the source has no byte order mark *)
Record HerePlace (B : list N) (n : nat) (upper : N -> bool) (s : Lexer) (p : nat) (sp : list N) : Prop := mkHerePlace {
  hp_reached : reached B n upper s;
  hp_term : strterm s = None;
  hp_next : upcoming (buffer s) p;
  hp_order : in_order (buffer s);
  hp_space : spacing (buffer s) sp;
  hp_allowed : here_allowed (lex_state s) sp;
  hp_bom : hd_error B <> Some 239%N;
  hp_fuel : List.length B < n
}.

(** Behind the heredoc: the next byte is that behind the opening, at [q]; what stands there on the line is read, and then what stands behind the last line of the
    heredoc, at [q1] *)
Record HereAfter (B : list N) (s s' : Lexer) (q : nat) (rest : list N) (q1 : nat) : Prop := mkHereAfter {
  ha_next : upcoming (buffer s') q;
  ha_term : strterm s' = None;
  ha_state : lex_state s' = EXPR_END;
  ha_diags : diagnostics s' = diagnostics s;
  ha_comments : comments s' = comments s;
  ha_rest : ~ In 13%N rest -> forall e, exists b, delivers e (buffer s') (rest ++ [10%N]) b /\
    (q1 < List.length B -> upcoming b q1) /\ (q1 = List.length B -> exists b', b_nextc e b = Ok None b')
}.

Lemma reads : forall B e b w p, Ready B b -> text_at B p w -> ~ In 13%N w -> p + List.length w <= pend b -> delivers e (set_pcur p b) w (set_pcur (p + List.length w) b).
Proof.
  intros B e b. induction w as [|x w IH]; intros p HR HT Hn Hp.
  - cbn. rewrite Nat.add_0_r. constructor.
  - apply text_at_cons in HT. destruct HT as (T1 & T2). cbn [List.length In] in *. eapply dl_cons.
    + apply (rd_byte B e b HR p x); [lia|exact T1|intros ->; apply Hn; auto].
    + replace (p + S (List.length w)) with (p + 1 + List.length w) by lia. apply IH; auto. lia.
Qed.

(** Behind a line that has been read, the line of the table follows that is next *)
Lemma after_line : forall B e b q, Ready B b -> pcur b = pend b -> lstart B (line_count b) = q ->
  (q < List.length B -> upcoming b q) /\ (q = List.length B -> exists b', b_nextc e b = Ok None b').
Proof.
  intros B e b q HR HP HC. pose proof HR as (W & N0 & E0). split.
  - intros Hq. split; [exact E0|]. right. rewrite N0, Nat.eqb_refl.
    destruct (Nat.lt_ge_cases (line_count b) (NL B)) as [E|E]; [|rewrite (lstart_out B _ E) in HC; lia].
    destruct (line_some B _ E) as (l & L1 & L2 & L3). exists l. splits; auto; [unfold line_at; rewrite (w_lines B b W); exact L1|congruence].
  - intros Hq.
    assert (HNx : wp e b_nextc (fun c b' => c = None) b).
    { apply (b_nextc_ok B); auto. intros c b' HNp. destruct c as [x|]; [exfalso|reflexivity].
      pose proof (n_some B _ _ _ HNp x eq_refl) as (_ & _ & _ & _ & HS & _). unfold Rm in HS at 2. rewrite E0, N0 in HS. cbn [Nat.eqb] in HS. lia. }
    unfold wp in HNx. destruct (b_nextc e b) as [c b'| |]; try contradiction. subst c. eauto.
Qed.

Lemma lines_start : forall B ls k p w, lstart B k = p -> text_at B p (lines_text ls ++ w) -> Forall plain_line ls -> lstart B (k + List.length ls) = tstart p ls.
Proof.
  intros B. induction ls as [|l r IH]; intros k p w Hk HT HF.
  - cbn. unfold tstart. cbn. rewrite !Nat.add_0_r. exact Hk.
  - pose proof (Forall_inv HF) as (H10 & _). change (lines_text (l :: r)) with ((l ++ [10%N]) ++ lines_text r) in HT. rewrite <- (app_assoc (l ++ [10%N])) in HT. apply text_at_app in HT.
    rewrite app_length in HT. cbn [List.length] in HT. rewrite Nat.add_assoc in HT. destruct HT as (T1 & T2). destruct (line_here B k p l Hk T1 H10) as (_ & _ & A).
    assert (Et : tstart p (l :: r) = tstart (p + List.length l + 1) r) by (unfold tstart; cbn [lines_text flat_map]; rewrite !app_length; cbn; fold (lines_text r); lia).
    rewrite Et. cbn [List.length]. replace (k + S (List.length r)) with (k + 1 + List.length r) by lia. eapply IH; eauto. exact (Forall_inv_tail HF).
Qed.

(** ** All heredocs whose text has no escapes and no interpolation *)
Section Here.
  Variables (B : list N) (n : nat) (upper : N -> bool) (s : Lexer) (p : nat) (sp pre : list N) (indent : bool) (z : Z) (ql : list N) (beg : Tok) (expand : bool) (id rest : list N) (ls : list (list N)) (last eol : list N).
  Hypothesis HP : HerePlace B n upper s p sp.
  Hypothesis HM : here_mark pre indent z.
  Hypothesis HQ : here_quote ql beg expand.
  Hypothesis HN : here_name indent id.
  Hypothesis HF : name_fits ql id (rest ++ [10%N]).
  Hypothesis HS : here_source B p sp pre ql id rest ls last eol.
  Hypothesis HL : Forall (fun l => plain_line l /\ ~ ends_here indent id l) ls.
  Hypothesis HE : plain_line last /\ ends_here indent id last.
  Hypothesis HX : expand = true -> Forall expand_line ls.
  Hypothesis HB : expand = true -> (0 < z)%Z -> Forall (fun l => is_blank l = true -> l = []) ls.

  Let q := p + List.length sp.
  Let q0 := q + List.length (here_opener pre ql id).
  Let p1 := q0 + List.length rest + 1.
  Let t := p1 + List.length (lines_text ls).

  Theorem heredoc_lexes : exists s', lexes (plain_env n upper) s
      (tok_at beg (here_opener pre ql id) q (List.length (here_opener pre ql id)) ::
       here_tokens z p1 ls (if expand then t else t + List.length last + List.length eol - 1) ++ [tok_at tSTRING_END (drop_spaces last) t (List.length last)]) s' /\
    HereAfter B s s' q0 rest (t + List.length last + List.length eol) /\ heredoc_indent (buffer s') = fold_left less_indent ls z.
  Proof using All.
    destruct HP as [P1 P2 P3 P4 P5 P6 P7 P8]. destruct HS as (HT & H10 & HC). pose proof HN as (I10 & I13 & _).
    pose proof (reached_inv B n upper s P1) as HI. pose proof HI as [HW _ _ (L1 & L2)].
    set (e := plain_env n upper) in *.
    assert (HT1 : text_at B p (sp ++ here_opener pre ql id ++ rest ++ [10%N])).
    { replace (sp ++ here_opener pre ql id ++ rest ++ [10%N] ++ lines_text ls ++ last ++ eol) with ((sp ++ here_opener pre ql id ++ rest ++ [10%N]) ++ lines_text ls ++ last ++ eol) in HT by (rewrite <- !app_assoc; reflexivity).
      eapply text_prefix; exact HT. }
    assert (HT2 : text_at B p1 (lines_text ls ++ last ++ eol)).
    { apply text_at_app in HT. destruct HT as (_ & K). fold q in K. apply text_at_app in K. destruct K as (_ & K). fold q0 in K. apply text_at_app in K. destruct K as (_ & K).
      apply text_at_cons in K. destruct K as (_ & K). exact K. }
    destruct (here_open B e P8 s p sp pre indent z ql beg expand id rest) as (s1 & b & E & R1 & R2 & R3 & R4 & R5 & R6 & R7 & R8 & R9 & R10 & R11); auto.
    fold q in E, R2, R3, R7. fold q0 in R3. fold p1 in R3.
    pose proof (step_inv B n upper s _ s1 HI E ltac:(clear - HQ; destruct HQ; discriminate)) as [W1 Hb _ _].
    (* no byte order mark *)
    assert (Epb : pbeg b = lstart B (lastline b)).
    { pose proof R1 as (W & _). pose proof (w_pbeg B b W) as K. destruct Hb as [Hb|(_ & _ & Hb)].
      - unfold bonus in Hb. rewrite R6 in Hb. cbn in Hb. lia.
      - exfalso. apply text_at_cons in Hb. destruct Hb as (Hb & _). apply P7. destruct B; [discriminate|exact Hb]. }
    pose proof R1 as (W & N0 & E0). pose proof (w_pcur1 B b W) as Wc. pose proof (w_pend B b W) as We.
    assert (Hl1 : lstart B (lastline b + 1) = p1). { rewrite <- lend_next by lia. lia. }
    set (h := mkHeredocLiteral (lastline b) (q - pbeg b + 2 + List.length pre + List.length ql) (ruby_sourceline b) (List.length id) (List.length ql) (N.lor (if indent then STR_FUNC_INDENT else 0%N) (if expand then STR_FUNC_EXPAND else 0%N))) in *.
    pose proof (opener_length pre ql id) as Hop.
    assert (Hh : hend B h = q0). { unfold hend, h. cbn [hl_lastline hl_offset hl_length hl_quote]. unfold q0. lia. }
    assert (HOk : HereOk B h indent expand id).
    { constructor; try reflexivity.
      - cbn. lia.
      - cbn [h hl_lastline hl_offset]. apply text_at_app in HT1. destruct HT1 as (_ & K). fold q in K. apply text_prefix in K. unfold here_opener in K. cbn [app] in K.
        apply text_at_cons in K. destruct K as (_ & K). apply text_at_cons in K. destruct K as (_ & K). apply text_at_app in K. destruct K as (_ & K). apply text_at_app in K. destruct K as (_ & K). apply text_prefix in K.
        replace (lstart B (lastline b) + (q - pbeg b + 2 + List.length pre + List.length ql)) with (q + 1 + 1 + List.length pre + List.length ql) by lia. exact K.
      - rewrite Hh. intros K. assert (K1 : In 13%N (here_opener pre ql id)).
        { apply (nth_error_In _ (List.length (here_opener pre ql id) - 1)). rewrite <- (text_nth B (here_opener pre ql id) q); [|apply text_at_app in HT1; destruct HT1 as (_ & K1); eapply text_prefix; exact K1|lia].
          rewrite <- K. f_equal. unfold q0. lia. }
        unfold here_opener in K1. repeat (apply in_app_or in K1; destruct K1 as [K1|K1]); [destruct K1 as [K1|[K1|[]]]; discriminate|destruct HM; cbn in K1; intuition discriminate|destruct HQ; cbn in K1; intuition discriminate|contradiction|destruct HQ; cbn in K1; intuition discriminate].
      - rewrite Hh. cbn [h hl_lastline]. rewrite <- We, R3. unfold p1. lia. }
    assert (HIn : InHere B h s s1 (lastline b + 1) z).
    { constructor; rewrite ?R6; cbn; auto; [|congruence].
      split; [|split; cbn; auto]. rewrite R6 in W1. exact W1. }
    assert (Hls : List.length ls < fuel e).
    { cbn. assert (List.length ls <= List.length (lines_text ls)). { clear. induction ls as [|l r IH]; [cbn; lia|]. cbn [lines_text flat_map List.length]. rewrite !app_length. cbn. fold (lines_text r). lia. }
      assert (K : lines_text ls ++ last ++ eol <> []).
      { intros K. apply app_eq_nil in K. destruct K as (_ & K). apply app_eq_nil in K. destruct K as (K1 & K2). destruct HC as [HC|(_ & _ & HC)]; [rewrite K2 in HC; discriminate|contradiction]. }
      pose proof (text_at_len B _ _ HT2 K) as K3. rewrite app_length in K3. lia. }
    assert (Hcl : closes B last eol (tstart p1 ls)).
    { destruct HC as [HC|(HC1 & HC2 & HC3)]; [left; exact HC|right]. splits; auto. rewrite <- HC2. rewrite !app_length. unfold tstart, p1, q0, q. cbn. clear. lia. }
    assert (Hz : (0 <= z)%Z) by (destruct HM; lia).
    destruct (here_body B e h indent expand id last eol HOk HN HE ls s s1 (lastline b + 1) p1 z) as (s' & X1 & X2); auto; [cbn; lia|].
    assert (Ets : tstart p1 ls = t) by reflexivity. rewrite Ets in *.
    exists s'. destruct X2 as [D1 D2 D3 D4 D5 D6 D7 D8 D9 D10]. splits; auto.
    { eapply lx_cons; [exact E|clear - HQ; destruct HQ; discriminate|]. exact X1. }
    rewrite Hh in D2. cbn [h hl_lastline] in D3. rewrite <- We, R3 in D3.
    assert (Hst : lstart B (lastline b + 1 + List.length ls) = t).
    { rewrite <- Ets. eapply lines_start; [exact Hl1|exact HT2|]. eapply Forall_impl; [|exact HL]. intros a (K & _). exact K. }
    assert (HT3 : text_at B t (last ++ eol)) by (apply text_at_app in HT2; apply HT2).
    assert (Hend : lstart B (lastline b + 1 + List.length ls + 1) = t + List.length last + List.length eol).
    { destruct HE as ((E10 & _) & _). destruct Hcl as [Hcl|(Hc1 & Hc2 & Hc3)].
      - rewrite Hcl in HT3. destruct (line_here B _ t last Hst HT3 E10) as (_ & _ & A). rewrite A, Hcl. cbn. lia.
      - rewrite Hc1, app_nil_r in HT3. destruct (line_rest B _ t last Hst HT3 E10 Hc2 Hc3) as (A & _). rewrite lstart_out by lia. rewrite Hc1. cbn. lia. }
    constructor; auto.
    - destruct D1 as (W' & A1 & A2). split; [exact A2|]. left. splits; auto. rewrite D2, D3. unfold p1. lia.
    - intros H13 e'. exists (set_pcur p1 (buffer s')). pose proof D1 as (W' & A1 & A2). split.
      + pose proof (reads B e' (buffer s') (rest ++ [10%N]) q0 D1) as K. 
        assert (Eb : set_pcur q0 (buffer s') = buffer s') by (rewrite <- D2; apply set_pcur_same). rewrite Eb in K.
        rewrite app_length in K. cbn [List.length] in K. replace (q0 + (List.length rest + 1)) with p1 in K by (unfold p1; lia). apply K.
        * apply text_at_app in HT1. destruct HT1 as (_ & K1). fold q in K1. apply text_at_app in K1. apply K1.
        * intros K1. apply in_app_or in K1. destruct K1 as [K1|[K1|[]]]; [contradiction|discriminate].
        * rewrite D3. lia.
      + apply after_line.
        * split; [|split; auto]. rewrite <- D3. apply BWF_goto_eol; auto.
        * cbn. congruence.
        * cbn. rewrite D4. exact Hend.
  Qed.
End Here.

(** ** The indentation *)
Lemma is_blank_iff : forall l, is_blank l = true <-> blank_line l.
Proof.
  unfold blank_line. induction l as [|c r IH]; [split; [constructor|reflexivity]|]. split.
  - intros H. assert (K : (c = 32 \/ c = 9)%N /\ is_blank r = true).
    { cbn in H. destruct c as [|p]; [discriminate|]. revert H. do 6 (try (destruct p as [p|p|]; try discriminate)); auto. }
    destruct K as (K1 & K2). constructor; [exact K1|]. apply IH. exact K2.
  - intros H. inversion H as [|? ? H1 H2]; subst. apply IH in H2. destruct H1 as [-> | ->]; exact H2.
Qed.

Lemma width_min : forall l, (0 <= width l)%Z.
Proof. intros l. unfold width. pose proof (width_from_ge l 0 ltac:(lia)). lia. Qed.

(** Keeping the smaller of two widths line by line gives the least width *)
Lemma fold_least : forall top ls, least top ls (fold_left less_indent ls top).
Proof.
  intros top ls. revert top. induction ls as [|l r IH]; intros top.
  - cbn. split; [lia|]. split; [intros l []|]. left. reflexivity.
  - cbn [fold_left]. destruct (IH (less_indent top l)) as (A1 & A2 & A3). unfold less_indent in *. destruct (is_blank l) eqn:E.
    + split; [exact A1|]. split.
      * intros l' [<-|K] Hb; [exfalso; apply Hb, is_blank_iff, E|auto].
      * destruct A3 as [A3|(l' & K1 & K2)]; [left; exact A3|right; exists l'; split; [right; exact K1|exact K2]].
    + assert (Hn : ~ blank_line l) by (intros K; apply is_blank_iff in K; congruence). split; [lia|]. split.
      * intros l' [<-|K] Hb; [lia|auto].
      * destruct A3 as [A3|(l' & K1 & K2)].
        -- destruct (Z.le_ge_cases top (width l)) as [K|K]; [left; lia|]. right. exists l. splits; auto; [left; reflexivity|lia].
        -- right. exists l'. split; [right; exact K1|exact K2].
Qed.

Lemma least_unique : forall top ls m m', least top ls m -> least top ls m' -> m = m'.
Proof.
  intros top ls m m' (A1 & A2 & A3) (B1 & B2 & B3). destruct A3 as [A3|(l & L1 & L2 & L3)], B3 as [B3|(l' & K1 & K2 & K3)]; try congruence.
  - specialize (A2 l' K1 K2). lia.
  - specialize (B2 l L1 L2). lia.
  - specialize (A2 l' K1 K2). specialize (B2 l L1 L2). lia.
Qed.

Lemma no_indent : forall l, less_indent 0 l = 0%Z.
Proof. intros l. unfold less_indent. pose proof (width_min l). destruct (is_blank l); lia. Qed.

(** The token of the text of a heredoc that keeps its indentation *)
Definition raw_text (ls : list (list N)) (p stop : nat) : list Token := match ls with [] => [] | _ => [mkToken tSTRING_CONTENT (lines_text ls) (mkLoc p stop)] end.

(** ** C22, C47: heredocs that keep their indentation *)
(** All forms.  The text of the interpolating forms must have no backslash and no interpolation. *)
Lemma kept : forall B n upper s p sp pre indent ql beg expand id rest ls last eol,
  HerePlace B n upper s p sp -> here_mark pre indent 0 -> here_quote ql beg expand -> here_name indent id -> name_fits ql id (rest ++ [10%N]) -> here_source B p sp pre ql id rest ls last eol ->
  Forall (fun l => plain_line l /\ ~ ends_here indent id l) ls -> plain_line last -> ends_here indent id last -> (expand = true -> Forall expand_line ls) ->
  let q := p + List.length sp in
  let q0 := q + List.length (here_opener pre ql id) in
  let p1 := q0 + List.length rest + 1 in
  let t := p1 + List.length (lines_text ls) in
  exists s', lexes (plain_env n upper) s
      (tok_at beg (here_opener pre ql id) q (List.length (here_opener pre ql id)) ::
       raw_text ls p1 (if expand then t else t + List.length last + List.length eol - 1) ++ [tok_at tSTRING_END (drop_spaces last) t (List.length last)]) s' /\
    HereAfter B s s' q0 rest (t + List.length last + List.length eol) /\ heredoc_indent (buffer s') = 0%Z.
Proof.
  intros B n upper s p sp pre indent ql beg expand id rest ls last eol HP HM HQ HN HF HS HL HE1 HE2 HX q q0 p1 t.
  destruct (heredoc_lexes B n upper s p sp pre indent 0 ql beg expand id rest ls last eol HP HM HQ HN HF HS HL (conj HE1 HE2) HX ltac:(lia)) as (s' & X1 & X2 & X3). fold q q0 p1 t in X1, X2.
  exists s'. splits; auto.
  - match type of X1 with context [here_tokens 0 p1 ls ?st] => replace (raw_text ls p1 st) with (here_tokens 0 p1 ls st); [exact X1|] end.
    destruct ls as [|l r]; [reflexivity|]. cbn [here_tokens raw_text]. rewrite no_indent. reflexivity.
  - rewrite X3. clear. induction ls as [|l r IH]; [reflexivity|]. cbn [fold_left]. rewrite no_indent. exact IH.
Qed.

Lemma kept_program : forall name n upper pre indent ql beg expand id rest ls last eol,
  let B := here_opener pre ql id ++ rest ++ [10%N] ++ lines_text ls ++ last ++ eol in
  here_mark pre indent 0 -> here_quote ql beg expand -> here_name indent id -> name_fits ql id (rest ++ [10%N]) -> ~ In 10%N rest -> (eol = [10%N] \/ (eol = [] /\ last <> [])) ->
  Forall (fun l => plain_line l /\ ~ ends_here indent id l) ls -> plain_line last -> ends_here indent id last -> (expand = true -> Forall expand_line ls) -> enough B <= n ->
  let q0 := List.length (here_opener pre ql id) in
  let p1 := q0 + List.length rest + 1 in
  let t := p1 + List.length (lines_text ls) in
  exists more s', run_lexer B name (plain_env n upper) = Ok
      (tok_at beg (here_opener pre ql id) 0 q0 :: raw_text ls p1 (if expand then t else t + List.length last + List.length eol - 1) ++
       tok_at tSTRING_END (drop_spaces last) t (List.length last) :: more) s'.
Proof.
  intros name n upper pre indent ql beg expand id rest ls last eol B HM HQ HN HF H10 HC HL HE1 HE2 HX Hn q0 p1 t. unfold enough in Hn.
  destruct (start_reading B (plain_env n upper) name 60%N (skipn 1 B)) as (b & E1 & E2 & E3 & E4 & E5); [reflexivity|discriminate|].
  destruct (kept B n upper (lexer_init b) 0 [] pre indent ql beg expand id rest ls last eol) as (s' & X1 & _ & _); auto.
  - constructor; auto; [eapply reached_start; eauto| |discriminate|lia].
    unfold here_allowed. splits; try (intros K; vm_compute in K; discriminate). intros K. exfalso. revert K. vm_compute. intros K. repeat (destruct K as [K|K]); discriminate.
  - split; [|split; [exact H10|]].
    + unfold text_at. cbn [app skipn]. fold B. apply firstn_all.
    + destruct HC as [HC|(HC1 & HC2)]; [left; exact HC|right]. splits; auto. cbn [app Nat.add]. unfold B. rewrite HC1, app_nil_r. reflexivity.
  - cbn [List.length Nat.add] in X1. fold q0 p1 t in X1.
    destruct (run_prefix B name n upper _ _ _ E1 X1) as (more & s'' & R); [unfold enough; lia| |].
    + cbn [List.length]. rewrite app_length. cbn [List.length]. unfold raw_text. destruct ls; cbn [List.length]; lia.
    + exists more, s''. rewrite R. cbn [app]. rewrite <- app_assoc. reflexivity.
Qed.

Lemma quoted_fits : forall c id rest, ~ In c id -> name_fits [c] id rest.
Proof. intros c id rest H. split; [intros c' K; injection K as <-; exact H|discriminate]. Qed.

(** C22: [<<'ID'] and [<<-'ID'].  The content is the text, byte for byte.  The location of the content runs on to the end of the last line. *)
Theorem C22_raw_heredoc : forall B n upper s p sp pre indent id rest ls last eol,
  HerePlace B n upper s p sp -> here_mark pre indent 0 -> here_name indent id -> ~ In 39%N id -> here_source B p sp pre [39%N] id rest ls last eol ->
  Forall (fun l => plain_line l /\ ~ ends_here indent id l) ls -> plain_line last -> ends_here indent id last ->
  let q := p + List.length sp in
  let q0 := q + List.length (here_opener pre [39%N] id) in
  let p1 := q0 + List.length rest + 1 in
  let t := p1 + List.length (lines_text ls) in
  exists s', lexes (plain_env n upper) s
      (tok_at tSTRING_BEG (here_opener pre [39%N] id) q (List.length (here_opener pre [39%N] id)) ::
       raw_text ls p1 (t + List.length last + List.length eol - 1) ++ [tok_at tSTRING_END (drop_spaces last) t (List.length last)]) s' /\
    HereAfter B s s' q0 rest (t + List.length last + List.length eol) /\ heredoc_indent (buffer s') = 0%Z.
Proof.
  intros B n upper s p sp pre indent id rest ls last eol HP HM HN H39 HS HL HE1 HE2.
  exact (kept B n upper s p sp pre indent _ _ _ id rest ls last eol HP HM hq_single HN (quoted_fits _ _ _ H39) HS HL HE1 HE2 ltac:(discriminate)).
Qed.

(** In a program that starts with the heredoc *)
Theorem C22_program : forall name n upper pre indent id rest ls last eol,
  let B := here_opener pre [39%N] id ++ rest ++ [10%N] ++ lines_text ls ++ last ++ eol in
  here_mark pre indent 0 -> here_name indent id -> ~ In 39%N id -> ~ In 10%N rest -> (eol = [10%N] \/ (eol = [] /\ last <> [])) ->
  Forall (fun l => plain_line l /\ ~ ends_here indent id l) ls -> plain_line last -> ends_here indent id last -> enough B <= n ->
  let q0 := List.length (here_opener pre [39%N] id) in
  let p1 := q0 + List.length rest + 1 in
  let t := p1 + List.length (lines_text ls) in
  exists more s', run_lexer B name (plain_env n upper) = Ok
      (tok_at tSTRING_BEG (here_opener pre [39%N] id) 0 q0 :: raw_text ls p1 (t + List.length last + List.length eol - 1) ++
       tok_at tSTRING_END (drop_spaces last) t (List.length last) :: more) s'.
Proof.
  intros name n upper pre indent id rest ls last eol B HM HN H39 H10 HC HL HE1 HE2 Hn.
  exact (kept_program name n upper pre indent _ _ _ id rest ls last eol HM hq_single HN (quoted_fits _ _ _ H39) H10 HC HL HE1 HE2 ltac:(discriminate) Hn).
Qed.

(** C47: [<<ID], [<<"ID"], the form with backquotes, and these with [-].  The content of a text without backslash and interpolation is the text, byte for
    byte, and its location is that of the text.  A name without quotes ends at the first byte that is no name character. *)
Theorem C47_heredoc_text : forall B n upper s p sp pre indent ql beg id rest ls last eol,
  HerePlace B n upper s p sp -> here_mark pre indent 0 -> here_quote ql beg true -> here_name indent id -> name_fits ql id (rest ++ [10%N]) -> here_source B p sp pre ql id rest ls last eol ->
  Forall (fun l => plain_line l /\ ~ ends_here indent id l /\ expand_line l) ls -> plain_line last -> ends_here indent id last ->
  let q := p + List.length sp in
  let q0 := q + List.length (here_opener pre ql id) in
  let p1 := q0 + List.length rest + 1 in
  let t := p1 + List.length (lines_text ls) in
  exists s', lexes (plain_env n upper) s
      (tok_at beg (here_opener pre ql id) q (List.length (here_opener pre ql id)) ::
       raw_text ls p1 t ++ [tok_at tSTRING_END (drop_spaces last) t (List.length last)]) s' /\
    HereAfter B s s' q0 rest (t + List.length last + List.length eol) /\ heredoc_indent (buffer s') = 0%Z.
Proof.
  intros B n upper s p sp pre indent ql beg id rest ls last eol HP HM HQ HN HF HS HL HE1 HE2.
  apply (kept B n upper s p sp pre indent _ _ true id rest ls last eol HP HM HQ HN HF HS); auto.
  - eapply Forall_impl; [|exact HL]. cbn. tauto.
  - intros _. eapply Forall_impl; [|exact HL]. cbn. tauto.
Qed.

Theorem C47_program : forall name n upper pre indent ql beg id rest ls last eol,
  let B := here_opener pre ql id ++ rest ++ [10%N] ++ lines_text ls ++ last ++ eol in
  here_mark pre indent 0 -> here_quote ql beg true -> here_name indent id -> name_fits ql id (rest ++ [10%N]) -> ~ In 10%N rest -> (eol = [10%N] \/ (eol = [] /\ last <> [])) ->
  Forall (fun l => plain_line l /\ ~ ends_here indent id l /\ expand_line l) ls -> plain_line last -> ends_here indent id last -> enough B <= n ->
  let q0 := List.length (here_opener pre ql id) in
  let p1 := q0 + List.length rest + 1 in
  let t := p1 + List.length (lines_text ls) in
  exists more s', run_lexer B name (plain_env n upper) = Ok
      (tok_at beg (here_opener pre ql id) 0 q0 :: raw_text ls p1 t ++ tok_at tSTRING_END (drop_spaces last) t (List.length last) :: more) s'.
Proof.
  intros name n upper pre indent ql beg id rest ls last eol B HM HQ HN HF H10 HC HL HE1 HE2 Hn.
  apply (kept_program name n upper pre indent _ _ true id rest ls last eol HM HQ HN HF); auto.
  - eapply Forall_impl; [|exact HL]. cbn. tauto.
  - intros _. eapply Forall_impl; [|exact HL]. cbn. tauto.
Qed.

(** ** C23: heredocs that remove their indentation *)
(** The indentation to remove is the least width of the lines that are not blank.  The lines come one by one as long as indentation is left to remove.
    In a form that interpolates, the text must have no backslash and no interpolation, and its blank lines must be empty: see [C23_refuted]. *)
Theorem C23_indentation_partial : forall B n upper s p sp ql beg expand id rest ls last eol,
  HerePlace B n upper s p sp -> here_quote ql beg expand -> here_name true id -> name_fits ql id (rest ++ [10%N]) -> here_source B p sp [126%N] ql id rest ls last eol ->
  Forall (fun l => plain_line l /\ ~ ends_here true id l) ls -> plain_line last -> ends_here true id last ->
  (expand = true -> Forall (fun l => expand_line l /\ (blank_line l -> l = [])) ls) ->
  let q := p + List.length sp in
  let q0 := q + List.length (here_opener [126%N] ql id) in
  let p1 := q0 + List.length rest + 1 in
  let t := p1 + List.length (lines_text ls) in
  exists s' m, lexes (plain_env n upper) s
      (tok_at beg (here_opener [126%N] ql id) q (List.length (here_opener [126%N] ql id)) ::
       here_tokens 2147483647 p1 ls (if expand then t else t + List.length last + List.length eol - 1) ++ [tok_at tSTRING_END (drop_spaces last) t (List.length last)]) s' /\
    HereAfter B s s' q0 rest (t + List.length last + List.length eol) /\ heredoc_indent (buffer s') = m /\ least 2147483647 ls m.
Proof.
  intros B n upper s p sp ql beg expand id rest ls last eol HP HQ HN HF HS HL HE1 HE2 HX q q0 p1 t.
  destruct (heredoc_lexes B n upper s p sp [126%N] true 2147483647 ql beg expand id rest ls last eol HP hm_tilde HQ HN HF HS HL (conj HE1 HE2)) as (s' & X1 & X2 & X3).
  - intros E. eapply Forall_impl; [|exact (HX E)]. cbn. tauto.
  - intros E _. eapply Forall_impl; [|exact (HX E)]. cbn. intros l (_ & K) Hb. apply K, is_blank_iff, Hb.
  - fold q q0 p1 t in X1, X2. exists s', (fold_left less_indent ls 2147483647%Z). splits; auto. apply fold_least.
Qed.

(** The tokens of the text together are the text *)
Theorem C23_text_raw : forall ls m p stop, flat_map token_value (here_tokens m p ls stop) = lines_text ls.
Proof.
  induction ls as [|l r IH]; intros m p stop; [reflexivity|]. cbn [here_tokens]. destruct (0 <? less_indent m l)%Z.
  - cbn [flat_map token_value tok_at lines_text]. rewrite IH. reflexivity.
  - cbn [flat_map token_value]. apply app_nil_r.
Qed.

Print Assumptions C22_raw_heredoc.
Print Assumptions C22_program.
Print Assumptions C47_heredoc_text.
Print Assumptions C47_program.
Print Assumptions C23_indentation_partial.
Print Assumptions C23_text_raw.

(** ** Examples *)
Definition nl : list N := [10%N].
Example C22_example : shown (bs "f(<<'A', 1)" ++ nl ++ bs " x # \n" ++ nl ++ bs "AA" ++ nl ++ bs "A" ++ nl ++ bs "g" ++ nl) =
  Some ([(tIDENTIFIER, bs "f", 0, 1); (tLPAREN2, bs "(", 1, 2); (tSTRING_BEG, bs "<<'A'", 2, 7); (tSTRING_CONTENT, bs " x # \n" ++ nl ++ bs "AA" ++ nl, 12, 24);
         (tSTRING_END, bs "A", 23, 24); (tCOMMA, bs ",", 7, 8); (tINTEGER, bs "1", 9, 10); (tRPAREN, bs ")", 10, 11); (tNL, nl, 11, 12);
         (tIDENTIFIER, bs "g", 25, 26); (tNL, nl, 26, 27)], []).
Proof. vm_compute. reflexivity. Qed.
Example C23_example : shown (bs "<<~'A'" ++ nl ++ bs "    x" ++ nl ++ bs " " ++ nl ++ [9%N] ++ bs " y" ++ nl ++ bs "  A") =
  Some ([(tSTRING_BEG, bs "<<~'A'", 0, 6); (tSTRING_CONTENT, bs "    x" ++ nl, 7, 13); (tSTRING_CONTENT, bs " " ++ nl, 13, 15);
         (tSTRING_CONTENT, [9%N] ++ bs " y" ++ nl, 15, 19); (tSTRING_END, bs "A", 19, 22); (tNL, nl, 6, 7)], []).
Proof. vm_compute. reflexivity. Qed.
Example C23_least : least 2147483647 [bs "    x"; bs " "; [9%N] ++ bs " y"] 4.
Proof. exact (fold_least 2147483647 [bs "    x"; bs " "; [9%N] ++ bs " y"]). Qed.

(** The hypotheses are met *)
Ltac no_byte := cbn; intros K; repeat (destruct K as [K|K]; [discriminate K|]); exact K.
Ltac plain_bytes := split; no_byte.
Ltac not_last := intros (ws & K & F & _); repeat (destruct ws as [|? ws]; [discriminate K|injection K as ? K; subst]); try discriminate K; try (destruct ws; discriminate K);
  repeat (match goal with H : Forall _ (_ :: _) |- _ => inversion H; clear H; subst end); unfold indent_byte in *; cbn in *; lia.

Definition c22_source : list N := bs "f(<<-'A', 1)" ++ nl ++ bs " x" ++ nl ++ bs "AA" ++ nl ++ bs "  A" ++ nl ++ bs "g".
Example C22_hypotheses : exists s, HerePlace c22_source 200 (fun _ => false) s 2 [] /\ here_mark [45%N] true 0 /\ here_name true (bs "A") /\ ~ In 39%N (bs "A") /\
  here_source c22_source 2 [] [45%N] [39%N] (bs "A") (bs ", 1)") [bs " x"; bs "AA"] (bs "  A") nl /\
  Forall (fun l => plain_line l /\ ~ ends_here true (bs "A") l) [bs " x"; bs "AA"] /\ plain_line (bs "  A") /\ ends_here true (bs "A") (bs "  A").
Proof.
  reach_state c22_source [PNext; PNext]. splits.
  - constructor; auto; try reflexivity; try discriminate; [split; [reflexivity|]; left; splits; auto; cbn; lia| |cbn; lia].
    unfold here_allowed. splits; try (intros K; vm_compute in K; discriminate). intros K. exfalso. revert K. vm_compute. intros K. repeat (destruct K as [K|K]); discriminate.
  - constructor.
  - unfold here_name. splits; try no_byte. intros _. exists 65%N, []. split; [reflexivity|]. unfold indent_byte. lia.
  - no_byte.
  - split; [reflexivity|]. split; [no_byte|]. left. reflexivity.
  - constructor; [|constructor; [|constructor]]; (split; [plain_bytes|not_last]).
  - plain_bytes.
  - exists (bs "  "). splits; [reflexivity| |discriminate]. repeat constructor; unfold indent_byte; cbn; lia.
Qed.

Definition c23_source : list N := bs "x = <<~'A'" ++ nl ++ bs "    x" ++ nl ++ bs " " ++ nl ++ [9%N] ++ bs " y" ++ nl ++ bs "  A".
Example C23_hypotheses : exists s, HerePlace c23_source 200 (fun _ => false) s 3 [32%N] /\ here_quote [39%N] tSTRING_BEG false /\ here_name true (bs "A") /\ name_fits [39%N] (bs "A") ([] ++ nl) /\
  here_source c23_source 3 [32%N] [126%N] [39%N] (bs "A") [] [bs "    x"; bs " "; [9%N] ++ bs " y"] (bs "  A") [] /\
  Forall (fun l => plain_line l /\ ~ ends_here true (bs "A") l) [bs "    x"; bs " "; [9%N] ++ bs " y"] /\ plain_line (bs "  A") /\ ends_here true (bs "A") (bs "  A").
Proof.
  reach_state c23_source [PNext; PNext]. splits.
  - constructor; auto; try reflexivity; try discriminate; [split; [reflexivity|]; left; splits; auto; cbn; lia|apply blank_spacing; repeat constructor; unfold blank; cbn; lia| |cbn; lia].
    unfold here_allowed. splits; try (intros K; vm_compute in K; discriminate). intros K. exfalso. revert K. vm_compute. intros K. repeat (destruct K as [K|K]); discriminate.
  - constructor.
  - unfold here_name. splits; try no_byte. intros _. exists 65%N, []. split; [reflexivity|]. unfold indent_byte. lia.
  - apply quoted_fits. no_byte.
  - split; [reflexivity|]. split; [no_byte|]. right. splits; [reflexivity|reflexivity|discriminate].
  - do 3 (apply Forall_cons; [split; [plain_bytes|not_last]|]). apply Forall_nil.
  - plain_bytes.
  - exists (bs "  "). splits; [reflexivity| |discriminate]. repeat constructor; unfold indent_byte; cbn; lia.
Qed.

(** A text without backslash and interpolation *)
Ltac no_pair := let u := fresh in let x := fresh in let v := fresh in let K := fresh in intros u x v K;
  repeat (destruct u as [|? u]; [injection K as K; subst; try discriminate|cbn in K; injection K as ? K; subst]); try discriminate K; try (destruct u; discriminate K); try (repeat split; discriminate).

Definition c47_source : list N := bs "f(<<A, 1)" ++ nl ++ bs " x # y" ++ nl ++ bs "AA" ++ nl ++ bs "A" ++ nl ++ bs "g".
Example C47_example : shown c47_source =
  Some ([(tIDENTIFIER, bs "f", 0, 1); (tLPAREN2, bs "(", 1, 2); (tSTRING_BEG, bs "<<A", 2, 5); (tSTRING_CONTENT, bs " x # y" ++ nl ++ bs "AA" ++ nl, 10, 20);
         (tSTRING_END, bs "A", 20, 21); (tCOMMA, bs ",", 5, 6); (tINTEGER, bs "1", 7, 8); (tRPAREN, bs ")", 8, 9); (tNL, nl, 9, 10); (tIDENTIFIER, bs "g", 22, 23)], []).
Proof. vm_compute. reflexivity. Qed.
Example C47_hypotheses : exists s, HerePlace c47_source 200 (fun _ => false) s 2 [] /\ here_mark [] false 0 /\ here_quote [] tSTRING_BEG true /\ here_name false (bs "A") /\
  name_fits [] (bs "A") (bs ", 1)" ++ nl) /\ here_source c47_source 2 [] [] [] (bs "A") (bs ", 1)") [bs " x # y"; bs "AA"] (bs "A") nl /\
  Forall (fun l => plain_line l /\ ~ ends_here false (bs "A") l /\ expand_line l) [bs " x # y"; bs "AA"] /\ plain_line (bs "A") /\ ends_here false (bs "A") (bs "A").
Proof.
  reach_state c47_source [PNext; PNext]. splits.
  - constructor; auto; try reflexivity; try discriminate; [split; [reflexivity|]; left; splits; auto; cbn; lia| |cbn; lia].
    unfold here_allowed. splits; try (intros K; vm_compute in K; discriminate). intros K. exfalso. revert K. vm_compute. intros K. repeat (destruct K as [K|K]); discriminate.
  - constructor.
  - constructor.
  - unfold here_name. splits; try no_byte. discriminate.
  - split; [discriminate|]. intros _. split; [discriminate|]. split; [apply IdentSpec.nt_ascii; [left; unfold IdentSpec.letter; cbn; lia|constructor]|].
    intros c r K. injection K as <- _. unfold IdentSpec.letter, IdentSpec.digit. lia.
  - split; [reflexivity|]. split; [no_byte|]. left. reflexivity.
  - do 2 (apply Forall_cons; [splits; [plain_bytes|not_last|split; [no_byte|no_pair]]|]). apply Forall_nil.
  - plain_bytes.
  - exists []. splits; [reflexivity|constructor|reflexivity].
Qed.

(** The indentation of a program that is one heredoc *)
Definition removed (B : list N) : option Z :=
  match run_lexer B (bs "f") (plain_env (enough B) (fun _ => false)) with Ok _ s => Some (heredoc_indent (buffer s)) | _ => None end.

Example C23_removed : removed (bs "<<~A" ++ nl ++ bs "    x" ++ nl ++ nl ++ bs "  y" ++ nl ++ bs "A" ++ nl) = Some 2%Z.
Proof. vm_compute. reflexivity. Qed.

(** C23 is false of a form that interpolates if a blank line is not empty: the width of the blank line is added to that of the next line.
    Here the least width is 2 and the lexer finds 4. *)
Theorem C23_refuted : exists id ls, here_name true id /\ name_fits [] id nl /\ Forall (fun l => plain_line l /\ ~ ends_here true id l /\ expand_line l) ls /\
  least 2147483647 ls 2 /\ removed (here_opener [126%N] [] id ++ nl ++ lines_text ls ++ id ++ nl) = Some 4%Z.
Proof.
  exists (bs "A"), [bs "    "; bs "  x"; bs "    y"]. splits.
  - unfold here_name. splits; try no_byte. intros _. exists 65%N, []. split; [reflexivity|]. unfold indent_byte. lia.
  - split; [discriminate|]. intros _. split; [discriminate|]. split; [apply IdentSpec.nt_ascii; [left; unfold IdentSpec.letter; cbn; lia|constructor]|].
    intros c r K. injection K as <- _. unfold IdentSpec.letter, IdentSpec.digit. lia.
  - do 3 (apply Forall_cons; [splits; [plain_bytes|not_last|split; [no_byte|no_pair]]|]). apply Forall_nil.
  - exact (fold_least 2147483647 [bs "    "; bs "  x"; bs "    y"]).
  - vm_compute. reflexivity.
Qed.
Print Assumptions C23_refuted.
