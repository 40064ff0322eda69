(** * C14, C45: the end marker and the end of input *)
Require Import Verif.Base Verif.MaybeByteM Verif.Utf8M Verif.InputM Verif.DiagnosticM Verif.TokensM Verif.BufferM Verif.LexStateM
  Verif.LexerM Verif.LexIdentM Verif.LexMainM Verif.ParserClientM
  Verif.SourceSpec Verif.SourceProofs Verif.Wp Verif.BufInv Verif.LexSpec Verif.NewlineInv Verif.MainInv Verif.RunInv Verif.FuelMono Verif.Prop_Lexer
  Verif.ReadSpec Verif.YylexSpec Verif.Reach Verif.NumRead Verif.IdentSpec Verif.IdentRead Verif.IdentStep Verif.Prop_Ident.
Require Import ZifyBool ZifyNat ZifyN.

(** A sequence of token requests, ends of input included *)
Inductive requests (e : Env) : Lexer -> list Token -> Lexer -> Prop :=
| rq_nil : forall s, requests e s [] s
| rq_cons : forall s t s1 ts s2, yylex e s = Ok t s1 -> requests e s1 ts s2 -> requests e s (t :: ts) s2.

Definition end_token (q : nat) : Token := mkToken END_OF_INPUT [] (mkLoc q q).

(** Everything but the reader is as before; the flag that starts a command and the flag that a token was seen are not
    read at the end of input *)
Record Same (s s' : Lexer) : Prop := mkSame {
  sm_term : strterm s' = strterm s; sm_state : lex_state s' = lex_state s; sm_diags : diagnostics s' = diagnostics s;
  sm_comments : comments s' = comments s; sm_paren : paren_nest s' = paren_nest s; sm_brace : brace_nest s' = brace_nest s;
  sm_cond : cond s' = cond s; sm_cmdarg : cmdarg s' = cmdarg s; sm_env : static_env s' = static_env s; sm_ctx : context s' = context s;
  sm_magic : magic_comments s' = magic_comments s }.

Lemma same_trans : forall a b c, Same a b -> Same b c -> Same a c.
Proof. intros a b c [] []. constructor; congruence. Qed.

Section End.
  Variables (B : list N) (e : Env).

  Definition AtEnd (b : Buffer) : Prop := eofp b = true \/ pcur b = List.length B.

  (** Reading at the end *)
  Lemma end_next : forall b (Q : MaybeByte -> Buffer -> Prop), BWF B b -> AtEnd b -> ptok b = pcur b ->
    (forall b', BWF B b' -> AtEnd b' -> pcur b' = pcur b -> ptok b' = pcur b -> Q None b') -> wp e b_nextc Q b.
  Proof using.
    intros b Q HW HA HP HQ. apply (b_nextc_ok B); auto. intros c b' HN.
    pose proof (n_wf _ _ _ _ HN) as W'. pose proof (pend_le B b' W'). pose proof (w_pcur2 B b' W').
    pose proof (n_mono _ _ _ _ HN) as Hm.
    assert (c = None).
    { destruct c as [x|]; auto. exfalso. destruct (n_some _ _ _ _ HN x eq_refl) as (S1 & S2 & _ & _ & _ & _ & S3 & _).
      destruct HA as [A|A]; [congruence|]. lia. }
    subst c. cbn [back] in Hm.
    assert (HA' : AtEnd b').
    { destruct (n_none _ _ _ _ HN eq_refl) as [A|(_ & A & _)]; [left|right]; auto. }
    assert (EP : pcur b' = pcur b).
    { destruct (n_line _ _ _ _ HN) as [(_ & _ & _ & _ & _ & _ & _ & _ & _ & A & _)|(_ & _ & _ & _ & _ & _ & A & _)]; [exact A|].
      destruct HA as [HA|HA]; [congruence|lia]. }
    apply HQ; auto.
    destruct (n_line _ _ _ _ HN) as [(_ & _ & _ & _ & A & _)|(_ & _ & A1 & A2 & A3 & _)]; [congruence|]. cbn [back] in A3. congruence.
  Qed.

  Lemma empty_substr : forall b q, BWF B b -> pcur b = q -> b_substr_at b q q = Some [].
  Proof using.
    intros b q HW <-. pose proof (pend_le B b HW). pose proof (w_pcur2 B b HW). pose proof (w_bytes B b HW) as HB. unfold bytes in HB.
    unfold b_substr_at, substr_at. rewrite HB, Nat.leb_refl, Nat.sub_diag. replace (pcur b <=? List.length B) with true by lia. reflexivity.
  Qed.

  (** What is left to read: nothing, or white space up to the end of the file *)
  Definition ToRead (b : Buffer) (q : nat) (sp : list N) : Prop :=
    (AtEnd b /\ pcur b = q /\ sp = []) \/ (upcoming b q /\ q + List.length sp = List.length B /\ sp <> []).

  (** A request that finds only white space before the end *)
  Lemma blank_end : forall s q sp (Q : Token -> Lexer -> Prop),
    BWF B (buffer s) -> strterm s = None -> lval_start s = None -> lval_end s = None ->
    ToRead (buffer s) q sp -> text_at B q sp -> spacing (buffer s) sp -> List.length sp < fuel e ->
    (forall b', BWF B b' -> AtEnd b' -> pcur b' = q + List.length sp ->
      Q (end_token (q + List.length sp))
        (set_lval None (set_lval_end None (set_lval_start None (set_buffer b' (set_token_seen true (set_command_start false (set_lval None s)))))))) ->
    wp e yylex Q s.
  Proof using.
    intros s q sp Q HW S1 S2 S3 HR HT (HS & HO) Hf HQ.
    destruct (white_run B sp HS (buffer s) q HW) as (k & b' & K1 & W' & H' & O' & Z' & P' & S'); auto.
    { intros Hne. destruct HR as [(_ & _ & A)|(A & _)]; [contradiction|exact A]. }
    assert (HA : AtEnd b' /\ pcur b' = q + List.length sp).
    { destruct HR as [(A1 & A2 & A3)|(A1 & A2 & A3)].
      - rewrite (Z' A3). subst sp. cbn [List.length]. rewrite Nat.add_0_r. auto.
      - destruct (P' A3) as (P1 & P2 & P3 & _). split; [right; lia|exact P1]. }
    destruct HA as (HA & HP). clear HR P' Z' O' HO HT.
    unfold yylex. ws. ws. ws. fold (yytail).
    set (Q1 := fun (t : Tok) (s' : Lexer) => wp e (yytail t) Q s').
    enough (HG : wp e parser_yylex Q1 (set_lval None s)) by exact HG.
    unfold parser_yylex. ws. ws. change (strterm (set_lval None s)) with (strterm s). rewrite S1.
    ws. ws. ws. ws. change (token_seen (set_lval None s)) with (token_seen s). change (command_start (set_lval None s)) with (command_start s).
    set (s1 := set_token_seen true (set_command_start false (set_lval None s))) in *.
    ws. apply wp_loop_fuel.
    eapply (wp_same _ _ _ _ (loop_n (S (fuel e - k - 1)) (lex_step (command_start s) (token_seen s)) (nonempty sp)) _ _ (set_buffer b' s1)).
    { replace (fuel e) with (k + S (fuel e - k - 1)) at 1 by lia. change s1 with (set_buffer (buffer s) s1) at 1. rewrite S'. reflexivity. }
    cbn [loop_n]. ws. unfold lex_step. ws. ws. ws. ws. ws.
    unfold nextc, inb. apply wp_zoom. apply end_next; [apply BWF_set_ptok; auto|exact HA|reflexivity|].
    intros b1 W1 A1 P1 T1. cbn in P1, T1. ws. unfold lex_char, tk. ws. ws. ws. ws. unfold Q1.
    assert (E0 : pcur b1 = q + List.length sp) by lia.
    apply (tail_ok e END_OF_INPUT Q _ (q + List.length sp) (q + List.length sp) []); auto; cbn; auto; try lia.
    + right. split; auto. apply (empty_substr b1); auto.
    + exact (HQ b1 W1 A1 E0).
  Qed.
End End.

(** ** C45: once the end was reached, every further request reports the end of input at the same place *)

(** The states at the end: outside a string, and either the reader has seen the end or nothing is left *)
Definition ended (B : list N) (s : Lexer) : Prop := strterm s = None /\ (eofp (buffer s) = true \/ pcur (buffer s) = List.length B).

Record EInv (B : list N) (s : Lexer) : Prop := mkEInv {
  ei_wf : BWF B (buffer s); ei_end : ended B s; ei_lval : lval_start s = None /\ lval_end s = None }.

Lemma ended_step : forall B e s, EInv B s -> 0 < fuel e ->
  exists s', yylex e s = Ok (end_token (pcur (buffer s))) s' /\ EInv B s' /\ Same s s' /\ pcur (buffer s') = pcur (buffer s).
Proof.
  intros B e s [HW (HS & HA) (HL1 & HL2)] Hf.
  assert (H : wp e yylex (fun t s' => t = end_token (pcur (buffer s)) /\ EInv B s' /\ Same s s' /\ pcur (buffer s') = pcur (buffer s)) s).
  { apply (blank_end B e s (pcur (buffer s)) []); auto.
    - left. splits; auto.
    - reflexivity.
    - intros b' W' A' P'. cbn [List.length] in *. rewrite Nat.add_0_r in *. splits; auto.
      + constructor; cbn; auto. split; auto.
      + constructor; reflexivity. }
  unfold wp in H. destruct (yylex e s) as [t s'| |]; try contradiction. destruct H as (-> & H1 & H2 & H3). eauto.
Qed.

Lemma ended_many : forall B e k s, EInv B s -> 0 < fuel e ->
  exists s', requests e s (repeat (end_token (pcur (buffer s))) k) s' /\ EInv B s' /\ Same s s' /\ pcur (buffer s') = pcur (buffer s).
Proof.
  intros B e k. induction k as [|k IH]; intros s HE Hf.
  - exists s. splits; auto; [constructor|]. constructor; reflexivity.
  - destruct (ended_step B e s HE Hf) as (s1 & H1 & H2 & H3 & H4). destruct (IH s1 H2 Hf) as (s2 & G1 & G2 & G3 & G4).
    exists s2. splits; auto; [|eapply same_trans; eauto|congruence]. cbn [repeat]. econstructor; [exact H1|]. rewrite <- H4. exact G1.
Qed.

Lemma reached_ended : forall B n upper s, reached B n upper s -> ended B s -> EInv B s.
Proof.
  intros B n upper s H He. pose proof (reached_inv B n upper s H) as [H1 _ _ H3]. constructor; auto.
Qed.

Theorem C45_end_is_final : forall B n upper s k, reached B n upper s -> ended B s -> 0 < n ->
  exists s', requests (plain_env n upper) s (repeat (mkToken END_OF_INPUT [] (mkLoc (pcur (buffer s)) (pcur (buffer s)))) k) s' /\ Same s s'.
Proof.
  intros B n upper s k HR He Hn. destruct (ended_many B (plain_env n upper) k s) as (s' & H1 & H2 & H3 & _); eauto using reached_ended.
Qed.

(** With only white space left the end of input is reported at the end of the file, by this request and all further ones *)
Theorem C45_blanks_then_end : forall B n upper s p sp k, reached B n upper s -> strterm s = None -> upcoming (buffer s) p ->
  text_at B p sp -> spacing (buffer s) sp -> p + List.length sp = List.length B -> sp <> [] -> List.length sp < n ->
  exists s', requests (plain_env n upper) s (repeat (mkToken END_OF_INPUT [] (mkLoc (List.length B) (List.length B))) (S k)) s' /\ Same s s'.
Proof.
  intros B n upper s p sp k HR HS HU HT HB HE Hsp Hf. set (e := plain_env n upper).
  pose proof (reached_inv B n upper s HR) as [HW _ _ (HL1 & HL2)].
  assert (H : wp e yylex (fun t s' => t = end_token (List.length B) /\ EInv B s' /\ Same s s' /\ pcur (buffer s') = List.length B) s).
  { apply (blank_end B e s p sp); auto.
    - right. auto.
    - intros b' W' A' P'. rewrite HE in *. splits; auto.
      + constructor; cbn; auto. split; auto.
      + constructor; reflexivity. }
  unfold wp in H. destruct (yylex e s) as [t s1| |] eqn:E; try contradiction. destruct H as (-> & H1 & H2 & H3).
  destruct (ended_many B e k s1 H1) as (s2 & G1 & G2 & G3 & G4); [cbn; lia|].
  exists s2. split; [|eapply same_trans; eauto]. cbn [repeat]. econstructor; [exact E|]. rewrite H3 in G1. exact G1.
Qed.

(** ** Whole programs: the run delivers exactly the tokens before the end *)
Lemma run_exact : forall B name n upper s0 ts s t s', lexer_new B name (plain_env n upper) = Ok tt s0 ->
  lexes (plain_env n upper) s0 ts s -> yylex (plain_env n upper) s = Ok t s' -> token_type t = END_OF_INPUT -> List.length ts < n ->
  run_lexer B name (plain_env n upper) = Ok ts s'.
Proof.
  intros B name n upper s0 ts s t s' H1 H2 H3 H4 H5. unfold run_lexer. rewrite H1. unfold tokenize_until_eof.
  change (loop_n n tok_body [] (plain_env n upper) s0 = Ok ts s').
  replace n with (List.length ts + S (n - List.length ts - 1)) at 1 by lia.
  rewrite (lexes_loop _ _ _ _ H2). cbn [loop_n app]. unfold bind at 1. unfold tok_body at 1. unfold bind at 1. rewrite H3, H4. reflexivity.
Qed.

(** ** C14: a line that is exactly __END__ is the end of the program *)
Definition end_mark : list N := bs "__END__".
Definition starts_line (B : list N) (p : nat) : Prop := p = 0 \/ nth_error B (p - 1) = Some 10%N.
(** The line ends at [p]: LF, CR LF or the end of the file *)
Definition line_ends (B : list N) (p : nat) : Prop :=
  nth_error B p = Some 10%N \/ (nth_error B p = Some 13%N /\ nth_error B (p + 1) = Some 10%N) \/ p = List.length B.

Lemma line_start_pbeg : forall B b p, BWF B b -> starts_line B p -> pcur b = p -> p < pend b -> pbeg b = p.
Proof.
  intros B b p HW HS HP HE. pose proof (w_pbeg B b HW). pose proof (w_pcur1 B b HW). pose proof (w_pend B b HW) as HE'.
  pose proof (w_last B b HW). pose proof (w_count B b HW).
  destruct HS as [->|HS]; [lia|].
  destruct (Nat.eq_dec (pbeg b) p) as [|Hne]; auto. exfalso.
  destruct (newline_last B (lastline b) (p - 1)) as (K & _); auto; lia.
Qed.

Theorem C14_end_marker : forall B n upper s p k, reached B n upper s -> strterm s = None -> upcoming (buffer s) p ->
  text_at B p end_mark -> starts_line B p -> line_ends B (p + 7) -> 0 < n ->
  exists s', requests (plain_env n upper) s (mkToken END_OF_INPUT [95%N] (mkLoc p (p + 1)) :: repeat (mkToken END_OF_INPUT [] (mkLoc (p + 1) (p + 1))) k) s' /\
    Same s s'.
Proof.
  intros B n upper s p k HR HS HU HT HB HE Hn. set (e := plain_env n upper).
  pose proof (reached_inv B n upper s HR) as [HW _ _ (HL1 & HL2)].
  assert (H : wp e yylex (fun t s' => t = mkToken END_OF_INPUT [95%N] (mkLoc p (p + 1)) /\ EInv B s' /\ Same s s' /\ pcur (buffer s') = p + 1) s).
  { apply (yylex_start B e s p [] 95%N (skipn 1 end_mark)); auto; [discriminate|].
    cbn [List.length]. rewrite Nat.add_0_r. intros b R1 R2 R3 R4 _ _. pose proof R1 as (W1 & R5 & R6).
    assert (Hb : pbeg b = p) by (eapply line_start_pbeg; eauto).
    pose proof (pend_le B b W1) as Hle.
    assert (HF : p + 7 <= pend b).
    { pose proof (w_pbeg B b W1). apply (fits B b p end_mark); auto; [lia|]. cbv. intros K. repeat destruct K as [K|K]; try discriminate; auto. }
    assert (HM : is_whole_match (set_pcur (p + 1) b) (bs "__END__") false = true).
    { unfold is_whole_match. cbn [set_pcur pbeg pend]. rewrite Hb. change (List.length (bs "__END__")) with 7.
      replace (pend b <? p + 7) with false by lia.
      replace (b_substr_at (set_pcur (p + 1) b) p (p + 7)) with (Some end_mark).
      2: { symmetry. change 7 with (List.length end_mark). apply (substr_text B b R1); auto. change (List.length end_mark) with 7. lia. }
      replace (opt_bytes_eqb (Some end_mark) (bs "__END__")) with true by reflexivity.
      unfold byte_at. cbn [set_pcur input]. rewrite !(rd_at B b R1).
      match goal with |- (if ?c then _ else _) = _ => assert (Hc : c = false) end; [|rewrite Hc; reflexivity].
      destruct HE as [HE|[(HE & HE')|HE]].
      - rewrite HE. cbn. rewrite andb_false_r. reflexivity.
      - rewrite HE. replace (p + 7 + 1) with (p + 8) in * by lia. rewrite HE'. cbn [mbeq N.eqb Pos.eqb negb orb].
        replace (pend b - (p + 7) <=? 1) with false; [rewrite !andb_false_r; reflexivity|].
        pose proof (w_last B b W1). pose proof (w_count B b W1). pose proof (w_pend B b W1) as HE0.
        assert (HL8 : p + 8 < List.length B) by (apply nth_error_Some; congruence).
        assert (Hs : pend b <> p + 7 /\ pend b <> p + 8); [|lia].
        destruct (Nat.eq_dec (lastline b + 1) (NL B)) as [E2|E2].
        { destruct (line_last B _ E2) as (A & _). lia. }
        destruct (line_newline B (lastline b)) as (_ & A & _); [lia|]. rewrite <- HE0 in A.
        split; intros E3; rewrite E3 in A; [|replace (p + 8 - 1) with (p + 7) in A by lia; congruence].
        replace (p + 7 - 1) with (p + 6) in A by lia.
        pose proof (text_nth B p end_mark 6 95%N HT eq_refl) as K. congruence.
      - replace (0 <? pend b - (p + 7)) with false by lia. reflexivity. }
    unfold lex_char.
    change (wp e (lex_underscore (Some 95%N)) (fun r s' => match r with
                   | Tk t => wp e (yytail t) (fun t s' => t = mkToken END_OF_INPUT [95%N] (mkLoc p (p + 1)) /\ EInv B s' /\ Same s s' /\ pcur (buffer s') = p + 1) s'
                   | Ident c => wp e (parse_ident c (command_start s)) (fun t s'' => wp e (yytail t) (fun t s' => t = mkToken END_OF_INPUT [95%N] (mkLoc p (p + 1)) /\ EInv B s' /\ Same s s' /\ pcur (buffer s') = p + 1) s'') s'
                   | Retry _ => False
                   end)
      (set_buffer (set_pcur (p + 1) b) (set_token_seen true (set_command_start false (set_lval None s))))).
    unfold lex_underscore. ws. unfold getb. ws. cbn [buffer set_buffer]. rewrite HM. unfold was_bol. cbn [buffer set_buffer set_pcur pcur pbeg]. rewrite Hb, Nat.eqb_refl. cbn [andb].
    ws. ws. unfold tk. ws.
    apply (tail_ok e END_OF_INPUT _ _ p (p + 1) [95%N]); auto.
    - right. split; auto. change (p + 1) with (p + List.length [95%N]). apply (substr_text B b R1); auto.
      + unfold end_mark in HT. change (bs "__END__") with ([95%N] ++ bs "_END__") in HT. apply text_at_app in HT. exact (proj1 HT).
      + cbn. lia.
    - splits; auto.
      + constructor; cbn; auto; [|split; auto]. destruct W1. constructor; cbn; auto; try lia. intros _ K. replace (p + 1 - 1) with p in K by lia. rewrite (text_nth B p end_mark 0 95%N HT eq_refl) in K || (replace p with (p + 0) in K by lia; rewrite (text_nth B p end_mark 0 95%N HT eq_refl) in K). discriminate K.
      + constructor; reflexivity. }
  unfold wp in H. destruct (yylex e s) as [t s1| |] eqn:E; try contradiction. destruct H as (-> & H1 & H2 & H3).
  destruct (ended_many B e k s1 H1) as (s2 & G1 & G2 & G3 & G4); [cbn; lia|].
  exists s2. split; [|eapply same_trans; eauto]. econstructor; [exact E|]. rewrite H3 in G1. exact G1.
Qed.
Print Assumptions C45_end_is_final.
Print Assumptions C45_blanks_then_end.
Print Assumptions C14_end_marker.

Lemma reached_start : forall B name n upper s, lexer_new B name (plain_env n upper) = Ok tt s -> reached B n upper s.
Proof.
  intros B name n upper s H. unfold reached, run_client. exists name, false, []. rewrite H. cbn [acts]. eexists. eexists. split; [reflexivity|]. split; reflexivity.
Qed.

(** A program that starts with the marker has no tokens, whatever follows the line *)
Theorem C14_program : forall eol rest name upper n, (eol = [10%N] \/ eol = [13%N; 10%N] \/ (eol = [] /\ rest = [])) -> 0 < n ->
  exists s, run_lexer (end_mark ++ eol ++ rest) name (plain_env n upper) = Ok [] s /\ diagnostics s = [] /\ comments s = [].
Proof.
  intros eol rest name upper n HE Hn. set (B := end_mark ++ eol ++ rest).
  destruct (start_reading B (plain_env n upper) name 95%N (bs "_END__" ++ eol ++ rest) eq_refl) as (b & E1 & E2 & E3 & E4 & _); [discriminate|].
  destruct (C14_end_marker B n upper (lexer_init b) 0 0) as (s' & H & HS); auto.
  - eapply reached_start; eauto.
  - reflexivity.
  - left. reflexivity.
  - destruct HE as [->|[->|(-> & ->)]]; [left|right; left|right; right]; reflexivity || (split; reflexivity).
  - inversion H as [|s0 t s1 ts s2 HY HR']; subst. inversion HR'; subst. exists s'. split; [|].
    + eapply run_exact; eauto. constructor.
    + split; [rewrite (sm_diags _ _ HS)|rewrite (sm_comments _ _ HS)]; reflexivity.
Qed.
Print Assumptions C14_program.

(** ** The hypotheses are met *)
Example C14_hypotheses :
  let src := bs "x
__END__
'" in
  exists s, reached src 200 (fun _ => false) s /\ strterm s = None /\ upcoming (buffer s) 2 /\ text_at src 2 end_mark /\ starts_line src 2 /\ line_ends src 9.
Proof.
  set (src := bs "x
__END__
'"). cbn zeta. reach_state src [PNext; PNext]. splits; auto; try reflexivity.
  - split; [reflexivity|]. right. vm_compute. eexists. split; [reflexivity|]. split; [reflexivity|]. intros. discriminate || reflexivity.
  - right. reflexivity.
  - left. reflexivity.
Qed.

Example C45_hypotheses :
  let src := bs "x + y " in
  exists s, reached src 200 (fun _ => false) s /\ strterm s = None /\ upcoming (buffer s) 5 /\ text_at src 5 (bs " ") /\ Forall blank (bs " ") /\
    5 + List.length (bs " ") = List.length src.
Proof.
  set (src := bs "x + y "). cbn zeta. reach_state src [PNext; PNext; PNext]. splits; auto; try reflexivity.
  - split; [reflexivity|]. left. splits; auto.
  - constructor; [|constructor]. unfold blank. cbn. lia.
Qed.

Example C45_hypotheses_ended :
  let src := bs "x" in exists s, reached src 200 (fun _ => false) s /\ ended src s /\ pcur (buffer s) = 1.
Proof.
  set (src := bs "x"). cbn zeta. reach_state src [PNext]. splits; auto; try reflexivity. split; [reflexivity|left; reflexivity || right; reflexivity].
Qed.

(** The marker must be the whole line *)
Example C14_not_the_marker :
  (option_map (fun r => map token_type (fst r)) (lexed (bs "__END__ x")) = Some [tIDENTIFIER; tIDENTIFIER]) /\
  (option_map (fun r => map token_type (fst r)) (lexed (bs " __END__")) = Some [tIDENTIFIER]).
Proof. split; vm_compute; reflexivity. Qed.
