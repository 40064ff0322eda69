(** * C53: the tokens of literals with interpolation *)
Require Import Verif.Base Verif.MaybeByteM Verif.Utf8M Verif.InputM Verif.DiagnosticM Verif.TokensM Verif.BufferM Verif.LexStateM
  Verif.LexerM Verif.LexStringM Verif.LexIdentM Verif.LexMainM Verif.ParserClientM
  Verif.SourceSpec Verif.SourceProofs Verif.Wp Verif.BufInv Verif.LexSpec Verif.NewlineInv Verif.MainInv Verif.RunInv Verif.Prop_Lexer
  Verif.ReadSpec Verif.YylexSpec Verif.Reach Verif.NumberSpec Verif.NumRead Verif.IdentRead Verif.IdentStep Verif.Prop_Ident Verif.Prop_Crlf Verif.Prop_End
  Verif.StringSpec Verif.StrNum Verif.StrRead Verif.StrStep Verif.StrOpen Verif.StrMore Verif.StrOpens Verif.Prop_String.
Require Import ZifyBool ZifyNat ZifyN.

(** The flags of a literal whose opening (and, in a list, the white space behind it) has been read *)
Record Going (func : N) (k : Kind) : Prop := mkGoing {
  go_expand : has func STR_FUNC_EXPAND = k_interp k;
  go_words : has func STR_FUNC_QWORDS = k_words k;
  go_list : has func STR_FUNC_LIST = false;
  go_regexp : has func STR_FUNC_REGEXP = k_regexp k;
  go_escape : has func STR_FUNC_ESCAPE = k_regexp k;
  go_label : has func STR_FUNC_LABEL = k_label k;
  go_indent : has func STR_FUNC_INDENT = false;
  go_term : has func STR_FUNC_TERM = false
}.

(** The lexer inside a literal of kind [k], before position [p], inside [nest] open brackets: a state that some parser reaches, however it got
    there (in particular, after it took the literal aside to read embedded code, and put it back) *)
Record Inside (B : list N) (n : nat) (upper : N -> bool) (s : Lexer) (p : nat) (k : Kind) (opn : option N) (cls : N) (nest : nat) : Prop := mkInside {
  in_reached : reached B n upper s;
  in_term : exists func, Going func k /\ strterm s = Some (StringLit (mkStringLiteral nest func opn cls None));
  in_pos : pcur (buffer s) = p;
  in_next : p < List.length B -> upcoming (buffer s) p;
  in_quiet : no_squiggly s;
  in_fuel : List.length B < n
}.

(** What a token does to the rest of the state: nothing but reports *)
Record Moved (s s' : Lexer) (st : N) (d : list Diagnostic) : Prop := mkMoved {
  mv_state : lex_state s' = st;
  mv_diags : diagnostics s' = diagnostics s ++ d;
  mv_comments : comments s' = comments s;
  mv_order : in_order (buffer s) -> in_order (buffer s')
}.

(** The delimiters of a literal, as an opening can make them *)
Definition good_delims (k : Kind) (opn : option N) (cls : N) : Prop :=
  opn <> Some cls /\ cls <> 13%N /\ (k_interp k = true -> ~ delim opn cls 35%N) /\ (k_words k = true -> forall x, delim opn cls x -> ~ white_byte x).

Lemma inside_cur : forall B n upper s p k opn cls nest, Inside B n upper s p k opn cls nest ->
  Cur B (in_order (buffer s)) (buffer s) p /\ lval_start s = None /\ lval_end s = None.
Proof.
  intros B n upper s p k opn cls nest [H1 H2 H3 H4 H5 H6]. pose proof (reached_inv B n upper s H1) as [HW _ _ (L1 & L2)].
  splits; auto. constructor; auto. unfold no_squiggly in H5. lia.
Qed.

Lemma inside_next : forall B n upper s t s' q k opn cls nest func d st, reached B n upper s -> List.length B < n ->
  yylex (plain_env n upper) s = Ok t s' -> token_type t <> END_OF_INPUT -> Going func k ->
  At B (in_order (buffer s)) s' q (mkStringLiteral nest func opn cls None) -> lex_state s' = st -> diagnostics s' = diagnostics s ++ d -> comments s' = comments s ->
  lexes (plain_env n upper) s [t] s' /\ Inside B n upper s' q k opn cls nest /\ Moved s s' st d.
Proof.
  intros B n upper s t s' q k opn cls nest func d st HR Hn HY Ht HG [C1 C2 C3] HS HD HC. splits.
  - apply lexes_one; auto.
  - destruct C1 as [W P U Q O]. constructor; auto; [eapply reached_next; eauto|exists func; auto|unfold no_squiggly; lia].
  - constructor; auto. apply C1.
Qed.

Lemma going_flags : forall func k, Going func k -> k_regexp k = false -> Flags func (k_interp k) (k_words k).
Proof. intros func k [] H. constructor; congruence. Qed.

Lemma good_dl : forall k opn cls, good_delims k opn cls -> Delims (k_interp k) (k_words k) opn cls.
Proof. intros k opn cls (H1 & H2 & H3 & H4). constructor; auto. Qed.

(** The opening of a literal that is not a list *)
Theorem C53_opening : forall B n upper s p sp op k kd opn cls st,
  Place B n upper s p sp op -> opens (lex_state s) (command_start s) sp op k kd opn cls st -> k_words kd = false ->
  exists s', lexes (plain_env n upper) s [tok_at k op (p + List.length sp) (List.length op)] s' /\
    Inside B n upper s' (p + List.length sp + List.length op) kd opn cls 0 /\ Moved s s' st [].
Proof.
  intros B n upper s p sp op k kd opn cls st [P1 P2 P3 P4 P5 P6 P7 P8] HOp HKw.
  pose proof (reached_inv B n upper s P1) as [HW _ _ (L1 & L2)]. unfold no_squiggly in P6.
  destruct (wp_ok _ _ (plain_env n upper) yylex (fun t s' => t = tok_at k op (p + List.length sp) (List.length op) /\
      exists func, Kept func kd /\ At B (in_order (buffer s)) s' (p + List.length sp + List.length op) (mkStringLiteral 0 func opn cls None) /\
        lex_state s' = st /\ diagnostics s' = diagnostics s /\ comments s' = comments s) s) as (t & s' & E & -> & func & A1 & A2 & A3 & A4 & A5).
  - eapply (opens_wp B (in_order (buffer s)) (plain_env n upper) P8 s p sp op k kd opn cls st); auto; [lia|].
    intros s' func A1 A2 A3 A4 A5. split; auto. exists func. auto.
  - exists s'. eapply inside_next; eauto; [|destruct A1; constructor; auto; congruence|rewrite A4, app_nil_r; reflexivity].
    cbn. destruct HOp as [| | | | |l k interp words c opn cls K1 K2 K3 K4| |]; try discriminate. destruct K1; discriminate.
Qed.
Print Assumptions C53_opening.

(** The opening of a list, the white space behind it, before the first word *)
Theorem C53_list_opening : forall B n upper s p sp op k kd opn cls st gap z,
  Place B n upper s p sp (op ++ gap) -> opens (lex_state s) (command_start s) sp op k kd opn cls st -> k_words kd = true ->
  Forall (fun c => white_byte c /\ c <> 13%N) gap -> nth_error B (p + List.length sp + List.length op + List.length gap) = Some z -> ~ white_byte z -> z <> cls ->
  exists s', lexes (plain_env n upper) s [tok_at k op (p + List.length sp) (List.length op);
      tok_at tSPACE gap (p + List.length sp + List.length op) (List.length gap)] s' /\
    Inside B n upper s' (p + List.length sp + List.length op + List.length gap) kd opn cls 0 /\ Moved s s' st [].
Proof.
  intros B n upper s p sp op k kd opn cls st gap z [P1 P2 P3 P4 P5 P6 P7 P8] HOp HKw HG Hz HzW Hzc.
  pose proof (reached_inv B n upper s P1) as [HW _ _ (L1 & L2)]. unfold no_squiggly in P6.
  rewrite app_assoc in P4. pose proof P4 as P4'. apply text_at_app in P4'. destruct P4' as (T1 & T2). rewrite app_length, Nat.add_assoc in T2.
  destruct (wp_ok _ _ (plain_env n upper) yylex (fun t s' => t = tok_at k op (p + List.length sp) (List.length op) /\
      exists func, Kept func kd /\ At B (in_order (buffer s)) s' (p + List.length sp + List.length op) (mkStringLiteral 0 func opn cls None) /\
        lex_state s' = st /\ diagnostics s' = diagnostics s /\ comments s' = comments s) s) as (t & s1 & E & -> & func & A1 & A2 & A3 & A4 & A5).
  - eapply (opens_wp B (in_order (buffer s)) (plain_env n upper) P8 s p sp op k kd opn cls st); auto; [lia| |].
    + intros K. apply P7. apply in_or_app. auto.
    + intros s' func A1 A2 A3 A4 A5. split; auto. exists func. auto.
  - set (q := p + List.length sp + List.length op) in *.
    assert (HRe : k_regexp kd = false) by (destruct HOp; cbn in HKw; try discriminate HKw; reflexivity).
    assert (Hk : k <> END_OF_INPUT). { destruct HOp as [| | | | |l k interp words c opn cls K1 K2 K3 K4| |]; try discriminate. destruct K1; discriminate. }
    assert (HR1 : reached B n upper s1) by (eapply reached_next; eauto).
    assert (A1' : has func STR_FUNC_LIST = true) by (destruct A1; congruence).
    assert (HFl : Flags func (k_interp kd) true) by (destruct A1; constructor; congruence).
    destruct A2 as [C1 C2 (C3 & C4)].
    destruct (wp_ok _ _ (plain_env n upper) yylex (fun t s' => t = tok_at tSPACE gap q (List.length gap) /\
        InString B (in_order (buffer s)) s1 s' (q + List.length gap) (mkStringLiteral 0 (N.ldiff func STR_FUNC_LIST) opn cls None) /\ diagnostics s' = diagnostics s1) s1) as (t & s2 & E2 & -> & I2 & G2).
    + eapply (space_wp B (in_order (buffer s)) (plain_env n upper) P8 s1 q 0 func (N.ldiff func STR_FUNC_LIST) opn cls (k_interp kd) gap z); eauto.
      * rewrite A1'. reflexivity.
      * intros K. apply P7. apply in_or_app. auto.
      * replace (N.eqb z cls) with false by (symmetry; apply N.eqb_neq; exact Hzc). cbn [andb]. auto.
    + destruct I2 as [D1 D2 D3 D4 D5]. exists s2.
      assert (HGo : Going (N.ldiff func STR_FUNC_LIST) kd).
      { assert (HB : forall b, b <> 14%N -> N.testbit (N.ldiff func STR_FUNC_LIST) b = N.testbit func b).
        { intros b Hb. rewrite N.ldiff_spec. change STR_FUNC_LIST with (2 ^ 14)%N. rewrite N.pow2_bits_false by congruence. apply andb_true_r. }
        assert (HH : forall b, b <> 14%N -> has (N.ldiff func STR_FUNC_LIST) (2 ^ b)%N = has func (2 ^ b)%N).
        { intros b Hb. change (ls_is_some (N.ldiff func STR_FUNC_LIST) (2 ^ b)%N = ls_is_some func (2 ^ b)%N). rewrite !some_pow. apply HB; auto. }
        pose proof A1 as [B1 B2 B3 B4 B5 B6 B7 B8].
        constructor; [rewrite <- B1; apply (HH 1%N)|rewrite <- B2; apply (HH 3%N)| |rewrite <- B4; apply (HH 2%N)|rewrite <- B5; apply (HH 0%N)|rewrite <- B6; apply (HH 6%N)
          |rewrite <- B7; apply (HH 5%N)|rewrite <- B8; apply (HH 15%N)]; try discriminate.
        change (ls_is_some (N.ldiff func (2 ^ 14)) (2 ^ 14)%N = false). rewrite some_pow, N.ldiff_spec, N.pow2_bits_true. apply andb_false_r. }
      splits.
      * eapply lx_cons; [exact E|exact Hk|]. apply lexes_one; [exact E2|discriminate].
      * destruct D1 as [W P U Q O]. constructor; auto; [eapply reached_next; eauto; discriminate|exists (N.ldiff func STR_FUNC_LIST); auto|unfold no_squiggly; lia].
      * constructor; try congruence; [rewrite G2, A4, app_nil_r; reflexivity|apply D1].
Qed.
Print Assumptions C53_list_opening.

Section Tokens.
  Variables (B : list N) (n : nat) (upper : N -> bool).

  (** Text: one token up to the closing delimiter, to white space in a list, or to an interpolation *)
  Theorem C53_content : forall s p k opn cls nest txt v d nest' fin,
    Inside B n upper s p k opn cls nest -> k_regexp k = false -> good_delims k opn cls ->
    content B (k_interp k) (k_words k) opn cls fin p nest txt v d nest' -> text_at B p txt -> nth_error B (p + List.length txt) = Some fin -> fin <> 13%N ->
    text_ends B (k_interp k) (k_words k) opn cls (p + List.length txt) nest' fin -> (In 10%N txt -> in_order (buffer s)) ->
    exists s', lexes (plain_env n upper) s [tok_at tSTRING_CONTENT v p (List.length txt)] s' /\ Inside B n upper s' (p + List.length txt) k opn cls nest' /\ Moved s s' (lex_state s) d.
  Proof using.
    intros s p k opn cls nest txt v d nest' fin HI HRe HDl HCt HT Hfin H13 HEnd HO. destruct (inside_cur _ _ _ _ _ _ _ _ _ HI) as (HC & V1 & V2).
    pose proof HI as [I1 (func & HG & IT) I3 I4 I5 I6].
    destruct (wp_ok _ _ (plain_env n upper) yylex (fun t s' => t = tok_at tSTRING_CONTENT v p (List.length txt) /\ InString B (in_order (buffer s)) s s' (p + List.length txt) (mkStringLiteral nest' func opn cls None) /\ diagnostics s' = diagnostics s ++ d) s) as (t & s' & E & -> & [D1 D2 D3 D4 D5] & G).
    - eapply (content2_wp B (in_order (buffer s)) (plain_env n upper) I6 s p nest func opn cls None (k_interp k) (k_words k)); eauto.
      + apply going_flags; auto.
      + apply HG.
      + apply good_dl; auto.
    - exists s'. eapply inside_next; eauto; [discriminate|constructor; auto].
  Qed.

  (** Embedded code: the braces' number sign and opening brace; a command can start behind it *)
  Theorem C53_code : forall s p k opn cls nest,
    Inside B n upper s p k opn cls nest -> k_interp k = true -> ~ delim opn cls 35%N -> text_at B p [35; 123]%N -> p + 2 < List.length B ->
    exists s', lexes (plain_env n upper) s [tok_at tSTRING_DBEG [35; 123]%N p 2] s' /\ Inside B n upper s' (p + 2) k opn cls nest /\ Moved s s' (lex_state s) [] /\ command_start s' = true.
  Proof using.
    intros s p k opn cls nest HI HIn HD HT Hl. destruct (inside_cur _ _ _ _ _ _ _ _ _ HI) as (HC & V1 & V2).
    pose proof HI as [I1 (func & HG & IT) I3 I4 I5 I6]. apply text_at_cons in HT. destruct HT as (T1 & HT). apply text_at_cons in HT. destruct HT as (T2 & _).
    destruct (wp_ok _ _ (plain_env n upper) yylex (fun t s' => t = tok_at tSTRING_DBEG [35; 123]%N p 2 /\ InString B (in_order (buffer s)) s s' (p + 2) (mkStringLiteral nest func opn cls None) /\ diagnostics s' = diagnostics s /\ command_start s' = true) s) as (t & s' & E & -> & [D1 D2 D3 D4 D5] & G & HCm).
    - eapply (interp_wp B (in_order (buffer s)) (plain_env n upper) I6 s p nest func opn cls None (k_words k) tSTRING_DBEG); eauto; try apply HG. rewrite <- HIn. apply HG.
    - exists s'. destruct (inside_next B n upper s (tok_at tSTRING_DBEG [35; 123]%N p 2) s' (p + 2) k opn cls nest func [] (lex_state s)) as (X1 & X2 & X3); auto; [discriminate|constructor; auto|rewrite app_nil_r; auto].
  Qed.

  (** An embedded variable: the number sign alone *)
  Theorem C53_variable : forall s p k opn cls nest,
    Inside B n upper s p k opn cls nest -> k_interp k = true -> ~ delim opn cls 35%N -> nth_error B p = Some 35%N -> variable_at B (p + 1) ->
    exists s', lexes (plain_env n upper) s [tok_at tSTRING_DVAR [35%N] p 1] s' /\ Inside B n upper s' (p + 1) k opn cls nest /\ Moved s s' (lex_state s) [] /\ command_start s' = command_start s.
  Proof using.
    intros s p k opn cls nest HI HIn HD T1 HV. destruct (inside_cur _ _ _ _ _ _ _ _ _ HI) as (HC & V1 & V2).
    pose proof HI as [I1 (func & HG & IT) I3 I4 I5 I6].
    destruct (wp_ok _ _ (plain_env n upper) yylex (fun t s' => t = tok_at tSTRING_DVAR [35%N] p 1 /\ InString B (in_order (buffer s)) s s' (p + 1) (mkStringLiteral nest func opn cls None) /\ diagnostics s' = diagnostics s /\ command_start s' = command_start s) s) as (t & s' & E & -> & [D1 D2 D3 D4 D5] & G & HCm).
    - eapply (interp_wp B (in_order (buffer s)) (plain_env n upper) I6 s p nest func opn cls None (k_words k) tSTRING_DVAR); eauto; try apply HG. rewrite <- HIn. apply HG.
    - exists s'. destruct (inside_next B n upper s (tok_at tSTRING_DVAR [35%N] p 1) s' (p + 1) k opn cls nest func [] (lex_state s)) as (X1 & X2 & X3); auto; [discriminate|constructor; auto|rewrite app_nil_r; auto].
  Qed.

  (** White space between the words of a list *)
  Theorem C53_space : forall s p k opn cls nest gap z,
    Inside B n upper s p k opn cls nest -> k_regexp k = false -> k_words k = true -> gap <> [] -> Forall (fun c => white_byte c /\ c <> 13%N) gap -> text_at B p gap ->
    nth_error B (p + List.length gap) = Some z -> ~ white_byte z -> (z = cls -> 0 < nest) -> (In 10%N gap -> in_order (buffer s)) ->
    exists s', lexes (plain_env n upper) s [tok_at tSPACE gap p (List.length gap)] s' /\ Inside B n upper s' (p + List.length gap) k opn cls nest /\ Moved s s' (lex_state s) [].
  Proof using.
    intros s p k opn cls nest gap z HI HRe HKw Hne HG HT Hz HzW Hzc HO. destruct (inside_cur _ _ _ _ _ _ _ _ _ HI) as (HC & V1 & V2).
    pose proof HI as [I1 (func & HGo & IT) I3 I4 I5 I6]. pose proof (go_list _ _ HGo) as HLi.
    destruct (wp_ok _ _ (plain_env n upper) yylex (fun t s' => t = tok_at tSPACE gap p (List.length gap) /\ InString B (in_order (buffer s)) s s' (p + List.length gap) (mkStringLiteral nest func opn cls None) /\ diagnostics s' = diagnostics s) s) as (t & s' & E & -> & [D1 D2 D3 D4 D5] & G).
    - pose proof (going_flags _ _ HGo HRe) as HF. rewrite HKw in HF.
      eapply (space_wp B (in_order (buffer s)) (plain_env n upper) I6 s p nest func func opn cls (k_interp k) gap z); eauto.
      + rewrite HLi. reflexivity.
      + replace (N.eqb z cls && (nest =? 0)) with false; [auto|]. symmetry. destruct (N.eqb_spec z cls) as [->|]; [|reflexivity]. specialize (Hzc eq_refl). cbn [andb]. lia.
    - exists s'. eapply inside_next; eauto; [discriminate|constructor; auto|rewrite app_nil_r; auto].
  Qed.

  (** The end of a literal that is not a list *)
  Theorem C53_end : forall s p k opn cls,
    Inside B n upper s p k opn cls 0 -> k_regexp k = false -> k_words k = false -> cls <> 13%N -> nth_error B p = Some cls -> (cls = 10%N -> in_order (buffer s)) ->
    (k_label k = true -> cls <> 10%N /\ ~ IdentSpec.single_colon B (p + 1)) ->
    exists s', lexes (plain_env n upper) s [tok_at tSTRING_END [cls] p 1] s' /\ Done B s s' (p + 1) [].
  Proof using.
    intros s p k opn cls HI HRe HKw H13 Tx H10 HLb. destruct (inside_cur _ _ _ _ _ _ _ _ _ HI) as (HC & V1 & V2).
    pose proof HI as [I1 (func & HGo & IT) I3 I4 I5 I6].
    destruct (wp_ok _ _ (plain_env n upper) yylex (fun t s' => t = tok_at tSTRING_END [cls] p 1 /\ Closed B (in_order (buffer s)) s s' (p + 1)) s) as (t & s' & E & -> & [D1 D2 D3 D4 D5 D6]).
    - pose proof (going_flags _ _ HGo HRe) as HF. rewrite HKw in HF.
      eapply (end2_wp B (in_order (buffer s)) (plain_env n upper) I6 s p func opn cls None (k_interp k)); eauto; [apply HGo|].
      rewrite (go_label _ _ HGo). exact HLb.
    - exists s'. split; [apply lexes_one; [exact E|discriminate]|]. apply behind_done. constructor; auto. rewrite app_nil_r. auto.
  Qed.

  (** The end of a literal that is a label: the closing quote and the colon are one token *)
  Theorem C53_label_end : forall s p k opn cls,
    Inside B n upper s p k opn cls 0 -> k_regexp k = false -> k_words k = false -> cls <> 13%N -> cls <> 10%N -> nth_error B p = Some cls ->
    k_label k = true -> IdentSpec.single_colon B (p + 1) ->
    exists s', lexes (plain_env n upper) s [tok_at tLABEL_END [cls; 58%N] p 2] s' /\ pcur (buffer s') = p + 2 /\ (p + 2 < List.length B -> upcoming (buffer s') (p + 2)) /\ strterm s' = None /\ Moved s s' (2 ^ IdentSpec.b_beg + 2 ^ IdentSpec.b_label) [].
  Proof using.
    intros s p k opn cls HI HRe HKw H13 H10 Tx HLb HSc. destruct (inside_cur _ _ _ _ _ _ _ _ _ HI) as (HC & V1 & V2).
    pose proof HI as [I1 (func & HGo & IT) I3 I4 I5 I6].
    destruct (wp_ok _ _ (plain_env n upper) yylex (fun t s' => t = tok_at tLABEL_END [cls; 58%N] p 2 /\ Cur B (in_order (buffer s)) (buffer s') (p + 2) /\ strterm s' = None /\ lex_state s' = N.lor EXPR_BEG EXPR_LABEL /\ diagnostics s' = diagnostics s /\ comments s' = comments s) s) as (t & s' & E & -> & D1 & D2 & D3 & D4 & D5).
    - pose proof (going_flags _ _ HGo HRe) as HF. rewrite HKw in HF.
      eapply (label_wp B (in_order (buffer s)) (plain_env n upper) I6 s p func opn cls None (k_interp k)); eauto; [apply HGo|rewrite (go_label _ _ HGo); exact HLb|].
      intros. splits; auto.
    - exists s'. destruct D1 as [W P U Qu O]. splits; auto; [apply lexes_one; [exact E|discriminate]|]. constructor; auto. rewrite app_nil_r. auto.
  Qed.

  (** The end of a list: the white space before it (possibly empty) is a token, too *)
  Theorem C53_list_end : forall s p k opn cls gap,
    Inside B n upper s p k opn cls 0 -> k_regexp k = false -> k_words k = true -> cls <> 13%N -> ~ white_byte cls -> Forall (fun c => white_byte c /\ c <> 13%N) gap ->
    text_at B p (gap ++ [cls]) -> (In 10%N gap -> in_order (buffer s)) ->
    exists s', lexes (plain_env n upper) s [tok_at tSPACE gap p (List.length gap); tok_at tSTRING_END [cls] (p + List.length gap) 1] s' /\ Done B s s' (p + List.length gap + 1) [].
  Proof using.
    intros s p k opn cls gap HI HRe HKw H13 HcW HG HT HO. destruct (inside_cur _ _ _ _ _ _ _ _ _ HI) as (HC & V1 & V2).
    apply text_at_app in HT. destruct HT as (HT & Tz). apply text_at_cons in Tz. destruct Tz as (Tz & _).
    pose proof HI as [I1 (func & HGo & IT) I3 I4 I5 I6]. pose proof (go_list _ _ HGo) as HLi.
    pose proof (going_flags _ _ HGo HRe) as HF. rewrite HKw in HF.
    destruct (wp_ok _ _ (plain_env n upper) yylex (fun t s' => t = tok_at tSPACE gap p (List.length gap) /\ InString B (in_order (buffer s)) s s' (p + List.length gap) (mkStringLiteral 0 (N.lor func STR_FUNC_TERM) opn cls None) /\ diagnostics s' = diagnostics s) s) as (t & s1 & E & -> & [D1 D2 D3 (D4 & D4') D5] & G).
    - eapply (space_wp B (in_order (buffer s)) (plain_env n upper) I6 s p 0 func func opn cls (k_interp k) gap cls); eauto.
      + rewrite HLi. reflexivity.
      + rewrite N.eqb_refl. cbn [andb Nat.eqb]. auto.
    - assert (HBt : forall b, b <> 15%N -> has (N.lor func STR_FUNC_TERM) (2 ^ b)%N = has func (2 ^ b)%N).
      { intros b Hb. change (ls_is_some (N.lor func STR_FUNC_TERM) (2 ^ b)%N = ls_is_some func (2 ^ b)%N). rewrite !some_pow, N.lor_spec.
        change STR_FUNC_TERM with (2 ^ 15)%N. rewrite N.pow2_bits_false by congruence. apply orb_false_r. }
      pose proof HGo as [B1 B2 B3 B4 B5 B6 B7 B8].
      destruct (wp_ok _ _ (plain_env n upper) yylex (fun t s' => t = tok_at tSTRING_END [cls] (p + List.length gap) 1 /\ Closed B (in_order (buffer s)) s1 s' (p + List.length gap + 1)) s1) as (t & s' & E' & -> & [F1 F2 F3 F4 F5 F6]).
      + eapply (term_wp B (in_order (buffer s)) (plain_env n upper) I6 s1 (p + List.length gap) (N.lor func STR_FUNC_TERM) opn cls 0); auto.
        * change (ls_is_some (N.lor func STR_FUNC_TERM) (2 ^ 15)%N = true). rewrite some_pow, N.lor_spec. apply orb_true_iff. right. reflexivity.
        * change STR_FUNC_QWORDS with (2 ^ 3)%N. rewrite HBt by discriminate. rewrite <- HKw. exact B2.
        * change STR_FUNC_REGEXP with (2 ^ 2)%N. rewrite HBt by discriminate. rewrite <- HRe. exact B4.
        * intros ->. exfalso. apply HcW. unfold white_byte. lia.
      + exists s'. split; [eapply lx_cons; [exact E|discriminate|]; apply lexes_one; [exact E'|discriminate]|]. apply behind_done. constructor; auto; try congruence.
        rewrite F5, G, app_nil_r. reflexivity.
  Qed.
End Tokens.
Print Assumptions C53_content.
Print Assumptions C53_code.
Print Assumptions C53_variable.
Print Assumptions C53_space.
Print Assumptions C53_end.
Print Assumptions C53_label_end.
Print Assumptions C53_list_end.

(** ** Examples *)

(** What the parser does with a string that embeds code and a variable: it takes the literal aside, reads the code, and puts it back *)
Definition c53_source : list N := 34%N :: bs "a#{b}c#$ #@d" ++ [34%N].
Definition c53_actions : list Action :=
  [PNext; PNext; PNext; PTakeStrterm; PBraceNest 0; PLexState EXPR_BEG; PNext; PNext; PRestoreStrterm 0; PLexState EXPR_BEG;
   PNext; PNext; PNext; PTakeStrterm; PLexState EXPR_BEG; PNext; PRestoreStrterm 1; PNext].
Example C53_example :
  match run_client c53_source [] true c53_actions (plain_env 300 (fun _ => false)) with
  | Ok ts _ => map (fun t => (token_type t, token_value t, loc_begin (token_loc t), loc_end (token_loc t))) ts
  | _ => []
  end = [(tSTRING_BEG, [34%N], 0, 1); (tSTRING_CONTENT, bs "a", 1, 2); (tSTRING_DBEG, bs "#{", 2, 4); (tIDENTIFIER, bs "b", 4, 5); (tSTRING_DEND, bs "}", 5, 6);
         (tSTRING_CONTENT, bs "c", 6, 7); (tSTRING_CONTENT, bs "#$ ", 7, 10); (tSTRING_DVAR, bs "#", 10, 11); (tIVAR, bs "@d", 11, 13); (tSTRING_END, [34%N], 13, 14)].
Proof. vm_compute. reflexivity. Qed.

Ltac inside := constructor; auto; try reflexivity; [eexists; split; [|vm_compute; reflexivity]; constructor; reflexivity|intros _; split; [reflexivity|]; left; splits; auto; vm_compute; lia|
  unfold no_squiggly; vm_compute; discriminate|vm_compute; lia].

(** Behind the opening, and after the embedded code was read *)
Example C53_after_opening : exists s, Inside c53_source 200 (fun _ => false) s 1 (mkKind true false false false) None 34 0.
Proof. reach_state c53_source [PNext]. inside. Qed.
Example C53_after_code :
  exists s, Inside c53_source 200 (fun _ => false) s 6 (mkKind true false false false) None 34 0 /\
    (exists fin, content c53_source true false None 34 fin 6 0 (bs "c") (bs "c") [] 0 /\ text_ends c53_source true false None 34 7 0 fin).
Proof.
  reach_state c53_source [PNext; PNext; PNext; PTakeStrterm; PBraceNest 0; PLexState EXPR_BEG; PNext; PNext; PRestoreStrterm 0].
  split; [inside|]. exists 35%N. split.
  - apply ct_text; [discriminate|]. apply (bd_cons true false None 34 35 6 0 (bs "c") (bs "c") [] 0 [] [] [] 0); [|constructor].
    apply pc_char; try discriminate. intros [A|A]; discriminate.
  - apply te_hash; auto. split; [reflexivity|left; reflexivity].
Qed.

(** A number sign and a dollar sign that are text; a variable *)
Example C53_text_hash : content c53_source true false None 34 35 7 0 (bs "#$ ") (bs "#$ ") [] 0 /\ variable_at c53_source 11.
Proof.
  split; [|eapply va_instance; [reflexivity..|left; unfold IdentSpec.letter; cbn; lia]].
  apply (ct_hash c53_source true false None 34 35 7 0 (bs "$ ") (bs "$ ") [] 0); auto.
  - intros V. destruct V as [c V1 V2 V3|c V1 V2 V3|c V1 V2 V3 V4|c V1 V2 V3|c V1 V2 V3 V4]; vm_compute in V1; try discriminate V1; vm_compute in V2; try discriminate V2; injection V2 as <-.
    + destruct V3 as [V3|[V3|V3]]; [| |unfold IdentSpec.digit in V3; lia]; (repeat (destruct V3 as [V3|V3]; [discriminate V3|]); exact V3).
    + unfold name_byte, IdentSpec.letter in V3. lia.
  - apply (bd_cons true false None 34 35 8 0 (bs "$") (bs "$") [] 0 (bs " ") (bs " ") [] 0); [|apply (bd_cons true false None 34 35 9 0 (bs " ") (bs " ") [] 0 [] [] [] 0); [|constructor]];
      (apply pc_char; try discriminate; intros [A|A]; discriminate).
Qed.

(** The other openings and endings *)
Example C53_backquote : let src := bs "x `ls #{d}`" in
  exists s, Place src 200 (fun _ => false) s 1 [32%N] (bs "`") /\ opens (lex_state s) (command_start s) [32%N] (bs "`") tXSTRING_BEG (mkKind true false false false) None 96 (lex_state s).
Proof. set (src := bs "x `ls #{d}`"). cbn zeta. reach_state src [PNext]. split; [place|]. apply op_back; intros A; vm_compute in A; discriminate. Qed.
Example C53_symbol : let src := (bs "x :" ++ [34%N] ++ bs "a b" ++ [34%N])%list in
  exists s, Place src 200 (fun _ => false) s 1 [32%N] [58; 34]%N /\ opens (lex_state s) (command_start s) [32%N] [58; 34]%N tSYMBEG (mkKind true false false false) None 34 (2 ^ IdentSpec.b_fname).
Proof.
  set (src := (bs "x :" ++ [34%N] ++ bs "a b" ++ [34%N])%list). cbn zeta. reach_state src [PNext]. split; [place|].
  apply (op_symbol _ _ _ 34%N); auto; intros A; vm_compute in A; discriminate.
Qed.
Example C53_label : let src := (bs "f(" ++ [34%N] ++ bs "a" ++ [34%N] ++ bs ": 1)")%list in
  (exists s, Inside src 200 (fun _ => false) s 4 (mkKind true false false true) None 34 0 /\ nth_error src 4 = Some 34%N /\ IdentSpec.single_colon src 5).
Proof.
  set (src := (bs "f(" ++ [34%N] ++ bs "a" ++ [34%N] ++ bs ": 1)")%list). cbn zeta. reach_state src [PNext; PNext; PNext; PNext].
  splits; [inside|reflexivity|]. split; [reflexivity|vm_compute; discriminate].
Qed.
Example C53_words : let src := bs "%W[a#{b} c]" in exists s, Inside src 200 (fun _ => false) s 4 (mkKind true true false false) (Some 91%N) 93 0 /\ text_at src 4 [35; 123]%N.
Proof. set (src := bs "%W[a#{b} c]"). cbn zeta. reach_state src [PNext; PNext; PNext]. split; [inside|reflexivity]. Qed.
(** Control and meta escapes: the text [\M-\C-a\c?\C-\M-\x61] between double quotes *)
Example C53_modified : shown ([34%N] ++ bs "\M-\C-a\c?\C-\M-\x61" ++ [34%N]) =
  Some ([(tSTRING_BEG, [34%N], 0, 1); (tSTRING_CONTENT, [129; 127; 129]%N, 1, 21); (tSTRING_END, [34%N], 21, 22)], []).
Proof. vm_compute. reflexivity. Qed.
Example C53_modified_text : body true false None 34 34 1 0 (bs "\M-\C-a\c?") [129; 127]%N [] 0 /\ escaped_byte 34 false false (bs "C-\M-\x61") 129.
Proof.
  split.
  - apply (bd_cons true false None 34 34 1 0 (bs "\M-\C-a") [129%N] [] 0 (bs "\c?") [127%N] [] 0).
    + apply pc_modified; [reflexivity|intros [A|A]; discriminate| |left; reflexivity].
      apply (eb_meta_more _ false (bs "C-a") 1); [|discriminate]. apply (eb_control _ true [67; 45]%N 97); [constructor|unfold visible; lia|discriminate..].
    + apply (bd_cons true false None 34 34 8 0 (bs "\c?") [127%N] [] 0 [] [] [] 0); [|constructor].
      apply pc_modified; [reflexivity|intros [A|A]; discriminate| |right; right; left; reflexivity]. apply (eb_delete _ false [99%N]). constructor.
  - apply (eb_control_more _ false [67; 45]%N (bs "M-\x61") 225); [constructor| |discriminate].
    apply (eb_meta_more _ true (bs "x61") 97); [|discriminate]. apply (eb_hex _ true true (bs "61")); [repeat constructor; unfold hexadecimal; cbn; lia|cbn; lia|cbn; lia].
Qed.
