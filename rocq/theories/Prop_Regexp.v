(** * C57: the tokens of regular expressions *)
Require Import Verif.Base Verif.MaybeByteM Verif.Utf8M Verif.InputM Verif.DiagnosticM Verif.TokensM Verif.BufferM Verif.LexStateM
  Verif.LexerM Verif.LexStringM Verif.LexIdentM Verif.LexMainM Verif.ParserClientM
  Verif.SourceSpec Verif.SourceProofs Verif.Wp Verif.BufInv Verif.LexSpec Verif.NewlineInv Verif.MainInv Verif.RunInv Verif.Prop_Lexer
  Verif.ReadSpec Verif.YylexSpec Verif.Reach Verif.NumberSpec Verif.NumRead Verif.IdentRead Verif.IdentStep Verif.Prop_Ident Verif.Prop_Crlf Verif.Prop_End
  Verif.StringSpec Verif.StrNum Verif.StrRead Verif.StrStep Verif.StrOpen Verif.StrMore Verif.StrOpens Verif.Prop_String Verif.Prop_Interp
  Verif.RegexpSpec Verif.RegexpStep.
Require Verif.Prop_Bracket.
Require Import ZifyBool ZifyNat ZifyN.

Lemma going_re : forall func k, Going func k -> k_regexp k = true -> k_interp k = true -> k_words k = false -> ReFlags func.
Proof. intros func k [] H1 H2 H3. constructor; congruence. Qed.

(** A regular expression as its two openings make it: embedded code and variables, no list *)
Definition regexp_kind : Kind := mkKind true false true false.

Section Tokens.
  Variables (B : list N) (n : nat) (upper : N -> bool).

  (** Text: one token up to the closing delimiter or to an interpolation *)
  Theorem C57_content : forall s p opn cls nest txt v d nest' fin,
    Inside B n upper s p regexp_kind opn cls nest -> good_delims regexp_kind opn cls -> delimiter cls ->
    re_content opn cls B fin p nest txt v d nest' -> text_at B p txt -> nth_error B (p + List.length txt) = Some fin -> fin <> 13%N ->
    text_ends B true false opn cls (p + List.length txt) nest' fin -> (In 10%N txt -> in_order (buffer s)) ->
    exists s', lexes (plain_env n upper) s [tok_at tSTRING_CONTENT v p (List.length txt)] s' /\
      Inside B n upper s' (p + List.length txt) regexp_kind opn cls nest' /\ Moved s s' (lex_state s) d.
  Proof using.
    intros s p opn cls nest txt v d nest' fin HI (D1 & D2 & D3 & _) HDl HCt HT Hfin H13 HEnd HO. destruct (inside_cur _ _ _ _ _ _ _ _ _ HI) as (HC & V1 & V2).
    pose proof HI as [I1 (func & HG & IT) I3 I4 I5 I6].
    destruct (wp_ok _ _ (plain_env n upper) yylex (fun t s' => t = tok_at tSTRING_CONTENT v p (List.length txt) /\ InString B (in_order (buffer s)) s s' (p + List.length txt) (mkStringLiteral nest' func opn cls None) /\ diagnostics s' = diagnostics s ++ d) s) as (t & s' & E & -> & [E1 E2 E3 E4 E5] & G).
    - eapply (re_content_wp B (in_order (buffer s)) (plain_env n upper) I6 s p nest func opn cls None); eauto.
      + eapply going_re; eauto.
      + apply HG.
    - exists s'. eapply inside_next; eauto; [discriminate|constructor; auto].
  Qed.

  (** The closing delimiter and the options behind it: all letters there are *)
  Theorem C57_end : forall s p opn cls w,
    Inside B n upper s p regexp_kind opn cls 0 -> delimiter cls -> cls <> 10%N ->
    text_at B p (cls :: w) -> Forall option_letter w -> (forall c, nth_error B (p + 1 + List.length w) = Some c -> ~ option_letter c) ->
    exists s', lexes (plain_env n upper) s [tok_at tREGEXP_END (cls :: known_options w) p (1 + List.length w)] s' /\
      Done B s s' (p + 1 + List.length w) (options_report p w).
  Proof using.
    intros s p opn cls w HI HDl H10 HT HW HN. destruct (inside_cur _ _ _ _ _ _ _ _ _ HI) as (HC & V1 & V2).
    pose proof HI as [I1 (func & HG & IT) I3 I4 I5 I6].
    destruct (wp_ok _ _ (plain_env n upper) yylex (fun t s' => t = tok_at tREGEXP_END (cls :: known_options w) p (1 + List.length w) /\
        Behind B (in_order (buffer s)) s s' (p + 1 + List.length w) (options_report p w)) s) as (t & s' & E & -> & HB).
    - eapply (re_end_wp B (in_order (buffer s)) (plain_env n upper) I6 s p func opn cls None w); eauto; try apply HDl.
      + eapply going_re; eauto.
      + apply HG.
      + intros s' K. split; [|exact K]. unfold tok_at. rewrite Nat.add_assoc. reflexivity.
    - exists s'. split; [|apply behind_done; exact HB]. apply lexes_one; [exact E|discriminate].
  Qed.

  (** A whole regular expression without interpolation *)
  Theorem C57_regexp : forall s p sp op opn cls st txt v d w,
    Place B n upper s p sp (op ++ txt ++ cls :: w) -> opens (lex_state s) (command_start s) sp op tREGEXP_BEG regexp_kind opn cls st ->
    cls <> 10%N -> ~ delim opn cls 35%N ->
    re_body opn cls cls (p + List.length sp + List.length op) 0 txt v d 0 ->
    Forall option_letter w -> (forall c, nth_error B (p + List.length (sp ++ op ++ txt ++ cls :: w)) = Some c -> ~ option_letter c) ->
    let q := p + List.length sp in let r := q + List.length op + List.length txt in
    exists s', lexes (plain_env n upper) s (tok_at tREGEXP_BEG op q (List.length op) ::
        (if txt then [] else [tok_at tSTRING_CONTENT v (q + List.length op) (List.length txt)]) ++
        [tok_at tREGEXP_END (cls :: known_options w) r (1 + List.length w)]) s' /\
      Done B s s' (r + 1 + List.length w) (d ++ options_report r w).
  Proof using.
    intros s p sp op opn cls st txt v d w HP HOp H10 H35 HB HW HN q r. pose proof HP as [P1 P2 P3 P4 P5 P6 P7 P8].
    apply text_at_app in P4. destruct P4 as (T1 & T2). apply text_at_app in T2. destruct T2 as (T2 & T3). apply text_at_app in T3. destruct T3 as (T3 & T4).
    assert (HDl : delimiter cls /\ opn <> Some cls).
    { inversion HOp as [| | | |HV| |c o cl A1 A2 A3|c o cl A1 A2 A3]; subst; auto.
      - split; [unfold delimiter; lia|discriminate].
      - clear - A1 A2 H35. destruct A2; unfold delimiter in *; split; try lia; try discriminate; congruence. }
    destruct HDl as (HDl & HDiff).
    destruct (C53_opening B n upper s p sp op tREGEXP_BEG regexp_kind opn cls st) as (s1 & X1 & X2 & X3); auto.
    { constructor; auto. - apply text_at_app. split; auto. - intros K. apply P7. apply in_or_app. auto. }
    fold q in T2, T3, T4, X1, X2, HB. fold r in T4.
    assert (HG : good_delims regexp_kind opn cls) by (unfold good_delims; splits; auto; [apply HDl|discriminate]).
    assert (HN' : forall c, nth_error B (r + 1 + List.length w) = Some c -> ~ option_letter c).
    { intros c K. apply HN. rewrite <- K. f_equal. rewrite !app_length. cbn [List.length]. subst q r. clear. lia. }
    assert (HF : forall s2 ts d1, lexes (plain_env n upper) s1 ts s2 -> Inside B n upper s2 r regexp_kind opn cls 0 -> diagnostics s2 = diagnostics s ++ d1 -> comments s2 = comments s ->
        (in_order (buffer s) -> in_order (buffer s2)) ->
        exists s', lexes (plain_env n upper) s (tok_at tREGEXP_BEG op q (List.length op) :: ts ++ [tok_at tREGEXP_END (cls :: known_options w) r (1 + List.length w)]) s' /\
          Done B s s' (r + 1 + List.length w) (d1 ++ options_report r w)).
    { intros s2 ts d1 Y1 Y2 Y3 Y4 Y5. destruct (C57_end s2 r opn cls w) as (s3 & Z1 & Z2); auto. exists s3. split.
      - change (tok_at tREGEXP_BEG op q (List.length op) :: ts ++ [tok_at tREGEXP_END (cls :: known_options w) r (1 + List.length w)])
          with ([tok_at tREGEXP_BEG op q (List.length op)] ++ ts ++ [tok_at tREGEXP_END (cls :: known_options w) r (1 + List.length w)]).
        eapply Prop_Bracket.lexes_app; [exact X1|]. eapply Prop_Bracket.lexes_app; eauto.
      - destruct Z2 as [A1 A2 A3 A4 A5 A6 A7 A8]. constructor; auto; [|congruence]. rewrite A5, Y3, app_assoc. reflexivity. }
    destruct X3 as [M1 M2 M3 M4]. rewrite app_nil_r in M2. destruct txt as [|x txt].
    - assert (d = []). { inversion HB as [|p0 n0 txt0 v0 d0 n1 rest v' d' n2 K1 K2 E1]; [reflexivity|]. exfalso. 
        destruct (re_piece_first _ _ _ _ _ _ _ _ _ K1 HDiff H35) as (x & w0 & -> & _). discriminate. }
      subst d. apply (HF s1 [] []); auto; [constructor|subst r; rewrite Nat.add_0_r; exact X2|rewrite M2, app_nil_r; reflexivity].
    - assert (T5 : nth_error B r = Some cls) by (apply text_at_cons in T4; apply T4).
      destruct (C57_content s1 (q + List.length op) opn cls 0 (x :: txt) v d 0 cls) as (s2 & Y1 & Y2 & [Z1 Z2 Z3 Z4]); auto.
      + apply rc_text; [discriminate|exact HB].
      + apply HDl.
      + apply te_close; reflexivity.
      + intros K. apply M4, P7. apply in_or_app. right. apply in_or_app. left. exact K.
      + apply (HF s2 _ d); auto; [rewrite Z2, M2; reflexivity|congruence].
  Qed.
End Tokens.
Print Assumptions C57_content.
Print Assumptions C57_end.
Print Assumptions C57_regexp.

(** The control escape of a value below 16 ends in a byte 0, and is not the byte with two digits: the value is written into four zeroed bytes with one digit *)
Theorem C57_control_refuted : exists w v t rest, escaped_byte 47 false false w v /\ In (hd 0%N w) [77; 67; 99]%N /\
  shown (47%N :: 92%N :: w ++ [47%N]) = Some ((tREGEXP_BEG, [47%N], 0, 1) :: (tSTRING_CONTENT, t, 1, 2 + List.length w) :: rest, []) /\
  t <> two_digits v /\ In 0%N t /\ ~ In 0%N w.
Proof.
  exists (bs "C-a"), 1%N. eexists _, _. splits; [|cbn; auto|vm_compute; reflexivity|vm_compute; discriminate|cbn; auto 6|cbn; intuition discriminate].
  apply (eb_control _ false [67; 45]%N 97); [constructor|unfold visible; lia|discriminate..].
Qed.
Print Assumptions C57_control_refuted.

(** ** Examples *)
Definition c57_source : list N := bs "x = /a\/b\M-a/imz".
Example C57_example : shown c57_source =
  Some ([(tIDENTIFIER, bs "x", 0, 1); (tEQL, bs "=", 2, 3); (tREGEXP_BEG, bs "/", 4, 5);
         (tSTRING_CONTENT, bs "a/b\xE1", 5, 13); (tREGEXP_END, bs "/im", 13, 17)], [(UnknownRegexOptions (bs "z"), 13, 17)]).
Proof. vm_compute. reflexivity. Qed.

Example C57_place : exists s, Place c57_source 200 (fun _ => false) s 3 [32%N] (bs "/" ++ bs "a\/b\M-a" ++ 47%N :: bs "imz") /\
  opens (lex_state s) (command_start s) [32%N] (bs "/") tREGEXP_BEG regexp_kind None 47 (lex_state s).
Proof. reach_state c57_source [PNext; PNext]. split; [place|]. apply op_slash. vm_compute. auto. Qed.

Example C57_text : re_body None 47 47 5 0 (bs "a\/b\M-a") (bs "a/b\xE1") [] 0 /\ Forall option_letter (bs "imz") /\
  known_options (bs "imz") = bs "im" /\ options_report 13 (bs "imz") = [mkDiag Error (UnknownRegexOptions (bs "z")) (mkLoc 13 17)].
Proof.
  splits; [|repeat constructor; unfold option_letter; cbn; lia|reflexivity..].
  assert (D : forall c, c <> 47%N -> ~ delim None 47 c) by (intros c Hc [A|A]; congruence).
  apply (rb_cons None 47 47 5 0 (bs "a") (bs "a") [] 0 (bs "\/b\M-a") (bs "/b\xE1") [] 0).
  { apply rp_char; try discriminate. apply D. discriminate. }
  apply (rb_cons None 47 47 6 0 (bs "\/") (bs "/") [] 0 (bs "b\M-a") (bs "b\xE1") [] 0).
  { apply rp_delim; [apply D; discriminate|discriminate|]. cbn. intuition discriminate. }
  apply (rb_cons None 47 47 8 0 (bs "b") (bs "b") [] 0 (bs "\M-a") (bs "\xE1") [] 0).
  { apply rp_char; try discriminate. apply D. discriminate. }
  apply (rb_cons None 47 47 9 0 (bs "\M-a") (bs "\xE1") [] 0 [] [] [] 0); [|constructor].
  apply (rp_modified None 47 47 9 0 (bs "M-a") 225); [apply D; discriminate| |left; reflexivity|lia].
  apply (eb_meta _ false 97); [unfold visible; lia|discriminate].
Qed.

(** Inside a regular expression with brackets as delimiters and embedded code *)
Definition c57_inside : list N := bs "%r{a{1}#{x}\u{41  42}}o".
Example C57_inside : exists s, Inside c57_inside 200 (fun _ => false) s 3 regexp_kind (Some 123%N) 125 0 /\
  re_content (Some 123%N) 125 c57_inside 35 3 0 (bs "a{1}") (bs "a{1}") [] 0 /\ text_ends c57_inside true false (Some 123%N) 125 7 0 35.
Proof.
  reach_state c57_inside [PNext]. split; [inside|]. split; [|apply te_hash; auto; split; [reflexivity|right; right; reflexivity]].
  apply rc_text; [discriminate|].
  apply (rb_cons (Some 123%N) 125 35 3 0 (bs "a") (bs "a") [] 0 (bs "{1}") (bs "{1}") [] 0).
  { apply rp_char; try discriminate. intros [A|A]; discriminate. }
  apply (rb_cons (Some 123%N) 125 35 4 0 (bs "{") (bs "{") [] 1 (bs "1}") (bs "1}") [] 0).
  { apply rp_open; auto; discriminate. }
  apply (rb_cons (Some 123%N) 125 35 5 1 (bs "1") (bs "1") [] 1 (bs "}") (bs "}") [] 0).
  { apply rp_char; try discriminate. intros [A|A]; discriminate. }
  apply (rb_cons (Some 123%N) 125 35 6 1 (bs "}") (bs "}") [] 0 [] [] [] 0); [|constructor].
  apply rp_close; discriminate.
Qed.

(** Behind the embedded code: code points in braces; the end *)
Definition c57_actions : list Action := [PNext; PNext; PNext; PTakeStrterm; PBraceNest 0; PLexState EXPR_BEG; PNext; PNext; PRestoreStrterm 0; PLexState EXPR_BEG].
Example C57_braces : exists s, Inside c57_inside 200 (fun _ => false) s 11 regexp_kind (Some 123%N) 125 0 /\
  re_content (Some 123%N) 125 c57_inside 125 11 0 (bs "\u{41  42}") (bs "\u{41 42}") [] 0.
Proof.
  reach_state c57_inside c57_actions. split; [inside|]. apply rc_text; [discriminate|].
  apply (rb_cons (Some 123%N) 125 125 11 0 (bs "\u{41  42}") (bs "\u{41 42}") [] 0 [] [] [] 0); [|constructor].
  apply (rp_braces (Some 123%N) 125 125 11 0 [] (bs "41  42") (bs "{41 42") []); [intros [A|A]; discriminate|constructor|].
  apply (rps_more 14 123 (bs "41") [32%N] 32 (bs "42") [65%N] [] (bs " 42") []); [|repeat constructor; cbn; auto|].
  - apply (cp_ok _ (bs "41")); [apply Forall_forall; cbn; unfold hexadecimal; intros c Hc; lia|cbn; lia|left; reflexivity].
  - apply (rps_last 18 32 (bs "42") [] [66%N] []); [|constructor].
    apply (cp_ok _ (bs "42")); [apply Forall_forall; cbn; unfold hexadecimal; intros c Hc; lia|cbn; lia|left; reflexivity].
Qed.
Example C57_last : exists s, Inside c57_inside 200 (fun _ => false) s 21 regexp_kind (Some 123%N) 125 0 /\ text_at c57_inside 21 (bs "}o").
Proof. reach_state c57_inside (c57_actions ++ [PNext]). split; [inside|reflexivity]. Qed.
