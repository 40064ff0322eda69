(** * Reading names *)
Require Import Verif.Base Verif.MaybeByteM Verif.Utf8M Verif.InputM Verif.BufferM Verif.TokensM Verif.LexStateM Verif.LexerM
  Verif.LexIdentM Verif.LexMainM
  Verif.SourceSpec Verif.SourceProofs Verif.Wp Verif.BufInv Verif.LexSpec Verif.ReadSpec Verif.YylexSpec Verif.NumRead Verif.ReservedM Verif.IdentSpec.
Require Import ZifyBool ZifyNat ZifyN.

(** ** Bytes of UTF-8 sequences *)
Definition nrange (a n : N) : list N := map N.of_nat (seq (N.to_nat a) (N.to_nat n)).
Lemma in_nrange : forall a n c, (a <= c < a + n)%N -> In c (nrange a n).
Proof. intros a n c H. unfold nrange. apply in_map_iff. exists (N.to_nat c). split; [lia|]. apply in_seq. lia. Qed.

Lemma land2 : forall c, (194 <= c <= 223)%N -> N.land c 128 <> 0%N /\ N.land c 224 = 192%N.
Proof.
  intros c H. assert (K : forallb (fun c => negb (N.eqb (N.land c 128) 0) && N.eqb (N.land c 224) 192) (nrange 194 30) = true) by (vm_compute; reflexivity).
  rewrite forallb_forall in K. specialize (K c (in_nrange 194 30 c ltac:(lia))). lia.
Qed.
Lemma land3 : forall c, (224 <= c <= 239)%N -> N.land c 128 <> 0%N /\ N.land c 224 <> 192%N /\ N.land c 240 = 224%N.
Proof.
  intros c H. assert (K : forallb (fun c => negb (N.eqb (N.land c 128) 0) && negb (N.eqb (N.land c 224) 192) && N.eqb (N.land c 240) 224) (nrange 224 16) = true) by (vm_compute; reflexivity).
  rewrite forallb_forall in K. specialize (K c (in_nrange 224 16 c ltac:(lia))). lia.
Qed.
Lemma land4 : forall c, (240 <= c <= 244)%N -> N.land c 128 <> 0%N /\ N.land c 224 <> 192%N /\ N.land c 240 <> 224%N /\ N.land c 248 = 240%N.
Proof.
  intros c H. assert (K : forallb (fun c => negb (N.eqb (N.land c 128) 0) && negb (N.eqb (N.land c 224) 192) && negb (N.eqb (N.land c 240) 224) && N.eqb (N.land c 248) 240) (nrange 240 5) = true) by (vm_compute; reflexivity).
  rewrite forallb_forall in K. specialize (K c (in_nrange 240 5 c ltac:(lia))). lia.
Qed.
Lemma land1 : forall c, (c < 128)%N -> N.land c 128 = 0%N.
Proof.
  intros c H. assert (K : forallb (fun c => N.eqb (N.land c 128) 0) (nrange 0 128) = true) by (vm_compute; reflexivity).
  rewrite forallb_forall in K. specialize (K c (in_nrange 0 128 c ltac:(lia))). lia.
Qed.

(** One character of a name *)
Inductive name_char : list N -> Prop :=
| nch_ascii : forall c, letter c \/ digit c -> name_char [c]
| nch_wide : forall u, wide_char u -> name_char u.

Lemma cont_is : forall c, cont c -> is_cont c = true.
Proof. unfold cont, is_cont, in_range. lia. Qed.

Lemma wide_valid : forall u w, wide_char u -> utf8_valid (u ++ w) = utf8_valid w.
Proof.
  intros u w H. destruct H as [a b H1 H2|a b c H1 H2 H3 H4 H5|a b c d H1 H2 H3 H4 H5 H6]; cbn [app utf8_valid].
  - replace (a <? 128)%N with false by lia. replace (in_range 194%N 223%N a) with true by (unfold in_range; lia). rewrite cont_is by auto. reflexivity.
  - replace (a <? 128)%N with false by lia. replace (in_range 194%N 223%N a) with false by (unfold in_range; lia).
    replace (in_range 224%N 239%N a) with true by (unfold in_range; lia). rewrite (cont_is c) by auto.
    replace (second3_ok a b) with true; [reflexivity|]. unfold second3_ok, is_cont, in_range, cont in *.
    destruct (N.eqb_spec a 224); [lia|]. destruct (N.eqb_spec a 237); lia.
  - replace (a <? 128)%N with false by lia. replace (in_range 194%N 223%N a) with false by (unfold in_range; lia).
    replace (in_range 224%N 239%N a) with false by (unfold in_range; lia). replace (in_range 240%N 244%N a) with true by (unfold in_range; lia).
    rewrite (cont_is c), (cont_is d) by auto.
    replace (second4_ok a b) with true; [reflexivity|]. unfold second4_ok, is_cont, in_range, cont in *.
    destruct (N.eqb_spec a 240); [lia|]. destruct (N.eqb_spec a 244); lia.
Qed.

Lemma char_valid : forall u w, name_char u -> utf8_valid (u ++ w) = utf8_valid w.
Proof.
  intros u w [c H|u' H]; [|apply wide_valid; auto]. cbn [app utf8_valid]. unfold letter, digit in H.
  replace (c <? 128)%N with true by lia. reflexivity.
Qed.

Inductive chars : list N -> Prop :=
| ch_nil : chars []
| ch_cons : forall u w, name_char u -> chars w -> chars (u ++ w).

Lemma tail_chars : forall w, name_tail w -> chars w.
Proof.
  induction 1 as [|c w H H1 IH|u w H H1 IH].
  - constructor.
  - apply (ch_cons [c] w); auto. constructor. exact H.
  - apply ch_cons; auto. apply nch_wide. exact H.
Qed.
Lemma chars_valid : forall w, chars w -> utf8_valid w = true.
Proof. induction 1 as [|u w H H1 IH]; [reflexivity|]. rewrite char_valid; auto. Qed.

Lemma name_split : forall w, name w -> exists u r, w = u ++ r /\ name_char u /\ chars r /\ (forall c, u = [c] -> letter c).
Proof.
  intros w [c r H H1|u r H H1].
  - exists [c], r. splits; auto; [constructor; auto|apply tail_chars; auto|]. intros c' E. injection E as <-. exact H.
  - exists u, r. splits; auto; [apply nch_wide; auto|apply tail_chars; auto|]. intros c E. subst u. inversion H.
Qed.

(** The first byte of a character *)
Definition nb (c : N) : Prop := letter c \/ digit c \/ (128 <= c)%N.
Lemma char_bytes : forall u c, name_char u -> In c u -> nb c.
Proof.
  intros u c [x H|u' H] HI.
  - destruct HI as [<-|[]]. unfold nb. tauto.
  - unfold nb. right. right. destruct H; cbn in HI; unfold cont in *; lia.
Qed.
Lemma chars_bytes : forall w c, chars w -> In c w -> nb c.
Proof. intros w c H. induction H; cbn; [tauto|]. intros HI. apply in_app_or in HI. destruct HI; auto. eapply char_bytes; eauto. Qed.
Lemma char_ne : forall u, name_char u -> exists c r, u = c :: r.
Proof. intros u [c H|u' []]; eauto. Qed.
Lemma nb_range : forall c, nb c -> c <> 10%N /\ c <> 13%N /\ c <> 46%N /\ c <> 33%N /\ c <> 63%N /\ c <> 58%N /\ c <> 61%N.
Proof. intros c H. unfold nb, letter, digit in H. splits; lia. Qed.

Lemma identchar_nb : forall B b p c, Ready B b -> nth_error B p = Some c -> b_is_identchar b p = true <-> nb c.
Proof.
  intros B b p c HR H. unfold b_is_identchar. rewrite (rd_at B b HR), H. unfold nb, letter, digit, b_is_alnum, b_is_digit, b_is_alpha, b_is_upper, b_is_lower, b_is_ascii, in_range. lia.
Qed.

Section Ident.
  Variables (B : list N) (e : Env) (b : Buffer) (s0 : Lexer).
  Hypothesis HR : Ready B b.
  Local Notation St := (NumRead.St b s0).
  Local Notation Sb := (NumRead.Sb s0).

  Lemma substr_text : forall p w b', input b' = input b -> text_at B p w -> p + List.length w <= List.length B ->
    b_substr_at b' p (p + List.length w) = Some w.
  Proof using HR.
    intros p w b' HI H HL. unfold b_substr_at, substr_at. rewrite HI. destruct HR as (W & _). pose proof (w_bytes B b W) as WB. unfold bytes in WB. rewrite WB.
    replace (p <=? p + List.length w) with true by lia. replace (p + List.length w <=? List.length B) with true by lia.
    cbn [andb]. replace (p + List.length w - p) with (List.length w) by lia. unfold text_at in H. rewrite H. reflexivity.
  Qed.

  Lemma char_len : forall u p q, name_char u -> text_at B p u -> p + List.length u <= pend b ->
    multibyte_char_len_pure (set_pcur q b) p = Some (List.length u).
  Proof using HR.
    intros u p q Hu Ht Hl. unfold multibyte_char_len_pure. pose proof (rd_pend B b HR) as HP.
    assert (HS : b_substr_at (set_pcur q b) p (p + List.length u) = Some u) by (apply substr_text; auto; lia).
    assert (HV : utf8_valid u = true). { rewrite <- (app_nil_r u), char_valid by auto. reflexivity. }
    destruct (char_ne u Hu) as (c & r & E).
    assert (HB : byte_at (set_pcur q b) p = Some c).
    { unfold byte_at. cbn [input set_pcur]. rewrite (rd_at B b HR). rewrite E in Ht. apply text_at_cons in Ht. apply Ht. }
    rewrite HB. 
    assert (HL : (if N.eqb (N.land c 128) 0 then Some 1 else if N.eqb (N.land c 224) 192 then Some 2 else if N.eqb (N.land c 240) 224 then Some 3 else if N.eqb (N.land c 248) 240 then Some 4 else None) = Some (List.length u)).
    { clear HS HV HB. destruct Hu as [x H|u' H].
      - injection E as -> <-. rewrite land1 by (unfold letter, digit in H; lia). reflexivity.
      - destruct H as [a1 b1 H1 H2|a1 b1 c1 H1 H2 H3 H4 H5|a1 b1 c1 d1 H1 H2 H3 H4 H5 H6]; injection E as -> <-.
        + destruct (land2 c H1) as (K1 & K2). rewrite K2. replace (N.eqb (N.land c 128) 0) with false by lia. reflexivity.
        + destruct (land3 c H1) as (K1 & K2 & K3). rewrite K3. replace (N.eqb (N.land c 128) 0) with false by lia. replace (N.eqb (N.land c 224) 192) with false by lia. reflexivity.
        + destruct (land4 c H1) as (K1 & K2 & K3 & K4). rewrite K4. replace (N.eqb (N.land c 128) 0) with false by lia. replace (N.eqb (N.land c 224) 192) with false by lia.
          replace (N.eqb (N.land c 240) 224) with false by lia. reflexivity. }
    rewrite HL, HS, HV. reflexivity.
  Qed.

  (** tokadd_mbchar, the first byte having been read *)
  Lemma mbchar_ok : forall c r p t (Q : bool -> Lexer -> Prop), name_char (c :: r) -> text_at B p (c :: r) -> p + S (List.length r) <= pend b ->
    Q true (St (t ++ c :: r) (p + S (List.length r))) -> wp e (tokadd_mbchar (Some c)) Q (St t (p + 1)).
  Proof using HR.
    intros c r p t Q Hu Ht Hl HQ. unfold tokadd_mbchar. ws. ws. ws. change (buffer (St t (p + 1))) with (set_pcur (p + 1) b).
    cbn [pcur set_pcur]. apply wp_sub_ck; [lia|]. replace (p + 1 - 1) with p by lia. ws. unfold multibyte_char_len. ws. ws.
    change (buffer (St t (p + 1))) with (set_pcur (p + 1) b). rewrite (char_len (c :: r)) by auto. ws. ws. ws. ws.
    cbn [List.length]. apply wp_sub_ck; [lia|]. replace (S (List.length r) - 1) with (List.length r) by lia. ws. ws. ws. unfold tokcopy. ws. ws. ws.
    cbn [buffer set_buffer set_tokenbuf pcur set_pcur St NumRead.St]. apply wp_sub_ck; [lia|].
    replace (p + 1 + List.length r - List.length r) with (p + 1) by lia. ws.
    apply text_at_cons in Ht. destruct Ht as (Hc & Ht). pose proof (rd_pend B b HR).
    eapply wp_expect. { apply substr_text; auto; lia. }
    unfold tok_append. ws. ws. unfold St, NumRead.St in *. cbn.
    replace (p + 1 + List.length r) with (p + S (List.length r)) by lia.
    replace (t ++ c :: r) with ((t ++ [c]) ++ r) in HQ by (rewrite <- app_assoc; reflexivity). exact HQ.
  Qed.

  Definition id_body : MaybeByte -> M Lexer (MaybeByte + option MaybeByte) := fun c =>
    ok <- tokadd_mbchar c ;;
    if negb ok then ret (inr None)
    else
      c <- nextc ;;
      i <- is_identchar ;;
      if i : bool then ret (inl c) else ret (inr (Some c)).

  (** What the loop leaves: the character behind the name, read *)
  Definition NameEnd (q : nat) (c : MaybeByte) (b' : Buffer) : Prop :=
    can_read B q c /\ Fin b q (back c b') /\ (c <> None -> 1 <= pcur b') /\ (c <> None -> c <> Some 10%N -> b' = set_pcur (q + 1) b) /\
    (forall x, q < pend b -> nth_error B q = Some x -> x <> 13%N -> c = Some x).

  Lemma nx_some : forall s q, InL B b q -> buffer s = set_pcur q b ->
    wp e nextc (fun c _ => forall x, q < pend b -> nth_error B q = Some x -> x <> 13%N -> c = Some x) s.
  Proof using HR.
    intros s q HI Hb.
    assert (HT : (exists x, q < pend b /\ nth_error B q = Some x /\ x <> 13%N) \/
      (forall x, q < pend b -> nth_error B q = Some x -> x <> 13%N -> False)).
    { destruct (Nat.lt_ge_cases q (pend b)); [|right; intros; lia]. destruct (nth_error B q) as [x|]; [|right; congruence].
      destruct (N.eq_dec x 13); [right; congruence|left; eauto]. }
    destruct HT as [(x & H1 & H2 & H3)|HT].
    - eapply (wp_nx B e b HR); eauto. intros y _ Hy _. congruence.
    - eapply (wp_nx_follow B e b HR); [exact HI|left; exact Hb|]. intros c b' _ _ _ _ x H1 H2 H3. exfalso. eauto.
  Qed.

  Lemma wp_nx_last : forall s q (Q : MaybeByte -> Lexer -> Prop), InL B b q -> buffer s = set_pcur q b ->
    (forall c b', NameEnd q c b' ->
       match c with None => eofp b' = true | Some x => eofp b' = false /\ nth_error B (pcur b' - 1) = Some x end ->
       Q c (set_buffer b' s)) ->
    wp e nextc Q s.
  Proof using HR.
    intros s q Q HI Hb HQ. pose proof (nx_some s q HI Hb) as H. revert H. unfold nextc, inb, zoom, wp. rewrite Hb.
    destruct (rd_follow B e b HR q (set_pcur q b) HI (or_introl eq_refl)) as (c & b' & H1 & H2 & H3 & H4 & H5 & H6). rewrite H1.
    intros H. apply HQ; auto. unfold NameEnd. auto.
  Qed.

  Lemma name_loop : forall w, chars w -> forall u c r p t n (Q : option MaybeByte -> Lexer -> Prop), u = c :: r -> name_char u ->
    text_at B p (u ++ w) -> pbeg b <= p -> p + List.length (u ++ w) <= pend b -> InL B b (p + List.length (u ++ w)) -> name_ends B (p + List.length (u ++ w)) ->
    List.length w < n ->
    (forall c b', NameEnd (p + List.length (u ++ w)) c b' -> Q (Some c) (Sb (t ++ u ++ w) b')) ->
    wp e (loop_n n id_body (Some c)) Q (St t (p + 1)).
  Proof using HR.
    intros w Hw. induction Hw as [|u' w' Hu' Hw' IH]; intros u c r p t n Q Eu Hu Ht Hb Hl HI HE Hn HQ; (destruct n as [|n]; [lia|]); cbn [loop_n]; ws; unfold id_body at 1; ws; rewrite Eu in Ht, HI, HE, Hl, Hu, HQ.
    - rewrite app_nil_r in *. cbn [List.length] in *. apply (mbchar_ok c r p t); auto. cbn [negb]. ws.
      eapply wp_nx_last; [exact HI|reflexivity|]. intros c1 b1 (C1 & C2 & C3 & C4 & C0) C5. ws.
      unfold is_identchar. ws. ws.
      change (buffer (set_buffer b1 (St (t ++ c :: r) (p + S (List.length r))))) with b1.
      assert (HQ' : Q (Some c1) (set_buffer b1 (St (t ++ c :: r) (p + S (List.length r))))).
      { apply HQ. unfold NameEnd. auto. }
      destruct c1 as [x|].
      + destruct C5 as (C5 & C6). rewrite C5. ws. apply wp_sub_ck; [apply C3; discriminate|]. ws.
        assert (HNX : ~ nb x).
        { destruct C1 as [C1|[C1|(C1 & C1')]]; [discriminate| |].
          - symmetry in C1. apply HE in C1. unfold nb. intros A. destruct C1 as (A1 & A2 & A3). destruct A as [A|[A|A]]; auto. lia.
          - injection C1 as ->. unfold nb, letter, digit. lia. }
        assert (HII : b_is_identchar b1 (pcur b1 - 1) = false).
        { unfold b_is_identchar. assert (input b1 = input b).
          { destruct C2 as [C2|(_ & C2)]; apply (f_equal input) in C2; unfold back in C2; destruct b1; cbn in *; destruct (_ && _ && _) in C2; cbn in C2; congruence. }
          rewrite H, (rd_at B b HR), C6. unfold nb, letter, digit in HNX. unfold b_is_alnum, b_is_digit, b_is_alpha, b_is_upper, b_is_lower, b_is_ascii, in_range. lia. }
        rewrite HII. ws. ws. exact HQ'.
      + rewrite C5. ws. ws. ws. exact HQ'.
    - destruct (char_ne u' Hu') as (c' & r' & E'). rewrite app_length in *. cbn [List.length] in *.
      assert (Ht0 := Ht). apply text_at_app in Ht0. destruct Ht0 as (Ht1 & Ht2). cbn [List.length] in Ht2.
      apply (mbchar_ok c r p t); auto; try lia. cbn [negb]. ws.
      assert (Hc' : nth_error B (p + S (List.length r)) = Some c').
      { rewrite E' in Ht2. cbn [app] in Ht2. apply text_at_cons in Ht2. apply Ht2. }
      assert (Hnb : nb c') by (apply (char_bytes u'); [exact Hu'|rewrite E'; left; reflexivity]).
      pose proof (nb_range c' Hnb) as Hr'.
      apply (st_nx B e b s0 HR (t ++ c :: r) (p + S (List.length r)) c'); auto; try lia.
      { rewrite E' in Hl. cbn [app List.length] in Hl. lia. }
      ws. unfold is_identchar. ws. ws.
      change (buffer (NumRead.St b s0 (t ++ c :: r) (p + S (List.length r) + 1))) with (set_pcur (p + S (List.length r) + 1) b).
      cbn [eofp set_pcur pcur]. replace (eofp b) with false by (symmetry; apply HR). ws. apply wp_sub_ck; [lia|]. ws.
      replace (b_is_identchar (set_pcur (p + S (List.length r) + 1) b) (p + S (List.length r) + 1 - 1)) with true.
      2: { symmetry. replace (p + S (List.length r) + 1 - 1) with (p + S (List.length r)) by lia. apply (identchar_nb B b _ c' HR Hc'). exact Hnb. }
      ws.
      assert (EL : p + (S (List.length r) + List.length (u' ++ w')) = p + S (List.length r) + List.length (u' ++ w')) by lia.
      rewrite EL in *. clear EL.
      apply (IH u' c' r' (p + S (List.length r)) (t ++ c :: r) n Q); auto; try lia.
      + rewrite E' in Hn. cbn [List.length] in Hn. lia.
      + intros c2 b2 HNE. rewrite <- app_assoc. apply HQ. exact HNE.
  Qed.

  (** *** Behind the name *)
  Lemma wp_peek_fin : forall s c n q (Q : bool -> Lexer -> Prop), Fin b q (buffer s) ->
    Q ((q + n <? pend b) && mbeq (nth_error B (q + n)) c) s -> wp e (peek_n c n) Q s.
  Proof using HR.
    intros s c n q Q Hb HQ. destruct Hb as [Hb|(_ & Hb)]; [eapply (wp_peek_at B e b HR); eauto|].
    unfold peek_n, inb. apply wp_zoom. rewrite Hb. unfold b_peek_n. apply wp_bind, wp_get.
    assert (Es : set_buffer (set_eofp true (set_pcur q b)) s = s) by (rewrite <- Hb; destruct s; reflexivity).
    unfold is_eol_n. cbn [pcur pend set_pcur set_eofp input]. destruct (pend b <=? q + n) eqn:E.
    - apply wp_ret. replace (q + n <? pend b) with false in HQ by lia. rewrite Es. exact HQ.
    - replace (q + n <? pend b) with true in HQ by lia. pose proof HR as (HW & _).
      destruct (bwf_byte B b (q + n) HW) as (x & Hx); [lia|].
      apply wp_bind. eapply wp_expect. { rewrite (rd_at B b HR). exact Hx. } apply wp_ret.
      rewrite Hx in HQ. cbn [mbeq andb] in HQ. rewrite Es. rewrite N.eqb_sym. exact HQ.
  Qed.

  (** A byte at a position of the line is on the line *)
  Lemma on_line : forall q x, InL B b q -> nth_error B q = Some x -> q < pend b.
  Proof using HR.
    intros q x (_ & [H|(H & H1)] & _) Hx; auto. exfalso. pose proof HR as (W & _).
    destruct (line_last B _ H1) as (A & _). rewrite <- (w_pend B b W) in A. subst q. rewrite A in Hx.
    assert (nth_error B (List.length B) <> None) by congruence. apply nth_error_Some in H. lia.
  Qed.
  Lemma on_line2 : forall q x y, pbeg b <= q -> InL B b q -> nth_error B q = Some x -> x <> 10%N -> nth_error B (q + 1) = Some y -> y <> 10%N -> q + 1 < pend b.
  Proof using HR.
    intros q x y Hq HI Hx Hn Hy Hn'. pose proof HR as (W & _). pose proof (on_line q x HI Hx).
    assert (q + List.length [x; y] <= pend b); [|cbn in *; lia].
    apply fits with (B := B); auto.
    - pose proof (w_pbeg B b W). lia.
    - apply text_at_cons. split; auto. apply text_at_cons. split; auto. apply text_at_nil.
    - cbn. intuition congruence.
  Qed.

  (** What happens behind the word *)
  Definition ident_rest (w : list N) (sfx cmd : bool) : M Lexer Tok :=
    label <- (if ls_is_label_possible (lex_state s0) cmd then is_label_suffix 0 else ret false) ;;
    if label : bool then
      lex_state_set (N.lor EXPR_ARG EXPR_LABELED) ;;;
      nextc ;;;
      set_yylval_name ;;;
      ret tLABEL
    else
      match (if negb (ls_is_some (lex_state s0) EXPR_DOT) then reserved_word w else None) with
      | Some kw => ident_keyword kw
      | None => ident_plain (if sfx then tFID else tCONSTANT) (lex_state s0) cmd
      end.

  Lemma parse_ident_ok : forall w sfx c r q cmd (Q : Tok -> Lexer -> Prop), word w sfx -> w = c :: r ->
    text_at B q w -> pbeg b <= q -> q + List.length w <= pend b -> word_ends B (q + List.length w) sfx ->
    (ls_is_some (lex_state s0) EXPR_FNAME = true -> nth_error B (q + List.length w) <> Some 61%N) ->
    List.length w < fuel e ->
    (forall b', Fin b (q + List.length w) b' -> InL B b (q + List.length w) -> wp e (ident_rest w sfx cmd) Q (Sb w b')) ->
    wp e (parse_ident (Some c) cmd) Q (St [] (q + 1)).
  Proof using HR.
    intros w sfx c r q cmd Q Hw Ew Ht Hb Hl He Hfn Hfu HQ.
    assert (HIw : InL B b (q + List.length w)).
    { apply (inl_text B b HR); auto; [| |rewrite Ew; discriminate].
      - intros HI. destruct Hw as [w Hw|w m Hw Hm].
        + destruct (name_split _ Hw) as (u & r' & -> & Hu & Hr & _). apply (chars_bytes _ 10%N) in HI; [|apply ch_cons; auto]. apply nb_range in HI. intuition congruence.
        + apply in_app_or in HI. destruct HI as [HI|[HI|[]]]; [|lia].
          destruct (name_split _ Hw) as (u & r' & -> & Hu & Hr & _). apply (chars_bytes _ 10%N) in HI; [|apply ch_cons; auto]. apply nb_range in HI. intuition congruence.
      - intros HI. destruct Hw as [w Hw|w m Hw Hm].
        + destruct (name_split _ Hw) as (u & r' & -> & Hu & Hr & _). apply (chars_bytes _ 13%N) in HI; [|apply ch_cons; auto]. apply nb_range in HI. intuition congruence.
        + apply in_app_or in HI. destruct HI as [HI|[HI|[]]]; [|lia].
          destruct (name_split _ Hw) as (u & r' & -> & Hu & Hr & _). apply (chars_bytes _ 13%N) in HI; [|apply ch_cons; auto]. apply nb_range in HI. intuition congruence. }
    unfold parse_ident. ws. ws. ws. apply wp_loop_fuel. fold id_body.
    change (lex_state (St [] (q + 1))) with (lex_state s0).
    destruct Hw as [w Hw|w m Hw Hm].
    - destruct (name_split _ Hw) as (u & r' & E & Hu & Hr & _). destruct (char_ne u Hu) as (c' & ru & Eu).
      assert (c' = c) by (rewrite E, Eu in Ew; injection Ew; auto). subst c'. cbn [word_ends] in He. destruct He as (He & Hm).
      rewrite E in *. apply (name_loop r' Hr u c ru q [] (fuel e)); auto.
      { destruct u; [discriminate|]. cbn [app List.length] in Hfu. rewrite app_length in Hfu. lia. }
      rewrite <- E in *. intros c1 b1 (C1 & C2 & C3 & C4 & C5). ws.
      change ([] ++ w) with w. unfold ident_suffix. ws.
      assert (Hsuf : forall Q' : bool -> Lexer -> Prop, Q' false (Sb w b1) ->
        wp e (if mbeq c1 "!" || mbeq c1 "?" then p <- peek "=" ;; ret (negb p) else ret false) Q' (Sb w b1)).
      { intros Q' HQ'. destruct (mbeq c1 "!" || mbeq c1 "?") eqn:EM; [|ws; exact HQ'].
        assert (EC : c1 = Some 33%N \/ c1 = Some 63%N) by (apply orb_prop in EM; destruct EM as [EM|EM]; apply -> mbeq_iff in EM; auto).
        assert (HBq : nth_error B (q + List.length w) = c1) by (destruct C1 as [C1|[C1|(C1 & _)]]; [subst c1; destruct EC; discriminate|congruence|subst c1; destruct EC; discriminate]).
        rewrite (C4 ltac:(destruct EC; congruence) ltac:(destruct EC; congruence)) in *. unfold peek. ws.
        assert (HBe : nth_error B (q + List.length w + 1) = Some 61%N) by (apply Hm; rewrite HBq; exact EC).
        eapply (wp_peek_at B e b HR) with (p := q + List.length w + 1); [reflexivity|]. rewrite Nat.add_0_r, HBe.
        replace (q + List.length w + 1 <? pend b) with true.
        2: { symmetry. apply Nat.ltb_lt. destruct EC as [EC|EC]; rewrite EC in HBq; eapply on_line2; eauto; lia. }
        ws. exact HQ'. }
      apply Hsuf. clear Hsuf. ws. ws. change (lex_state (Sb w b1)) with (lex_state s0).
      destruct (mbeq c1 "=" && ls_is_some (lex_state s0) EXPR_FNAME) eqn:EF.
      { exfalso. apply andb_prop in EF. destruct EF as (EF1 & EF2). apply -> mbeq_iff in EF1. apply Hfn in EF2. apply EF2.
        destruct C1 as [C1|[C1|(C1 & _)]]; congruence. }
      ws. ws. ws. apply wp_push; auto. ws. ws. ws. 
      change (lex_state (set_buffer (back c1 b1) (Sb w b1))) with (lex_state s0).
      change (tokenbuf (set_buffer (back c1 b1) (Sb w b1))) with w.
      exact (HQ _ C2 HIw).
    - destruct (name_split _ Hw) as (u & r' & E & Hu & Hr & _). destruct (char_ne u Hu) as (c' & ru & Eu).
      assert (c' = c) by (rewrite E, Eu in Ew; injection Ew; auto). subst c'. cbn [word_ends] in He. rewrite app_length in *. cbn [List.length] in *.
      apply text_at_app in Ht. destruct Ht as (Ht & Htm). apply text_at_cons in Htm. destruct Htm as (Htm & _).
      replace (q + (List.length w + 1)) with (q + List.length w + 1) in * by lia.
      rewrite E in *. apply (name_loop r' Hr u c ru q [] (fuel e)); auto; try lia.
      { unfold InL. splits; [lia|left; lia|]. intros _ _ H. rewrite Htm in H. injection H as H. lia. }
      { intros x Hx. rewrite Htm in Hx. injection Hx as <-. unfold letter, digit. lia. }
      { destruct u; [discriminate|]. cbn [app List.length] in Hfu. rewrite app_length in Hfu. lia. }
      rewrite <- E in *. intros c1 b1 (C1 & C2 & C3 & C4 & C5). ws.
      change ([] ++ w) with w. unfold ident_suffix. ws.
      assert (Hc : c1 = Some m) by (apply C5; auto; lia). subst c1.
      replace (mbeq (Some m) "!" || mbeq (Some m) "?") with true by (symmetry; cbn; lia).
      rewrite (C4 ltac:(discriminate) ltac:(intros A; injection A as A; lia)). unfold peek. ws.
      eapply (wp_peek_at B e b HR) with (p := q + List.length w + 1); [reflexivity|]. rewrite Nat.add_0_r.
      replace (mbeq (nth_error B (q + List.length w + 1)) "=") with false.
      2: { symmetry. destruct (mbeq _ _) eqn:EM; auto. apply -> mbeq_iff in EM. contradiction. }
      rewrite andb_false_r. ws. cbn [negb]. ws. ws. ws. ws.
      exact (HQ _ (or_introl eq_refl) HIw).
  Qed.
End Ident.
