(** * Reading number literals *)
Require Import Verif.Base Verif.MaybeByteM Verif.InputM Verif.BufferM Verif.TokensM Verif.LexStateM Verif.LexerM
  Verif.LexNumericM Verif.LexMainM
  Verif.SourceSpec Verif.SourceProofs Verif.Wp Verif.BufInv Verif.LexSpec Verif.ReadSpec Verif.NumberSpec.
Require Import ZifyBool ZifyNat ZifyN.

Section Num.
  Variables (B : list N) (e : Env) (b : Buffer) (s0 : Lexer).
  Hypothesis HR : Ready B b.

  (** The state in the middle of a number *)
  Definition St (t : list N) (p : nat) : Lexer := set_tokenbuf t (set_buffer (set_pcur p b) s0).
  Definition Sb (t : list N) (b' : Buffer) : Lexer := set_tokenbuf t (set_buffer b' s0).

  Lemma st_nx : forall t p x (Q : MaybeByte -> Lexer -> Prop), p < pend b -> nth_error B p = Some x -> x <> 13%N ->
    Q (Some x) (St t (p + 1)) -> wp e nextc Q (St t p).
  Proof using HR. intros. eapply (wp_nx B e b HR); eauto; reflexivity. Qed.

  Lemma st_add : forall t p x (Q : unit -> Lexer -> Prop), Q tt (St (t ++ [x]) p) -> wp e (tokadd x) Q (St t p).
  Proof using. intros. ws. exact H. Qed.

  Definition nth1 (p : nat) (x : N) (w : list N) : Prop := nth_error B p = Some x /\ text_at B (p + 1) w.

  (** *** The decimal loop *)
  Lemma dec_tail : forall r, more dec r -> forall n t p pt fl ex (Q : Tok -> Lexer -> Prop),
    text_at B p r -> p + List.length r <= pend b ->
    wp e nextc (fun c s => wp e (loop_n n decimal_body (mkNum c None pt fl ex)) Q s) (St (t ++ r) (p + List.length r)) ->
    wp e nextc (fun c s => wp e (loop_n (List.length r + n) decimal_body (mkNum c None pt fl ex)) Q s) (St t p).
  Proof using HR.
    induction 1 as [|d w Hd Hw IH|d w Hd Hw IH]; intros n t p pt fl ex Q Ht Hp HQ.
    - cbn [List.length Nat.add] in *. rewrite Nat.add_0_r, app_nil_r in HQ. exact HQ.
    - apply text_at_cons in Ht. destruct Ht as (Hx & Ht). cbn [List.length] in Hp, HQ. unfold dec in Hd.
      apply (st_nx t p d); auto; try lia. cbn [List.length Nat.add loop_n]. ws.
      unfold decimal_body at 1. replace (is_digit (Some d)) with true by (cbn; unfold b_is_digit, in_range; lia).
      ws. apply st_add. ws. replace (p + S (List.length w)) with (p + 1 + List.length w) in HQ by lia.
      eapply wp_conseq; [apply (IH n (t ++ [d]) (p + 1) pt fl ex Q); auto; try lia|].
      + rewrite <- app_assoc. exact HQ.
      + intros c s Hc. ws. exact Hc.
    - apply text_at_cons in Ht. destruct Ht as (Hx & Ht). apply text_at_cons in Ht. destruct Ht as (Hy & Ht).
      cbn [List.length] in Hp, HQ. unfold dec in Hd.
      apply (st_nx t p 95%N); auto; try lia. cbn [List.length Nat.add loop_n]. ws.
      unfold decimal_body at 1. cbn [is_digit mb_test b_is_digit in_range].
      change (mbeq (Some 95%N) ".") with false. change (mbeq (Some 95%N) "e") with false. change (mbeq (Some 95%N) "E") with false.
      change (b_is_digit 95) with false. change (mbeq (Some 95%N) "_") with true. cbn [orb]. cbv iota.
      ws. apply st_add. ws. apply (st_nx _ (p + 1) d); auto; try lia. ws. ws.
      unfold decimal_body at 1. replace (is_digit (Some d)) with true by (cbn; unfold b_is_digit, in_range; lia).
      ws. apply st_add. ws. replace (p + S (S (List.length w))) with (p + 1 + 1 + List.length w) in HQ by lia.
      eapply wp_conseq; [apply (IH n ((t ++ [95%N]) ++ [d]) (p + 1 + 1) pt fl ex Q); auto; try lia|].
      + rewrite <- !app_assoc. exact HQ.
      + intros c s Hc. ws. exact Hc.
  Qed.

  (** *** The end of a number *)
  Definition stop (q : nat) : Prop := forall c x, can_read B q c -> c = Some x -> ~ name_byte x.

  Lemma stop_ends : forall q, number_ends B q -> stop q.
  Proof using.
    clear. intros q H c x [->|[->|(-> & H1)]] E; try discriminate.
    - apply (H x E).
    - injection E as <-. unfold name_byte. lia.
  Qed.

  Lemma st_follow : forall t q b1 (Q : MaybeByte -> Lexer -> Prop), InL B b q -> Fin b q b1 ->
    (forall c b', can_read B q c -> Fin b q (back c b') -> (c <> None -> 1 <= pcur b') ->
       (c <> None -> c <> Some 10%N -> b' = set_pcur (q + 1) b) -> Q c (Sb t b')) ->
    wp e nextc Q (Sb t b1).
  Proof using HR.
    intros t q b1 Q HI HF HQ. apply (wp_nx_follow B e b HR) with (p := q); auto.
  Qed.

  Lemma st_push : forall t c b1 (Q : unit -> Lexer -> Prop), (c <> None -> 1 <= pcur b1) ->
    Q tt (Sb t (back c b1)) -> wp e (pushback c) Q (Sb t b1).
  Proof using. intros. apply wp_push; auto. Qed.

  Definition suf_body (lastp : nat) : N * N -> M Lexer (N * N + N) := fun '(mask, result) =>
    c <- nextc ;;
    if is_eof c then ret (inr result)
    else if has mask NUM_SUFFIX_I && mbeq c "i" then
      ret (inl (N.ldiff (N.ldiff mask NUM_SUFFIX_I) NUM_SUFFIX_R, N.lor result (N.land mask NUM_SUFFIX_I)))
    else if has mask NUM_SUFFIX_R && mbeq c "r" then
      ret (inl (N.ldiff mask NUM_SUFFIX_R, N.lor result (N.land mask NUM_SUFFIX_R)))
    else if negb (is_ascii c) || is_alpha c || mbeq c "_" then
      modb (set_pcur lastp) ;;; ret (inr 0%N)
    else
      pushback c ;;; ret (inr result).

  Lemma suf_end : forall n lastp mask res t q b1 (Q : N -> Lexer -> Prop), InL B b q -> Fin b q b1 -> stop q ->
    (forall b', Fin b q b' -> Q res (Sb t b')) ->
    wp e (loop_n (S n) (suf_body lastp) (mask, res)) Q (Sb t b1).
  Proof using HR.
    intros n lastp mask res t q b1 Q HI HF Hs HQ. cbn [loop_n]. ws. unfold suf_body at 1. ws.
    apply (st_follow t q b1); auto. intros [x|] b' H1 H2 H3 _.
    - specialize (Hs _ x H1 eq_refl). unfold name_byte in Hs. cbn [is_eof mbeq].
      replace (N.eqb x 105) with false by lia. replace (N.eqb x 114) with false by lia. rewrite !andb_false_r.
      replace (negb (is_ascii (Some x)) || is_alpha (Some x) || N.eqb x 95) with false
        by (cbn; unfold b_is_ascii, b_is_alpha, b_is_upper, b_is_lower, in_range; lia).
      ws. apply st_push; auto. ws. ws. apply HQ. exact H2.
    - cbn [is_eof]. ws. ws. apply HQ. exact H2.
  Qed.

  Lemma suf_i : forall n lastp mask res t q b1 (Q : N -> Lexer -> Prop), has mask NUM_SUFFIX_I = true ->
    b1 = set_pcur q b -> q < pend b -> nth_error B q = Some 105%N ->
    wp e (loop_n n (suf_body lastp) (N.ldiff (N.ldiff mask NUM_SUFFIX_I) NUM_SUFFIX_R, N.lor res (N.land mask NUM_SUFFIX_I))) Q
      (Sb t (set_pcur (q + 1) b)) ->
    wp e (loop_n (S n) (suf_body lastp) (mask, res)) Q (Sb t b1).
  Proof using HR.
    intros n lastp mask res t q b1 Q Hm -> Hq Hx HQ. cbn [loop_n]. ws. unfold suf_body at 1. ws.
    apply (st_nx t q 105%N); auto; [lia|]. cbn [is_eof]. rewrite Hm. change (mbeq (Some 105%N) "i") with true. cbn [andb].
    ws. exact HQ.
  Qed.

  Lemma suf_r : forall n lastp mask res t q b1 (Q : N -> Lexer -> Prop), has mask NUM_SUFFIX_R = true ->
    b1 = set_pcur q b -> q < pend b -> nth_error B q = Some 114%N ->
    wp e (loop_n n (suf_body lastp) (N.ldiff mask NUM_SUFFIX_R, N.lor res (N.land mask NUM_SUFFIX_R))) Q
      (Sb t (set_pcur (q + 1) b)) ->
    wp e (loop_n (S n) (suf_body lastp) (mask, res)) Q (Sb t b1).
  Proof using HR.
    intros n lastp mask res t q b1 Q Hm -> Hq Hx HQ. cbn [loop_n]. ws. unfold suf_body at 1. ws.
    apply (st_nx t q 114%N); auto; [lia|]. cbn [is_eof]. change (mbeq (Some 114%N) "i") with false.
    rewrite andb_false_r, Hm. change (mbeq (Some 114%N) "r") with true. cbn [andb]. ws. exact HQ.
  Qed.

  (** Mask, suffix text, resulting bits *)
  Inductive suffix_bits : N -> list N -> N -> Prop :=
  | sb_0 : forall m, suffix_bits m [] 0%N
  | sb_r : suffix_bits 3%N (bs "r") 1%N
  | sb_i : suffix_bits 3%N (bs "i") 2%N
  | sb_ri : suffix_bits 3%N (bs "ri") 3%N
  | sb_i2 : suffix_bits 2%N (bs "i") 2%N.

  Lemma suffix_ok : forall mask suf res t q b1 (Q : N -> Lexer -> Prop), suffix_bits mask suf res ->
    text_at B q suf -> Fin b q b1 -> (suf <> [] -> b1 = set_pcur q b) -> q + List.length suf <= pend b ->
    InL B b (q + List.length suf) -> stop (q + List.length suf) -> 3 <= fuel e ->
    (forall b', Fin b (q + List.length suf) b' -> Q res (Sb t b')) ->
    wp e (number_literal_suffix mask) Q (Sb t b1).
  Proof using HR.
    intros mask suf res t q b1 Q HS Ht HF Hb Hl HI Hs Hfu HQ. unfold number_literal_suffix. ws. ws.
    change (wp e (loop (suf_body (pcur (buffer (Sb t b1)))) (mask, 0%N)) Q (Sb t b1)).
    generalize (pcur (buffer (Sb t b1))). intros lastp. apply wp_loop_fuel.
    destruct (fuel e) as [|[|[|n]]]; try lia.
    destruct HS; cbn [List.length bs map list_ascii_of_string] in *; rewrite ?Nat.add_0_r in *.
    - apply (suf_end _ _ _ _ t q); auto.
    - apply text_at_cons in Ht. destruct Ht as (Hx & _).
      apply (suf_r _ _ _ _ t q); auto; try (apply Hb; discriminate); try lia.
      apply (suf_end _ _ _ _ t (q + 1)); auto. left; reflexivity.
    - apply text_at_cons in Ht. destruct Ht as (Hx & _).
      apply (suf_i _ _ _ _ t q); auto; try (apply Hb; discriminate); try lia.
      apply (suf_end _ _ _ _ t (q + 1)); auto. left; reflexivity.
    - apply text_at_cons in Ht. destruct Ht as (Hx & Ht). apply text_at_cons in Ht. destruct Ht as (Hy & _).
      apply (suf_r _ _ _ _ t q); auto; try (apply Hb; discriminate); try lia.
      apply (suf_i _ _ _ _ t (q + 1)); auto; try lia.
      replace (q + 2) with (q + 1 + 1) in * by lia.
      apply (suf_end _ _ _ _ t (q + 1 + 1)); auto. left; reflexivity.
    - apply text_at_cons in Ht. destruct Ht as (Hx & _).
      apply (suf_i _ _ _ _ t q); auto; try (apply Hb; discriminate); try lia.
      apply (suf_end _ _ _ _ t (q + 1)); auto. left; reflexivity.
  Qed.

  (** The state after a number with text [v] *)
  Definition NumEnd (v : list N) (b' : Buffer) : Lexer :=
    set_lex_state EXPR_END (set_lval (Some v) (set_tokenbuf [] (set_buffer b' s0))).

  Definition footer_kind (fl ex : bool) (suf : list N) (k : Tok) : Prop :=
    if fl then if ex then imaginary_kind tFLOAT suf k else suffix_kind tFLOAT suf k
    else suffix_kind tINTEGER suf k.

  (** A literal ends at [q] with suffix [suf] *)
  Record Ends (suf : list N) (q : nat) : Prop := mkEnds {
    en_text : text_at B q suf;
    en_line : q + List.length suf <= pend b;
    en_in : InL B b (q + List.length suf);
    en_stop : number_ends B (q + List.length suf);
    en_fuel : 3 <= fuel e
  }.

  Lemma int_finish : forall v suf k q b1 (Q : Tok -> Lexer -> Prop) (pre : list N -> list N),
    suffix_kind tINTEGER suf k -> Ends suf q -> Fin b q b1 -> (suf <> [] -> b1 = set_pcur q b) ->
    (forall b', Fin b (q + List.length suf) b' -> Q k (NumEnd (pre v ++ suf) b')) ->
    wp e (suffix <- number_literal_suffix NUM_SUFFIX_ALL ;; t <- tokenbuf_take ;; set_integer_literal (pre t) suffix) Q (Sb v b1).
  Proof using HR.
    intros v suf k q b1 Q pre HK [E1 E2 E3 E4 E5] HF Hb HQ. ws. apply stop_ends in E4.
    assert (HB : exists res, suffix_bits 3 suf res /\
      forall s (P : Tok -> Lexer -> Prop), P k (set_lex_state EXPR_END (set_lval (Some (pre v ++ suf)) s)) ->
        wp e (set_integer_literal (pre v) res) P s).
    { destruct HK; eexists; (split; [constructor|]); intros s P HP; rewrite ?app_nil_r in *;
        unfold set_integer_literal, set_number_literal;
        cbn [has NUM_SUFFIX_R NUM_SUFFIX_I N.land N.eqb negb Pos.land]; ws; ws; ws; ws; ws; cbn in *; rewrite <- ?app_assoc; exact HP. }
    destruct HB as (res & H1 & H2).
    apply (suffix_ok _ suf res v q); auto. intros b' HF'. ws. unfold tokenbuf_take. ws. ws. ws. ws. ws.
    apply H2. apply HQ. exact HF'.
  Qed.

  Lemma float_finish : forall v ex suf k q b1 (Q : Tok -> Lexer -> Prop),
    footer_kind true ex suf k -> Ends suf q -> Fin b q b1 -> (suf <> [] -> b1 = set_pcur q b) ->
    (forall b', Fin b (q + List.length suf) b' -> Q k (NumEnd (v ++ suf) b')) ->
    wp e (parse_numeric_footer true ex) Q (Sb v b1).
  Proof using HR.
    intros v ex suf k q b1 Q HK [E1 E2 E3 E4 E5] HF Hb HQ. unfold parse_numeric_footer. ws. apply stop_ends in E4.
    assert (HB : exists res, suffix_bits (if ex then NUM_SUFFIX_I else NUM_SUFFIX_ALL) suf res /\
      forall s (P : Tok -> Lexer -> Prop), P k (set_lex_state EXPR_END (set_lval (Some (v ++ suf)) s)) ->
        wp e (if has res NUM_SUFFIX_R then set_number_literal (v ++ bs "r") tRATIONAL res
              else set_number_literal v tFLOAT res) P s).
    { destruct ex; cbn [footer_kind] in HK; destruct HK; eexists; (split; [constructor|]); intros s P HP; rewrite ?app_nil_r in *;
        unfold set_number_literal;
        cbn [has NUM_SUFFIX_R NUM_SUFFIX_I N.land N.eqb negb Pos.land]; ws; ws; ws; ws; ws; cbn in *; rewrite <- ?app_assoc; exact HP. }
    destruct HB as (res & H1 & H2).
    apply (suffix_ok _ suf res v q); auto. intros b' HF'. ws. unfold tokenbuf_take. ws. ws. ws. ws. ws.
    apply H2. apply HQ. exact HF'.
  Qed.

  Lemma footer_ok : forall fl ex v suf k q b1 (Q : Tok -> Lexer -> Prop),
    footer_kind fl ex suf k -> Ends suf q -> Fin b q b1 -> (suf <> [] -> b1 = set_pcur q b) ->
    (forall b', Fin b (q + List.length suf) b' -> Q k (NumEnd (v ++ suf) b')) ->
    wp e (parse_numeric_footer fl ex) Q (Sb v b1).
  Proof using HR.
    intros [|] ex v suf k q b1 Q HK HE HF Hb HQ.
    - eapply float_finish; eauto.
    - unfold parse_numeric_footer. eapply (int_finish v suf k q b1 Q (fun t => t)); eauto.
  Qed.

  Lemma leave_ok : forall c fl ex v suf k q b1 (Q : Tok -> Lexer -> Prop),
    footer_kind fl ex suf k -> Ends suf q -> (c <> None -> 1 <= pcur b1) -> Fin b q (back c b1) ->
    (suf <> [] -> back c b1 = set_pcur q b) ->
    (forall b', Fin b (q + List.length suf) b' -> Q k (NumEnd (v ++ suf) b')) ->
    wp e (decode_num c None fl ex) Q (Sb v b1).
  Proof using HR.
    intros c fl ex v suf k q b1 Q HK HE Hc HF Hb HQ. unfold decode_num. ws. apply st_push; [exact Hc|]. ws. ws.
    eapply footer_ok; eauto.
  Qed.

  Lemma suffix_first : forall fl ex suf k, footer_kind fl ex suf k -> suf <> [] ->
    exists x r, suf = x :: r /\ (x = 114 \/ x = 105)%N.
  Proof using.
    clear. intros fl ex suf k H Hn. destruct fl, ex; cbn [footer_kind] in H; destruct H; try congruence; cbn; eauto.
  Qed.

  Lemma back_fin : forall q x b1, nth_error B q = Some x -> x = 46%N -> Fin b (q + 1) b1 -> Fin b q (back (Some x) b1).
  Proof using HR.
    intros q x b1 Hx -> [->|(_ & ->)].
    - left. apply (back_byte B b HR); auto. discriminate.
    - right. rewrite back_eofp. rewrite (back_byte B b HR) by (auto; discriminate). split; [|reflexivity].
      right. rewrite (byte_at_B B) by apply HR. exact Hx.
  Qed.

  (** The decimal loop at the end of the literal *)
  Lemma dec_end : forall n v pt fl ex suf k q (Q : Tok -> Lexer -> Prop),
    footer_kind fl ex suf k -> Ends suf q ->
    (forall b', Fin b (q + List.length suf) b' -> Q k (NumEnd (v ++ suf) b')) ->
    wp e nextc (fun c s => wp e (loop_n (S n) decimal_body (mkNum c None pt fl ex)) Q s) (St v q).
  Proof using HR.
    intros n v pt fl ex suf k q Q HK HE HQ. pose proof HE as [E1 E2 E3 E4 E5].
    assert (HL : forall c b1, (c <> None -> 1 <= pcur b1) -> Fin b q (back c b1) -> (suf <> [] -> back c b1 = set_pcur q b) ->
      wp e (t <- decode_num c None fl ex ;; ret (inr (A := NumSt) t))
        (fun a s' => wp e (match a with inl x' => loop_n n decimal_body x' | inr r => ret r end) Q s') (Sb v b1)).
    { intros c b1 Hc HF Hb. ws. eapply leave_ok; eauto. }
    destruct suf as [|y suf].
    - cbn [List.length] in *. rewrite Nat.add_0_r in *.
      apply (st_follow v q (set_pcur q b)); auto; [left; reflexivity|]. intros c b' C1 C2 C3 C4. cbn [loop_n]. ws.
      assert (HL' := HL c b' C3 C2 ltac:(congruence)).
      destruct c as [x|]; [|exact HL'].
      pose proof (stop_ends q E4 _ x C1 eq_refl) as Hx. unfold name_byte in Hx.
      unfold decimal_body at 1. replace (is_digit (Some x)) with false by (cbn; unfold b_is_digit, in_range; lia).
      destruct (mbeq (Some x) ".") eqn:Ed.
      + cbn in Ed. apply N.eqb_eq in Ed. subst x. destruct (pt || ex); [exact HL'|].
        assert (HB : b' = set_pcur (q + 1) b) by (apply C4; discriminate). subst b'.
        assert (Hq : nth_error B q = Some 46%N).
        { destruct C1 as [C1|[C1|(C1 & _)]]; [discriminate|auto|discriminate]. }
        assert (HqL : q < pend b).
        { destruct E3 as (I1 & [I2|(I2 & I3)] & _); [exact I2|exfalso].
          destruct (line_last B _ I3) as (A & _). destruct HR as (HW & _). rewrite <- (w_pend B b HW) in A.
          assert (nth_error B q <> None) by congruence. apply nth_error_Some in H. lia. }
        assert (HI : InL B b (q + 1)).
        { change 1 with (List.length [46%N]). apply (inl_text B b HR); cbn [List.length]; try lia.
          - destruct E3; lia.
          - apply text_at_cons. split; [exact Hq|apply text_at_nil].
          - intros [C|[]]; discriminate.
          - intros [C|[]]; discriminate.
          - discriminate. }
        ws. apply (st_follow v (q + 1) (set_pcur (q + 1) b)); auto; [left; reflexivity|]. intros c0 b0 D1 D2 D3 _.
        replace (is_eof (Some 46%N) || negb (is_digit c0)) with true.
        * ws. apply st_push; [exact D3|]. apply HL; [|apply back_fin; auto; lia|congruence].
          intros _. rewrite (fin_pcur _ _ _ D2). lia.
        * cbn [is_eof orb]. destruct c0 as [d|]; [|reflexivity].
          destruct (E4 _ Hq) as (_ & E4'). destruct D1 as [D1|[D1|(D1 & _)]]; [discriminate| |].
          -- specialize (E4' eq_refl d (eq_sym D1)). unfold dec in E4'. cbn. unfold b_is_digit, in_range. lia.
          -- injection D1 as ->. reflexivity.
      + replace (mbeq (Some x) "e" || mbeq (Some x) "E") with false by (cbn; lia).
        replace (mbeq (Some x) "_") with false by (cbn; lia). exact HL'.
    - destruct (suffix_first _ _ _ _ HK) as (x & r & Hs & Hx); [discriminate|]. injection Hs as -> ->.
      cbn [List.length] in *. apply text_at_cons in E1. destruct E1 as (E1 & _).
      apply (st_nx v q x); auto; try lia. cbn [loop_n]. ws.
      assert (HL' := HL (Some x) (set_pcur (q + 1) b)). rewrite (back_byte B b HR q x) in HL' by (auto; lia).
      specialize (HL' ltac:(intros _; cbn; lia) ltac:(left; reflexivity) ltac:(reflexivity)).
      unfold decimal_body at 1. replace (is_digit (Some x)) with false by (cbn; unfold b_is_digit, in_range; lia).
      replace (mbeq (Some x) ".") with false by (cbn; lia).
      replace (mbeq (Some x) "e" || mbeq (Some x) "E") with false by (cbn; lia).
      replace (mbeq (Some x) "_") with false by (cbn; lia). exact HL'.
  Qed.

  (** A fraction *)
  Lemma dec_point : forall n v d r q (Q : Tok -> Lexer -> Prop), dec d -> more dec r ->
    text_at B q (46%N :: d :: r) -> q + 2 + List.length r <= pend b ->
    wp e nextc (fun c s => wp e (loop_n n decimal_body (mkNum c None true true false)) Q s)
      (St (v ++ 46%N :: d :: r) (q + 2 + List.length r)) ->
    wp e nextc (fun c s => wp e (loop_n (S (List.length r + n)) decimal_body (mkNum c None false false false)) Q s) (St v q).
  Proof using HR.
    intros n v d r q Q Hd Hr Ht Hp HQ. apply text_at_cons in Ht. destruct Ht as (Hx & Ht).
    apply text_at_cons in Ht. destruct Ht as (Hy & Ht). unfold dec in Hd.
    apply (st_nx v q 46%N); auto; try lia. cbn [loop_n]. ws. unfold decimal_body at 1.
    change (is_digit (Some 46%N)) with false. change (mbeq (Some 46%N) ".") with true. cbn [orb]. cbv iota.
    ws. apply (st_nx v (q + 1) d); auto; try lia.
    replace (is_eof (Some 46%N) || negb (is_digit (Some d))) with false by (cbn; unfold b_is_digit, in_range; lia).
    ws. apply st_add. ws. apply st_add. ws.
    eapply wp_conseq; [apply (dec_tail r Hr n _ (q + 1 + 1) true true false Q); auto; try lia|].
    - rewrite <- !app_assoc. cbn [app]. replace (q + 1 + 1) with (q + 2) by lia. exact HQ.
    - intros c s Hc. ws. exact Hc.
  Qed.

  (** An exponent *)
  Lemma dec_exponent : forall x, exponent x -> exists m, m <= List.length x /\
    forall n v q pt fl (Q : Tok -> Lexer -> Prop),
    text_at B q x -> q + List.length x <= pend b ->
    wp e nextc (fun c s => wp e (loop_n n decimal_body (mkNum c None pt true true)) Q s)
      (St (v ++ x) (q + List.length x)) ->
    wp e nextc (fun c s => wp e (loop_n (m + n) decimal_body (mkNum c None pt fl false)) Q s) (St v q).
  Proof using HR.
    intros x (m & sg & w & -> & Hm & Hsg & (d & r & -> & Hd & Hr)). unfold dec in Hd.
    assert (Hm1 : is_digit (Some m) = false /\ mbeq (Some m) "." = false /\ mbeq (Some m) "e" || mbeq (Some m) "E" = true)
      by (destruct Hm as [->| ->]; auto). destruct Hm1 as (M1 & M2 & M3).
    destruct Hsg as [->|Hsg].
    - cbn [app] in *. exists (S (List.length r)). split; [cbn [List.length]; lia|]. intros n v q pt fl Q Ht Hp HQ.
      apply text_at_cons in Ht. destruct Ht as (Hx & Ht).
      apply text_at_cons in Ht. destruct Ht as (Hy & Ht). cbn [List.length] in *.
      apply (st_nx v q m); auto; try lia. cbn [Nat.add loop_n]. ws.
      unfold decimal_body at 1. rewrite M1, M2, M3. ws. apply (st_nx v (q + 1) d); auto; try lia.
      replace (negb (mbeq (Some d) "-") && negb (mbeq (Some d) "+") && negb (is_digit (Some d))) with false
        by (cbn; unfold b_is_digit, in_range; lia).
      ws. cbn [expect]. ws. ws. apply st_add. ws. apply st_add. ws.
      replace (mbeq (Some d) "-" || mbeq (Some d) "+") with false by (cbn; lia). cbv iota.
      eapply wp_conseq; [apply (dec_tail r Hr n _ (q + 1 + 1) pt true true Q); auto; try lia|].
      + rewrite <- !app_assoc. cbn [app]. replace (q + 1 + 1 + List.length r) with (q + S (S (List.length r))) by lia. exact HQ.
      + intros c s Hc. ws. exact Hc.
    - assert (Hs : exists g, sg = [g] /\ (g = 43 \/ g = 45)%N) by (destruct Hsg as [->| ->]; cbn; eauto).
      destruct Hs as (g & -> & Hg). cbn [app] in *.
      exists (S (S (List.length r))). split; [cbn [List.length]; lia|]. intros n v q pt fl Q Ht Hp HQ.
      apply text_at_cons in Ht. destruct Ht as (Hx & Ht). apply text_at_cons in Ht. destruct Ht as (Hz & Ht).
      apply text_at_cons in Ht. destruct Ht as (Hy & Ht). cbn [List.length] in *.
      apply (st_nx v q m); auto; try lia. cbn [Nat.add loop_n]. ws.
      unfold decimal_body at 1. rewrite M1, M2, M3. ws. apply (st_nx v (q + 1) g); auto; try lia.
      replace (negb (mbeq (Some g) "-") && negb (mbeq (Some g) "+") && negb (is_digit (Some g))) with false
        by (cbn; lia).
      ws. cbn [expect]. ws. ws. apply st_add. ws. apply st_add. ws.
      replace (mbeq (Some g) "-" || mbeq (Some g) "+") with true by (cbn; lia). cbv iota.
      apply (st_nx _ (q + 1 + 1) d); auto; try lia. ws. ws.
      unfold decimal_body at 1. replace (is_digit (Some d)) with true by (cbn; unfold b_is_digit, in_range; lia).
      ws. apply st_add. ws.
      eapply wp_conseq; [apply (dec_tail r Hr n _ (q + 1 + 1 + 1) pt true true Q); auto; try lia|].
      + rewrite <- !app_assoc. cbn [app]. replace (q + 1 + 1 + 1 + List.length r) with (q + S (S (S (List.length r)))) by lia. exact HQ.
      + intros c s Hc. ws. exact Hc.
  Qed.

  (** *** What may follow the integer part *)
  Inductive number_rest : list N -> Tok -> Prop :=
  | nr_int : forall suf k, suffix_kind tINTEGER suf k -> number_rest suf k
  | nr_frac : forall f suf k, digit_run dec f -> suffix_kind tFLOAT suf k -> number_rest (46%N :: f ++ suf) k
  | nr_exp : forall fr x suf k, opt_fraction fr -> exponent x -> imaginary_kind tFLOAT suf k -> number_rest (fr ++ x ++ suf) k.

  Lemma literal_rest : forall w k, decimal_literal w k -> exists i r, w = i ++ r /\ int_part i /\ number_rest r k.
  Proof using.
    clear. intros w k [i suf k' H1 H2|i f suf k' H1 H2 H3|i fr x suf k' H1 H2 H3 H4].
    - exists i, suf. splits; auto. constructor; auto.
    - exists i, (46%N :: f ++ suf). splits; auto. apply nr_frac; auto.
    - exists i, (fr ++ x ++ suf). splits; auto. apply nr_exp; auto.
  Qed.

  Lemma suffix_clean : forall fl ex suf k, footer_kind fl ex suf k -> Forall (fun c => c <> 10 /\ c <> 13)%N suf.
  Proof using. clear. intros fl ex suf k H. destruct fl, ex; cbn [footer_kind] in H; destruct H; repeat constructor; discriminate. Qed.

  Lemma rest_ok : forall r k, number_rest r k -> forall n v q (Q : Tok -> Lexer -> Prop),
    text_at B q r -> q + List.length r <= pend b -> InL B b (q + List.length r) -> number_ends B (q + List.length r) ->
    3 <= fuel e -> List.length r < n ->
    (forall b', Fin b (q + List.length r) b' -> Q k (NumEnd (v ++ r) b')) ->
    wp e nextc (fun c s => wp e (loop_n n decimal_body (mkNum c None false false false)) Q s) (St v q).
  Proof using HR.
    intros r k [suf k' HS|f suf k' (d & r' & -> & Hd & Hr) HS|fr x suf k' HF HX HS] n v q Q Ht Hl HI HE Hfu Hn HQ.
    - replace n with (S (n - 1)) by lia. apply (dec_end _ v false false false suf k' q); auto. constructor; auto.
    - cbn [app List.length] in *. rewrite app_length in *.
      change (46%N :: d :: r' ++ suf) with ((46%N :: d :: r') ++ suf) in Ht. apply text_at_app in Ht. destruct Ht as (Ht1 & Ht2).
      cbn [List.length] in Ht2.
      replace n with (S (List.length r' + S (n - List.length r' - 2))) by lia.
      apply (dec_point _ v d r' q); auto; try lia.
      replace (q + S (S (List.length r' + List.length suf))) with (q + 2 + List.length r' + List.length suf) in * by lia.
      replace (q + S (S (List.length r'))) with (q + 2 + List.length r') in Ht2 by lia.
      apply (dec_end _ _ true true false suf k'); auto. { constructor; auto. }
      rewrite <- app_assoc. exact HQ.
    - destruct (dec_exponent x HX) as (m & Hm & HXE). rewrite !app_length in *.
      apply text_at_app in Ht. destruct Ht as (Ht1 & Ht2). apply text_at_app in Ht2. destruct Ht2 as (Ht2 & Ht3).
      assert (HEnd : forall v' j, q + List.length fr + List.length x = j ->
        (forall b', Fin b (j + List.length suf) b' -> Q k' (NumEnd (v' ++ suf) b')) ->
        forall n' pt, 0 < n' -> wp e nextc (fun c s => wp e (loop_n n' decimal_body (mkNum c None pt true true)) Q s) (St v' j)).
      { intros v' j <- HQ' n' pt Hn'. replace n' with (S (n' - 1)) by lia.
        apply (dec_end _ v' pt true true suf k'); auto. constructor; auto; try lia.
        - replace (q + List.length fr + List.length x + List.length suf)
            with (q + (List.length fr + (List.length x + List.length suf))) by lia. exact HI.
        - replace (q + List.length fr + List.length x + List.length suf)
            with (q + (List.length fr + (List.length x + List.length suf))) by lia. exact HE. }
      replace (q + (List.length fr + (List.length x + List.length suf)))
        with (q + List.length fr + List.length x + List.length suf) in * by lia.
      destruct HF as [->|(f & -> & (d & r' & -> & Hd & Hr))].
      + cbn [app List.length] in *. rewrite Nat.add_0_r in *.
        replace n with (m + (n - m)) by lia. apply HXE; auto; try lia. apply HEnd; auto; try lia.
        rewrite <- app_assoc. exact HQ.
      + cbn [List.length] in *. replace n with (S (List.length r' + (m + (n - List.length r' - m - 1)))) by lia.
        apply (dec_point _ v d r' q); auto; try lia.
        replace (q + S (S (List.length r'))) with (q + 2 + List.length r') in * by lia.
        apply HXE; auto; try lia. apply HEnd; auto; try lia. rewrite <- !app_assoc. exact HQ.
  Qed.
End Num.

Section Literal.
  Variables (B : list N) (e : Env) (b : Buffer) (s0 : Lexer).
  Hypothesis HR : Ready B b.
  Let s1 := set_lex_state EXPR_END s0.

  Lemma st_nx_inv : forall s t p x (Q : MaybeByte -> Lexer -> Prop), wp e nextc Q (St b s t p) ->
    p < pend b -> nth_error B p = Some x -> x <> 13%N -> Q (Some x) (St b s t (p + 1)).
  Proof using HR.
    intros s t p x Q H Hp Hx Hn. unfold wp, nextc, inb, zoom in H. change (buffer (St b s t p)) with (set_pcur p b) in H.
    rewrite (rd_byte B e b HR p x) in H by auto. exact H.
  Qed.

  Lemma rest_first : forall r k, number_rest r k -> r = [] \/ exists x r', r = x :: r' /\
    ((x = 46 \/ x = 101 \/ x = 69)%N \/ ((x = 114 \/ x = 105)%N /\ suffix_kind tINTEGER r k)).
  Proof using.
    clear. intros r k [suf k' HS|f suf k' Hf HS|fr x suf k' HF HX HS].
    - destruct HS; auto; right; cbn; do 2 eexists; (split; [reflexivity|]); right; (split; [auto|constructor]).
    - right. do 2 eexists. split; [reflexivity|]. auto.
    - right. destruct HF as [->|(f & -> & _)].
      + destruct HX as (m & sg & w & -> & Hm & _). cbn. do 2 eexists. split; [reflexivity|]. left. destruct Hm; auto.
      + cbn. do 2 eexists. split; [reflexivity|]. auto.
  Qed.

  Lemma decimal_ok : forall w k p d r (Q : Tok -> Lexer -> Prop), decimal_literal w k -> w = d :: r ->
    text_at B p w -> pbeg b <= p -> p + List.length w <= pend b -> InL B b (p + List.length w) ->
    number_ends B (p + List.length w) -> List.length w + 3 < fuel e ->
    (forall b', Fin b (p + List.length w) b' -> Q k (NumEnd s0 w b')) ->
    wp e (parse_numeric d) Q (set_buffer (set_pcur (p + 1) b) s0).
  Proof using HR.
    intros w k p d r Q HD Hw Ht Hpb Hl HI HE Hfu HQ. destruct (literal_rest w k HD) as (i & r' & -> & Hi & Hr).
    unfold parse_numeric. ws. ws. ws. ws. ws.
    destruct Hi as [|d' ri Hd' Hri].
    - (* 0 *)
      cbn in Hw. injection Hw as <- <-. change (bs "0") with [48%N] in *. cbn [app List.length] in *.
      apply text_at_cons in Ht. destruct Ht as (Hx0 & Ht).
      change ((48 =? 45)%N || (48 =? 43)%N) with false. cbv iota. ws. change (mbeq (Some 48%N) "0") with true. cbv iota.
      ws. ws. ws. change (toklen _) with 0.
      replace (p + S (List.length r')) with (p + 1 + List.length r') in * by lia.
      assert (HQ' : forall b', Fin b (p + 1 + List.length r') b' -> Q k (NumEnd s1 ([48%N] ++ r') b')) by exact HQ.
      (* going on to the decimal loop *)
      assert (HGo : forall x, p + 1 < pend b -> nth_error B (p + 1) = Some x -> (x = 46 \/ x = 101 \/ x = 69)%N ->
        wp e nextc (fun c s => wp e (if mbeq c "x" || mbeq c "X" then based_number is_hexdigit c 0
           else if mbeq c "b" || mbeq c "B" then based_number (fun c => mbeq c "0" || mbeq c "1") c 0
           else if mbeq c "d" || mbeq c "D" then based_number is_digit c 0
           else r <- leading_zero c 0 ;; match r with inr t => ret t | inl (c, nondigit) => decimal_loop c nondigit end) Q s)
          (St b s1 [] (p + 1))).
      { intros x Hq Hx Hxx. apply (st_nx B e b s1 HR [] (p + 1) x); auto; [lia|].
        replace (mbeq (Some x) "x" || mbeq (Some x) "X") with false by (cbn; lia).
        replace (mbeq (Some x) "b" || mbeq (Some x) "B") with false by (cbn; lia).
        replace (mbeq (Some x) "d" || mbeq (Some x) "D") with false by (cbn; lia).
        ws. unfold leading_zero. ws. replace (mbeq (Some x) "_") with false by (cbn; lia). ws. ws.
        replace (mbeq (Some x) "o" || mbeq (Some x) "O") with false by (cbn; lia). ws. ws.
        replace (mb_ge (Some x) "0" && mb_le (Some x) "7") with false by (cbn; lia). ws.
        replace (mb_gt (Some x) "7" && mb_le (Some x) "9") with false by (cbn; lia).
        replace (mbeq (Some x) "." || mbeq (Some x) "e" || mbeq (Some x) "E") with true by (cbn; lia).
        ws. apply st_add. ws. unfold decimal_loop. apply wp_loop_fuel.
        pose proof (rest_ok B e b s1 HR r' k Hr (fuel e) [48%N] (p + 1) Q Ht ltac:(lia) HI HE ltac:(lia) ltac:(lia) HQ') as HK.
        assert (Hx13 : x <> 13%N) by (clear - Hxx; lia).
        exact (st_nx_inv s1 [48%N] (p + 1) x _ HK Hq Hx Hx13). }
      (* stopping here *)
      assert (HStop : forall c b1, r' = [] \/ suffix_kind tINTEGER r' k -> (forall x, c = Some x -> ~ (48 <= x <= 57)%N /\ x <> 46 /\ x <> 101 /\ x <> 69 /\ x <> 95 /\
             x <> 120 /\ x <> 88 /\ x <> 98 /\ x <> 66 /\ x <> 100 /\ x <> 68 /\ x <> 111 /\ x <> 79)%N ->
           (c <> None -> 1 <= pcur b1) -> Fin b (p + 1) (back c b1) -> (r' <> [] -> back c b1 = set_pcur (p + 1) b) ->
        wp e (if mbeq c "x" || mbeq c "X" then based_number is_hexdigit c 0
           else if mbeq c "b" || mbeq c "B" then based_number (fun c => mbeq c "0" || mbeq c "1") c 0
           else if mbeq c "d" || mbeq c "D" then based_number is_digit c 0
           else r <- leading_zero c 0 ;; match r with inr t => ret t | inl (c, nondigit) => decimal_loop c nondigit end) Q
          (Sb s1 [] b1)).
      { intros c b1 HS Hc Hpos HF Hb.
        assert (HS' : suffix_kind tINTEGER r' k).
        { destruct HS as [->|HS]; auto. inversion Hr as [suf k' H1 H2|f suf k' H1 H2 H3|fr x suf k' H1 (m & sg & y & -> & H2) H3 H4 H5]; subst; auto.
          destruct fr; discriminate. }
        assert (Hc' : forall v, (v < 48 \/ v = 46 \/ v = 101 \/ v = 69 \/ v = 95 \/
             v = 120 \/ v = 88 \/ v = 98 \/ v = 66 \/ v = 100 \/ v = 68 \/ v = 111 \/ v = 79)%N -> True) by auto. clear Hc'.
        assert (HT : (mbeq c "x" || mbeq c "X" = false) /\ (mbeq c "b" || mbeq c "B" = false) /\ (mbeq c "d" || mbeq c "D" = false) /\
          mbeq c "_" = false /\ (mbeq c "o" || mbeq c "O" = false) /\ (mb_ge c "0" && mb_le c "7" = false) /\
          (mb_gt c "7" && mb_le c "9" = false) /\ (mbeq c "." || mbeq c "e" || mbeq c "E" = false)).
        { destruct c as [x|]; [|cbn; auto 10]. specialize (Hc x eq_refl). cbn. splits; lia. }
        destruct HT as (T1 & T2 & T3 & T4 & T5 & T6 & T7 & T8).
        rewrite T1, T2, T3. ws. unfold leading_zero. rewrite T4. ws. ws. rewrite T5. ws. ws. rewrite T6. ws. ws. rewrite T7, T8.
        ws. apply st_push; [exact Hpos|].
        assert (HG : wp e (suffix <- number_literal_suffix NUM_SUFFIX_ALL ;; t <- tokenbuf_take ;; set_integer_literal (t ++ bs "0") suffix) Q
                      (Sb s1 [] (back c b1))).
        { apply (int_finish B e b s1 HR [] r' k (p + 1) (back c b1) Q (fun t => t ++ bs "0")); auto.
          constructor; auto; blia. }
        apply wp_bind_inv in HG. ws. eapply wp_conseq; [exact HG|]. intros sf s' H. apply wp_bind_inv in H. ws.
        eapply wp_conseq; [exact H|]. intros t s'' H'. ws. eapply wp_conseq; [exact H'|]. intros. ws. ws. assumption. }
      destruct (rest_first r' k Hr) as [->|(x & r'' & -> & Hx)].
      + cbn [List.length] in *. rewrite Nat.add_0_r in *.
        destruct (nth_error B (p + 1)) as [y|] eqn:Ey; [destruct (N.eq_dec y 46) as [->|Hy]|].
        * apply (HGo 46%N); auto. destruct HI as (I1 & [I2|(I2 & I3)] & _); auto. exfalso.
          destruct (line_last B _ I3) as (A & _). destruct HR as (HW & _). rewrite <- (w_pend B b HW) in A.
          assert (nth_error B (p + 1) <> None) by congruence. apply nth_error_Some in H. lia.
        * apply (st_follow B e b s1 HR [] (p + 1) (set_pcur (p + 1) b)); auto; [left; reflexivity|].
          intros c b' C1 C2 C3 C4. apply HStop; auto; [|congruence]. intros x ->.
          pose proof (stop_ends B (p + 1) HE _ x C1 eq_refl) as Hn. unfold name_byte in Hn.
          assert (x <> 46%N). { destruct C1 as [C1|[C1|(C1 & _)]]; congruence. } lia.
        * apply (st_follow B e b s1 HR [] (p + 1) (set_pcur (p + 1) b)); auto; [left; reflexivity|].
          intros c b' C1 C2 C3 C4. apply HStop; auto; [|congruence]. intros x ->.
          pose proof (stop_ends B (p + 1) HE _ x C1 eq_refl) as Hn. unfold name_byte in Hn.
          assert (x <> 46%N). { destruct C1 as [C1|[C1|(C1 & _)]]; congruence. } lia.
      + cbn [List.length] in *. pose proof Ht as Ht'. apply text_at_cons in Ht'. destruct Ht' as (Hx1 & _).
        destruct Hx as [Hx|(Hx & HS)].
        * apply (HGo x); auto. lia.
        * apply (st_nx B e b s1 HR [] (p + 1) x); auto; try lia.
          apply HStop; auto.
          -- intros y Hy. injection Hy as <-. lia.
          -- intros _. cbn. lia.
          -- left. apply (back_byte B b HR); auto. lia.
          -- intros _. apply (back_byte B b HR); auto. lia.
    - cbn [app] in Hw. injection Hw as <- <-. cbn [app List.length] in *. rewrite app_length in *.
      apply text_at_cons in Ht. destruct Ht as (Hx0 & Ht). apply text_at_app in Ht. destruct Ht as (Ht1 & Ht2).
      replace ((d' =? 45)%N || (d' =? 43)%N) with false by lia. ws. replace (mbeq (Some d') "0") with false by (cbn; lia).
      unfold decimal_loop. apply wp_loop_fuel.
      replace (fuel e) with (S (List.length ri + (fuel e - List.length ri - 1))) by lia. cbn [loop_n]. ws.
      unfold decimal_body at 1. replace (is_digit (Some d')) with true by (cbn; unfold b_is_digit, in_range; lia).
      ws. apply (st_add e b s1 [] (p + 1) d'). ws.
      replace (p + S (List.length ri + List.length r')) with (p + 1 + List.length ri + List.length r') in * by lia.
      eapply wp_conseq; [apply (dec_tail B e b s1 HR ri Hri (fuel e - List.length ri - 1) ([] ++ [d']) (p + 1) false false false Q); auto; try lia|].
      + apply (rest_ok B e b s1 HR r' k Hr); auto; try lia.
      + intros c s Hc. ws. exact Hc.
  Qed.
End Literal.
