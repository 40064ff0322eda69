(** * Reading prefixed number literals *)
Require Import Verif.Base Verif.MaybeByteM Verif.InputM Verif.BufferM Verif.TokensM Verif.LexStateM Verif.LexerM
  Verif.LexNumericM Verif.LexMainM
  Verif.SourceSpec Verif.SourceProofs Verif.Wp Verif.BufInv Verif.LexSpec Verif.ReadSpec Verif.NumberSpec Verif.NumRead.
Require Import ZifyBool ZifyNat ZifyN.

Section Prefix.
  Variables (B : list N) (e : Env) (b : Buffer) (s0 : Lexer).
  Hypothesis HR : Ready B b.

  (** The bodies of the two digit loops *)
  Definition dg_body (digit : MaybeByte -> bool) : MaybeByte * option N -> M Lexer ((MaybeByte * option N) + (MaybeByte * option N)) :=
    fun '(c, nondigit) =>
      if mbeq c "_" then
        match nondigit with
        | Some _ => ret (inr (c, nondigit))
        | None =>
            tokadd_mb c ;;;
            let nondigit := c in
            c <- nextc ;;
            if is_eof c then ret (inr (c, nondigit)) else ret (inl (c, nondigit))
        end
      else if negb (digit c) then ret (inr (c, nondigit))
      else
        tokadd_mb c ;;;
        c <- nextc ;;
        if is_eof c then ret (inr (c, None)) else ret (inl (c, None)).

  Definition oc_body : MaybeByte * option N -> M Lexer ((MaybeByte * option N) + (bool * (MaybeByte * option N))) :=
    fun '(c, nondigit) =>
      if mbeq c "_" then
        match nondigit with
        | Some _ => ret (inr (true, (c, nondigit)))
        | None =>
            tokadd_mb c ;;;
            let nondigit := c in
            c <- nextc ;;
            if is_eof c then ret (inr (true, (c, nondigit))) else ret (inl (c, nondigit))
        end
      else if mb_lt c "0" || mb_gt c "9" then ret (inr (true, (c, nondigit)))
      else if mb_gt c "7" then
        invalid_octal ;;; ret (inr (false, (c, nondigit)))
      else
        tokadd_mb c ;;;
        c <- nextc ;;
        if is_eof c then ret (inr (true, (c, None))) else ret (inl (c, None)).

  (** The character after the digits stops the loop *)
  Definition Ends_at (cond : MaybeByte -> Prop) (t : list N) (p : nat) (Q : MaybeByte -> Lexer -> Prop) : Prop :=
    wp e nextc (fun c s => (c = None \/ (mbeq c "_" = false /\ cond c)) /\ Q c s) (St b s0 t p).

  Lemma dg_tail : forall (P : N -> Prop) digit, (forall d, P d -> digit (Some d) = true /\ d <> 95%N /\ d <> 13%N) ->
    forall r, more P r -> forall n t p (Q : MaybeByte * option N -> Lexer -> Prop),
    text_at B p r -> p + List.length r <= pend b ->
    Ends_at (fun c => digit c = false) (t ++ r) (p + List.length r) (fun c s => Q (c, None) s) ->
    wp e (c <- nextc ;; if is_eof c then ret (inr (c, None)) else ret (inl (c, None)))
      (fun a s => wp e (match a with inl x' => loop_n (List.length r + S n) (dg_body digit) x' | inr r => ret r end) Q s)
      (St b s0 t p).
  Proof using HR.
    intros P digit HP r Hr. induction Hr as [|d w Hd Hw IH|d w Hd Hw IH]; intros n t p Q Ht Hp HE.
    - cbn [List.length Nat.add] in *. rewrite Nat.add_0_r, app_nil_r in HE. ws. eapply wp_conseq; [exact HE|].
      intros c s (Hc & HQ). destruct c as [x|]; cbn [is_eof]; ws; [|ws; exact HQ].
      destruct Hc as [Hc|(H1 & H2)]; [discriminate|]. cbn [loop_n]. ws. unfold dg_body. rewrite H1, H2. cbn [negb]. ws. ws. exact HQ.
    - apply text_at_cons in Ht. destruct Ht as (Hx & Ht). cbn [List.length] in Hp, HE. destruct (HP d Hd) as (P1 & P2 & P3).
      ws. apply (st_nx B e b s0 HR t p d); auto; try lia. cbn [is_eof]. ws. cbn [List.length Nat.add loop_n]. ws.
      unfold dg_body at 1. replace (mbeq (Some d) "_") with false by (cbn; lia). rewrite P1. cbn [negb]. ws. apply st_add.
      replace (p + S (List.length w)) with (p + 1 + List.length w) in HE by lia.
      apply (IH n (t ++ [d]) (p + 1) Q); auto; try lia. rewrite <- app_assoc. exact HE.
    - apply text_at_cons in Ht. destruct Ht as (Hx & Ht). apply text_at_cons in Ht. destruct Ht as (Hy & Ht).
      cbn [List.length] in Hp, HE. destruct (HP d Hd) as (P1 & P2 & P3).
      ws. apply (st_nx B e b s0 HR t p 95%N); auto; try lia. cbn [is_eof]. ws. cbn [List.length Nat.add loop_n]. ws.
      unfold dg_body at 1. change (mbeq (Some 95%N) "_") with true. cbv iota. ws. apply st_add. ws.
      apply (st_nx B e b s0 HR _ (p + 1) d); auto; try lia. cbn [is_eof]. ws. ws.
      unfold dg_body at 1. replace (mbeq (Some d) "_") with false by (cbn; lia). rewrite P1. cbn [negb]. ws. apply st_add.
      replace (p + S (S (List.length w))) with (p + 1 + 1 + List.length w) in HE by lia.
      apply (IH n ((t ++ [95%N]) ++ [d]) (p + 1 + 1) Q); auto; try lia. rewrite <- !app_assoc. exact HE.
  Qed.

  Lemma oc_tail : forall r, more oct r -> forall n t p (Q : bool * (MaybeByte * option N) -> Lexer -> Prop),
    text_at B p r -> p + List.length r <= pend b ->
    Ends_at (fun c => mb_lt c "0" || mb_gt c "9" = true) (t ++ r) (p + List.length r) (fun c s => Q (true, (c, None)) s) ->
    wp e (c <- nextc ;; if is_eof c then ret (inr (true, (c, None))) else ret (inl (c, None)))
      (fun a s => wp e (match a with inl x' => loop_n (List.length r + S n) oc_body x' | inr r => ret r end) Q s)
      (St b s0 t p).
  Proof using HR.
    intros r Hr. induction Hr as [|d w Hd Hw IH|d w Hd Hw IH]; intros n t p Q Ht Hp HE.
    - cbn [List.length Nat.add] in *. rewrite Nat.add_0_r, app_nil_r in HE. ws. eapply wp_conseq; [exact HE|].
      intros c s (Hc & HQ). destruct c as [x|]; cbn [is_eof]; ws; [|ws; exact HQ].
      destruct Hc as [Hc|(H1 & H2)]; [discriminate|]. cbn [loop_n]. ws. unfold oc_body. rewrite H1, H2. ws. ws. exact HQ.
    - apply text_at_cons in Ht. destruct Ht as (Hx & Ht). cbn [List.length] in Hp, HE. unfold oct in Hd.
      ws. apply (st_nx B e b s0 HR t p d); auto; try lia. cbn [is_eof]. ws. cbn [List.length Nat.add loop_n]. ws.
      unfold oc_body at 1. replace (mbeq (Some d) "_") with false by (cbn; lia).
      replace (mb_lt (Some d) "0" || mb_gt (Some d) "9") with false by (cbn; lia). replace (mb_gt (Some d) "7") with false by (cbn; lia).
      ws. apply st_add. replace (p + S (List.length w)) with (p + 1 + List.length w) in HE by lia.
      apply (IH n (t ++ [d]) (p + 1) Q); auto; try lia. rewrite <- app_assoc. exact HE.
    - apply text_at_cons in Ht. destruct Ht as (Hx & Ht). apply text_at_cons in Ht. destruct Ht as (Hy & Ht).
      cbn [List.length] in Hp, HE. unfold oct in Hd.
      ws. apply (st_nx B e b s0 HR t p 95%N); auto; try lia. cbn [is_eof]. ws. cbn [List.length Nat.add loop_n]. ws.
      unfold oc_body at 1. change (mbeq (Some 95%N) "_") with true. cbv iota. ws. apply st_add. ws.
      apply (st_nx B e b s0 HR _ (p + 1) d); auto; try lia. cbn [is_eof]. ws. ws.
      unfold oc_body at 1. replace (mbeq (Some d) "_") with false by (cbn; lia).
      replace (mb_lt (Some d) "0" || mb_gt (Some d) "9") with false by (cbn; lia). replace (mb_gt (Some d) "7") with false by (cbn; lia).
      ws. apply st_add. replace (p + S (S (List.length w))) with (p + 1 + 1 + List.length w) in HE by lia.
      apply (IH n ((t ++ [95%N]) ++ [d]) (p + 1 + 1) Q); auto; try lia. rewrite <- !app_assoc. exact HE.
  Qed.

  (** The character after the digits: a suffix letter or what follows the literal *)
  Lemma ends_read : forall suf k t q (Q : MaybeByte -> Lexer -> Prop) (cond : MaybeByte -> Prop),
    suffix_kind tINTEGER suf k -> Ends B e b suf q ->
    (forall x, (x = 114 \/ x = 105)%N \/ ~ name_byte x -> mbeq (Some x) "_" = false /\ cond (Some x)) ->
    (forall c b1, (c <> None -> 1 <= pcur b1) -> Fin b q (back c b1) -> (suf <> [] -> back c b1 = set_pcur q b) -> Q c (Sb s0 t b1)) ->
    Ends_at cond t q Q.
  Proof using HR.
    intros suf k t q Q cond HK [E1 E2 E3 E4 E5] Hc HQ. unfold Ends_at. destruct suf as [|y suf].
    - cbn [List.length] in *. rewrite Nat.add_0_r in *.
      apply (st_follow B e b s0 HR t q (set_pcur q b)); auto; [left; reflexivity|]. intros c b' C1 C2 C3 C4.
      split; [|apply HQ; auto; congruence].
      destruct c as [x|]; [right|left; reflexivity]. apply Hc. right. exact (stop_ends B q E4 _ x C1 eq_refl).
    - destruct (suffix_first false false _ _ HK) as (x & r & Hs & Hx); [discriminate|]. injection Hs as -> ->.
      cbn [List.length] in *. apply text_at_cons in E1. destruct E1 as (E1 & _).
      apply (st_nx B e b s0 HR t q x); auto; try lia. split.
      + right. apply Hc. auto.
      + apply (HQ (Some x) (set_pcur (q + 1) b)).
        * intros _. cbn. lia.
        * left. apply (back_byte B b HR); auto. lia.
        * intros _. apply (back_byte B b HR); auto. lia.
  Qed.

  Lemma based_ok : forall (P : N -> Prop) digit m w suf k p (Q : Tok -> Lexer -> Prop),
    (forall d, P d -> digit (Some d) = true /\ d <> 95%N /\ d <> 13%N) ->
    (forall x, (x = 114 \/ x = 105)%N \/ ~ name_byte x -> digit (Some x) = false) ->
    digit_run P w -> suffix_kind tINTEGER suf k -> text_at B p w -> p + List.length w <= pend b ->
    Ends B e b suf (p + List.length w) -> List.length w < fuel e ->
    (forall b', Fin b (p + List.length w + List.length suf) b' -> Q k (NumEnd s0 (48%N :: m :: w ++ suf) b')) ->
    wp e (based_number digit (Some m) 0) Q (St b s0 [] p).
  Proof using HR.
    intros P digit m w suf k p Q HP HN (d & r & -> & Hd & Hr) HK Ht Hl HE Hfu HQ. cbn [List.length] in *.
    apply text_at_cons in Ht. destruct Ht as (Hx & Ht). destruct (HP d Hd) as (P1 & P2 & P3).
    unfold based_number. ws. apply st_add. ws. apply (st_nx B e b s0 HR _ p d); auto; try lia. rewrite P1. ws.
    unfold digits_loop. apply wp_loop_fuel. change (fun '(c, nondigit) => _) with (dg_body digit).
    replace (fuel e) with (S (List.length r + S (fuel e - List.length r - 2))) by lia. cbn [loop_n]. ws.
    unfold dg_body at 1. replace (mbeq (Some d) "_") with false by (cbn; lia). rewrite P1. cbn [negb]. ws. apply st_add.
    apply (dg_tail P digit HP r Hr); auto; try lia.
    replace (p + S (List.length r)) with (p + 1 + List.length r) in * by lia.
    apply (ends_read suf k); auto.
    { intros x Hxx. split; [|apply HN; exact Hxx]. unfold name_byte in Hxx. cbn. lia. }
    intros c b1 H1 H2 H3. ws. apply st_push; [exact H1|]. ws. ws.
    change (toklen (Sb s0 ((([] ++ [m]) ++ [d]) ++ r) (back c b1)) =? 0 + 1) with (S (List.length (d :: r)) =? 1).
    cbn [List.length]. replace (S (S (List.length r)) =? 1) with false by lia.
    apply (int_finish B e b s0 HR ((([] ++ [m]) ++ [d]) ++ r) suf k (p + 1 + List.length r) (back c b1) Q (fun t => bs "0" ++ t)); auto.
  Qed.

  (** parse_octal from its first character [x] (already read) *)
  Lemma octal_ok : forall v x w suf k p (Q : (MaybeByte * option N) + Tok -> Lexer -> Prop),
    more oct (x :: w) -> suffix_kind tINTEGER suf k -> text_at B p (x :: w) -> p + S (List.length w) <= pend b ->
    Ends B e b suf (p + S (List.length w)) -> List.length w + 2 < fuel e ->
    (forall b', Fin b (p + S (List.length w) + List.length suf) b' -> Q (inr k) (NumEnd s0 (48%N :: v ++ x :: w ++ suf) b')) ->
    wp e (parse_octal (Some x) None 0) Q (St b s0 v (p + 1)).
  Proof using HR.
    intros v x w suf k p Q Hm HK Ht Hl HE Hfu HQ. apply text_at_cons in Ht. destruct Ht as (Hx & Ht).
    unfold parse_octal. ws. apply wp_loop_fuel. change (fun '(c, nondigit) => _) with oc_body.
    set (Q1 := fun (a : bool * (MaybeByte * option N)) s' => _).
    assert (HF : forall c b1, (c <> None -> 1 <= pcur b1) -> Fin b (p + S (List.length w)) (back c b1) ->
      (suf <> [] -> back c b1 = set_pcur (p + S (List.length w)) b) -> Q1 (true, (c, None)) (Sb s0 (v ++ x :: w) b1)).
    { intros c b1 H1 H2 H3. unfold Q1. ws. ws.
      replace (0 <? toklen (Sb s0 (v ++ x :: w) b1)) with true.
      2: { change (toklen (Sb s0 (v ++ x :: w) b1)) with (List.length (v ++ x :: w)). rewrite app_length. cbn [List.length]. lia. }
      ws. apply st_push; [exact H1|]. ws.
      eapply wp_conseq; [|intros t s Hq; ws; exact Hq].
      apply (int_finish B e b s0 HR (v ++ x :: w) suf k (p + S (List.length w)) (back c b1) (fun t s => Q (inr t) s) (fun t => bs "0" ++ t)); auto.
      intros b' HFin. change ((bs "0" ++ v ++ x :: w) ++ suf) with (48%N :: (v ++ x :: w) ++ suf). rewrite <- app_assoc. cbn [app].
      apply HQ. exact HFin. }
    assert (HEnd : Ends_at (fun c => mb_lt c "0" || mb_gt c "9" = true) (v ++ x :: w) (p + S (List.length w)) (fun c s => Q1 (true, (c, None)) s)).
    { apply (ends_read suf k); auto. intros y Hy. unfold name_byte in Hy. cbn. lia. }
    clearbody Q1. clear HF HQ.
    inversion Hm as [|d w' Hd Hw E|d w' Hd Hw E]; subst.
    - unfold oct in Hd. replace (fuel e) with (S (List.length w + S (fuel e - List.length w - 2))) by lia. cbn [loop_n]. ws.
      unfold oc_body at 1. replace (mbeq (Some x) "_") with false by (cbn; lia).
      replace (mb_lt (Some x) "0" || mb_gt (Some x) "9") with false by (cbn; lia). replace (mb_gt (Some x) "7") with false by (cbn; lia).
      ws. apply st_add. apply (oc_tail w Hw); auto; try lia. rewrite <- app_assoc. cbn [app].
      replace (p + 1 + List.length w) with (p + S (List.length w)) by lia. exact HEnd.
    - unfold oct in Hd. cbn [List.length] in *. apply text_at_cons in Ht. destruct Ht as (Hy & Ht).
      replace (fuel e) with (S (S (List.length w' + S (fuel e - List.length w' - 3)))) by lia. cbn [loop_n]. ws.
      unfold oc_body at 1. change (mbeq (Some 95%N) "_") with true. cbv iota. ws. apply st_add. ws.
      apply (st_nx B e b s0 HR _ (p + 1) d); auto; try lia. cbn [is_eof]. ws. ws.
      unfold oc_body at 1. replace (mbeq (Some d) "_") with false by (cbn; lia).
      replace (mb_lt (Some d) "0" || mb_gt (Some d) "9") with false by (cbn; lia). replace (mb_gt (Some d) "7") with false by (cbn; lia).
      ws. apply st_add. apply (oc_tail w' Hw); auto; try lia. rewrite <- !app_assoc. cbn [app].
      replace (p + 1 + 1 + List.length w') with (p + S (S (List.length w'))) by lia. exact HEnd.
  Qed.
End Prefix.

Section PrefixLiteral.
  Variables (B : list N) (e : Env) (b : Buffer) (s0 : Lexer).
  Hypothesis HR : Ready B b.
  Let s1 := set_lex_state EXPR_END s0.

  Lemma prefixed_ok : forall w k p (Q : Tok -> Lexer -> Prop), prefixed_literal w k ->
    text_at B p w -> pbeg b <= p -> p + List.length w <= pend b -> InL B b (p + List.length w) ->
    number_ends B (p + List.length w) -> List.length w + 3 < fuel e ->
    (forall b', Fin b (p + List.length w) b' -> Q k (NumEnd s0 w b')) ->
    wp e (parse_numeric 48) Q (set_buffer (set_pcur (p + 1) b) s0).
  Proof using HR.
    intros w k p Q HP Ht Hpb Hl HI HE Hfu HQ. unfold parse_numeric. ws. ws. ws. ws. ws.
    change ((48 =? 45)%N || (48 =? 43)%N) with false. cbv iota. ws. change (mbeq (Some 48%N) "0") with true. cbv iota.
    ws. ws. change (toklen _) with 0. ws.
    change (set_tokenbuf [] (set_lex_state EXPR_END (set_buffer (set_pcur (p + 1) b) s0))) with (St b s1 [] (p + 1)).
    assert (HQ' : forall b', Fin b (p + List.length w) b' -> Q k (NumEnd s1 w b')) by exact HQ. clear HQ.
    assert (HB : forall (P : N -> Prop) digit m u suf, w = 48%N :: m :: u ++ suf -> m <> 13%N ->
      (forall d, P d -> digit (Some d) = true /\ d <> 95%N /\ d <> 13%N) ->
      (forall x, (x = 114 \/ x = 105)%N \/ ~ name_byte x -> digit (Some x) = false) ->
      digit_run P u -> suffix_kind tINTEGER suf k ->
      p + 1 < pend b /\ nth_error B (p + 1) = Some m /\
      wp e (based_number digit (Some m) 0) Q (St b s1 [] (p + 1 + 1))).
    { intros P digit m u suf -> Hm H1 H2 H3 H4. cbn [List.length] in *. rewrite app_length in *.
      apply text_at_cons in Ht. destruct Ht as (_ & Ht). apply text_at_cons in Ht. destruct Ht as (Hy & Ht).
      apply text_at_app in Ht. destruct Ht as (Ht1 & Ht2). splits; auto; [lia|].
      replace (p + S (S (List.length u + List.length suf))) with (p + 1 + 1 + List.length u + List.length suf) in * by lia.
      apply (based_ok B e b s1 HR P digit m u suf k (p + 1 + 1)); auto; try lia. constructor; auto; lia. }
    destruct HP as [m u suf k Hm Hu HK|m u suf k Hm Hu HK|m u suf k Hm Hu HK|m u suf k Hm Hu HK|u suf k Hn Hu HK].
    - destruct (HB hex is_hexdigit m u suf) as (H1 & H2 & H3); auto; try lia.
      + intros d Hd. unfold hex, dec in Hd. cbn. unfold b_is_hexdigit, b_is_digit, in_range. splits; lia.
      + intros x Hx. unfold name_byte in Hx. cbn. unfold b_is_hexdigit, b_is_digit, in_range. lia.
      + apply (st_nx B e b s1 HR [] (p + 1) m); auto; [lia|]. replace (mbeq (Some m) "x" || mbeq (Some m) "X") with true by (cbn; lia).
        exact H3.
    - destruct (HB bin (fun c => mbeq c "0" || mbeq c "1") m u suf) as (H1 & H2 & H3); auto; try lia.
      + intros d Hd. unfold bin in Hd. cbn. splits; lia.
      + intros x Hx. unfold name_byte in Hx. cbn. lia.
      + apply (st_nx B e b s1 HR [] (p + 1) m); auto; [lia|]. replace (mbeq (Some m) "x" || mbeq (Some m) "X") with false by (cbn; lia).
        replace (mbeq (Some m) "b" || mbeq (Some m) "B") with true by (cbn; lia). exact H3.
    - destruct (HB dec is_digit m u suf) as (H1 & H2 & H3); auto; try lia.
      + intros d Hd. unfold dec in Hd. cbn. unfold b_is_digit, in_range. splits; lia.
      + intros x Hx. unfold name_byte in Hx. cbn. unfold b_is_digit, in_range. lia.
      + apply (st_nx B e b s1 HR [] (p + 1) m); auto; [lia|]. replace (mbeq (Some m) "x" || mbeq (Some m) "X") with false by (cbn; lia).
        replace (mbeq (Some m) "b" || mbeq (Some m) "B") with false by (cbn; lia).
        replace (mbeq (Some m) "d" || mbeq (Some m) "D") with true by (cbn; lia). exact H3.
    - clear HB. destruct Hu as (d & r & -> & Hd & Hr). cbn [List.length app] in *. rewrite app_length in *.
      apply text_at_cons in Ht. destruct Ht as (_ & Ht). apply text_at_cons in Ht. destruct Ht as (Hy & Ht).
      change (d :: r ++ suf) with ((d :: r) ++ suf) in Ht. apply text_at_app in Ht. destruct Ht as (Ht1 & Ht2).
      pose proof Ht1 as Ht1'. apply text_at_cons in Ht1'. destruct Ht1' as (Hz & _). unfold oct in Hd.
      apply (st_nx B e b s1 HR [] (p + 1) m); auto; [lia|lia|]. replace (mbeq (Some m) "x" || mbeq (Some m) "X") with false by (cbn; lia).
      replace (mbeq (Some m) "b" || mbeq (Some m) "B") with false by (cbn; lia).
      replace (mbeq (Some m) "d" || mbeq (Some m) "D") with false by (cbn; lia).
      ws. unfold leading_zero. ws. replace (mbeq (Some m) "_") with false by (cbn; lia). ws. ws.
      replace (mbeq (Some m) "o" || mbeq (Some m) "O") with true by (cbn; lia). ws. apply st_add. ws.
      apply (st_nx B e b s1 HR _ (p + 1 + 1) d); auto; try lia.
      replace (is_eof (Some d) || mbeq (Some d) "_" || negb (is_digit (Some d))) with false by (cbn; unfold b_is_digit, in_range; lia).
      ws. ws. replace (mb_ge (Some d) "0" && mb_le (Some d) "7") with true by (cbn; lia).
      replace (p + S (S (S (List.length r + List.length suf)))) with (p + 1 + 1 + S (List.length r) + List.length suf) in * by lia.
      apply (octal_ok B e b s1 HR ([] ++ [m]) d r suf k (p + 1 + 1)); auto; try lia.
      + apply more_digit; auto.
      + constructor; auto; lia.
    - clear HB. destruct u as [|x u]; [congruence|]. cbn [List.length app] in *. rewrite app_length in *.
      apply text_at_cons in Ht. destruct Ht as (_ & Ht).
      change (x :: u ++ suf) with ((x :: u) ++ suf) in Ht. apply text_at_app in Ht. destruct Ht as (Ht1 & Ht2).
      pose proof Ht1 as Ht1'. apply text_at_cons in Ht1'. destruct Ht1' as (Hz & _).
      assert (Hx : oct x \/ x = 95%N) by (inversion Hu; auto). unfold oct in Hx.
      apply (st_nx B e b s1 HR [] (p + 1) x); auto; [lia|lia|]. replace (mbeq (Some x) "x" || mbeq (Some x) "X") with false by (cbn; lia).
      replace (mbeq (Some x) "b" || mbeq (Some x) "B") with false by (cbn; lia).
      replace (mbeq (Some x) "d" || mbeq (Some x) "D") with false by (cbn; lia).
      replace (p + S (S (List.length u + List.length suf))) with (p + 1 + S (List.length u) + List.length suf) in * by lia.
      assert (HO : forall (Q1 : (MaybeByte * option N) + Tok -> Lexer -> Prop),
        (forall b', Fin b (p + 1 + S (List.length u) + List.length suf) b' -> Q1 (inr k) (NumEnd s1 (48%N :: x :: u ++ suf) b')) ->
        wp e (parse_octal (Some x) None 0) Q1 (St b s1 [] (p + 1 + 1))).
      { intros Q1 HQ1. apply (octal_ok B e b s1 HR [] x u suf k (p + 1)); auto; try lia. constructor; auto; lia. }
      ws. unfold leading_zero. ws. destruct (mbeq (Some x) "_") eqn:E.
      + apply HO. intros b' HF. ws. ws. apply HQ'. exact HF.
      + cbn in E. ws. ws. replace (mbeq (Some x) "o" || mbeq (Some x) "O") with false by (cbn; lia). ws. ws.
        replace (mb_ge (Some x) "0" && mb_le (Some x) "7") with true by (cbn; lia).
        apply HO. intros b' HF. ws. ws. apply HQ'. exact HF.
  Qed.
End PrefixLiteral.
