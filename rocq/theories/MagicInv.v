(** * Invariant of magic comments *)
Require Import Verif.Base Verif.MaybeByteM Verif.Utf8M Verif.InputM Verif.DiagnosticM Verif.LexStateM
  Verif.TokensM Verif.BufferM Verif.LexerM Verif.LexMagicM
  Verif.SourceSpec Verif.SourceProofs Verif.Wp Verif.BufInv Verif.LexInv Verif.NumInv Verif.StrInv Verif.ScopeProofs.
Require Import ZifyBool ZifyNat ZifyN.

(** A decoder that never changes the bytes; with no decoder this always holds *)
Definition safe_decoder (e : Env) (B : list N) : Prop :=
  forall enc out, decode_input e B enc = DecOk out -> out = B.

Lemma no_decoder_safe : forall e B, decoder e = None -> safe_decoder e B.
Proof using.
  intros e B H enc out. unfold decode_input. rewrite H. destruct (_ || _); congruence.
Qed.

Section Magic.
  Variables (B : list N) (e : Env).
  Hypothesis Hfuel : 4 * List.length B + 20 < fuel e.
  Hypothesis Hdec : safe_decoder e B.

  (** A recorded magic comment: key and value in [lo, hi], the key is a known name *)
  Definition mg_ok (lo hi : nat) (m : MagicComment) : Prop :=
    lo <= loc_begin (mc_key_l m) /\ loc_begin (mc_key_l m) <= loc_end (mc_key_l m) /\
    loc_end (mc_key_l m) <= loc_begin (mc_value_l m) /\ loc_begin (mc_value_l m) <= loc_end (mc_value_l m) /\
    loc_end (mc_value_l m) <= hi /\
    In (dash_to_underscore (firstn (loc_end (mc_key_l m) - loc_begin (mc_key_l m)) (skipn (loc_begin (mc_key_l m)) B)),
        mc_kind m) MAGIC_COMMENTS.

  Definition FRmg (lo hi : nat) (s0 s : Lexer) : Prop :=
    lval_start s = lval_start s0 /\ lval_end s = lval_end s0 /\ comments s = comments s0 /\ strterm s = strterm s0 /\
    (exists ds, diagnostics s = diagnostics s0 ++ ds /\ Forall (diag_ok B) ds) /\
    (exists ms, magic_comments s = magic_comments s0 ++ ms /\ Forall (mg_ok lo hi) ms).

  Lemma FRmg_refl : forall lo hi s, FRmg lo hi s s.
  Proof using. intros. unfold FRmg. splits; auto; exists []; rewrite app_nil_r; auto. Qed.

  (** Same buffer up to a change of encoding *)
  Definition sameb (b b' : Buffer) : Prop := BWF B b' /\ exists i, b' = set_input i b.

  Lemma sameb_refl : forall b, BWF B b -> sameb b b.
  Proof using. intros b H. split; auto. exists (input b). destruct b; reflexivity. Qed.
  Lemma sameb_trans : forall a b c, sameb a b -> sameb b c -> sameb a c.
  Proof using. intros a b c (_ & i & ->) (H & j & ->). split; auto. exists j. destruct a; reflexivity. Qed.

  (** Loops that do not touch the state *)
  Lemma wp_pure_loop : forall X R (body : X -> M Lexer (X + R)) (P : X -> Prop) (meas : X -> nat) (Q : R -> Lexer -> Prop) x s,
    P x -> meas x < fuel e ->
    (forall x, P x -> wp e (body x) (fun r s' => match r with
        | inl x' => s' = s /\ P x' /\ meas x' < meas x
        | inr r => Q r s' end) s) ->
    wp e (loop body x) Q s.
  Proof using.
    intros X R body P meas Q x s HP HM Hb.
    apply wp_loop with (I := fun x s' => s' = s /\ P x) (meas := fun x _ => meas x); auto.
    intros x1 s1 (-> & HP1). eapply wp_conseq; [apply Hb; auto|]. intros [x'|r] s' H; auto. cbv beta in *. tauto.
  Qed.

  (** *** set_file_encoding *)
  Lemma file_encoding_search_ok : forall str_ send s (Q : option (nat * bool) -> Lexer -> Prop),
    str_ <= send -> send <= List.length B -> Q None s -> (forall p sep, p < send -> Q (Some (p, sep)) s) ->
    wp e (file_encoding_search str_ send) Q s.
  Proof using All.
    intros str_ send s Q H1 H2 HN HS. unfold file_encoding_search. apply wp_bind, wp_gets.
    apply wp_pure_loop with (P := fun x => fst x <= send) (meas := fun x => send - fst x); [auto|cbn; lia|].
    intros (p & sep) Hp. cbn [fst] in Hp. apply wp_bind, wp_sub_ck; [auto|].
    destruct (send - p <=? 6) eqn:E6; [apply wp_ret; auto|]. cbv zeta.
    assert (HK : forall k sep', 1 <= k -> k <= 6 -> wp e (ret (inl (p + k, sep'))) (fun (r : (nat * bool) + option (nat * bool)) s' => match r with
        | inl x' => s' = s /\ fst x' <= send /\ send - fst x' < send - fst (p, sep) | inr r => Q r s' end) s).
    { intros k sep' K1 K2. apply wp_ret. cbn [fst]. splits; auto; lia. }
    assert (HFd : forall sep', wp e (s6 <- sub_ck (p + 6) 6 ;;
        if opt_bytes_eqb (b_substr_at (buffer s) s6 (p + 6)) (bs "coding") then ret (inr (Some (p + 6, sep')))
        else ret (inl (p + 6, false)))
       (fun (r : (nat * bool) + option (nat * bool)) s' => match r with
        | inl x' => s' = s /\ fst x' <= send /\ send - fst x' < send - fst (p, sep) | inr r => Q r s' end) s).
    { intros sep'. apply wp_bind, wp_sub_ck; [lia|]. destruct (opt_bytes_eqb _ _); [apply wp_ret; apply HS; lia|apply HK; lia]. }
    repeat match goal with |- wp _ (if ?x then _ else _) _ _ => destruct x; [first [apply HK; lia|apply HFd]|] end.
    apply HK; lia.
  Qed.

  Lemma file_encoding_spaces_ok : forall str_ send s (Q : option nat -> Lexer -> Prop),
    send <= List.length B -> Q None s -> (forall p, p < send -> Q (Some p) s) ->
    wp e (file_encoding_spaces str_ send) Q s.
  Proof using All.
    intros str_ send s Q H2 HN HS. unfold file_encoding_spaces. apply wp_bind, wp_gets.
    apply wp_pure_loop with (P := fun _ => True) (meas := fun x => send - x); [auto|lia|].
    intros p _. cbv zeta. destruct (send <=? p + 1) eqn:E; [apply wp_ret; auto|].
    destruct (negb _); apply wp_ret; [apply HS; lia|splits; auto; lia].
  Qed.

  Lemma set_file_encoding_ok : forall str_ send s (Q : unit -> Lexer -> Prop),
    BWF B (buffer s) -> str_ <= send -> send <= List.length B -> Q tt s -> wp e (set_file_encoding str_ send) Q s.
  Proof using All.
    intros str_ send s Q HW H1 H2 HQ. unfold set_file_encoding. apply wp_bind.
    apply file_encoding_search_ok; auto. intros p sep Hp. apply wp_bind.
    apply wp_pure_loop with (P := fun _ => True) (meas := fun x : nat * bool => if snd x then 0 else 1);
      [auto|destruct (snd _); lia|].
    intros (p1 & sep1) _. apply wp_bind. apply file_encoding_spaces_ok; auto.
    intros p2 Hp2. destruct sep1.
    - apply wp_ret. apply wp_bind, wp_gets. apply wp_bind.
      apply wp_pure_loop with (P := fun x => p2 <= x /\ x <= List.length B) (meas := fun x => List.length B - x); [lia|lia|].
      intros x (X1 & X2). cbv zeta.
      destruct (mbeq (byte_at (buffer s) x) "-" || mbeq (byte_at (buffer s) x) "_" ||
         (is_alnum (byte_at (buffer s) x) && (x + 1 <? send))) eqn:Ex; apply wp_ret.
      + assert (x < List.length B); [|splits; auto; lia].
        rewrite (byte_at_B B _ x HW) in Ex. apply nth_error_Some. intros C. rewrite C in Ex. discriminate Ex.
      + assert (Hs : exists l, b_substr_at (buffer s) p2 x = Some l).
        { unfold b_substr_at, substr_at. pose proof (w_bytes B _ HW) as Eb. unfold bytes in Eb. rewrite Eb.
          match goal with |- context [if ?x then _ else _] => replace x with true by lia end. eauto. }
        destruct Hs as (l & Hl). apply wp_bind. eapply wp_expect; [exact Hl|]. apply wp_ret. auto.
    - apply wp_bind, wp_gets. destruct (_ && _).
      + apply wp_ret. apply wp_ret. auto.
      + apply wp_ret. cbn [snd]. splits; auto.
  Qed.

  (** *** Markers *)
  Lemma magic_comment_marker_ok : forall str_ len s (Q : nat -> Lexer -> Prop), len <= List.length B ->
    Q 0 s -> (forall p, str_ + 3 <= p -> p <= str_ + len -> Q p s) -> wp e (magic_comment_marker str_ len) Q s.
  Proof using All.
    intros str_ len s Q HL HN HS. unfold magic_comment_marker. apply wp_bind, wp_gets.
    apply wp_pure_loop with (P := fun i => 2 <= i) (meas := fun i => len - i); [auto|lia|].
    intros i Hi. destruct (len <=? i) eqn:E; [apply wp_ret; auto|]. cbv zeta.
    destruct (mbeq _ "-").
    { destruct (_ && _); apply wp_ret; [apply HS; lia|splits; auto; lia]. }
    destruct (mbeq _ "*"); [|apply wp_ret; splits; auto; lia].
    destruct (len <=? i + 1) eqn:E1; [apply wp_ret; auto|].
    destruct (negb _); [apply wp_ret; splits; auto; lia|].
    destruct (negb _); [apply wp_ret; splits; auto; lia|]. apply wp_ret. apply HS; lia.
  Qed.

  (** *** The scanning loops: [str_ + len] does not change *)
  Section Scan.
    Variables (b : Buffer) (s : Lexer).

    Ltac scan :=
      match goal with
      | p0 : nat, l0 : Z |- _ =>
        apply wp_pure_loop with (P := fun x => (Z.of_nat (fst x) + snd x = Z.of_nat p0 + l0)%Z /\ (0 <= snd x)%Z /\ p0 <= fst x)
          (meas := fun x => Z.to_nat (snd x)); [cbn; lia|cbn; lia|];
        intros (p & l) (P1 & P2 & P3); cbn [fst snd] in P1, P2, P3
      end.

    Lemma mc_skip_junk_ok : forall p0 l0 (Q : nat * Z -> Lexer -> Prop), (0 <= l0)%Z -> (l0 <= Z.of_nat (List.length B))%Z ->
      (forall p l, (Z.of_nat p + l = Z.of_nat p0 + l0)%Z -> (0 <= l)%Z -> p0 <= p ->
         l = 0%Z \/ byte_at b p = None \/ (mc_special (byte_at b p) || is_space (byte_at b p) = false) -> Q (p, l) s) ->
      wp e (mc_skip_junk b p0 l0) Q s.
    Proof using All.
      intros p0 l0 Q H0 H1 HQ. unfold mc_skip_junk. scan. cbv zeta.
      destruct (Z.ltb 0 l && negb (is_eof (byte_at b p))) eqn:E; cbn [negb].
      - destruct (mc_special (byte_at b p) || is_space (byte_at b p)) eqn:E2; apply wp_ret.
        + cbn [fst snd]. splits; auto; lia.
        + apply HQ; auto.
      - apply wp_ret. apply HQ; auto. destruct (byte_at b p); cbn [is_eof negb] in E; auto. left. lia.
    Qed.

    Lemma mc_scan_name_ok : forall p0 l0 (Q : nat * Z -> Lexer -> Prop), (0 <= l0)%Z -> (l0 <= Z.of_nat (List.length B))%Z ->
      (forall p l, (Z.of_nat p + l = Z.of_nat p0 + l0)%Z -> (0 <= l)%Z -> p0 <= p ->
         (p0 < p \/ l0 = 0%Z \/ mc_special (byte_at b p0) || is_space (byte_at b p0) = true) -> Q (p, l) s) ->
      wp e (mc_scan_name b p0 l0) Q s.
    Proof using All.
      intros p0 l0 Q H0 H1 HQ. unfold mc_scan_name. scan. cbv zeta.
      destruct (Z.leb l 0) eqn:E; [apply wp_ret; apply HQ; auto; lia|].
      destruct (mc_special (byte_at b p) || is_space (byte_at b p)) eqn:E2; apply wp_ret.
      - apply HQ; auto. destruct (Nat.eq_dec p p0) as [->|]; [auto|left; lia].
      - cbn [fst snd]. splits; auto; lia.
    Qed.

    Lemma mc_skip_space_ok : forall p0 l0 (Q : nat * Z -> Lexer -> Prop), (l0 <= Z.of_nat (List.length B))%Z ->
      ((l0 < 0)%Z -> Q (p0, l0) s) ->
      (forall p l, (Z.of_nat p + l = Z.of_nat p0 + l0)%Z -> (0 <= l)%Z -> p0 <= p -> Q (p, l) s) ->
      wp e (mc_skip_space b p0 l0) Q s.
    Proof using All.
      intros p0 l0 Q H1 HN HQ. destruct (Z.ltb l0 0) eqn:E0.
      - unfold mc_skip_space. apply wp_pure_loop with (P := fun x => x = (p0, l0)) (meas := fun _ => 0); [auto|lia|].
        intros x ->. replace (Z.ltb 0 l0) with false by lia. cbn [andb]. apply wp_ret. apply HN. lia.
      - unfold mc_skip_space. scan. destruct (Z.ltb 0 l && is_space (byte_at b p)) eqn:E; apply wp_ret.
        + cbn [fst snd]. splits; auto; lia.
        + apply HQ; auto.
    Qed.

    Lemma mc_skip_semi_ok : forall p0 l0 (Q : nat * Z -> Lexer -> Prop), (l0 <= Z.of_nat (List.length B))%Z ->
      ((l0 < 0)%Z -> Q (p0, l0) s) ->
      (forall p l, (Z.of_nat p + l = Z.of_nat p0 + l0)%Z -> (0 <= l)%Z -> p0 <= p -> Q (p, l) s) ->
      wp e (mc_skip_semi b p0 l0) Q s.
    Proof using All.
      intros p0 l0 Q H1 HN HQ. destruct (Z.ltb l0 0) eqn:E0.
      - unfold mc_skip_semi. apply wp_pure_loop with (P := fun x => x = (p0, l0)) (meas := fun _ => 0); [auto|lia|].
        intros x ->. replace (Z.ltb 0 l0) with false by lia. cbn [andb]. apply wp_ret. apply HN. lia.
      - unfold mc_skip_semi. scan. destruct (Z.ltb 0 l && _) eqn:E; apply wp_ret.
        + cbn [fst snd]. splits; auto; lia.
        + apply HQ; auto.
    Qed.

    Lemma mc_after_colon_ok : forall p0 l0 (Q : nat * Z -> Lexer -> Prop), (0 < l0)%Z -> (l0 <= Z.of_nat (List.length B))%Z ->
      (forall p l, (Z.of_nat p + l = Z.of_nat p0 + l0)%Z -> (0 <= l)%Z -> p0 < p -> Q (p, l) s) ->
      wp e (mc_after_colon b p0 l0) Q s.
    Proof using All.
      intros p0 l0 Q H0 H1 HQ. unfold mc_after_colon.
      apply wp_pure_loop with (P := fun x => (Z.of_nat (fst x) + snd x = Z.of_nat p0 + l0)%Z /\ (0 < snd x)%Z /\ p0 <= fst x)
          (meas := fun x => Z.to_nat (snd x)); [cbn; lia|cbn; lia|].
      intros (p & l) (P1 & P2 & P3); cbn [fst snd] in P1, P2, P3. cbv zeta.
      destruct (Z.ltb 0 (l - 1) && is_space (byte_at b (p + 1))) eqn:E; apply wp_ret.
      - cbn [fst snd]. splits; auto; lia.
      - apply HQ; lia.
    Qed.

    Lemma mc_quoted_ok : forall p0 l0 (Q : nat * Z -> Lexer -> Prop), (0 < l0)%Z -> (l0 <= Z.of_nat (List.length B))%Z ->
      (forall p l, (Z.of_nat p + l = Z.of_nat p0 + l0 - 1)%Z -> (-1 <= l)%Z -> p0 <= p -> Q (p, l) s) ->
      wp e (mc_quoted b p0 l0) Q s.
    Proof using All.
      intros p0 l0 Q H0 H1 HQ. unfold mc_quoted. scan. cbv zeta.
      destruct (Z.ltb 0 (l - 1) && negb (mbeq (byte_at b p) """")) eqn:E; cbn [negb].
      - destruct (mbeq (byte_at b p) "\"); apply wp_ret; cbn [fst snd]; splits; auto; lia.
      - apply wp_ret. apply HQ; lia.
    Qed.

    Lemma mc_bare_ok : forall p0 l0 (Q : nat * Z -> Lexer -> Prop), (0 <= l0)%Z -> (l0 <= Z.of_nat (List.length B))%Z ->
      (forall p l, (Z.of_nat p + l = Z.of_nat p0 + l0)%Z -> (0 <= l)%Z -> p0 <= p -> Q (p, l) s) ->
      wp e (mc_bare b p0 l0) Q s.
    Proof using All.
      intros p0 l0 Q H0 H1 HQ. unfold mc_bare. scan. cbv zeta.
      destruct (negb (Z.ltb 0 l && _ && _ && _)) eqn:E; apply wp_ret; [apply HQ; auto|].
      cbn [fst snd]. splits; auto; lia.
    Qed.

    Lemma mc_value_ok : forall p0 l0 (Q : nat * nat * nat * Z -> Lexer -> Prop), (0 < l0)%Z -> (l0 <= Z.of_nat (List.length B))%Z ->
      (forall vb ve p l, p0 <= vb -> vb <= ve -> ve <= p ->
         (Z.of_nat p + l = Z.of_nat p0 + l0)%Z -> (0 <= l)%Z -> Q (vb, ve, p, l) s) ->
      (forall vb ve p, p0 <= vb -> vb <= ve -> ve <= p -> (Z.of_nat ve = Z.of_nat p0 + l0 + 1)%Z -> Q (vb, ve, p, (-2)%Z) s) ->
      wp e (mc_value b p0 l0) Q s.
    Proof using All.
      intros p0 l0 Q H0 H1 HQ1 HQ2. unfold mc_value. destruct (mbeq (byte_at b p0) """").
      - apply wp_bind. apply mc_quoted_ok; auto. intros p l P1 P2 P3. cbv beta zeta.
        destruct (negb (Z.eqb l 0)) eqn:E; apply wp_ret.
        + destruct (Z.eq_dec l (-1)) as [->|].
          * apply HQ2; lia.
          * apply HQ1; lia.
        + apply HQ1; lia.
      - apply wp_bind. apply mc_bare_ok; auto; try lia. intros p l P1 P2 P3. apply wp_ret. apply HQ1; lia.
    Qed.
  End Scan.

  Lemma substr_some : forall b i j, BWF B b -> i <= j -> j <= List.length B ->
    b_substr_at b i j = Some (firstn (j - i) (skipn i B)).
  Proof using.
    clear Hfuel Hdec. intros b i j HW H1 H2. unfold b_substr_at, substr_at. pose proof (w_bytes B b HW) as Eb. unfold bytes in Eb. rewrite Eb.
    replace ((i <=? j) && (j <=? List.length B)) with true by lia. reflexivity.
  Qed.

  (** *** Registering *)
  Section Reg.
    Variables (lo hi : nat).
    Notation FRm := (FRmg lo hi).

    Lemma FRmg_diag : forall s0 s d, FRm s0 s -> diag_ok B d -> FRm s0 (set_diagnostics (diagnostics s ++ [d]) s).
    Proof using.
      intros s0 s d (A1 & A2 & A3 & A4 & (ds & A5 & A6) & A7) Hd. unfold FRmg. splits; auto.
      exists (ds ++ [d]). split; [cbn; rewrite A5, app_assoc; reflexivity|]. apply Forall_app. split; auto.
    Qed.

    Lemma mc_set_encoding_ok : forall s0 s b vb ve (Q : bool -> Lexer -> Prop),
      FRm s0 s -> buffer s = b -> BWF B b -> vb <= ve -> ve <= List.length B ->
      (forall s' b', FRm s0 s' -> buffer s' = b' -> sameb b b' -> Q true s') ->
      (forall s', FRm s0 s' -> Q false s') ->
      wp e (mc_set_encoding vb ve) Q s.
    Proof using All.
      intros s0 s b vb ve Q HF Hb HW H1 H2 HQ HE. unfold mc_set_encoding. apply wp_bind, wp_gets. rewrite Hb.
      apply wp_bind. eapply wp_expect; [apply substr_some; auto|].
      set (enc := firstn (ve - vb) (skipn vb B)). clearbody enc.
      assert (Hd : forall m, diag_ok B (mkDiag Error m (mkLoc vb ve))) by (intros m; split; cbn; lia).
      destruct (utf8_valid enc).
      - apply wp_bind. unfold inb, b_set_encoding. apply wp_zoom. apply wp_zoom. unfold set_encoding.
        apply wp_bind, wp_get. apply wp_bind, wp_ask. cbv zeta. apply wp_bind, wp_modify. rewrite Hb.
        pose proof (w_bytes B b HW) as Eb. unfold bytes in Eb. rewrite Eb.
        destruct (decode_input e B enc) as [out|err] eqn:Ed.
        + apply Hdec in Ed. subst out. apply wp_bind, wp_modify, wp_ret. apply wp_ret.
          eapply HQ; [exact HF|reflexivity|]. cbn [buffer set_buffer]. split; [|eexists; reflexivity].
          destruct HW. constructor; auto.
          * unfold bytes. cbn [input set_input]. unfold update_bytes. destruct (update_loop _ _ _ _); reflexivity.
          * cbn [input set_input]. apply update_bytes_lines.
        + apply wp_ret. apply wp_bind. unfold yyerror1. apply wp_modify, wp_ret. apply HE.
          apply FRmg_diag; auto.
      - apply wp_bind, wp_modify, wp_ret. apply HE. apply FRmg_diag; auto.
    Qed.

    Lemma comment_at_top_ok : forall s (Q : bool -> Lexer -> Prop), 1 <= pcur (buffer s) ->
      (forall r, Q r s) -> wp e comment_at_top Q s.
    Proof using.
      intros s Q H HQ. unfold comment_at_top. apply wp_bind, wp_gets. apply wp_bind, wp_sub_ck; [auto|].
      destruct (negb _); apply wp_ret; auto.
    Qed.

    Lemma mc_register_ok : forall table s0 s b beg n vb ve (Q : bool -> Lexer -> Prop),
      FRm s0 s -> buffer s = b -> BWF B b -> 1 <= pcur b ->
      lo <= beg -> beg + n <= vb -> vb <= ve -> ve <= hi -> hi <= List.length B ->
      (forall x, In x table -> In x MAGIC_COMMENTS) ->
      (forall s' b', FRm s0 s' -> buffer s' = b' -> sameb b b' -> Q true s') ->
      (forall s', FRm s0 s' -> Q false s') ->
      wp e (mc_register table (dash_to_underscore (firstn n (skipn beg B))) beg n vb ve) Q s.
    Proof using All.
      induction table as [|(key & kind) rest IH]; intros s0 s b beg n vb ve Q HF Hb HW Hpc H1 H2 H3 H4 H5 HI HQ HE; cbn [mc_register].
      - apply wp_ret. eapply HQ; [exact HF|exact Hb|apply sameb_refl; auto].
      - assert (HI' : forall x, In x rest -> In x MAGIC_COMMENTS) by (intros; apply HI; right; auto).
        destruct (bytes_eqb _ key) eqn:Ek; [|eapply IH; eauto].
        apply bytes_eqb_eq in Ek.
        assert (HK : forall s b', FRm s0 s -> buffer s = b' -> sameb b b' ->
           wp e (modify (fun s => set_magic_comments
            (magic_comments s ++ [mkMagic kind (mkLoc beg (beg + n)) (mkLoc vb ve)]) s) ;;;
            mc_register rest (dash_to_underscore (firstn n (skipn beg B))) beg n vb ve) Q s).
        { clear HF Hb s. intros s b' HF Hb HS. apply wp_bind, wp_modify.
          set (s1 := set_magic_comments _ s). assert (HF1 : FRm s0 s1).
          { destruct HF as (A1 & A2 & A3 & A4 & A5 & (ms & A6 & A7)). unfold FRmg. splits; auto.
            exists (ms ++ [mkMagic kind (mkLoc beg (beg + n)) (mkLoc vb ve)]). split; [cbn; rewrite A6, app_assoc; reflexivity|].
            apply Forall_app. split; auto. constructor; auto. unfold mg_ok. cbn [mc_key_l mc_value_l mc_kind loc_begin loc_end].
            replace (beg + n - beg) with n by lia. splits; auto; try lia. apply HI. left. congruence. }
          destruct HS as (HW' & i & Ei).
          eapply (IH s0 s1 b'); eauto.
          - rewrite Ei. exact Hpc.
          - intros s2 b2 HF2 Hb2 HS2. eapply HQ; [exact HF2|exact Hb2|]. eapply sameb_trans; [|exact HS2]. split; [auto|eauto]. }
        apply wp_bind.
        assert (HT : forall top : bool, wp e (ok <- (if top then mc_set_encoding vb ve else ret true) ;;
          if negb ok then ret false else
            modify (fun s => set_magic_comments
            (magic_comments s ++ [mkMagic kind (mkLoc beg (beg + n)) (mkLoc vb ve)]) s) ;;;
            mc_register rest (dash_to_underscore (firstn n (skipn beg B))) beg n vb ve) Q s).
        { intros [|]; apply wp_bind.
          - eapply mc_set_encoding_ok; [exact HF|exact Hb|exact HW|lia|lia| |].
            + intros s1 b1 HF1 Hb1 HS1. cbn [negb]. eapply HK; eauto.
            + intros s1 HF1. cbn [negb]. apply wp_ret. auto.
          - apply wp_ret. cbn [negb]. eapply HK; [exact HF|exact Hb|apply sameb_refl; auto]. }
        destruct kind; try (apply wp_ret; exact (HT false)). apply comment_at_top_ok; [rewrite Hb; auto|]. intros r. apply (HT r).
    Qed.

    Lemma magic_comment_body_ok : forall (ind : bool) s0 b p0 l0 s (Q : (nat * Z) + MagicRes -> Lexer -> Prop),
      FRm s0 s -> sameb b (buffer s) -> 1 <= pcur b ->
      lo <= p0 -> hi <= List.length B -> (l0 <= Z.of_nat (List.length B))%Z ->
      (Z.of_nat p0 + l0 + (if ind then 1 else 0) <= Z.of_nat hi)%Z \/ (l0 <= 0)%Z ->
      (forall p l s', FRm s0 s' -> sameb b (buffer s') -> lo <= p ->
         (Z.of_nat p + l = Z.of_nat p0 + l0)%Z \/ (l <= 0)%Z -> Z.to_nat l < Z.to_nat l0 -> Q (inl (p, l)) s') ->
      (forall r s', FRm s0 s' -> sameb b (buffer s') -> Q (inr (MagicOk r)) s') ->
      (forall s', FRm s0 s' -> Q (inr MagicErr) s') ->
      wp e (magic_comment_body ind (p0, l0)) Q s.
    Proof using All.
      intros ind s0 b p0 l0 s Q HF HS Hpc Hlo Hhi Hl HE HQl HQr HQe. unfold magic_comment_body. cbv beta iota zeta.
      destruct (Z.leb l0 0) eqn:E0; [apply wp_ret; auto|].
      destruct HE as [HE|HE]; [|lia].
      apply wp_bind, wp_gets. pose proof (proj1 HS) as HW. set (b1 := buffer s) in *.
      apply wp_bind. apply mc_skip_junk_ok; [lia|lia|]. intros p1 l1 A1 A2 A3 A4. cbv beta zeta.
      apply wp_bind. apply mc_scan_name_ok; [lia|lia|]. intros p2 l2 B1 B2 B3 B4. cbv beta zeta.
      assert (HC : (l2 < l0)%Z).
      { destruct (Nat.eq_dec p1 p0) as [->|]; [|lia]. assert (l1 = l0) as -> by lia.
        destruct B4 as [B4|[B4|B4]]; [lia|lia|]. destruct A4 as [A4|[A4|A4]]; [lia| |congruence].
        rewrite A4 in B4. discriminate B4. }
      apply wp_bind. apply mc_skip_space_ok; [lia|lia|]. intros p3 l3 C1 C2 C3. cbv beta zeta.
      destruct (Z.eqb l3 0) eqn:E3; [apply wp_ret; auto|].
      destruct (negb (mbeq _ ":")).
      { destruct (negb ind); apply wp_ret; [apply HQr; auto|]. apply HQl; auto; try lia. }
      apply wp_bind. apply mc_after_colon_ok; [lia|lia|]. intros p4 l4 D1 D2 D3. cbv beta zeta.
      destruct (Z.eqb l4 0) eqn:E4; [apply wp_ret; auto|].
      assert (HFIN : forall vb ve p5 l5, p4 <= vb -> vb <= ve ->
         (Z.of_nat p5 + l5 = Z.of_nat p0 + l0)%Z /\ (0 <= l5)%Z /\ ve <= p5 \/
         (l5 = -2)%Z /\ (Z.of_nat ve = Z.of_nat p0 + l0 + 1)%Z /\ ve <= p5 ->
         wp e (if negb ind && negb (Z.eqb l5 0) then ret (inr (MagicOk false))
           else
            n <- sub_ck p2 p1 ;;
            name <- expect (b_substr_at b1 p1 (p1 + n)) "failed to get magic comment name" ;;
            if negb (utf8_valid name) then ret (inr MagicErr)
            else
              ok <- mc_register MAGIC_COMMENTS (dash_to_underscore name) p1 n vb ve ;;
              if ok : bool then ret (inl (p5, l5)) else ret (inr MagicErr)) Q s).
      { intros vb ve p5 l5 V1 V2 V3.
        destruct (negb ind && negb (Z.eqb l5 0)) eqn:Ei; [apply wp_ret; auto|].
        apply wp_bind, wp_sub_ck; [auto|]. apply wp_bind. eapply wp_expect; [apply substr_some; auto; lia|].
        replace (p1 + (p2 - p1) - p1) with (p2 - p1) by lia.
        destruct (negb (utf8_valid _)); [apply wp_ret; auto|]. apply wp_bind.
        eapply mc_register_ok; [exact HF|reflexivity|exact HW| |lia|lia|exact V2| |exact Hhi|auto| |].
        - change (1 <= pcur b1). destruct HS as (_ & i & Es). rewrite Es. exact Hpc.
        - destruct ind; [destruct V3 as [V3|V3]; lia|]. destruct V3 as [V3|(V3 & _)]; [lia|].
          rewrite V3 in Ei. discriminate Ei.
        - intros s2 b2 HF2 Hb2 HS2. apply wp_ret. apply HQl; auto.
          + rewrite Hb2. eapply sameb_trans; eauto.
          + destruct V3; lia.
          + destruct V3; lia.
          + destruct V3; lia.
        - intros s2 HF2. apply wp_ret. auto. }
      apply wp_bind. apply mc_value_ok; [lia|lia| |].
      - intros vb ve p5 l5 V1 V2 V3 V4 V5. cbv beta zeta. apply wp_bind.
        destruct ind; [apply mc_skip_semi_ok|apply mc_skip_space_ok]; try lia;
          intros p6 l6 W1 W2 W3; cbv beta zeta; apply HFIN; auto; left; lia.
      - intros vb ve p5 V1 V2 V2' V3. cbv beta zeta. apply wp_bind.
        destruct ind; [apply mc_skip_semi_ok|apply mc_skip_space_ok]; try lia; cbv beta zeta.
        + intros _. apply HFIN; auto. right. lia.
        + intros _. apply HFIN; auto. right. lia.
    Qed.
  End Reg.

  Lemma magic_loop_ok : forall lo hi (ind : bool) s0 b p0 l0 s (Q : MagicRes -> Lexer -> Prop),
    FRmg lo hi s0 s -> sameb b (buffer s) -> 1 <= pcur b ->
    lo <= p0 -> hi <= List.length B -> (l0 <= Z.of_nat (List.length B))%Z ->
    (Z.of_nat p0 + l0 + (if ind then 1 else 0) <= Z.of_nat hi)%Z ->
    (forall r s', FRmg lo hi s0 s' -> sameb b (buffer s') -> Q (MagicOk r) s') ->
    (forall s', FRmg lo hi s0 s' -> Q MagicErr s') ->
    wp e (loop (magic_comment_body ind) (p0, l0)) Q s.
  Proof using All.
    intros lo hi ind s0 b p0 l0 s Q HF HS Hpc Hlo Hhi Hl HE HQr HQe.
    apply wp_loop with (I := fun x s => FRmg lo hi s0 s /\ sameb b (buffer s) /\ lo <= fst x /\
       (snd x <= Z.of_nat (List.length B))%Z /\
       ((Z.of_nat (fst x) + snd x = Z.of_nat p0 + l0)%Z \/ (snd x <= 0)%Z))
      (meas := fun x _ => Z.to_nat (snd x)).
    - cbn [fst snd]. splits; auto.
    - cbn [snd]. lia.
    - clear HF HS s. intros (p & l) s (HF & HS & P1 & P2 & P3). cbn [fst snd] in *.
      eapply (magic_comment_body_ok lo hi ind s0 b p l); eauto.
      + destruct P3 as [P3|P3]; [left; lia|right; lia].
      + intros p' l' s' HF' HS' R1 R2 R3. cbn [fst snd]. splits; auto; try lia.
  Qed.

  Lemma magic_comment_ok : forall s b p0 n (Q : MagicRes -> Lexer -> Prop),
    buffer s = b -> BWF B b -> 1 <= pcur b -> p0 + n <= List.length B ->
    (forall r s', FRmg p0 (p0 + n) s s' -> sameb b (buffer s') -> Q (MagicOk r) s') ->
    (forall s', FRmg p0 (p0 + n) s s' -> Q MagicErr s') ->
    wp e (magic_comment p0 n) Q s.
  Proof using All.
    intros s b p0 n Q Hb HW Hpc Hn HQr HQe. unfold magic_comment.
    assert (HS : sameb b (buffer s)) by (rewrite Hb; apply sameb_refl; auto).
    assert (HF : FRmg p0 (p0 + n) s s) by apply FRmg_refl.
    destruct (n <=? 7); [apply wp_ret; auto|]. apply wp_bind.
    assert (H0 : wp e (loop (magic_comment_body false) (p0, Z.of_nat n)) Q s).
    { eapply (magic_loop_ok p0 (p0 + n) false s b); eauto; lia. }
    apply magic_comment_marker_ok; [lia|exact H0|]. intros p P1 P2.
    destruct (p =? 0) eqn:Ep; [exact H0|]. apply wp_bind, wp_sub_ck; [auto|]. apply wp_bind.
    apply magic_comment_marker_ok; [lia|apply wp_ret; auto|]. intros q Q1 Q2.
    destruct (q =? 0); [apply wp_ret; auto|]. apply wp_bind, wp_sub_ck; [lia|]. apply wp_bind, wp_sub_ck; [lia|].
    eapply (magic_loop_ok p0 (p0 + n) true s b); eauto; lia.
  Qed.
End Magic.
