(** * Reading magic comments *)
Require Import Verif.Base Verif.MaybeByteM Verif.Utf8M Verif.InputM Verif.DiagnosticM Verif.TokensM Verif.BufferM Verif.LexStateM Verif.ScopesM
  Verif.LexerM Verif.LexIdentM Verif.LexMagicM Verif.LexMainM Verif.ParserClientM
  Verif.SourceSpec Verif.SourceProofs Verif.Wp Verif.BufInv Verif.LexSpec Verif.LexInv Verif.MagicInv Verif.NewlineInv Verif.MainInv Verif.RunInv Verif.FuelMono Verif.Prop_Lexer
  Verif.ReadSpec Verif.YylexSpec Verif.Reach Verif.IdentSpec Verif.Prop_Encoding Verif.MagicSpec.
Require Import ZifyBool ZifyNat ZifyN.

(** ** Running over bytes *)
Lemma wp_ok : forall S A e (m : M S A) s (P : A -> Prop), wp e m (fun a s' => s' = s /\ P a) s -> exists a, m e s = Ok a s /\ P a.
Proof. intros S A e m s P H. unfold wp in H. destruct (m e s) as [a s'| |]; try contradiction. destruct H as (-> & H). eauto. Qed.
Lemma text_byte : forall B p w i, text_at B p w -> i < List.length w -> nth_error B (p + i) = nth_error w i.
Proof.
  intros B p w. revert p. induction w as [|y w IH]; intros p i H Hi; [cbn in Hi; lia|].
  apply text_at_cons in H. destruct H as (H & H'). destruct i; [rewrite Nat.add_0_r; exact H|].
  cbn [nth_error List.length] in *. rewrite <- (IH (p + 1)); auto; [f_equal; lia|lia].
Qed.

Lemma scan : forall (B : list N) (t : MaybeByte -> bool) (body : nat * Z -> M Lexer (nat * Z + nat * Z)) e s,
  (forall p l, body (p, l) e s = Ok (if Z.ltb 0 l && t (nth_error B p) then inl (p + 1, (l - 1)%Z) else inr (p, l)) s) ->
  forall u p l n, text_at B p u -> Forall (fun c => t (Some c) = true) u -> (Z.of_nat (List.length u) <= l)%Z ->
    l = Z.of_nat (List.length u) \/ t (nth_error B (p + List.length u)) = false -> List.length u < n ->
    loop_n n body (p, l) e s = Ok (p + List.length u, (l - Z.of_nat (List.length u))%Z) s.
Proof.
  intros B t body e s HB. induction u as [|x u IH]; intros p l n HT HF HL HE Hn; (destruct n as [|n]; [lia|]); cbn [loop_n]; unfold bind at 1; rewrite HB.
  - cbn [List.length] in *. rewrite Nat.add_0_r in *. replace (Z.ltb 0 l && t (nth_error B p)) with false.
    + replace (l - Z.of_nat 0)%Z with l by lia. reflexivity.
    + destruct HE as [->| ->]; [reflexivity|rewrite andb_false_r; reflexivity].
  - apply text_at_cons in HT. destruct HT as (Hx & HT). inversion HF as [|y l' H1 H2]; subst. rewrite Hx, H1. cbn [List.length] in *.
    replace (Z.ltb 0 l) with true by lia. cbn [andb]. rewrite IH; auto; try lia.
    + f_equal. f_equal; lia.
    + destruct HE as [->|HE]; [left; lia|right]. rewrite <- HE. f_equal. f_equal. lia.
Qed.

Lemma sp_char_iff : forall c, sp_char c <-> is_space (Some c) = true.
Proof. intros c. unfold sp_char, is_space, mb_test, b_is_space, in_range. lia. Qed.
Lemma sp_false : forall c, ~ sp_char c -> is_space (Some c) = false.
Proof. intros c H. destruct (is_space (Some c)) eqn:E; auto. exfalso. apply H, sp_char_iff, E. Qed.
Lemma mark_iff : forall c, mark c <-> mc_special (Some c) = true.
Proof. intros c. unfold mark, mc_special, mbeq. lia. Qed.
Lemma junk_iff : forall c, junk c <-> mc_special (Some c) || is_space (Some c) = true.
Proof. intros c. unfold junk. rewrite sp_char_iff, mark_iff, orb_true_iff. tauto. Qed.
Lemma plain_iff : forall c, plain_char c <-> mc_special (Some c) || is_space (Some c) = false.
Proof. intros c. unfold plain_char. rewrite sp_char_iff, mark_iff, orb_false_iff. split; intros (A & C); split; try (destruct (mc_special _)); try (destruct (is_space _)); congruence. Qed.
Lemma sep_iff : forall c, sep c <-> mbeq (Some c) ";" || is_space (Some c) = true.
Proof. intros c. unfold sep. rewrite sp_char_iff, orb_true_iff. unfold mbeq. lia. Qed.

(** What stands at [p] *)
Definition stop_at (B : list N) (p : nat) (l : Z) (P : N -> Prop) : Prop := l = 0%Z \/ exists c, nth_error B p = Some c /\ P c.

Section Scans.
  Variables (B : list N) (e : Env) (s : Lexer) (b : Buffer).
  Hypothesis HW : BWF B b.
  Hypothesis Hf : 4 * List.length B + 20 < fuel e.

  Lemma short : forall p u, text_at B p u -> List.length u < fuel e.
  Proof using Hf. intros p u H. destruct u as [|x u]; [cbn; lia|]. pose proof (text_at_len _ _ _ H ltac:(discriminate)). lia. Qed.

  Lemma run_junk : forall u p l, text_at B p u -> Forall junk u -> (Z.of_nat (List.length u) <= l)%Z ->
    stop_at B (p + List.length u) (l - Z.of_nat (List.length u)) plain_char ->
    mc_skip_junk b p l e s = Ok (p + List.length u, (l - Z.of_nat (List.length u))%Z) s.
  Proof using HW Hf.
    intros u p l HT HF HL HE. unfold mc_skip_junk, loop. apply (scan B (fun c => mc_special c || is_space c)); auto.
    - intros p0 l0. rewrite (byte_at_B B b p0 HW). destruct (Z.ltb 0 l0); [|reflexivity]. cbn [andb]. destruct (nth_error B p0) as [c|]; [|reflexivity]. cbn [is_eof negb]. destruct (_ || _); reflexivity.
    - eapply Forall_impl; [|exact HF]. intros c Hc. apply junk_iff, Hc.
    - destruct HE as [HE|(c & E & Hc)]; [left; lia|right]. rewrite E. apply plain_iff, Hc.
    - eapply short; eauto.
  Qed.

  Lemma run_name : forall u p l, text_at B p u -> Forall plain_char u -> (Z.of_nat (List.length u) <= l)%Z ->
    stop_at B (p + List.length u) (l - Z.of_nat (List.length u)) junk ->
    mc_scan_name b p l e s = Ok (p + List.length u, (l - Z.of_nat (List.length u))%Z) s.
  Proof using HW Hf.
    intros u p l HT HF HL HE. unfold mc_scan_name, loop. apply (scan B (fun c => negb (mc_special c || is_space c))); auto.
    - intros p0 l0. rewrite (byte_at_B B b p0 HW). replace (Z.leb l0 0) with (negb (Z.ltb 0 l0)) by lia. destruct (Z.ltb 0 l0); [|reflexivity]. cbn [andb negb]. destruct (_ || _); reflexivity.
    - eapply Forall_impl; [|exact HF]. intros c Hc. apply plain_iff in Hc. cbv beta. rewrite Hc. reflexivity.
    - destruct HE as [HE|(c & E & Hc)]; [left; lia|right]. rewrite E. apply junk_iff in Hc. rewrite Hc. reflexivity.
    - eapply short; eauto.
  Qed.

  Lemma run_space : forall u p l, text_at B p u -> Forall sp_char u -> (Z.of_nat (List.length u) <= l)%Z ->
    stop_at B (p + List.length u) (l - Z.of_nat (List.length u)) (fun c => ~ sp_char c) ->
    mc_skip_space b p l e s = Ok (p + List.length u, (l - Z.of_nat (List.length u))%Z) s.
  Proof using HW Hf.
    intros u p l HT HF HL HE. unfold mc_skip_space, loop. apply (scan B is_space); auto.
    - intros p0 l0. rewrite (byte_at_B B b p0 HW). destruct (_ && _); reflexivity.
    - eapply Forall_impl; [|exact HF]. intros c Hc. apply sp_char_iff, Hc.
    - destruct HE as [HE|(c & E & Hc)]; [left; lia|right]. rewrite E. apply sp_false, Hc.
    - eapply short; eauto.
  Qed.

  Lemma run_semi : forall u p l, text_at B p u -> Forall sep u -> (Z.of_nat (List.length u) <= l)%Z ->
    stop_at B (p + List.length u) (l - Z.of_nat (List.length u)) (fun c => ~ sep c) ->
    mc_skip_semi b p l e s = Ok (p + List.length u, (l - Z.of_nat (List.length u))%Z) s.
  Proof using HW Hf.
    intros u p l HT HF HL HE. unfold mc_skip_semi, loop. apply (scan B (fun c => mbeq c ";" || is_space c)); auto.
    - intros p0 l0. rewrite (byte_at_B B b p0 HW). destruct (_ && _); reflexivity.
    - eapply Forall_impl; [|exact HF]. intros c Hc. apply sep_iff, Hc.
    - destruct HE as [HE|(c & E & Hc)]; [left; lia|right]. rewrite E. destruct (mbeq _ _ || _) eqn:X; auto. apply sep_iff in X. contradiction.
    - eapply short; eauto.
  Qed.

  Lemma run_bare : forall u p l, text_at B p u -> Forall (fun c => ~ sp_char c /\ c <> 34 /\ c <> 59)%N u -> (Z.of_nat (List.length u) <= l)%Z ->
    stop_at B (p + List.length u) (l - Z.of_nat (List.length u)) (fun c => sep c \/ c = 34%N) ->
    mc_bare b p l e s = Ok (p + List.length u, (l - Z.of_nat (List.length u))%Z) s.
  Proof using HW Hf.
    intros u p l HT HF HL HE. unfold mc_bare, loop. apply (scan B (fun c => negb (mbeq c """") && negb (mbeq c ";") && negb (is_space c))); auto.
    - intros p0 l0. rewrite (byte_at_B B b p0 HW). rewrite <- !andb_assoc. destruct (Z.ltb 0 l0); [|reflexivity]. cbn [andb]. destruct (_ && _); reflexivity.
    - eapply Forall_impl; [|exact HF]. intros c (H1 & H2 & H3). cbv beta. rewrite (sp_false c H1). unfold mbeq. lia.
    - destruct HE as [HE|(c & E & Hc)]; [left; lia|right]. rewrite E. unfold sep in Hc. destruct Hc as [[Hc|Hc]|Hc]; [apply sp_char_iff in Hc; rewrite Hc; cbn [negb]; apply andb_false_r| |]; subst; reflexivity.
    - eapply short; eauto.
  Qed.

  (** Behind the colon *)
  Lemma run_colon : forall u p l n, text_at B (p + 1) u -> Forall sp_char u -> (Z.of_nat (List.length u) + 1 <= l)%Z ->
    stop_at B (p + 1 + List.length u) (l - 1 - Z.of_nat (List.length u)) (fun c => ~ sp_char c) -> List.length u < n ->
    loop_n n (fun '(str_, len) =>
      let str_ := str_ + 1 in
      let len := (len - 1)%Z in
      if Z.ltb 0 len && is_space (byte_at b str_) then ret (inl (str_, len))
      else ret (inr (str_, len))) (p, l) e s = Ok (p + 1 + List.length u, (l - 1 - Z.of_nat (List.length u))%Z) s.
  Proof using HW Hf.
    induction u as [|x u IH]; intros p l n HT HF HL HE Hn; (destruct n as [|n]; [lia|]); cbn [loop_n List.length] in *; unfold bind at 1; cbv zeta; rewrite (byte_at_B B b _ HW).
    - rewrite Nat.add_0_r in *. replace (l - 1 - Z.of_nat 0)%Z with (l - 1)%Z in * by lia.
      replace (Z.ltb 0 (l - 1) && is_space (nth_error B (p + 1))) with false; [reflexivity|].
      destruct HE as [->|(c & E & Hc)]; [reflexivity|]. rewrite E, (sp_false c Hc), andb_false_r. reflexivity.
    - apply text_at_cons in HT. destruct HT as (Hx & HT). inversion HF as [|y l' H1 H2]; subst. rewrite Hx. apply sp_char_iff in H1. rewrite H1.
      replace (Z.ltb 0 (l - 1)) with true by lia. cbn [andb ret]. rewrite IH; auto; try lia.
      + f_equal. f_equal; lia.
      + replace (p + 1 + 1 + List.length u) with (p + 1 + S (List.length u)) by lia. replace (l - 1 - 1 - Z.of_nat (List.length u))%Z with (l - 1 - Z.of_nat (S (List.length u)))%Z by lia. exact HE.
  Qed.

  (** A text in double quotes, behind the first *)
  Lemma run_quoted : forall u p l n, text_at B p (u ++ [34%N]) -> quoted u -> (Z.of_nat (List.length u) + 1 < l)%Z -> List.length u < n ->
    loop_n n (fun '(str_, len) =>
      let c := byte_at b str_ in
      let len := (len - 1)%Z in
      if negb (Z.ltb 0 len && negb (mbeq c """")) then ret (inr (str_, len))
      else if mbeq c "\" then ret (inl (str_ + 2, (len - 1)%Z))
      else ret (inl (str_ + 1, len))) (p, l) e s = Ok (p + List.length u, (l - 1 - Z.of_nat (List.length u))%Z) s.
  Proof using HW Hf.
    intros u p l n HT HQ. revert p l n HT. induction HQ as [|x u H34 H92 HQ IH|x u HQ IH]; intros p l n HT HL Hn; (destruct n as [|n]; [lia|]); cbn [loop_n List.length app] in *; unfold bind at 1; cbv zeta; rewrite (byte_at_B B b _ HW);
      apply text_at_cons in HT; destruct HT as (Hx & HT); rewrite Hx.
    - change (mbeq (Some 34%N) """") with true. cbn [negb]. rewrite andb_false_r. cbn [negb]. unfold ret. cbv iota beta. rewrite Nat.add_0_r. replace (l - 1 - Z.of_nat 0)%Z with (l - 1)%Z by lia. reflexivity.
    - replace (mbeq (Some x) """") with false by (unfold mbeq; lia). replace (mbeq (Some x) "\") with false by (unfold mbeq; lia).
      replace (Z.ltb 0 (l - 1)) with true by lia. cbn [andb negb ret]. rewrite IH; auto; try lia. f_equal. f_equal; lia.
    - change (mbeq (Some 92%N) """") with false. change (mbeq (Some 92%N) "\") with true. replace (Z.ltb 0 (l - 1)) with true by lia. cbn [andb negb ret].
      apply text_at_cons in HT. destruct HT as (_ & HT). replace (p + 1 + 1) with (p + 2) in HT by lia. rewrite IH; auto; try lia. f_equal. f_equal; lia.
  Qed.

  Lemma run_value : forall text off val p l, text_at B p text -> value text off val -> (text = [] -> nth_error B p = Some 59%N) -> (Z.of_nat (List.length text) <= l)%Z ->
    (off = 0 -> stop_at B (p + List.length text) (l - Z.of_nat (List.length text)) (fun c => sep c \/ c = 34%N)) ->
    mc_value b p l e s = Ok (p + off, p + off + List.length val, p + List.length text, (l - Z.of_nat (List.length text))%Z) s.
  Proof using HW Hf.
    intros text off val p l HT HV H0 HL HE. unfold mc_value. rewrite (byte_at_B B b _ HW). destruct HV as [v (Hne & HF)|v HQ|].
    - assert (Hq : mbeq (nth_error B p) """" = false).
      { destruct v as [|x v]; [congruence|]. apply text_at_cons in HT. destruct HT as (-> & _). inversion HF as [|? ? (A1 & A2 & A3)]; subst. unfold mbeq. lia. }
      rewrite Hq. unfold bind. rewrite (run_bare v) by auto. rewrite Nat.add_0_r. reflexivity.
    - assert (HT' := HT). apply text_at_cons in HT. destruct HT as (-> & HT). change (mbeq (Some 34%N) """") with true. cbv iota zeta.
      pose proof (short _ _ HT') as Hs. cbn [List.length] in *. rewrite app_length in *. cbn [List.length] in *.
      unfold bind, mc_quoted, loop. rewrite (run_quoted v) by (auto; lia). cbv beta zeta.
      destruct (Z.eqb (l - 1 - Z.of_nat (List.length v)) 0) eqn:E; cbn [negb]; [lia|]. unfold ret.
      replace (p + 1 + List.length v + 1) with (p + S (List.length v + 1)) by lia. replace (l - 1 - Z.of_nat (List.length v) - 1)%Z with (l - Z.of_nat (S (List.length v + 1)))%Z by lia. reflexivity.
    - rewrite (H0 eq_refl). change (mbeq (Some 59%N) """") with false. cbv iota. unfold bind. rewrite (run_bare []) by auto. rewrite !Nat.add_0_r. reflexivity.
  Qed.
End Scans.

(** ** Registering *)
Lemma ascii_fine : forall l, Forall (fun c => c < 128)%N l -> utf8_valid l = true.
Proof. intros l H. induction H as [|c l Hc H IH]; [reflexivity|]. cbn [utf8_valid]. replace (N.ltb c 128) with true by lia. exact IH. Qed.
Lemma spelled_dash : forall key name, Forall2 spells key name -> ~ In 45%N name -> dash_to_underscore key = name.
Proof.
  intros key name H. induction H as [|c d key name Hc H IH]; intros Hn; [reflexivity|]. cbn [dash_to_underscore map]. fold (dash_to_underscore key).
  rewrite IH by (intros A; apply Hn; right; exact A). f_equal. unfold spells in Hc. destruct (N.eqb c 45) eqn:E; [|lia].
  destruct Hc as [->|Hc]; [|lia]. exfalso. apply Hn. left. lia.
Qed.
Lemma dash_spelled : forall key, Forall2 spells key (dash_to_underscore key).
Proof. induction key as [|c key IH]; cbn; constructor; auto. unfold spells. destruct (N.eqb c 45) eqn:E; lia. Qed.

Lemma spelled_ascii : forall key name, Forall2 spells key name -> Forall (fun c => c < 128)%N name -> Forall (fun c => c < 128)%N key.
Proof. intros key name H. induction H as [|c d key name Hc H IH]; intros HF; inversion HF; subst; constructor; auto. unfold spells in Hc. lia. Qed.

Lemma names_fine : forall name kind, In (name, kind) meanings -> ~ In 45%N name /\ Forall (fun c => c < 128)%N name /\ 6 <= List.length name.
Proof.
  intros name kind H. unfold meanings in H. cbn [In] in H.
  repeat (destruct H as [H|H]; [injection H as <- <-; split; [cbn; intuition discriminate|split; [repeat constructor|vm_compute; repeat constructor]]|]). contradiction.
Qed.

Lemma top_pure : forall e s, 1 <= pcur (buffer s) -> exists r, comment_at_top e s = Ok r s.
Proof.
  intros e s H. destruct (wp_ok _ _ e comment_at_top s (fun _ => True)) as (r & E & _); eauto. apply comment_at_top_ok; auto.
Qed.

Lemma set_encoding_same : forall B e s vb val, BWF B (buffer s) -> known_encoding val -> text_at B vb val ->
  mc_set_encoding vb (vb + List.length val) e s = Ok true s.
Proof.
  intros B e s vb val HW HK HT. assert (Hne : val <> []) by (intros ->; destruct HK as [H|[H|H]]; inversion H). unfold mc_set_encoding. unfold bind at 1, getb, gets at 1. unfold bind at 1.
  pose proof (text_at_len _ _ _ HT Hne) as HL. rewrite (substr_some B) by (auto; lia). replace (vb + List.length val - vb) with (List.length val) by lia.
  unfold text_at in HT. rewrite HT. cbn [expect ret].
  assert (HV : utf8_valid val = true).
  { apply ascii_fine. assert (K : forall name, in_any_case val name -> Forall (fun c => c < 128)%N name -> Forall (fun c => c < 128)%N val).
    { clear. intros name H. induction H as [|a c v n Hac H IH]; intros HF; [constructor|]. inversion HF as [|? ? F1 F2]; subst. constructor; [unfold same_letter in Hac; lia|auto]. }
    clear -HK K. destruct HK as [H|[H|H]]; (eapply K; [exact H|]); cbn; repeat (constructor; [lia|]); constructor. }
  rewrite HV. unfold bind at 1. unfold inb, zoom at 1. unfold b_set_encoding, zoom.
  pose proof (w_bytes B _ HW) as Eb. pose proof (w_lines B _ HW) as El. unfold bytes in Eb.
  assert (EI : input (buffer s) = update_bytes B (input (buffer s))).
  { pose proof (update_bytes_lines B (input (buffer s))) as K. destruct (input (buffer s)) as [nm ls bt] eqn:Ei. cbn in Eb, El. subst.
    unfold update_bytes in *. destruct (update_loop _ _ _ _). cbn in *. rewrite K. reflexivity. }
  rewrite EI, C39_known_encodings by exact HK. cbn [ret]. f_equal. rewrite <- EI. destruct s as [bf]. destruct bf. reflexivity.
Qed.

Lemma bytes_neq : forall a b, a <> b -> bytes_eqb a b = false.
Proof. intros a b H. destruct (bytes_eqb a b) eqn:E; auto. apply ScopeProofs.bytes_eqb_eq in E. contradiction. Qed.
Lemma bytes_refl : forall a, bytes_eqb a a = true.
Proof. intros a. apply ScopeProofs.bytes_eqb_eq. reflexivity. Qed.

Lemma set_magic_nil : forall s, set_magic_comments (magic_comments s ++ []) s = s.
Proof. intros s. rewrite app_nil_r. destruct s; reflexivity. Qed.

Lemma register_none : forall table e s name beg n vb ve, (forall key kind, In (key, kind) table -> name <> key) -> mc_register table name beg n vb ve e s = Ok true s.
Proof.
  induction table as [|(key & kind) rest IH]; intros e s name beg n vb ve H; [reflexivity|]. cbn [mc_register]. rewrite bytes_neq by (eapply H; left; reflexivity). apply IH. intros k k' A. eapply H. right. exact A.
Qed.

Lemma register_one : forall table B e s name kind beg n vb val, In (name, kind) table -> NoDup (map fst table) ->
  BWF B (buffer s) -> 1 <= pcur (buffer s) -> text_at B vb val -> (kind = MC_Encoding -> known_encoding val) ->
  mc_register table name beg n vb (vb + List.length val) e s =
  Ok true (set_magic_comments (magic_comments s ++ [mkMagic kind (mkLoc beg (beg + n)) (mkLoc vb (vb + List.length val))]) s).
Proof.
  induction table as [|(key & kd) rest IH]; intros B e s name kind beg n vb val HI HN HW Hp HT HK; [contradiction|]. cbn [mc_register].
  inversion HN as [|x l N1 N2]; subst. destruct HI as [E|HI].
  - injection E as -> ->. rewrite bytes_refl.
    assert (HR : forall s0, mc_register rest name beg n vb (vb + List.length val) e s0 = Ok true s0).
    { intros s0. apply register_none. intros k k' A ->. apply N1. apply (in_map fst) in A. exact A. }
    assert (HT2 : forall top : bool, (top = true -> kind = MC_Encoding) -> bind (if top then mc_set_encoding vb (vb + List.length val) else ret true) (fun ok => if negb ok then ret false else
        modify (fun s => set_magic_comments (magic_comments s ++ [mkMagic kind (mkLoc beg (beg + n)) (mkLoc vb (vb + List.length val))]) s) ;;; mc_register rest name beg n vb (vb + List.length val)) e s =
        Ok true (set_magic_comments (magic_comments s ++ [mkMagic kind (mkLoc beg (beg + n)) (mkLoc vb (vb + List.length val))]) s)).
    { intros [|] Ht; unfold bind at 1; [rewrite (set_encoding_same B) by auto|cbn [ret]]; cbn [negb]; unfold bind, modify; apply HR. }
    unfold bind at 1. destruct kind; try (cbn [ret]; apply (HT2 false); discriminate). destruct (top_pure e s Hp) as (r & ->). apply (HT2 r); auto.
  - rewrite bytes_neq; [apply (IH B); auto|]. cbn [fst] in N1. intros ->. apply N1. apply (in_map fst) in HI. exact HI.
Qed.

Lemma table_same : MAGIC_COMMENTS = meanings. Proof. reflexivity. Qed.
Lemma table_nodup : NoDup (map fst meanings).
Proof. cbn [map meanings fst]. repeat (constructor; [cbn; intuition discriminate|]). constructor. Qed.

(** A key with its value *)
Lemma register_run : forall B e s key kp val vp ms, recorded key kp val vp ms -> BWF B (buffer s) -> 1 <= pcur (buffer s) -> text_at B vp val ->
  utf8_valid key = true /\
  mc_register MAGIC_COMMENTS (dash_to_underscore key) kp (List.length key) vp (vp + List.length val) e s = Ok true (set_magic_comments (magic_comments s ++ ms) s).
Proof.
  intros B e s key kp val vp ms HR HW Hp HT. rewrite table_same. destruct HR as [kind (name & HI & HS) HK|HU HA].
  - destruct (names_fine _ _ HI) as (F1 & F2 & F3). split; [apply ascii_fine; eapply spelled_ascii; eauto|]. rewrite (spelled_dash _ _ HS F1). apply (register_one meanings B); auto. apply table_nodup.
  - split; [apply ascii_fine; exact HA|]. rewrite set_magic_nil. apply register_none. intros k k' A E. apply (HU k'). exists k. split; auto. rewrite <- E. apply dash_spelled.
Qed.

(** ** One round *)
Definition add_magic (ms : list MagicComment) (s : Lexer) : Lexer := set_magic_comments (magic_comments s ++ ms) s.
Lemma add_magic_app : forall a c s, add_magic c (add_magic a s) = add_magic (a ++ c) s.
Proof. intros a c s. unfold add_magic. cbn [magic_comments set_magic_comments]. rewrite app_assoc. destruct s; reflexivity. Qed.

(** What follows the key *)
Definition mc_rest (indicator : bool) (b : Buffer) (beg stop str_ : nat) (len : Z) : M Lexer ((nat * Z) + MagicRes) :=
    if Z.eqb len 0 then ret (inr (MagicOk true))
    else if negb (mbeq (byte_at b str_) ":") then
      if negb indicator then ret (inr (MagicOk false)) else ret (inl (str_, len))
    else
      '(str_, len) <- mc_after_colon b str_ len ;;
      if Z.eqb len 0 then ret (inr (MagicOk true))
      else
        '(vbeg, vend, str_, len) <- mc_value b str_ len ;;
        '(str_, len) <- (if indicator then mc_skip_semi b str_ len else mc_skip_space b str_ len) ;;
        if negb indicator && negb (Z.eqb len 0) then ret (inr (MagicOk false))
        else
          n <- sub_ck stop beg ;;
          name <- expect (b_substr_at b beg (beg + n)) "failed to get magic comment name" ;;
          if negb (utf8_valid name) then ret (inr MagicErr)
          else
            ok <- mc_register MAGIC_COMMENTS (dash_to_underscore name) beg n vbeg vend ;;
            if ok : bool then ret (inl (str_, len)) else ret (inr MagicErr).

Section Rounds.
  Variables (B : list N) (e : Env) (s : Lexer).
  Hypothesis HW : BWF B (buffer s).
  Hypothesis Hf : 4 * List.length B + 20 < fuel e.

  Lemma body_open : forall ind j key s2 p l, text_at B p (j ++ key ++ s2) -> Forall junk j -> Forall plain_char key -> Forall sp_char s2 ->
    let n := List.length j + List.length key + List.length s2 in
    (0 < l)%Z -> (Z.of_nat n <= l)%Z -> key <> [] \/ l = Z.of_nat (List.length j) ->
    stop_at B (p + n) (l - Z.of_nat n) (fun c => ~ sp_char c) -> (s2 = [] -> stop_at B (p + n) (l - Z.of_nat n) mark) ->
    magic_comment_body ind (p, l) e s = mc_rest ind (buffer s) (p + List.length j) (p + List.length j + List.length key) (p + n) (l - Z.of_nat n) e s.
  Proof using HW Hf.
    intros ind j key s2 p l HT HJ HK HS n H0 HL Hk HE HM. unfold magic_comment_body. replace (Z.leb l 0) with false by lia.
    apply text_at_app in HT. destruct HT as (HT1 & HT). apply text_at_app in HT. destruct HT as (HT2 & HT3).
    unfold bind at 1. unfold getb, gets at 1. unfold bind at 1. rewrite (run_junk B e s (buffer s) HW Hf j); auto; try lia.
    2: { destruct key as [|x key]; [left; destruct Hk as [Hk|Hk]; [congruence|lia]|]. right. apply text_at_cons in HT2. destruct HT2 as (A & _). inversion HK; subst. eauto. }
    unfold bind at 1. rewrite (run_name B e s (buffer s) HW Hf key); auto; try lia.
    2: { destruct s2 as [|x s2].
         - specialize (HM eq_refl). unfold n in HM. cbn [List.length] in HM. unfold stop_at in *. destruct HM as [HM|(c & A & Hc)]; [left; lia|right; exists c]. split; [|right; exact Hc]. rewrite <- A. f_equal. lia.
         - right. apply text_at_cons in HT3. destruct HT3 as (A & _). inversion HS; subst. exists x. split; auto. left; auto. }
    unfold bind at 1. rewrite (run_space B e s (buffer s) HW Hf s2); auto; try lia.
    2: { unfold n, stop_at in *. destruct HE as [HE|(c & A & Hc)]; [left; lia|right; exists c]. split; auto. rewrite <- A. f_equal. lia. }
    replace (p + List.length j + List.length key + List.length s2) with (p + n) by (unfold n; lia).
    replace (l - Z.of_nat (List.length j) - Z.of_nat (List.length key) - Z.of_nat (List.length s2))%Z with (l - Z.of_nat n)%Z by (unfold n; lia). reflexivity.
  Qed.

  Lemma rest_novalue : forall ind beg stop p s3, nth_error B p = Some 58%N -> text_at B (p + 1) s3 -> Forall sp_char s3 ->
    mc_rest ind (buffer s) beg stop p (Z.of_nat (List.length s3) + 1) e s = Ok (inr (MagicOk true)) s.
  Proof using HW Hf.
    intros ind beg stop p s3 Hc HT HS. unfold mc_rest. replace (Z.eqb _ 0) with false by lia. rewrite (byte_at_B B _ _ HW), Hc. change (negb (mbeq (Some 58%N) ":")) with false. cbv iota.
    unfold bind at 1. unfold mc_after_colon, loop. rewrite (run_colon B e s (buffer s) HW Hf s3); auto; try lia; [|left; lia|eapply short; eauto].
    replace (Z.eqb _ 0) with true by lia. reflexivity.
  Qed.

  Lemma rest_entry : forall (ind : bool) key s3 text off val s4 beg p l ms,
    nth_error B p = Some 58%N -> text_at B (p + 1) (s3 ++ text ++ s4) -> text_at B beg key -> key <> [] ->
    Forall sp_char s3 -> value text off val -> (text = [] -> starts_with (fun c => c = 59%N) s4) -> Forall (if ind then sep else sp_char) s4 ->
    let n := 1 + List.length s3 + List.length text + List.length s4 in
    (Z.of_nat n <= l)%Z -> (ind = false -> l = Z.of_nat n) ->
    stop_at B (p + n) (l - Z.of_nat n) (fun c => ~ sep c) -> (off = 0 -> s4 = [] -> stop_at B (p + n) (l - Z.of_nat n) (fun c => c = 34%N)) ->
    recorded key beg val (p + 1 + List.length s3 + off) ms -> 1 <= pcur (buffer s) ->
    mc_rest ind (buffer s) beg (beg + List.length key) p l e s = Ok (inl (p + n, (l - Z.of_nat n)%Z)) (add_magic ms s).
  Proof using HW Hf.
    intros ind key s3 text off val s4 beg p l ms Hc HT HTk Hk HS HV H0 H4 n HL Hi HE HQ HR Hp.
    apply text_at_app in HT. destruct HT as (HT1 & HT). apply text_at_app in HT. destruct HT as (HT2 & HT3).
    assert (Htx : 1 <= List.length text + List.length s4).
    { destruct text as [|x text]; [|cbn; lia]. destruct (H0 eq_refl) as (x & r & -> & _). cbn. lia. }
    assert (H59 : text = [] -> nth_error B (p + 1 + List.length s3) = Some 59%N).
    { intros E. destruct (H0 E) as (x & r & Er & ->). rewrite E, Er in *. apply text_at_cons in HT3. destruct HT3 as (A & _). rewrite <- A. f_equal. cbn. lia. }
    unfold mc_rest. replace (Z.eqb l 0) with false by lia. rewrite (byte_at_B B _ _ HW), Hc. change (negb (mbeq (Some 58%N) ":")) with false. cbv iota.
    unfold bind at 1. unfold mc_after_colon, loop. rewrite (run_colon B e s (buffer s) HW Hf s3); auto; try lia.
    2: { right. destruct HV as [v (Hne & HF)|v _|]; [| |exists 59%N; split; [auto|unfold sp_char; lia]].
         - destruct v as [|x v]; [congruence|]. apply text_at_cons in HT2. destruct HT2 as (A & _). inversion HF as [|? ? (A1 & _)]; subst. exists x. split; auto.
         - apply text_at_cons in HT2. destruct HT2 as (A & _). exists 34%N. split; auto. unfold sp_char. lia. }
    2: { eapply short; eauto. }
    replace (Z.eqb _ 0) with false by lia. unfold bind at 1. rewrite (run_value B e s (buffer s) HW Hf text off val); auto; try lia.
    2: { intros E0. destruct s4 as [|x s4].
         - specialize (HQ E0 eq_refl). unfold n, stop_at in *. cbn [List.length] in *. destruct HQ as [HQ|(c & A & ->)]; [left; lia|right]. exists 34%N. split; auto. rewrite <- A. f_equal. lia.
         - right. apply text_at_cons in HT3. destruct HT3 as (A & _). exists x. split; auto. left. inversion H4 as [|? ? A1 A2]; subst. destruct ind; auto. left. auto. }
    cbv beta iota zeta. unfold bind at 1.
    assert (E4 : (if ind then mc_skip_semi (buffer s) (p + 1 + List.length s3 + List.length text) (l - 1 - Z.of_nat (List.length s3) - Z.of_nat (List.length text))
                  else mc_skip_space (buffer s) (p + 1 + List.length s3 + List.length text) (l - 1 - Z.of_nat (List.length s3) - Z.of_nat (List.length text))) e s
             = Ok (p + n, (l - Z.of_nat n)%Z) s).
    { assert (G : p + 1 + List.length s3 + List.length text + List.length s4 = p + n) by (unfold n; lia).
      assert (G2 : (l - 1 - Z.of_nat (List.length s3) - Z.of_nat (List.length text) - Z.of_nat (List.length s4) = l - Z.of_nat n)%Z) by (unfold n; lia).
      rewrite <- G, <- G2. destruct ind; [apply (run_semi B e s (buffer s) HW Hf)|apply (run_space B e s (buffer s) HW Hf)]; auto; try (unfold n in *; lia); rewrite G, G2; auto.
      left. rewrite Hi; auto. lia. }
    rewrite E4. replace (negb ind && negb (Z.eqb (l - Z.of_nat n) 0)) with false by (destruct ind; [reflexivity|rewrite Hi by auto; lia]).
    unfold bind at 1. unfold sub_ck. replace (beg <=? beg + List.length key) with true by lia. cbn [ret].
    replace (beg + List.length key - beg) with (List.length key) by lia. pose proof (text_at_len _ _ _ HTk Hk) as HLk.
    unfold bind at 1. rewrite (substr_some B) by (auto; lia). replace (beg + List.length key - beg) with (List.length key) by lia. unfold text_at in HTk. rewrite HTk. cbn [expect ret].
    assert (HTv : text_at B (p + 1 + List.length s3 + off) val).
    { destruct HV as [v _|v _|]; [rewrite Nat.add_0_r; auto| |rewrite Nat.add_0_r; auto]. apply text_at_cons in HT2. destruct HT2 as (_ & A). apply text_at_app in A. tauto. }
    destruct (register_run B e s key beg val _ ms HR HW Hp HTv) as (R1 & R2). rewrite R1. cbn [negb]. unfold bind at 1. rewrite R2. reflexivity.
  Qed.

  (** More text behind the value *)
  Lemma rest_more : forall s3 text off val s4 c beg stop p l,
    nth_error B p = Some 58%N -> text_at B (p + 1) (s3 ++ text ++ s4 ++ [c]) -> Forall sp_char s3 -> value text off val -> (text = [] -> s4 = [] /\ c = 59%N) -> Forall sp_char s4 ->
    ~ sp_char c -> (off = 0 -> s4 = [] -> c = 34%N \/ c = 59%N) ->
    let n := 1 + List.length s3 + List.length text + List.length s4 in
    (Z.of_nat n < l)%Z -> mc_rest false (buffer s) beg stop p l e s = Ok (inr (MagicOk false)) s.
  Proof using HW Hf.
    intros s3 text off val s4 c beg stop p l Hc HT HS HV H0 H4 Hcs HQ n HL.
    apply text_at_app in HT. destruct HT as (HT1 & HT). apply text_at_app in HT. destruct HT as (HT2 & HT). apply text_at_app in HT. destruct HT as (HT3 & HT4). apply text_at_cons in HT4. destruct HT4 as (HT4 & _).
    assert (H59 : text = [] -> nth_error B (p + 1 + List.length s3) = Some 59%N).
    { intros E. destruct (H0 E) as (E4 & Ec). rewrite E, E4, Ec in HT4. rewrite <- HT4. f_equal. cbn. lia. }
    unfold mc_rest. replace (Z.eqb l 0) with false by lia. rewrite (byte_at_B B _ _ HW), Hc. change (negb (mbeq (Some 58%N) ":")) with false. cbv iota.
    unfold bind at 1. unfold mc_after_colon, loop. rewrite (run_colon B e s (buffer s) HW Hf s3); auto; try lia.
    2: { right. destruct HV as [v (Hne & HF)|v _|]; [| |exists 59%N; split; [auto|unfold sp_char; lia]].
         - destruct v as [|x v]; [congruence|]. apply text_at_cons in HT2. destruct HT2 as (A & _). inversion HF as [|? ? (A1 & _)]; subst. exists x. split; auto.
         - apply text_at_cons in HT2. destruct HT2 as (A & _). exists 34%N. split; auto. unfold sp_char. lia. }
    2: { eapply short; eauto. }
    replace (Z.eqb _ 0) with false by lia. unfold bind at 1. rewrite (run_value B e s (buffer s) HW Hf text off val); auto; try lia.
    2: { intros E0. right. destruct s4 as [|x s4].
         - cbn [List.length] in HT4. rewrite Nat.add_0_r in HT4. exists c. split; auto. unfold sep. destruct (HQ E0 eq_refl); auto.
         - apply text_at_cons in HT3. destruct HT3 as (A & _). exists x. split; auto. left. left. inversion H4; auto. }
    cbv beta iota zeta. unfold bind at 1. rewrite (run_space B e s (buffer s) HW Hf s4); auto; try lia.
    2: { right. exists c. auto. }
    replace (Z.eqb _ 0) with false by lia. reflexivity.
  Qed.
End Rounds.

(** ** All rounds *)
Lemma entries_run : forall p body ms, entries p body ms -> forall B e s l m, BWF B (buffer s) -> 4 * List.length B + 20 < fuel e -> 1 <= pcur (buffer s) ->
  text_at B p body -> l = Z.of_nat (List.length body) -> List.length body < m ->
  loop_n m (magic_comment_body true) (p, l) e s = Ok (MagicOk true) (add_magic ms s).
Proof.
  intros p body ms H. induction H as [p j HJ|p j word sp rest ms HJ Hw HF HS HR HM HN IH|p j key s2 s3 HJ Hk HK H2 H3|p j key s2 s3 text off val s4 rest ms ms' HJ Hk HK H2 H3 HV H4 H0 HR HQ HC HN IH];
    intros B e s l m HW Hf Hp HT Hl Hm; (destruct m as [|m]; [lia|]); cbn [loop_n]; unfold bind at 1.
  - assert (EN : add_magic [] s = s) by apply set_magic_nil. rewrite EN. destruct j as [|x j].
    + subst l. reflexivity.
    + rewrite (body_open B e s HW Hf true (x :: j) [] []); cbn [app]; rewrite ?app_nil_r; auto.
      * cbn [List.length] in *. unfold mc_rest. replace (Z.eqb _ 0) with true by lia. reflexivity.
      * cbn [List.length] in *. lia.
      * cbn [List.length] in *. lia.
      * left. cbn [List.length] in *. lia.
      * left. cbn [List.length] in *. lia.
  - assert (Hw1 : 1 <= List.length word) by (destruct word; [congruence|cbn; lia]).
    rewrite !app_assoc in HT. apply text_at_app in HT. destruct HT as (HT1 & HT2). rewrite <- app_assoc in HT1. rewrite !app_length in *.
    assert (HX : forall P, rest = [] \/ starts_with P rest -> stop_at B (p + (List.length j + List.length word + List.length sp)) (l - Z.of_nat (List.length j + List.length word + List.length sp)) P).
    { intros P [->|(c & r & -> & Hc)]; [left; cbn [List.length] in *; lia|right]. apply text_at_cons in HT2. destruct HT2 as (A & _). exists c. split; auto; rewrite <- A; f_equal; lia. }
    rewrite (body_open B e s HW Hf true j word sp); auto; try lia.
    2: { apply HX. destruct HR as [->|(c & r & -> & Hc & _)]; [auto|right; exists c, r; auto]. }
    unfold mc_rest. destruct rest as [|x rest].
    + cbn [List.length] in *. replace (Z.eqb _ 0) with true by lia. cbn [ret].
      assert (ms = []) as ->; [|rewrite (set_magic_nil s : add_magic [] s = s); reflexivity].
      remember (@nil N) as w eqn:Ew. destruct HN; auto; exfalso; repeat (match goal with A : _ ++ _ = [] |- _ => apply app_eq_nil in A; destruct A end); try congruence.
    + destruct HR as [A|(c & r & A & Hc1 & Hc2)]; [discriminate|]. injection A as <- <-.
      cbn [List.length] in *. replace (Z.eqb _ 0) with false by lia. assert (A := HT2). apply text_at_cons in A. destruct A as (A & _).
      rewrite (byte_at_B B _ _ HW), A. replace (mbeq (Some x) ":") with false by (unfold mbeq; lia). cbn [negb ret].
      rewrite !Nat.add_assoc in *. rewrite (IH B e s); auto; lia.
  - assert (Hw1 : 1 <= List.length key) by (destruct key; [congruence|cbn; lia]).
    assert (EN : add_magic [] s = s) by apply set_magic_nil. rewrite EN.
    rewrite !app_assoc in HT. apply text_at_app in HT. destruct HT as (HT1 & HT2). rewrite <- app_assoc in HT1. rewrite !app_length in *. cbn [List.length] in *.
    apply text_at_cons in HT2. destruct HT2 as (A & HT2).
    rewrite (body_open B e s HW Hf true j key s2); auto; try lia.
    + replace (l - _)%Z with (Z.of_nat (List.length s3) + 1)%Z by lia. rewrite !Nat.add_assoc in *. rewrite (rest_novalue B e s HW Hf); auto.
    + right. exists 58%N. rewrite !Nat.add_assoc in *. split; auto. unfold sp_char. lia.
    + intros _. right. exists 58%N. rewrite !Nat.add_assoc in *. split; auto. unfold mark. lia.
  - assert (Hw1 : 1 <= List.length key) by (destruct key; [congruence|cbn; lia]).
    replace (j ++ key ++ s2 ++ 58%N :: s3 ++ text ++ s4 ++ rest) with ((j ++ key ++ s2) ++ 58%N :: ((s3 ++ text ++ s4) ++ rest)) in HT by (rewrite <- !app_assoc; reflexivity).
    assert (Hl2 : l = Z.of_nat (List.length j + List.length key + List.length s2 + 1 + List.length s3 + List.length text + List.length s4 + List.length rest)).
    { rewrite Hl. rewrite !app_length. cbn [List.length]. rewrite !app_length. lia. }
    assert (Hm2 : List.length j + List.length key + List.length s2 + 1 + List.length s3 + List.length text + List.length s4 + List.length rest <= m).
    { rewrite !app_length in Hm. cbn [List.length] in Hm. rewrite !app_length in Hm. lia. }
    apply text_at_app in HT. destruct HT as (HT1 & HT2). rewrite !app_length in HT2. rewrite !Nat.add_assoc in HT2. apply text_at_cons in HT2. destruct HT2 as (A & HT2).
    apply text_at_app in HT2. destruct HT2 as (HT2 & HT3). rewrite !app_length in HT3. rewrite !Nat.add_assoc in HT3.
    rewrite (body_open B e s HW Hf true j key s2); auto; try lia.
    2: { right. exists 58%N. rewrite !Nat.add_assoc in *. split; auto. unfold sp_char. lia. }
    2: { intros _. right. exists 58%N. rewrite !Nat.add_assoc in *. split; auto. unfold mark. lia. }
    rewrite !Nat.add_assoc. apply text_at_app in HT1. destruct HT1 as (_ & HT1). apply text_at_app in HT1. destruct HT1 as (HT1 & _).
    set (q := p + List.length j + List.length key + List.length s2) in *.
    set (l1 := (l - Z.of_nat (List.length j + List.length key + List.length s2))%Z).
    assert (HX : forall P, rest = [] \/ starts_with P rest -> stop_at B (q + (1 + List.length s3 + List.length text + List.length s4)) (l1 - Z.of_nat (1 + List.length s3 + List.length text + List.length s4)) P).
    { intros P [->|(c & r & -> & Hc)]; [left; unfold l1; cbn [List.length] in *; lia|right]. apply text_at_cons in HT3. destruct HT3 as (A' & _). exists c. split; auto. rewrite <- A'. f_equal. lia. }
    rewrite (rest_entry B e s HW Hf true key s3 text off val s4 (p + List.length j) q l1 ms); auto; try (unfold l1; lia).
    replace (q + (1 + List.length s3 + List.length text + List.length s4)) with (q + 1 + List.length s3 + List.length text + List.length s4) by lia.
    rewrite (IH B e (add_magic ms s)); auto.
    + rewrite add_magic_app. reflexivity.
    + unfold l1. lia.
    + lia.
Qed.

Lemma plain_run : forall p w ms, plain_note p w ms -> forall el B e s l m, BWF B (buffer s) -> 4 * List.length B + 20 < fuel e -> 1 <= pcur (buffer s) ->
  text_at B p (w ++ el) -> Forall sp_char el -> l = Z.of_nat (List.length w + List.length el) -> 1 < m ->
  loop_n m (magic_comment_body false) (p, l) e s = Ok (MagicOk true) (add_magic ms s).
Proof.
  intros p w ms [s1 key s2 s3 text off val s4 ms' HJ Hk HK H2 H3 HV H0 H4 HC] el B e s l m HW Hf Hp HT HEl Hl Hm.
  destruct m as [|[|m]]; [lia|lia|]. cbn [loop_n]. unfold bind at 1.
  assert (Hw1 : 1 <= List.length key) by (destruct key; [congruence|cbn; lia]).
  replace ((s1 ++ key ++ s2 ++ 58%N :: s3 ++ text ++ s4) ++ el) with ((s1 ++ key ++ s2) ++ 58%N :: (s3 ++ text ++ (s4 ++ el))) in HT by (repeat (rewrite <- !app_assoc; cbn [app]); reflexivity).
  assert (Hl2 : l = Z.of_nat (List.length s1 + List.length key + List.length s2 + 1 + List.length s3 + List.length text + List.length (s4 ++ el))).
  { rewrite Hl. rewrite !app_length. cbn [List.length]. rewrite !app_length. lia. }
  apply text_at_app in HT. destruct HT as (HT1 & HT2). rewrite !app_length in HT2. rewrite !Nat.add_assoc in HT2. apply text_at_cons in HT2. destruct HT2 as (A & HT2).
  rewrite (body_open B e s HW Hf false s1 key s2); auto; try lia.
  2: { right. exists 58%N. rewrite !Nat.add_assoc in *. split; auto. unfold sp_char. lia. }
  2: { intros _. right. exists 58%N. rewrite !Nat.add_assoc in *. split; auto. unfold mark. lia. }
  rewrite !Nat.add_assoc. apply text_at_app in HT1. destruct HT1 as (_ & HT1). apply text_at_app in HT1. destruct HT1 as (HT1 & _).
  set (q := p + List.length s1 + List.length key + List.length s2) in *.
  rewrite (rest_entry B e s HW Hf false key s3 text off val (s4 ++ el) (p + List.length s1) q _ ms'); auto; try lia.
  - unfold bind. unfold magic_comment_body. replace (Z.leb _ 0) with true by lia. reflexivity.
  - intros E. congruence.
  - apply Forall_app. auto.
  - left. lia.
  - intros _ _. left. lia.
Qed.

Lemma prose_run : forall w, prose w -> forall el B e s p l m, BWF B (buffer s) -> 4 * List.length B + 20 < fuel e ->
  text_at B p (w ++ el) -> Forall sp_char el -> l = Z.of_nat (List.length w + List.length el) -> 0 < m ->
  exists r, loop_n m (magic_comment_body false) (p, l) e s = Ok (MagicOk r) s.
Proof.
  intros w H el B e s p l m HW Hf HT HEl Hl Hm. destruct m as [|m]; [lia|]. cbn [loop_n]. unfold bind at 1.
  destruct (Z.leb l 0) eqn:E0. { unfold magic_comment_body. rewrite E0. exists true. reflexivity. }
  assert (Hkey : forall key : list N, key <> [] -> 1 <= List.length key) by (intros [|? ?] A; [congruence|cbn; lia]).
  destruct H as [j HJ|j word sp HJ Hw HF HS|j word sp c rest HJ Hw HF HS Hc1 Hc2 HM|j key s2 s3 HJ Hk HK H2 H3|j key s2 s3 text off val s4 c rest HJ Hk HK H2 H3 HV H0 H4 Hc HQ].
  - exists true. rewrite (body_open B e s HW Hf false (j ++ el) [] []); rewrite ?app_nil_r; auto; rewrite ?app_length; cbn [List.length]; try lia.
    + unfold mc_rest. replace (Z.eqb _ 0) with true by lia. reflexivity.
    + apply Forall_app. split; auto. eapply Forall_impl; [|exact HEl]. intros c A. left. exact A.
    + left. lia.
    + left. lia.
  - exists true. rewrite <- !app_assoc in HT. specialize (Hkey _ Hw). rewrite !app_length in Hl.
    rewrite (body_open B e s HW Hf false j word (sp ++ el)); auto; rewrite ?app_length; try lia.
    + unfold mc_rest. replace (Z.eqb _ 0) with true by lia. reflexivity.
    + apply Forall_app. auto.
    + left. lia.
    + left. lia.
  - exists false. specialize (Hkey _ Hw). replace ((j ++ word ++ sp ++ c :: rest) ++ el) with ((j ++ word ++ sp) ++ c :: (rest ++ el)) in HT by (repeat (rewrite <- !app_assoc; cbn [app]); reflexivity).
    apply text_at_app in HT. destruct HT as (HT1 & HT2). rewrite !app_length in HT2. apply text_at_cons in HT2. destruct HT2 as (A & _). rewrite !Nat.add_assoc in A.
    repeat (rewrite app_length in Hl; cbn [List.length] in Hl).
    rewrite (body_open B e s HW Hf false j word sp); auto; try lia.
    + unfold mc_rest. replace (Z.eqb _ 0) with false by lia. rewrite (byte_at_B B _ _ HW). rewrite !Nat.add_assoc, A. replace (mbeq (Some c) ":") with false by (unfold mbeq; lia). reflexivity.
    + right. exists c. rewrite !Nat.add_assoc. auto.
    + intros E. right. exists c. rewrite !Nat.add_assoc. auto.
  - exists true. specialize (Hkey _ Hk). replace ((j ++ key ++ s2 ++ 58%N :: s3) ++ el) with ((j ++ key ++ s2) ++ 58%N :: (s3 ++ el)) in HT by (repeat (rewrite <- !app_assoc; cbn [app]); reflexivity).
    apply text_at_app in HT. destruct HT as (HT1 & HT2). rewrite !app_length in HT2. apply text_at_cons in HT2. destruct HT2 as (A & HT2). rewrite !Nat.add_assoc in A, HT2.
    repeat (rewrite app_length in Hl; cbn [List.length] in Hl).
    rewrite (body_open B e s HW Hf false j key s2); auto; try lia.
    + replace (l - _)%Z with (Z.of_nat (List.length (s3 ++ el)) + 1)%Z by (rewrite app_length; lia). rewrite !Nat.add_assoc. rewrite (rest_novalue B e s HW Hf); auto. apply Forall_app. auto.
    + right. exists 58%N. rewrite !Nat.add_assoc. split; auto. unfold sp_char. lia.
    + intros _. right. exists 58%N. rewrite !Nat.add_assoc. split; auto. unfold mark. lia.
  - exists false. specialize (Hkey _ Hk).
    replace ((j ++ key ++ s2 ++ 58%N :: s3 ++ text ++ s4 ++ c :: rest) ++ el) with ((j ++ key ++ s2) ++ 58%N :: ((s3 ++ text ++ s4 ++ [c]) ++ rest ++ el)) in HT by (repeat (rewrite <- !app_assoc; cbn [app]); reflexivity).
    apply text_at_app in HT. destruct HT as (HT1 & HT2). rewrite !app_length in HT2. apply text_at_cons in HT2. destruct HT2 as (A & HT2). rewrite !Nat.add_assoc in A, HT2.
    apply text_at_app in HT2. destruct HT2 as (HT2 & _).
    repeat (rewrite app_length in Hl; cbn [List.length] in Hl).
    rewrite (body_open B e s HW Hf false j key s2); auto; try lia.
    + rewrite !Nat.add_assoc. rewrite (rest_more B e s HW Hf s3 text off val s4 c); auto. lia.
    + right. exists 58%N. rewrite !Nat.add_assoc. split; auto. unfold sp_char. lia.
    + intros _. right. exists 58%N. rewrite !Nat.add_assoc. split; auto. unfold mark. lia.
Qed.

(** ** Markers *)
Definition mk_at (B : list N) (p j : nat) : Prop :=
  2 <= j /\ nth_error B (p + j) = Some 45%N /\ nth_error B (p + j - 1) = Some 42%N /\ nth_error B (p + j - 2) = Some 45%N.

Lemma mb_is : forall (x : option N) c, mbeq x c = true -> x = Some c.
Proof. intros [y|] c H; [|discriminate]. cbn in H. apply N.eqb_eq in H. congruence. Qed.
Lemma mb_not : forall (x : option N) c, mbeq x c = false -> x <> Some c.
Proof. intros x c H ->. cbn in H. rewrite N.eqb_refl in H. discriminate. Qed.

Lemma marker_exact : forall B e s p len (Q : nat -> Lexer -> Prop), BWF B (buffer s) -> 4 * List.length B + 20 < fuel e -> len <= List.length B ->
  ((forall j, j < len -> ~ mk_at B p j) -> Q 0 s) ->
  (forall j, j < len -> mk_at B p j -> (forall i, i < j -> ~ mk_at B p i) -> Q (p + j + 1) s) ->
  wp e (magic_comment_marker p len) Q s.
Proof.
  intros B e s p len Q HW Hf HL HN HS. unfold magic_comment_marker. apply wp_bind, wp_gets.
  apply wp_pure_loop with (P := fun i => 2 <= i /\ forall j, j < i -> ~ mk_at B p j) (meas := fun i => len - i); [|lia|].
  { split; [lia|]. intros j Hj (A & _). lia. }
  intros i (Hi & HI). destruct (len <=? i) eqn:E; [apply wp_ret; apply HN; intros j Hj; apply HI; lia|]. cbv zeta.
  rewrite !(byte_at_B B _ _ HW).
  assert (step : forall k, 1 <= k -> (forall j, i <= j -> j < i + k -> ~ mk_at B p j) -> wp e (ret (inl (i + k))) (fun (r : nat + nat) s' => match r with
     | inl x' => s' = s /\ (2 <= x' /\ (forall j, j < x' -> ~ mk_at B p j)) /\ len - x' < len - i | inr r => Q r s' end) s).
  { intros k Hk H. apply wp_ret. splits; auto; try lia. intros j Hj. destruct (le_lt_dec i j); [apply H; lia|apply HI; lia]. }
  destruct (mbeq (nth_error B (p + i)) "-") eqn:Ed.
  { apply mb_is in Ed. destruct (_ && _) eqn:Em.
    - apply andb_prop in Em. destruct Em as (E1 & E2). apply mb_is in E1. apply mb_is in E2. apply wp_ret. apply HS; auto; try lia. unfold mk_at. auto.
    - apply step; [lia|]. intros j J1 J2 (M1 & M2 & M3 & M4). assert (j = i \/ j = i + 1) as [->| ->] by lia.
      + rewrite M3, M4 in Em. discriminate.
      + replace (p + (i + 1) - 1) with (p + i) in M3 by lia. congruence. }
  apply mb_not in Ed. destruct (mbeq (nth_error B (p + i)) "*") eqn:Es.
  - apply mb_is in Es. destruct (len <=? i + 1) eqn:E1.
    { apply wp_ret. apply HN. intros j Hj. destruct (le_lt_dec i j); [|apply HI; lia]. assert (j = i) as -> by lia. intros (M1 & M2 & _). congruence. }
    destruct (negb (mbeq (nth_error B (p + i + 1)) "-")) eqn:En.
    { apply negb_true_iff, mb_not in En. apply step; [lia|]. intros j J1 J2 (M1 & M2 & M3 & M4). assert (j = i \/ j = i + 1 \/ j = i + 2 \/ j = i + 3) as [->|[->|[->| ->]]] by lia.
      - congruence.
      - replace (p + (i + 1)) with (p + i + 1) in M2 by lia. congruence.
      - replace (p + (i + 2) - 2) with (p + i) in M4 by lia. congruence.
      - replace (p + (i + 3) - 2) with (p + i + 1) in M4 by lia. congruence. }
    apply negb_false_iff, mb_is in En. destruct (negb (mbeq (nth_error B (p + i - 1)) "-")) eqn:Ep.
    { apply negb_true_iff, mb_not in Ep. apply step; [lia|]. intros j J1 J2 (M1 & M2 & M3 & M4). assert (j = i \/ j = i + 1) as [->| ->] by lia.
      - congruence.
      - replace (p + (i + 1) - 2) with (p + i - 1) in M4 by lia. congruence. }
    apply negb_false_iff, mb_is in Ep. apply wp_ret. replace (p + i + 2) with (p + (i + 1) + 1) by lia. apply HS; [lia| |].
    + unfold mk_at. replace (p + (i + 1)) with (p + i + 1) by lia. replace (p + i + 1 - 1) with (p + i) by lia. replace (p + i + 1 - 2) with (p + i - 1) by lia. splits; auto. lia.
    + intros j Hj. destruct (Nat.eq_dec j i) as [->|]; [|apply HI; lia]. intros (_ & M & _). congruence.
  - apply mb_not in Es. apply step; [lia|]. intros j J1 J2 (M1 & M2 & M3 & M4). assert (j = i \/ j = i + 1 \/ j = i + 2) as [->|[->| ->]] by lia.
    + congruence.
    + replace (p + (i + 1) - 1) with (p + i) in M3 by lia. congruence.
    + replace (p + (i + 2) - 2) with (p + i) in M4 by lia. congruence.
Qed.

Lemma no_marker_at : forall B p w, text_at B p w -> no_marker w -> forall j, j < List.length w -> ~ mk_at B p j.
Proof.
  intros B p w HT HN j Hj (M1 & M2 & M3 & M4).
  rewrite (text_byte B p w j) in M2 by auto. replace (p + j - 1) with (p + (j - 1)) in M3 by lia. replace (p + j - 2) with (p + (j - 2)) in M4 by lia.
  rewrite (text_byte B p w) in M3 by (auto; lia). rewrite (text_byte B p w) in M4 by (auto; lia).
  destruct (nth_skipn _ _ _ M4) as (u & E). apply (HN (firstn (j - 2) w) (skipn (j + 1) w)).
  rewrite <- (firstn_skipn (j - 2) w) at 1. f_equal. unfold marker. cbn [bs app].
  assert (G : forall k, nth_error (skipn (j - 2) w) k = nth_error w (j - 2 + k)) by (intros k; apply nth_error_skipn).
  pose proof (G 0) as G0. pose proof (G 1) as G1. pose proof (G 2) as G2. rewrite Nat.add_0_r in G0. replace (j - 2 + 1) with (j - 1) in G1 by lia. replace (j - 2 + 2) with j in G2 by lia.
  rewrite M4 in G0. rewrite M3 in G1. rewrite M2 in G2. replace (j + 1) with (3 + (j - 2)) by lia. rewrite <- skipn_skipn.
  destruct (skipn (j - 2) w) as [|x [|y [|z r]]]; try discriminate. cbn in G0, G1, G2. injection G0 as ->. injection G1 as ->. injection G2 as ->. reflexivity.
Qed.

Lemma spells_length : forall key name, Forall2 spells key name -> List.length key = List.length name.
Proof. intros key name H. induction H; cbn; congruence. Qed.

Lemma entries_short : forall p body ms, entries p body ms -> ms = [] \/ 8 <= List.length body.
Proof.
  intros p body ms H. induction H as [p j HJ|p j word sp rest ms HJ Hw HF HS HR HM HN IH|p j key s2 s3 HJ Hk HK H2 H3|p j key s2 s3 text off val s4 rest ms ms' HJ Hk HK H2 H3 HV H4 H0 HR HQ HC HN IH]; auto.
  - destruct IH as [IH|IH]; auto. right. rewrite !app_length. lia.
  - assert (Htx : 1 <= List.length text + List.length s4).
    { destruct text as [|x text]; [|cbn; lia]. destruct (H0 eq_refl) as (x & r & -> & _). cbn. lia. }
    destruct HC as [kind (name & HI & HSp) HK2|]; [|destruct IH as [->|IH]; auto; right; repeat (rewrite app_length; cbn [List.length]); lia].
    right. destruct (names_fine _ _ HI) as (_ & _ & F). apply spells_length in HSp. repeat (rewrite app_length; cbn [List.length]); lia.
Qed.

(** ** The whole comment *)
Lemma magic_run : forall p w ms el B e s, magic_note p w ms -> BWF B (buffer s) -> 4 * List.length B + 20 < fuel e -> 1 <= pcur (buffer s) ->
  text_at B p (w ++ el) -> Forall sp_char el -> exists r, magic_comment p (List.length w + List.length el) e s = Ok (MagicOk r) (add_magic ms s).
Proof.
  intros p w ms el B e s HN HW Hf Hp HT HEl.
  assert (HX : wp e (magic_comment p (List.length w + List.length el)) (fun r s' => s' = add_magic ms s /\ exists x, r = MagicOk x) s).
  { unfold magic_comment. destruct (_ <=? 7) eqn:E7.
    { apply wp_ret. split; eauto. assert (ms = []) as ->; [|symmetry; apply set_magic_nil].
      destruct HN as [w ms _ [s1 key s2 s3 text off val s4 ms' HJ Hk HK H2 H3 HV H0 H4 HC]|pre body post ms _ _ HE|w _ _|pre rest _ _].
      - destruct HC as [kind (name & HI & HSp) HK2|]; auto. exfalso.
        assert (Htx : 1 <= List.length text) by (destruct text; [congruence|cbn; lia]).
        destruct (names_fine _ _ HI) as (_ & _ & F). apply spells_length in HSp. repeat (rewrite app_length in E7; cbn [List.length] in E7). lia.
      - destruct (entries_short _ _ _ HE) as [|A]; auto. exfalso. repeat (rewrite app_length in E7). lia.
      - reflexivity.
      - reflexivity. }
    assert (Hne : w ++ el <> []). { intros A. apply (f_equal (@List.length N)) in A. rewrite app_length in A. cbn in A. lia. }
    pose proof (text_at_len _ _ _ HT Hne) as HL. rewrite app_length in HL.
    assert (loop_wp : forall ind q l, loop (magic_comment_body ind) (q, l) e s = Ok (MagicOk true) (add_magic ms s) ->
       wp e (loop (magic_comment_body ind) (q, l)) (fun r s' => s' = add_magic ms s /\ exists x, r = MagicOk x) s).
    { intros ind q l A. unfold wp. rewrite A. eauto. }
    assert (HEl' : forall j, List.length w <= j -> j < List.length w + List.length el -> ~ mk_at B p j).
    { intros j A Hj. assert (HT' := HT). apply text_at_app in HT'. destruct HT' as (HT1 & HT2).
      intros (_ & M & _). replace (p + j) with (p + List.length w + (j - List.length w)) in M by lia. rewrite (text_byte B _ el) in M by (auto; lia). apply nth_error_In in M.
      rewrite Forall_forall in HEl. specialize (HEl _ M). unfold sp_char in HEl. lia. }
    assert (first : forall q u, text_at B q (u ++ bs "-*") -> text_at B (q + List.length (u ++ bs "-*")) (bs "-") -> no_marker (u ++ bs "-*") ->
          mk_at B q (List.length u + 2) /\ forall i, i < List.length u + 2 -> ~ mk_at B q i).
    { intros q u U1 U2 U3. split.
      - rewrite app_length in U2. cbn [List.length bs] in U2. apply text_at_cons in U2. destruct U2 as (U2 & _). apply text_at_app in U1. destruct U1 as (_ & U1). apply text_at_cons in U1. destruct U1 as (U4 & U1). apply text_at_cons in U1. destruct U1 as (U5 & _).
        unfold mk_at. splits; [lia| | |]; [eapply eq_trans; [|exact U2]|eapply eq_trans; [|exact U5]|eapply eq_trans; [|exact U4]]; f_equal; cbn; lia.
      - intros i Hi. apply (no_marker_at B q (u ++ bs "-*")); auto. rewrite app_length. cbn. lia. }
    apply wp_bind. destruct HN as [w ms HM HP|pre body post ms HM1 HM2 HE|w HM HP|pre rest HM1 HM2].
    - assert (HNo : forall j, j < List.length w + List.length el -> ~ mk_at B p j).
      { assert (HT' := HT). apply text_at_app in HT'. destruct HT' as (HT1 & HT2). intros j Hj. destruct (le_lt_dec (List.length w) j) as [A|A]; [|apply (no_marker_at B p w); auto].
        intros (_ & M & _). replace (p + j) with (p + List.length w + (j - List.length w)) in M by lia. rewrite (text_byte B _ el) in M by (auto; lia). apply nth_error_In in M.
        rewrite Forall_forall in HEl. specialize (HEl _ M). unfold sp_char in HEl. lia. }
      assert (HG : wp e (loop (magic_comment_body false) (p, Z.of_nat (List.length w + List.length el))) (fun r s' => s' = add_magic ms s /\ exists x, r = MagicOk x) s).
      { apply loop_wp. unfold loop. apply (plain_run p w ms HP el B); auto. lia. }
      apply (marker_exact B); auto; try lia. intros j Hj A _. exfalso. apply (HNo j Hj A).
    - assert (T0 := HT). replace ((pre ++ marker ++ body ++ marker ++ post) ++ el) with ((pre ++ bs "-*") ++ bs "-" ++ ((body ++ bs "-*") ++ bs "-" ++ post ++ el)) in T0 by (unfold marker; repeat (rewrite <- !app_assoc; cbn [bs app]); reflexivity).
      apply text_at_app in T0. destruct T0 as (T1 & T0). apply text_at_app in T0. destruct T0 as (T2 & T0). apply text_at_app in T0. destruct T0 as (T3 & T0). apply text_at_app in T0. destruct T0 as (T4 & _).
      assert (Lw : List.length (pre ++ marker ++ body ++ marker ++ post) = List.length pre + 3 + List.length body + 3 + List.length post) by (repeat rewrite app_length; cbn; lia).
      assert (F1 := first _ _ T1 T2 HM1). rewrite !app_length in T3. change (List.length (bs "-*")) with 2 in T3. change (List.length (bs "-")) with 1 in T3.
      set (beg := p + List.length pre + 3) in *. replace (p + (List.length pre + 2) + 1) with beg in T3 by (unfold beg; lia).
      assert (F2 := first beg body T3). rewrite !app_length in T4. change (List.length (bs "-*")) with 2 in T4. change (List.length (bs "-")) with 1 in T4.
      assert (T5 : text_at B (beg + List.length (body ++ bs "-*")) (bs "-")).
      { rewrite app_length. change (List.length (bs "-*")) with 2. replace (beg + (List.length body + 2)) with (p + (List.length pre + 2) + 1 + (List.length body + 2)) by (unfold beg; lia). exact T4. }
      specialize (F2 T5 HM2).
      apply (marker_exact B); auto; try lia.
      { intros A. exfalso. apply (A (List.length pre + 2)); [lia|tauto]. }
      intros j Hj Mj Fj. assert (j = List.length pre + 2) as ->.
      { destruct (lt_eq_lt_dec j (List.length pre + 2)) as [[A|A]|A]; auto; exfalso; [apply (proj2 F1 j); auto|apply (Fj _ A); tauto]. }
      replace (p + (List.length pre + 2) + 1) with beg by (unfold beg; lia). replace (beg =? 0) with false by (unfold beg; lia).
      apply wp_bind, wp_sub_ck; [unfold beg; lia|]. apply wp_bind. apply (marker_exact B); auto; try (unfold beg; lia).
      { intros A. exfalso. apply (A (List.length body + 2)); [unfold beg; lia|tauto]. }
      intros j Hj2 Mj2 Fj2. assert (j = List.length body + 2) as ->.
      { destruct (lt_eq_lt_dec j (List.length body + 2)) as [[A|A]|A]; auto; exfalso; [apply (proj2 F2 j); auto|apply (Fj2 _ A); tauto]. }
      replace (beg + (List.length body + 2) + 1 =? 0) with false by lia. apply wp_bind, wp_sub_ck; [lia|]. apply wp_bind, wp_sub_ck; [lia|].
      replace (beg + (List.length body + 2) + 1 - beg - 3) with (List.length body) by lia.
      apply loop_wp. unfold loop. apply (entries_run _ _ _ HE B); auto; try (unfold beg in *; lia). apply text_at_app in T3. tauto.
    - assert (HNo : forall j, j < List.length w + List.length el -> ~ mk_at B p j).
      { intros j Hj. destruct (le_lt_dec (List.length w) j) as [A|A]; [auto|apply (no_marker_at B p w); auto]. apply text_at_app in HT. tauto. }
      assert (HG : wp e (loop (magic_comment_body false) (p, Z.of_nat (List.length w + List.length el))) (fun r s' => s' = add_magic [] s /\ exists x, r = MagicOk x) s).
      { unfold loop. destruct (prose_run w HP el B e s p _ (fuel e) HW Hf HT HEl eq_refl) as (r & ER); [lia|]. unfold wp. rewrite ER. split; eauto. symmetry. apply set_magic_nil. }
      apply (marker_exact B); auto; try lia. intros j Hj A _. exfalso. apply (HNo j Hj A).
    - assert (T0 := HT). replace ((pre ++ marker ++ rest) ++ el) with ((pre ++ bs "-*") ++ bs "-" ++ rest ++ el) in T0 by (unfold marker; repeat (rewrite <- !app_assoc; cbn [bs app]); reflexivity).
      apply text_at_app in T0. destruct T0 as (T1 & T0). apply text_at_app in T0. destruct T0 as (T2 & T0). apply text_at_app in T0. destruct T0 as (T3 & T4).
      assert (Lw : List.length (pre ++ marker ++ rest) = List.length pre + 3 + List.length rest) by (repeat rewrite app_length; cbn; lia).
      assert (F1 := first _ _ T1 T2 HM1). rewrite !app_length in T3. change (List.length (bs "-*")) with 2 in T3. change (List.length (bs "-")) with 1 in T3.
      set (beg := p + List.length pre + 3) in *. replace (p + (List.length pre + 2) + 1) with beg in T3 by (unfold beg; lia).
      apply (marker_exact B); auto; try lia.
      { intros A. exfalso. apply (A (List.length pre + 2)); [lia|tauto]. }
      intros j Hj Mj Fj. assert (j = List.length pre + 2) as ->.
      { destruct (lt_eq_lt_dec j (List.length pre + 2)) as [[A|A]|A]; auto; exfalso; [apply (proj2 F1 j); auto|apply (Fj _ A); tauto]. }
      replace (p + (List.length pre + 2) + 1) with beg by (unfold beg; lia). replace (beg =? 0) with false by (unfold beg; lia).
      apply wp_bind, wp_sub_ck; [unfold beg; lia|]. apply wp_bind. apply (marker_exact B); auto; try (unfold beg; lia).
      { intros _. apply wp_ret. split; eauto. symmetry. apply set_magic_nil. }
      intros j Hj2 Mj2 Fj2. exfalso. destruct (le_lt_dec (List.length rest) j) as [A|A]; [|apply (no_marker_at B beg rest T3 HM2 j A Mj2)].
      apply (HEl' (List.length pre + 3 + j)); [lia|unfold beg in *; lia|]. destruct Mj2 as (_ & M1 & M2 & M3). unfold mk_at, beg in *.
      splits; [lia|rewrite <- M1|rewrite <- M2|rewrite <- M3]; f_equal; lia. }
  unfold wp in HX. destruct (magic_comment _ _ e s) as [r s'| |]; try contradiction. destruct HX as (-> & x & ->). eauto.
Qed.

(** ** The comment in its line *)
Lemma comment_magic : forall B e b q s seen w el ms, 4 * List.length B + 20 < fuel e -> decoder e = None -> Ready B b ->
  pbeg b <= q -> q < pend b -> ptok b = q -> nth_error B q = Some 35%N -> text_at B (q + 1) (w ++ el) -> Forall sp_char el -> magic_note (q + 1) w ms ->
  pend b = q + 1 + List.length w + List.length el ->
  lex_comment seen e (set_buffer (set_pcur (q + 1) b) s) =
  Ok true (set_comments (comments s ++ [mkComment (mkLoc q (pend b)) Inline]) (add_magic ms (set_token_seen seen (set_buffer (set_pcur (pend b) b) s)))).
Proof.
  intros B e b q s seen w el ms Hf Hd HR Hq0 Hq Hp Hx HT HEl HN HP. pose proof HR as (HW & N1 & N2).
  assert (HW1 : BWF B (set_pcur (q + 1) b)).
  { destruct HW. constructor; cbn; auto; try lia. intros _ A. replace (q + 1 - 1) with q in A by lia. congruence. }
  pose proof (pend_le B b HW) as HL.
  enough (HG : wp e (lex_comment seen) (fun r s' => r = true /\ s' = set_comments (comments s ++ [mkComment (mkLoc q (pend b)) Inline]) (add_magic ms (set_token_seen seen (set_buffer (set_pcur (pend b) b) s))))
     (set_buffer (set_pcur (q + 1) b) s)).
  { unfold wp in HG. destruct (lex_comment seen e _) as [r s'| |]; try contradiction. destruct HG as (-> & ->). reflexivity. }
  unfold lex_comment. ws. ws. ws. ws. ws. cbn [buffer set_buffer set_token_seen pend set_pcur pcur].
  apply wp_sub_ck; [lia|]. ws.
  set (s0 := set_token_seen seen (set_buffer (set_pcur (q + 1) b) s)).
  destruct (magic_run (q + 1) w ms el B e s0 HN) as (r & ER); auto. { cbn. lia. }
  replace (pend b - (q + 1)) with (List.length w + List.length el) by lia. unfold wp at 1. rewrite ER.
  match goal with |- ?G => change G with (wp e (((if negb r then top <- comment_at_top ;; b <- getb ;; when top (set_file_encoding (pcur b) (pend b)) else ret tt) ;;;
      modb goto_eol ;;; modify (fun s => set_comments (comments s ++ [comment_new (current_loc s) (input (buffer s))]) s) ;;; ret true))
      (fun r s' => r = true /\ s' = set_comments (comments s ++ [mkComment (mkLoc q (pend b)) Inline]) (add_magic ms (set_token_seen seen (set_buffer (set_pcur (pend b) b) s)))) (add_magic ms s0)) end.
  ws.
  match goal with |- wp e ?m ?P ?t => assert (HK : P tt t) end.
  { cbv beta. ws. ws. ws. ws. ws. split; auto. unfold current_loc, goto_eol. cbn.
    assert (EC : comment_new (mkLoc (ptok b) (pend b)) (input b) = mkComment (mkLoc q (pend b)) Inline).
    { unfold comment_new. change (loc_source (mkLoc (ptok b) (pend b)) (input b)) with (b_substr_at b (ptok b) (pend b)).
      rewrite (substr_some B) by (auto; lia). rewrite Hp. destruct (nth_skipn _ _ _ Hx) as (u & ->).
      replace (pend b - q) with (S (pend b - q - 1)) by lia. reflexivity. }
    rewrite EC. reflexivity. }
  destruct r; cbn [negb]; [ws; exact HK|]. ws. apply comment_at_top_ok; [cbn; lia|]. intros top. ws. ws.
  apply wp_when; intros Ht; [|exact HK]. pose proof (no_decoder_safe e B Hd) as Hdec. apply (set_file_encoding_ok B e Hf Hdec); auto; cbn; lia.
Qed.

