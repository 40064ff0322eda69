(** * Digits and code points, as scanned and as specified *)
Require Import Verif.Base Verif.MaybeByteM Verif.Utf8M Verif.InputM Verif.BufferM Verif.LexStringM Verif.LexSpec Verif.StringSpec.
Require Import ZifyBool ZifyNat ZifyN.
Local Open Scope N_scope.

Lemma hex_value_iff : forall c, hexadecimal c -> hex_value c = Some (hex_digit c) /\ hex_digit c < 16.
Proof.
  intros c H. unfold hexadecimal in H. unfold hex_value, hex_digit, b_is_digit, in_range.
  change "0"%bn with 48. change "9"%bn with 57. change "a"%bn with 97. change "f"%bn with 102. change "A"%bn with 65. change "F"%bn with 70.
  destruct H as [H|[H|H]].
  - replace ((48 <=? c) && (c <=? 57)) with true by lia. replace (c <? 58) with true by lia. split; [reflexivity|lia].
  - replace ((48 <=? c) && (c <=? 57)) with false by lia. replace ((97 <=? c) && (c <=? 102)) with false by lia.
    replace ((65 <=? c) && (c <=? 70)) with true by lia. replace (c <? 58) with false by lia. replace (c <? 71) with true by lia. split; [reflexivity|lia].
  - replace ((48 <=? c) && (c <=? 57)) with false by lia. replace ((97 <=? c) && (c <=? 102)) with true by lia.
    replace (c <? 58) with false by lia. replace (c <? 71) with false by lia. split; [reflexivity|lia].
Qed.

Lemma hex_value_none : forall c, ~ hexadecimal c -> hex_value c = None.
Proof.
  intros c H. unfold hexadecimal in H. unfold hex_value, b_is_digit, in_range.
  change "0"%bn with 48. change "9"%bn with 57. change "a"%bn with 97. change "f"%bn with 102. change "A"%bn with 65. change "F"%bn with 70.
  replace ((48 <=? c) && (c <=? 57)) with false by lia. replace ((97 <=? c) && (c <=? 102)) with false by lia.
  replace ((65 <=? c) && (c <=? 70)) with false by lia. reflexivity.
Qed.

Lemma lor_shift : forall r k h, h < 2 ^ k -> N.lor (N.shiftl r k) h = r * 2 ^ k + h.
Proof.
  intros r k h H. rewrite N.shiftl_mul_pow2.
  assert (E : N.land (r * 2 ^ k) h = 0).
  { apply N.bits_inj. intro n. rewrite N.land_spec, N.bits_0. destruct (N.lt_ge_cases n k) as [C|C].
    - rewrite N.mul_pow2_bits_low by exact C. reflexivity.
    - replace (N.testbit h n) with false; [apply andb_false_r|]. symmetry.
      destruct (N.eq_dec h 0) as [->|E]; [apply N.bits_0|]. apply N.bits_above_log2. apply N.log2_lt_pow2; [lia|].
      eapply N.lt_le_trans; [exact H|]. apply N.pow_le_mono_r; [discriminate|exact C]. }
  rewrite (N.add_nocarry_lxor _ _ E), (N.lxor_lor _ _ E). reflexivity.
Qed.

Lemma fold_bound : forall (base : N) (val : N -> N) (ds : list N) a, (forall c, In c ds -> val c < base) -> 0 < base ->
  fold_left (fun a c => a * base + val c) ds a < (a + 1) * base ^ N.of_nat (List.length ds).
Proof.
  induction ds as [|c ds IH]; intros a H Hb.
  - cbn. lia.
  - cbn [fold_left]. eapply N.lt_le_trans; [apply IH; auto; intros; apply H; right; auto|].
    cbn [List.length]. rewrite Nat2N.inj_succ, N.pow_succ_r'. rewrite N.mul_assoc. apply N.mul_le_mono_r.
    specialize (H c (or_introl eq_refl)). nia.
Qed.

Lemma scan_hex_run : forall b ds len p r, (forall i c, nth_error ds i = Some c -> byte_at b (p + i) = Some c) -> Forall hexadecimal ds ->
  (List.length ds <= len)%nat -> (List.length ds = len \/ exists c, byte_at b (p + List.length ds) = Some c /\ ~ hexadecimal c) ->
  exists v, scan_hex_loop b len p r = (v, (p + List.length ds)%nat) /\
    ((r + 1) * 16 ^ N.of_nat (List.length ds) <= 2 ^ 64 -> v = fold_left (fun a c => a * 16 + hex_digit c) ds r).
Proof.
  intros b ds. induction ds as [|x ds IH]; intros len p r HT HF HL HE; cbn [List.length] in *.
  - exists r. split; [|reflexivity]. rewrite Nat.add_0_r. destruct HE as [<-|(c & E1 & E2)]; [reflexivity|].
    destruct len; [reflexivity|]. cbn [scan_hex_loop]. rewrite Nat.add_0_r in E1. rewrite E1, hex_value_none by exact E2. reflexivity.
  - destruct len as [|len]; [lia|]. inversion HF as [|? ? F1 F2]; subst. destruct (hex_value_iff x F1) as (V1 & V2).
    cbn [scan_hex_loop]. pose proof (HT O x eq_refl) as T0. rewrite Nat.add_0_r in T0. rewrite T0, V1.
    edestruct (IH len (p + 1)%nat (N.lor (wrap64 (N.shiftl r 4)) (hex_digit x))) as (v & G1 & G2); auto; [|lia| |].
    + intros i c Hi. replace (p + 1 + i)%nat with (p + S i)%nat by lia. apply HT. exact Hi.
    + destruct HE as [HE|HE]; [left; lia|right]. replace (p + 1 + List.length ds)%nat with (p + S (List.length ds))%nat by lia. exact HE.
    + exists v. split. { rewrite G1. f_equal. lia. }
      intros Hr. cbn [fold_left]. rewrite Nat2N.inj_succ, N.pow_succ_r' in Hr.
      assert (H16 : (r + 1) * 16 <= 2 ^ 64). { eapply N.le_trans; [|exact Hr]. rewrite N.mul_assoc. rewrite <- (N.mul_1_r ((r + 1) * 16)) at 1. apply N.mul_le_mono_l. pose proof (N.pow_nonzero 16 (N.of_nat (List.length ds))). lia. }
      assert (EX : N.lor (wrap64 (N.shiftl r 4)) (hex_digit x) = r * 16 + hex_digit x).
      { unfold wrap64. rewrite N.mod_small; [apply (lor_shift r 4); exact V2|]. rewrite N.shiftl_mul_pow2. change (2 ^ 4) with 16. lia. }
      rewrite EX in G2. apply G2. eapply N.le_trans; [|exact Hr]. rewrite N.mul_assoc. apply N.mul_le_mono_r. lia.
Qed.

Lemma scan_hex_ok : forall b ds len p, (forall i c, nth_error ds i = Some c -> byte_at b (p + i) = Some c) -> Forall hexadecimal ds ->
  (List.length ds <= len)%nat -> (List.length ds = len \/ exists c, byte_at b (p + List.length ds) = Some c /\ ~ hexadecimal c) ->
  exists v, scan_hex b p len = (v, List.length ds) /\ ((List.length ds <= 15)%nat -> v = hex_number ds).
Proof.
  intros b ds len p HT HF HL HE. destruct (scan_hex_run b ds len p 0 HT HF HL HE) as (v & G1 & G2). exists v. split.
  - unfold scan_hex. rewrite G1. f_equal. lia.
  - intros H15. apply G2. rewrite N.add_0_l, N.mul_1_l. change (2 ^ 64) with (16 ^ 16). apply N.pow_le_mono_r; lia.
Qed.

Lemma hex_number_bound : forall ds, Forall hexadecimal ds -> hex_number ds < 16 ^ N.of_nat (List.length ds).
Proof.
  intros ds HF. unfold hex_number, number. eapply N.lt_le_trans; [apply fold_bound; [|reflexivity]|lia].
  intros c Hc. rewrite Forall_forall in HF. apply hex_value_iff. auto.
Qed.

Lemma scan_oct_run : forall b ds len p r, (forall i c, nth_error ds i = Some c -> byte_at b (p + i) = Some c) -> Forall octal ds ->
  (List.length ds <= len)%nat -> (List.length ds = len \/ exists c, byte_at b (p + List.length ds) = Some c /\ ~ octal c) ->
  (r + 1) * 8 ^ N.of_nat (List.length ds) <= 2 ^ 64 ->
  scan_oct_loop b len p r = (fold_left (fun a c => a * 8 + (c - 48)) ds r, (p + List.length ds)%nat).
Proof.
  intros b ds. induction ds as [|x ds IH]; intros len p r HT HF HL HE Hr; cbn [List.length] in *.
  - rewrite Nat.add_0_r. destruct HE as [<-|(c & E1 & E2)]; [reflexivity|].
    destruct len; [reflexivity|]. cbn [scan_oct_loop]. rewrite Nat.add_0_r in E1. rewrite E1. unfold octal in E2. unfold in_range.
    change "0"%bn with 48. change "7"%bn with 55. replace ((48 <=? c) && (c <=? 55)) with false by lia. reflexivity.
  - destruct len as [|len]; [lia|]. inversion HF as [|? ? F1 F2]; subst. unfold octal in F1.
    cbn [scan_oct_loop]. pose proof (HT O x eq_refl) as T0. rewrite Nat.add_0_r in T0. rewrite T0. unfold in_range at 1.
    change "0"%bn with 48. change "7"%bn with 55. replace ((48 <=? x) && (x <=? 55)) with true by lia.
    rewrite Nat2N.inj_succ, N.pow_succ_r' in Hr.
    assert (H16 : (r + 1) * 8 <= 2 ^ 64). { eapply N.le_trans; [|exact Hr]. rewrite N.mul_assoc. rewrite <- (N.mul_1_r ((r + 1) * 8)) at 1. apply N.mul_le_mono_l. pose proof (N.pow_nonzero 8 (N.of_nat (List.length ds))). lia. }
    assert (EX : N.lor (wrap64 (N.shiftl r 3)) (x - 48) = r * 8 + (x - 48)).
    { unfold wrap64. rewrite N.mod_small; [apply (lor_shift r 3); change (2 ^ 3) with 8; lia|]. rewrite N.shiftl_mul_pow2. change (2 ^ 3) with 8. lia. }
    rewrite EX. rewrite (IH len (p + 1)%nat); auto; [| |lia| |].
    + cbn [fold_left]. f_equal. lia.
    + intros i c Hi. replace (p + 1 + i)%nat with (p + S i)%nat by lia. apply HT. exact Hi.
    + destruct HE as [HE|HE]; [left; lia|right]. replace (p + 1 + List.length ds)%nat with (p + S (List.length ds))%nat by lia. exact HE.
    + eapply N.le_trans; [|exact Hr]. rewrite N.mul_assoc. apply N.mul_le_mono_r. lia.
Qed.

Lemma scan_oct_ok : forall b ds p, (forall i c, nth_error ds i = Some c -> byte_at b (p + i) = Some c) -> Forall octal ds ->
  (List.length ds <= 3)%nat -> (List.length ds = 3%nat \/ exists c, byte_at b (p + List.length ds) = Some c /\ ~ octal c) ->
  scan_oct b p 3 = (octal_value ds, List.length ds).
Proof.
  intros b ds p HT HF HL HE. unfold scan_oct. rewrite (scan_oct_run b ds 3 p 0); auto.
  - f_equal. lia.
  - rewrite N.add_0_l, N.mul_1_l. eapply N.le_trans; [apply N.pow_le_mono_r with (c := 3); lia|]. discriminate.
Qed.


(** ** Code points *)
Lemma surrogate_bits : forall u, u < 4294967296 -> N.eqb (N.land u 4294965248) 55296 = (55296 <=? u) && (u <=? 57343).
Proof.
  intros u Hu.
  assert (E : N.land u 4294965248 = u / 2048 * 2048).
  { change 2048 with (2 ^ 11). rewrite <- N.shiftl_mul_pow2, <- N.shiftr_div_pow2, <- N.ldiff_ones_r.
    apply N.bits_inj. intro n. rewrite N.land_spec, N.ldiff_spec. change 4294965248 with (N.ldiff (N.ones 32) (N.ones 11)). rewrite N.ldiff_spec.
    destruct (N.lt_ge_cases n 32) as [C|C].
    - rewrite N.ones_spec_low by exact C. reflexivity.
    - replace (N.testbit u n) with false; [reflexivity|]. symmetry. destruct (N.eq_dec u 0) as [->|E]; [apply N.bits_0|].
      apply N.bits_above_log2. eapply N.lt_le_trans; [|exact C]. apply N.log2_lt_pow2; [lia|exact Hu]. }
  rewrite E. pose proof (N.div_mod u 2048). pose proof (N.mod_lt u 2048).
  destruct (N.eqb_spec (u / 2048 * 2048) 55296); lia.
Qed.

Lemma utf8_same : forall u, utf8_encode u = utf8 u.
Proof. reflexivity. Qed.

Lemma scalar_from : forall u, scalar u -> from_u32 u = Some u.
Proof.
  intros u H. unfold scalar in H. unfold from_u32, in_range. replace ((u <=? 1114111) && negb ((55296 <=? u) && (u <=? 57343))) with true by lia. reflexivity.
Qed.
