(** * The grammar of MagicSpec misses no plain comment *)
Require Import Verif.Base Verif.MaybeByteM Verif.InputM Verif.LexerM Verif.LexMagicM Verif.Wp Verif.MagicSpec Verif.MagicRun Verif.MagicStep.
Require Import ZifyBool ZifyNat ZifyN.

(** Bytes below 128 without double quotes that name no encoding *)
Definition simple (w : list N) : Prop := Forall (fun c => c < 128 /\ c <> 34)%N w /\ forall u key v, w = u ++ key ++ v -> ~ means key MC_Encoding.

Lemma simple_app : forall a b, simple (a ++ b) -> simple a /\ simple b.
Proof.
  intros a b (H1 & H2). apply Forall_app in H1. destruct H1 as (Ha & Hb). split; (split; [assumption|]); intros u key v E.
  - apply (H2 u key (v ++ b)). rewrite E, <- !app_assoc. reflexivity.
  - apply (H2 (a ++ u) key v). rewrite E, <- !app_assoc. reflexivity.
Qed.

Lemma simple_key : forall key, simple key -> ~ means key MC_Encoding.
Proof. intros key (_ & H). apply (H [] key []). rewrite app_nil_r. reflexivity. Qed.

Lemma span : forall (f : N -> bool) w, exists a b, w = a ++ b /\ Forall (fun c => f c = true) a /\ (b = [] \/ exists c r, b = c :: r /\ f c = false).
Proof.
  intros f w. induction w as [|x w (a & b & -> & Ha & Hb)]; [exists [], []; auto|].
  destruct (f x) eqn:E; [exists (x :: a), b; auto|]. exists [], (x :: a ++ b). splits; auto. right. eauto.
Qed.

Lemma recorded_total : forall key kp val vp, simple key -> exists ms, recorded key kp val vp ms.
Proof.
  intros key kp val vp HS. destruct (in_dec (list_eq_dec N.eq_dec) (dash_to_underscore key) (map fst meanings)) as [A|A].
  - apply in_map_iff in A. destruct A as ((name & kind) & E & A). cbn in E. eexists. apply (rc_known key kp val vp kind).
    + exists name. split; auto. rewrite E. apply dash_spelled.
    + intros ->. exfalso. apply (simple_key key HS). exists name. split; auto. rewrite E. apply dash_spelled.
  - exists []. apply rc_unknown.
    + intros kind (name & I & F). apply A. rewrite (spelled_dash key name F) by apply (names_fine name kind I). apply (in_map fst _ _ I).
    + destruct HS as (HS & _). eapply Forall_impl; [|exact HS]. intros c (H & _). exact H.
Qed.

(** Up to the first byte behind the first word *)
Lemma head_split : forall w, Forall junk w \/ exists j word s rest, w = j ++ word ++ s ++ rest /\ Forall junk j /\ word <> [] /\ Forall plain_char word /\ Forall sp_char s /\
  (rest = [] \/ exists c r, rest = c :: r /\ ~ sp_char c /\ (s = [] -> mark c)).
Proof.
  intros w. destruct (span (fun c => mc_special (Some c) || is_space (Some c)) w) as (j & w1 & -> & Hj & H1).
  assert (HJ : Forall junk j) by (eapply Forall_impl; [|exact Hj]; intros c A; apply junk_iff, A).
  destruct H1 as [->|(x & r1 & -> & Hx)]; [left; rewrite app_nil_r; auto|right].
  destruct (span (fun c => negb (mc_special (Some c) || is_space (Some c))) r1) as (wd & w2 & -> & Hw & H2).
  destruct (span (fun c => is_space (Some c)) w2) as (s & rest & -> & Hs & H3).
  exists j, (x :: wd), s, rest. splits; auto; try discriminate.
  - constructor; [apply plain_iff, Hx|]. eapply Forall_impl; [|exact Hw]. intros c A. apply plain_iff. apply negb_true_iff, A.
  - eapply Forall_impl; [|exact Hs]. intros c A. apply sp_char_iff, A.
  - destruct H3 as [->|(c & r & -> & Hc)]; auto. right. exists c, r. splits; auto.
    + rewrite sp_char_iff. congruence.
    + intros ->. destruct H2 as [A|(d & r' & A & Hd)]; [discriminate|]. injection A as <- <-. apply mark_iff. rewrite Hc, orb_false_r in Hd. apply negb_false_iff, Hd.
Qed.

(** The value *)
Lemma value_split : forall c r, ~ sp_char c -> simple (c :: r) -> exists text rest, c :: r = text ++ rest /\ value text 0 text /\ (rest = [] \/ starts_with sep rest) /\ (text = [] -> starts_with (fun c => c = 59%N) rest).
Proof.
  intros c r Hc (HS & _). destruct (span (fun c => negb (mbeq (Some c) """") && negb (mbeq (Some c) ";") && negb (is_space (Some c))) (c :: r)) as (text & rest & E & Ht & Hr).
  assert (HR : rest = [] \/ starts_with sep rest).
  { destruct Hr as [->|(d & r' & -> & Hd)]; auto. right. exists d, r'. split; auto. apply sep_iff.
    rewrite E in HS. apply Forall_app in HS. destruct HS as (_ & HS). inversion HS as [|? ? (A1 & A2)]; subst.
    unfold mbeq in *. destruct (is_space (Some d)); lia. }
  exists text, rest. splits; auto.
  - destruct text as [|x text]; [apply vl_none|]. apply vl_bare. split; [discriminate|]. eapply Forall_impl; [|exact Ht]. intros d A. cbv beta in A. rewrite sp_char_iff. unfold mbeq in A. destruct (is_space (Some d)); lia.
  - intros ->. cbn in E. subst rest. destruct HR as [A|(d & r' & A & Hd)]; [discriminate|]. injection A as <- <-. exists c, r. split; auto. destruct Hd; tauto.
Qed.

Lemma sp_span : forall w, exists s rest, w = s ++ rest /\ Forall sp_char s /\ (rest = [] \/ exists c r, rest = c :: r /\ ~ sp_char c).
Proof.
  intros w. destruct (span (fun c => is_space (Some c)) w) as (s & rest & -> & Hs & H). exists s, rest. splits; auto.
  - eapply Forall_impl; [|exact Hs]. intros c A. apply sp_char_iff, A.
  - destruct H as [->|(c & r & -> & Hc)]; auto. right. exists c, r. split; auto. rewrite sp_char_iff. congruence.
Qed.

Lemma plain_total : forall p w, simple w -> prose w \/ exists ms, plain_note p w ms.
Proof.
  intros p w HS. destruct (head_split w) as [HJ|(j & word & s & rest & -> & HJ & Hw & HF & Hs & HR)]; [left; constructor; auto|].
  destruct HR as [->|(c & r & -> & Hc & Hm)]; [left; rewrite app_nil_r; apply pr_end; auto|].
  destruct (N.eq_dec c 58) as [->|Hc2]; [|left; apply pr_word; auto].
  apply simple_app in HS. destruct HS as (_ & HS). apply simple_app in HS. destruct HS as (HSk & HS). apply simple_app in HS. destruct HS as (_ & HS). apply (simple_app [58%N]) in HS. destruct HS as (_ & HS).
  destruct (sp_span r) as (s3 & r3 & -> & H3 & HR3). destruct HR3 as [->|(d & r4 & -> & Hd)]; [left; rewrite app_nil_r; apply pr_novalue; auto|].
  apply simple_app in HS. destruct HS as (_ & HS). destruct (value_split d r4 Hd HS) as (text & rest & -> & HV & HRs & H59).
  destruct (sp_span rest) as (s4 & r5 & -> & H4 & HR5). destruct HR5 as [->|(x & r6 & -> & Hx)].
  - right. rewrite app_nil_r in *. destruct (recorded_total word (p + List.length j) text (p + List.length j + List.length word + List.length s + 1 + List.length s3 + 0) HSk) as (ms & HM).
    exists ms. apply (pn_one p j word s s3 text 0 text s4 ms); auto. intros E. destruct (H59 E) as (y & r' & -> & ->). inversion H4 as [|? ? A]; subst. unfold sp_char in A. lia.
  - left. apply (pr_more j word s s3 text 0 text s4 x r6); auto.
    + intros E. destruct (H59 E) as (y & r' & A & ->). destruct s4 as [|z s4]; [injection A as -> _; auto|]. injection A as -> _. inversion H4 as [|? ? A]; subst. unfold sp_char in A. lia.
    + intros _ ->. right. destruct HRs as [A|(y & r' & A & Hy)]; [discriminate|]. injection A as <- <-. destruct Hy; tauto.
Qed.

Lemma entries_total : forall n p w, List.length w <= n -> simple w -> exists ms, entries p w ms.
Proof.
  induction n as [|n IH]; intros p w Hn HS.
  { destruct w; [|cbn in Hn; lia]. exists []. apply en_none. constructor. }
  destruct (head_split w) as [HJ|(j & word & s & rest & -> & HJ & Hw & HF & Hs & HR)]; [exists []; apply en_none; auto|].
  assert (Hw1 : 1 <= List.length word) by (destruct word; [congruence|cbn; lia]). rewrite !app_length in Hn.
  apply simple_app in HS. destruct HS as (_ & HS). apply simple_app in HS. destruct HS as (HSk & HS). apply simple_app in HS. destruct HS as (_ & HS).
  assert (HE : rest = [] \/ starts_with (fun c => ~ sp_char c /\ c <> 58%N) rest -> exists ms, entries p (j ++ word ++ s ++ rest) ms).
  { intros A. destruct (IH (p + List.length j + List.length word + List.length s) rest) as (ms & HM); [lia|auto|]. exists ms. apply en_word; auto.
    intros E. destruct HR as [->|(c & r & -> & Hc & Hm)]; auto. right. exists c, r. auto. }
  destruct HR as [->|(c & r & -> & Hc & Hm)]; [auto|].
  destruct (N.eq_dec c 58) as [->|Hc2]; [|apply HE; right; exists c, r; auto]. clear HE.
  apply (simple_app [58%N]) in HS. destruct HS as (_ & HS).
  destruct (sp_span r) as (s3 & r3 & -> & H3 & HR3). destruct HR3 as [->|(d & r4 & -> & Hd)]; [exists []; rewrite app_nil_r; apply en_novalue; auto|].
  apply simple_app in HS. destruct HS as (_ & HS). cbn [List.length] in Hn. rewrite app_length in Hn. destruct (value_split d r4 Hd HS) as (text & rest & E & HV & HRs & H59). rewrite E in *.
  destruct (span (fun c => mbeq (Some c) ";" || is_space (Some c)) rest) as (s4 & r5 & -> & Hs4 & HR5). rewrite !app_length in Hn.
  assert (H4 : Forall sep s4) by (eapply Forall_impl; [|exact Hs4]; intros x A; apply sep_iff, A).
  assert (HR5' : r5 = [] \/ starts_with (fun c => ~ sep c) r5).
  { destruct HR5 as [->|(x & r6 & -> & Hx)]; auto. right. exists x, r6. split; auto. rewrite sep_iff. congruence. }
  apply simple_app in HS. destruct HS as (_ & HS). apply simple_app in HS. destruct HS as (_ & HS).
  destruct (recorded_total word (p + List.length j) text (p + List.length j + List.length word + List.length s + 1 + List.length s3 + 0) HSk) as (ms & HM).
  destruct (IH (p + List.length j + List.length word + List.length s + 1 + List.length s3 + List.length text + List.length s4) r5) as (ms' & HM'); [lia|auto|].
  exists (ms ++ ms'). apply (en_entry p j word s s3 text 0 text s4 r5 ms ms'); auto.
  - intros E0. destruct (H59 E0) as (y & r' & A & ->). destruct s4 as [|z s4]; [|injection A as -> _; exists 59%N, s4; auto].
    cbn in A. destruct HR5' as [->|(x & r6 & -> & Hx)]; [discriminate|]. injection A as -> _. exfalso. apply Hx. right. reflexivity.
  - intros _ ->. cbn in HRs. destruct HR5' as [->|(x & r6 & -> & Hx)]; auto. destruct HRs as [A|(y & r' & A & Hy)]; [discriminate|]. injection A as <- <-. contradiction.
Qed.

Lemma marker_split : forall w, no_marker w \/ exists pre rest, w = pre ++ marker ++ rest /\ no_marker (pre ++ bs "-*").
Proof.
  assert (D : forall w : list N, (exists v, w = marker ++ v) \/ forall v, w <> marker ++ v).
  { intros w. destruct (list_eq_dec N.eq_dec (firstn 3 w) marker) as [E|E].
    - left. exists (skipn 3 w). rewrite <- E. symmetry. apply firstn_skipn.
    - right. intros v ->. apply E. reflexivity. }
  induction w as [|c w IH]. { left. intros u v A. destruct u; discriminate. }
  destruct (D (c :: w)) as [(v & E)|HD].
  { right. exists [], v. split; auto. intros u v' A. apply (f_equal (@List.length N)) in A. rewrite !app_length in A. cbn in A. lia. }
  destruct IH as [IH|(pre & rest & -> & IH)].
  - left. intros [|x u] v A; [apply (HD v A)|]. injection A as -> A. apply (IH u v A).
  - right. exists (c :: pre), rest. split; auto. intros [|x u] v A; [|injection A as -> A; apply (IH u v A)].
    apply (HD (v ++ bs "-" ++ rest)). change (c :: pre ++ marker ++ rest) with ((c :: pre) ++ bs "-*" ++ bs "-" ++ rest). rewrite app_assoc, A. rewrite <- app_assoc. reflexivity.
Qed.

Theorem simple_covered : forall p w, simple w -> exists ms, magic_note p w ms.
Proof.
  intros p w HS. destruct (marker_split w) as [HM|(pre & rest & -> & HM)].
  - destruct (plain_total p w HS) as [HP|(ms & HP)]; [exists []; apply mn_prose; auto|exists ms; apply mn_plain; auto].
  - destruct (marker_split rest) as [HM2|(body & post & -> & HM2)]; [exists []; apply mn_open; auto|].
    apply simple_app in HS. destruct HS as (_ & HS). apply simple_app in HS. destruct HS as (_ & HS). apply simple_app in HS. destruct HS as (HS & _).
    destruct (entries_total (List.length body) (p + List.length pre + 3) body (le_n _) HS) as (ms & HE). exists ms. apply mn_marked; auto.
Qed.
