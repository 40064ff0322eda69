(** * A line of the text of a heredoc with interpolation, without escapes and interpolation *)
Require Import Verif.Base Verif.MaybeByteM Verif.Utf8M Verif.InputM Verif.DiagnosticM Verif.TokensM Verif.BufferM Verif.LexStateM
  Verif.LexerM Verif.LexStringM Verif.LexIdentM Verif.LexHeredocM Verif.LexMainM
  Verif.SourceSpec Verif.SourceProofs Verif.Wp Verif.BufInv Verif.LexSpec Verif.NewlineInv Verif.MainInv
  Verif.ReadSpec Verif.YylexSpec Verif.Reach Verif.NumRead Verif.IdentRead Verif.IdentStep Verif.Prop_Ident Verif.Prop_Crlf
  Verif.StringSpec Verif.StrRead Verif.StrStep Verif.StrOpen Verif.HereSpec Verif.HereStep.
Require Import ZifyBool ZifyNat ZifyN.

(** ** Indentation *)
Definition upd (x y : Z) (b : Buffer) : Buffer := set_heredoc_indent x (set_heredoc_line_indent y b).

Lemma width_from_ge : forall l n, (0 <= n)%Z -> (0 <= width_from n l)%Z.
Proof.
  induction l as [|c l IH]; intros n Hn; [exact Hn|]. cbn [width_from].
  assert (H1 : (0 <= n + 1)%Z) by lia. assert (H2 : (0 <= 8 * (n / 8 + 1))%Z) by (pose proof (Z.div_pos n 8 Hn ltac:(lia)); lia).
  pose proof (IH _ H1). pose proof (IH _ H2). destruct c as [|p]; auto. do 6 (destruct p as [p|p|]; auto).
Qed.

Lemma width_other : forall x l n, x <> 32%N -> x <> 9%N -> width_from n (x :: l) = n /\ is_blank (x :: l) = false.
Proof.
  intros [|p] l n H1 H2; [split; reflexivity|]. cbn. do 6 (try (destruct p as [p|p|]; try (split; reflexivity))); congruence.
Qed.

(** The two counters after a character *)
Definition step_mw (x : N) (a : Z * Z) : Z * Z :=
  let '(m, w) := a in
  if (0 <? m)%Z then
    if (w =? -1)%Z then (m, if N.eqb x 10 then 0 else w)%Z
    else if N.eqb x 32 then (m, w + 1)%Z
    else if N.eqb x 9 then (m, 8 * (Z.quot w 8 + 1))%Z
    else if N.eqb x 10 then (m, w)
    else (Z.min m w, -1)%Z
  else (m, w).
Definition fold_mw (l : list N) (a : Z * Z) : Z * Z := fold_left (fun a x => step_mw x a) l a.

Lemma step_quiet : forall l m w, (m <= 0)%Z -> fold_mw l (m, w) = (m, w).
Proof. induction l as [|x l IH]; intros m w Hm; [reflexivity|]. unfold fold_mw. cbn [fold_left]. unfold step_mw at 2. replace (0 <? m)%Z with false by lia. apply IH. exact Hm. Qed.

Lemma step_behind : forall l m, ~ In 10%N l -> fold_mw l (m, (-1)%Z) = (m, (-1)%Z).
Proof.
  induction l as [|x l IH]; intros m Hn; [reflexivity|]. unfold fold_mw. cbn [fold_left]. unfold step_mw at 2.
  replace (N.eqb x 10) with false by (symmetry; apply N.eqb_neq; intros ->; apply Hn; left; reflexivity).
  destruct (0 <? m)%Z; apply IH; intros K; apply Hn; right; exact K.
Qed.

(** A whole line *)
Lemma fold_line : forall l m w, ~ In 10%N l -> (0 < m)%Z -> (0 <= w)%Z ->
  exists w', fold_mw (l ++ [10%N]) (m, w) = (if is_blank l then m else Z.min m (width_from w l), w') /\
    (is_blank l = false -> 0 < Z.min m (width_from w l) -> w' = 0)%Z /\ (l = [] -> w' = w).
Proof.
  induction l as [|x l IH]; intros m w Hn Hm Hw.
  - exists w. cbn. unfold step_mw. replace (0 <? m)%Z with true by lia. replace (w =? -1)%Z with false by lia. splits; auto; discriminate.
  - assert (Hn' : ~ In 10%N l) by (intros K; apply Hn; right; exact K). assert (Hx : x <> 10%N) by (intros ->; apply Hn; left; reflexivity).
    cbn [app]. unfold fold_mw. cbn [fold_left]. fold (fold_mw (l ++ [10%N]) (step_mw x (m, w))). unfold step_mw.
    replace (0 <? m)%Z with true by lia. replace (w =? -1)%Z with false by lia.
    destruct (N.eqb_spec x 32) as [->|N32]. { destruct (IH m (w + 1)%Z) as (w' & E1 & E2 & _); auto; [lia|]. exists w'. splits; auto. discriminate. }
    destruct (N.eqb_spec x 9) as [->|N9].
    { assert (Hw' : (0 <= 8 * (Z.quot w 8 + 1))%Z) by (pose proof (Z.quot_pos w 8 Hw ltac:(lia)); lia).
      destruct (IH m (8 * (Z.quot w 8 + 1))%Z) as (w' & E1 & E2 & _); auto. exists w'. cbn [is_blank width_from]. rewrite <- Z.quot_div_nonneg by lia. splits; auto. discriminate. }
    replace (N.eqb x 10) with false by (symmetry; apply N.eqb_neq; exact Hx).
    destruct (width_other x l w N32 N9) as (E1 & E2). rewrite E1, E2.
    unfold fold_mw. rewrite fold_left_app. fold (fold_mw l (Z.min m w, (-1)%Z)). rewrite step_behind by exact Hn'. cbn [fold_left]. unfold step_mw.
    destruct (0 <? Z.min m w)%Z eqn:Em; cbn.
    + exists 0%Z. splits; auto. discriminate.
    + exists (-1)%Z. splits; auto; [lia|discriminate].
Qed.

Lemma upd_upd : forall x y x' y' b, upd x y (upd x' y' b) = upd x y b.
Proof. reflexivity. Qed.
Lemma upd_same : forall b, b = upd (heredoc_indent b) (heredoc_line_indent b) b.
Proof. intros []. reflexivity. Qed.

Lemma indent_step : forall x m w p b, (if (0 <? m)%Z then b_update_heredoc_indent (Some x) (set_pcur p (upd m w b)) else set_pcur p (upd m w b)) =
  set_pcur p (let '(m', w') := step_mw x (m, w) in upd m' w' b).
Proof.
  intros x m w p b. unfold step_mw. destruct (0 <? m)%Z eqn:Em; [|reflexivity]. unfold b_update_heredoc_indent, TAB_WIDTH. cbn [upd heredoc_line_indent heredoc_indent set_pcur set_heredoc_indent set_heredoc_line_indent mbeq].
  destruct (w =? -1)%Z eqn:Ew. { assert (w = -1)%Z as -> by lia. destruct (N.eqb x 10); reflexivity. }
  destruct (N.eqb x 32); [reflexivity|]. destruct (N.eqb x 9); [rewrite Z.mul_comm; reflexivity|]. destruct (N.eqb x 10); [reflexivity|]. cbn [negb].
  destruct (w <? m)%Z eqn:El; [replace (Z.min m w) with w by lia|replace (Z.min m w) with m by lia]; reflexivity.
Qed.

Lemma ready_upd : forall B b x y, Ready B b -> Ready B (upd x y b).
Proof. intros B b x y (W & N0 & E0). split; [|split; auto]. destruct W. constructor; auto. Qed.

Section Text.
  Variables (B : list N) (e : Env) (func : N) (s0 : Lexer).
  Hypothesis Hexp : has func STR_FUNC_EXPAND = true.
  Hypothesis Hqw : has func STR_FUNC_QWORDS = false.

  Definition St (t : list N) (b : Buffer) : Lexer := set_tokenbuf t (set_buffer b s0).

  Lemma wp_ind : forall x m w p b t (Q : unit -> Lexer -> Prop), Q tt (St t (set_pcur p (let '(m', w') := step_mw x (m, w) in upd m' w' b))) ->
    wp e (when (0 <? m)%Z (update_heredoc_indent (Some x))) Q (St t (set_pcur p (upd m w b))).
  Proof using.
    intros x m w p b t Q HQ. rewrite <- indent_step in HQ. destruct (0 <? m)%Z; cbn [when]; [|ws; exact HQ]. unfold update_heredoc_indent. repeat ws. exact HQ.
  Qed.

  Lemma text_line : forall l n t m w b p (Q : option MaybeByte * nat -> Lexer -> Prop), Ready B b -> text_at B p (l ++ [10%N]) -> plain_line l -> expand_line l ->
    p + List.length l < pend b -> (p <= pbeg b \/ nth_error B (p - 1) <> Some 13%N) -> List.length l < n ->
    Q (Some (Some 10%N), 0) (St (t ++ l) (set_pcur (p + List.length l) (let '(m', w') := fold_mw (l ++ [10%N]) (m, w) in upd m' w' b))) ->
    wp e (loop_n n (ts_body func 10 None) 0) Q (St t (set_pcur p (upd m w b))).
  Proof using All.
    induction l as [|x l IH]; intros n t m w b p Q HR HT (H10 & H13) (H92 & HI) HP HB Hn HQ.
    all: destruct n as [|n]; [cbn in Hn; lia|]; cbn [loop_n]; ws; unfold ts_body at 1; ws; cbn [app] in HT; apply text_at_cons in HT; destruct HT as (T1 & T2).
    - cbn [List.length] in *. rewrite Nat.add_0_r in HQ, HP.
      eapply (wp_nx B e (upd m w b) (ready_upd B b m w HR) _ p 10%N); [reflexivity|exact HP|exact T1|discriminate|]. cbn [is_eof]. ws. ws. ws.
      change (heredoc_indent (buffer (set_buffer (set_pcur (p + 1) (upd m w b)) (St t (set_pcur p (upd m w b)))))) with m.
      change (set_buffer (set_pcur (p + 1) (upd m w b)) (St t (set_pcur p (upd m w b)))) with (St t (set_pcur (p + 1) (upd m w b))).
      apply wp_ind. change (fold_mw ([] ++ [10%N]) (m, w)) with (step_mw 10 (m, w)) in HQ. destruct (step_mw 10 (m, w)) as (m', w'). ws. ws.
      cbn [mbeq_opt mbeq]. change (N.eqb 10 10) with true. cbn [Nat.eqb]. ws. apply wp_push; [intros _; cbn; lia|]. ws.
      rewrite app_nil_r in HQ.
      match goal with |- wp e _ _ ?s => replace s with (St t (set_pcur p (upd m' w' b))); [ws; exact HQ|] end.
      change (buffer (St t (set_pcur (p + 1) (upd m' w' b)))) with (set_pcur (p + 1) (upd m' w' b)). unfold back. cbn [pcur set_pcur pbeg upd set_heredoc_indent set_heredoc_line_indent].
      replace (p + 1 - 1) with p by lia. unfold byte_at. cbn [input set_pcur upd set_heredoc_indent set_heredoc_line_indent]. rewrite !(rd_at B b HR), T1.
      replace ((pbeg b <? p) && mbeq (Some 10%N) 10%N && mbeq (nth_error B (p - 1)) 13%N) with false; [reflexivity|]. symmetry. apply not_true_is_false. intros K.
      apply andb_prop in K. destruct K as (K & K3). apply andb_prop in K. destruct K as (K1 & _). rewrite mbeq_iff in K3. destruct HB as [HB|HB]; [lia|contradiction].
    - cbn [List.length] in *. cbn [In] in H10, H13, H92. assert (Nx : x <> 10%N /\ x <> 13%N /\ x <> 92%N) by (splits; intros ->; tauto). destruct Nx as (N10 & N13 & N92).
      eapply (wp_nx B e (upd m w b) (ready_upd B b m w HR) _ p x); [reflexivity|cbn; lia|exact T1|exact N13|]. cbn [is_eof]. ws. ws. ws.
      change (heredoc_indent (buffer (set_buffer (set_pcur (p + 1) (upd m w b)) (St t (set_pcur p (upd m w b)))))) with m.
      change (set_buffer (set_pcur (p + 1) (upd m w b)) (St t (set_pcur p (upd m w b)))) with (St t (set_pcur (p + 1) (upd m w b))).
      apply wp_ind. unfold fold_mw in HQ. cbn [app fold_left] in HQ. destruct (step_mw x (m, w)) as (m', w'). ws. ws.
      cbn [mbeq_opt mbeq]. replace (N.eqb x 10) with false by (symmetry; apply N.eqb_neq; exact N10). rewrite Hexp, Hqw. cbn [andb].
      change (pcur (buffer (St t (set_pcur (p + 1) (upd m' w' b))))) with (p + 1). change (pend (buffer (St t (set_pcur (p + 1) (upd m' w' b))))) with (pend b).
      assert (HNext : wp e (loop_n n (ts_body func 10 None) 0) Q (St (t ++ [x]) (set_pcur (p + 1) (upd m' w' b)))).
      { apply IH; auto.
        - split; tauto.
        - split; [tauto|]. intros u y v E. apply (HI (x :: u) y v). rewrite E. reflexivity.
        - lia.
        - right. replace (p + 1 - 1) with p by lia. rewrite T1. congruence.
        - lia.
        - rewrite <- app_assoc. cbn [app]. replace (p + 1 + List.length l) with (p + S (List.length l)) by lia. exact HQ. }
      assert (HAdd : wp e (tokadd_mb (Some x) ;;; ret (inl 0)) (fun r s' => wp e (match r with inl n0 => loop_n n (ts_body func 10 None) n0 | inr r0 => ret r0 end) Q s') (St t (set_pcur (p + 1) (upd m' w' b)))).
      { repeat ws. exact HNext. }
      replace (p + 1 <? pend b) with true by lia. rewrite andb_true_r.
      change (N.eqb x 35) with (mbeq (Some x) "#"). destruct (mbeq (Some x) "#") eqn:E35.
      + ws. ws. assert (Ex : x = 35%N) by (rewrite mbeq_iff in E35; congruence).
        unfold char_at. change (pcur (buffer (St t (set_pcur (p + 1) (upd m' w' b))))) with (p + 1). unfold byte_at. cbn [buffer St set_tokenbuf set_buffer input set_pcur upd set_heredoc_indent set_heredoc_line_indent].
        rewrite !(rd_at B b HR).
        assert (HNx : exists y, nth_error B (p + 1) = Some y /\ y <> 36%N /\ y <> 64%N /\ y <> 123%N).
        { destruct l as [|y l].
          - apply text_at_cons in T2. exists 10%N. split; [apply T2|]. splits; discriminate.
          - apply text_at_cons in T2. exists y. split; [apply T2|]. apply (HI [] y l). rewrite Ex. reflexivity. }
        destruct HNx as (y & -> & Y1 & Y2 & Y3). cbn [mbeq].
        replace (N.eqb y "$"%bn) with false by (symmetry; apply N.eqb_neq; exact Y1). replace (N.eqb y "@"%bn) with false by (symmetry; apply N.eqb_neq; exact Y2). replace (N.eqb y "{"%bn) with false by (symmetry; apply N.eqb_neq; exact Y3).
        cbn [orb]. exact HAdd.
      + replace (N.eqb x "\"%bn) with false by (symmetry; apply N.eqb_neq; exact N92). ws. unfold is_ascii_cur. ws. ws. ws.
        change (pcur (buffer (St t (set_pcur (p + 1) (upd m' w' b))))) with (p + 1). apply wp_sub_ck; [lia|]. ws. destruct (negb (is_ascii _)); exact HAdd.
  Qed.
End Text.
