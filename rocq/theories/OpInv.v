(** * Invariant of the operator branches of parser_yylex *)
Require Import Verif.Base Verif.MaybeByteM Verif.Utf8M Verif.InputM Verif.DiagnosticM Verif.LexStateM
  Verif.StackStateM Verif.ScopesM Verif.TokensM Verif.ReservedM Verif.BufferM Verif.LexerM Verif.LexNumericM Verif.LexStringM
  Verif.LexIdentM Verif.LexHeredocM Verif.LexMainM
  Verif.SourceSpec Verif.SourceProofs Verif.Wp Verif.BufInv Verif.LexInv Verif.NumInv Verif.StrInv Verif.TokInv Verif.IdentInv
  Verif.HereInv.
Require Import ZifyBool ZifyNat ZifyN.

Section Op.
  Variables (B : list N) (n0 b0 : nat) (e : Env).
  Hypothesis Hfuel : 4 * List.length B + 20 < fuel e.
  Hypothesis Hb0 : b0 <= 3.

  Notation FR := (FR B).
  Notation FRt := (FRt B).
  Notation FRd := (FRd B).
  Notation Rd := (Rd B n0 b0).
  Notation AR := (AR B n0 b0).
  Notation InTok := (InTok B n0 b0).
  Notation IA := (IA B n0 b0).
  Notation Dn := (Dn B n0 b0).
  Notation Rm := (Rm B).
  Notation gh := (gh B n0 b0).
  Notation NextPost := (NextPost B).

  (** Starting a string literal *)
  Lemma FR_start : forall s0 s func term paren,
    FR (set_strterm (new_strterm func term paren None) s0) s -> FRt s0 s.
  Proof using.
    intros s0 s func term paren (H1 & H2). split; [exact H1|]. right. exists func, term, paren. exact H2.
  Qed.

  Lemma start_strterm_ok : forall func term paren s0 s b (Q : unit -> Lexer -> Prop),
    FR s0 s -> buffer s = b ->
    (forall s', FR (set_strterm (new_strterm func term paren None) s0) s' -> buffer s' = b -> Q tt s') ->
    wp e (start_strterm func term paren) Q s.
  Proof using.
    intros func term paren s0 s b Q (HF & _) Hb HQ. apply wp_modify. apply HQ; auto. split; [exact HF|reflexivity].
  Qed.

  (** What an operator branch guarantees: from the first character of a token at [st] *)
  Definition OpOk (m : M Lexer Step) : Prop :=
    forall s0 s b st mu (Q : Step -> Lexer -> Prop),
      FR s0 s -> buffer s = b -> InTok st mu b -> st < pcur b ->
      (forall t s', FRt s0 s' -> Dn st mu (buffer s') -> Q (Tk t) s') ->
      wp e m Q s.

  Ltac nxo :=
    match goal with
    | HF : LexInv.FR _ _ ?s, Hb : buffer ?s = ?b, HI : LexInv.InTok _ _ _ ?st _ ?b, Hst : ?st < pcur ?b |- wp _ nextc _ ?s =>
        eapply wp_nextc_it; [exact HF|exact Hb|exact HI|exact Hst|];
        clear HF Hb HI Hst;
        let c := fresh "ch" in let b' := fresh "bb" in let s' := fresh "ss" in let HA := fresh "HA" in
        intros c b' s' HF Hb HA; intros _ _ _ _ _ _ _; pose proof (ia_st _ _ _ _ _ _ _ HA) as Hst;
        try clear s; try clear b
    end.

  Ltac pbo :=
    match goal with
    | HF : LexInv.FR _ _ ?s, Hb : buffer ?s = ?b, HA : LexInv.IA _ _ _ ?st _ ?c ?b |- wp _ (pushback ?c) _ ?s =>
        eapply wp_pushback; [exact HF|exact Hb|intros; eapply ia_pos; eauto|];
        clear HF Hb; let s' := fresh "ss" in intros s' HF Hb;
        pose proof (ia_back _ _ _ _ _ _ _ HA) as HI; pose proof (ia_back_st _ _ _ _ _ _ _ HA) as HstB;
        match goal with H : st < pcur b |- _ => clear H end; rename HstB into Hst; clear HA; let x := fresh "bb" in nameb x; try clear s; try clear b
    end.

  Ltac fin :=
    match goal with
    | HF : LexInv.FR _ _ ?s, Hb : buffer ?s = _, HQ : forall t s', _ -> _ -> _ (Tk t) s' |- _ =>
        apply wp_ret; apply HQ; [first [apply FR_FRt; exact HF|eapply FR_start; exact HF]|
          rewrite Hb; first [eapply it_dn; eassumption | eapply ia_dn; eassumption]]
    end.

  Ltac nstep2 := unfold pop_both, push_both, add_paren_nest, add_brace_nest; nstep.

  Ltac op1 :=
    match goal with
    | |- wp _ (bind _ _) _ _ => apply wp_bind
    | |- wp _ (tk _) _ _ => fin
    | |- wp _ (ret (Tk _)) _ _ => fin
    | |- wp _ (op_asgn _) _ _ => unfold op_asgn
    | |- wp _ (as_tk _) _ _ => unfold as_tk
    | |- wp _ nextc _ _ => nxo
    | |- wp _ (pushback _) _ _ => pbo
    | HF : LexInv.FR _ _ ?s, Hb : buffer ?s = _ |- wp _ (start_strterm _ _ _) _ _ =>
        eapply start_strterm_ok; [exact HF|exact Hb|]; clear HF Hb; let s' := fresh "ss" in intros s' HF Hb; try clear s
    | |- wp _ pop_both _ _ => nstep2
    | |- wp _ push_both _ _ => nstep2
    | |- wp _ (add_paren_nest _) _ _ => nstep2
    | |- wp _ (add_brace_nest _) _ _ => nstep2
    | HA : LexInv.IA _ _ _ _ _ ?c ?b |- wp _ (if mbeq ?c ?x then _ else _) _ _ =>
        let E := fresh "E" in destruct (mbeq c x) eqn:E;
        [let HI := fresh "HI" in
         assert (HI : InTok _ _ b) by (eapply ia_it; [exact HA|nonl|nonl]); clear HA E
        |clear E]
    | |- wp _ (let _ := _ in _) _ _ => cbv zeta
    | |- wp _ (match ?x with _ => _ end) _ _ => destruct x
    | _ => nstep
    end.
  Ltac ops := intros s0 s b st mu Q HF Hb HI Hst HQ; repeat op1.

  Lemma lex_star_ok : forall sp ls, OpOk (lex_star sp ls).
  Proof using All. intros sp ls. unfold lex_star. ops. Qed.
  Lemma lex_bang_ok : OpOk lex_bang.
  Proof using All. unfold lex_bang. ops. Qed.

  Lemma lex_gt_ok : OpOk lex_gt.
  Proof using All. unfold lex_gt. ops. Qed.

  Lemma lex_backtick_ok : forall cs, OpOk (lex_backtick cs).
  Proof using All. intros cs. unfold lex_backtick. ops. Qed.

  Lemma lex_amp_ok : forall sp ls, OpOk (lex_amp sp ls).
  Proof using All. intros sp ls. unfold lex_amp. ops. Qed.

  Lemma lex_close_ok : forall x t, OpOk (lex_close x t).
  Proof using All. intros x t. unfold lex_close. ops. Qed.

  Lemma lex_rcurly_ok : OpOk lex_rcurly.
  Proof using All. unfold lex_rcurly. ops. Qed.

  Lemma lex_colon_ok : forall sp ls, OpOk (lex_colon sp ls).
  Proof using All. intros sp ls. unfold lex_colon. ops. Qed.

  Lemma lex_caret_ok : OpOk lex_caret.
  Proof using All. unfold lex_caret. ops. Qed.

  Lemma lex_semi_ok : OpOk lex_semi.
  Proof using All. unfold lex_semi. ops. Qed.

  Lemma lex_comma_ok : OpOk lex_comma.
  Proof using All. unfold lex_comma. ops. Qed.

  Lemma lex_tilde_ok : OpOk lex_tilde.
  Proof using All. unfold lex_tilde. ops. Qed.

  Lemma lex_lparen_ok : forall sp, OpOk (lex_lparen sp).
  Proof using All. intros sp. unfold lex_lparen. ops. Qed.

  Lemma lex_lbrack_ok : forall sp, OpOk (lex_lbrack sp).
  Proof using All. intros sp. unfold lex_lbrack. ops. Qed.

  Lemma lex_lcurly_ok : OpOk lex_lcurly.
  Proof using All. unfold lex_lcurly. ops. Qed.
  Lemma lex_quote_ok : forall f q cs, OpOk (lex_quote f q cs).
  Proof using All.
    intros f q cs. unfold lex_quote. intros s0 s b st mu Q HF Hb HI Hst HQ.
    apply wp_bind. nstep. cbv zeta. apply wp_bind. op1. apply wp_bind. gb. apply wp_bind, wp_sub_ck; [lia|].
    apply wp_bind. mstep. apply wp_ret. apply HQ; [eapply FR_start; exact HF|]. rewrite Hb.
    apply (it_dn B n0 b0 st mu) in HI; auto. eapply dn_ptok; eauto; lia.
  Qed.

  Lemma lex_pipe_ok : forall ls, OpOk (lex_pipe ls).
  Proof using All.
    intros ls. unfold lex_pipe. intros s0 s b st mu Q HF Hb HI Hst HQ.
    apply wp_bind. eapply wp_nextc_it; [exact HF|exact Hb|exact HI|exact Hst|]. clear HF Hb s.
    intros c b1 s HF Hb HA Pb _ _ _ _ _ _. pose proof (ia_st _ _ _ _ _ _ _ HA) as Hst1.
    destruct (mbeq c "|") eqn:E; [|clear E HI Hst Pb; rename Hst1 into Hst; repeat op1].
    assert (HI1 : InTok st mu b1) by (eapply ia_it; [exact HA|nonl|nonl]).
    assert (Hp1 : pcur b1 = pcur b + 1).
    { apply mbeq_iff in E. destruct (ia_some _ _ _ _ _ _ _ HA _ E) as (_ & _ & _ & K & _).
      rewrite K by congruence. lia. }
    clear HA E HI Pb. apply wp_bind. nstep. apply wp_bind.
    eapply wp_nextc_it; [exact HF|exact Hb|exact HI1|exact Hst1|]. clear HF Hb.
    intros c2 b2 s HF Hb HA Pb _ _ _ _ _ _. clear Hst1. pose proof (ia_st _ _ _ _ _ _ _ HA) as Hst2.
    destruct (mbeq c2 "=") eqn:E2; [repeat op1|]. clear E2. apply wp_bind.
    eapply wp_pushback; [exact HF|exact Hb|intros; eapply ia_pos; eauto|]. clear HF Hb. intros s2 HF Hb.
    pose proof (ia_back _ _ _ _ _ _ _ HA) as HI2. pose proof (ia_back_st _ _ _ _ _ _ _ HA) as HstB.
    clear Hst2. destruct (ls_is_some ls EXPR_BEG); [|fin].
    apply wp_bind. eapply wp_pushback; [exact HF|exact Hb|intros; lia|]. clear HF Hb. intros s3 HF Hb.
    destruct (it_push _ _ _ _ _ _ "|"%bn HI2 ltac:(lia)) as (_ & HI3 & P3).
    assert (st < pcur (back (Some "|"%bn) (back c2 b2))) by (rewrite P3; lia). fin.
  Qed.

  Lemma unary_sign_ok : forall sign sp c s0 s b st mu (Q : bool -> Lexer -> Prop),
    FR s0 s -> buffer s = b -> IA st mu c b ->
    (forall r s', FR s0 s' -> buffer s' = b -> Q r s') -> wp e (unary_sign sign c sp) Q s.
  Proof using All.
    intros sign sp c s0 s b st mu Q HF Hb HA HQ. unfold unary_sign. apply wp_bind, wp_get.
    destruct (ls_is_beg (lex_state s)); [apply wp_ret; auto|].
    destruct (ls_is_spacearg (lex_state s) c sp); [|apply wp_ret; auto].
    pose proof (ia_st _ _ _ _ _ _ _ HA). pose proof (ia_ptok _ _ _ _ _ _ _ HA). pose proof (ia_wf _ _ _ _ _ _ _ HA) as HW.
    pose proof (w_pcur2 B b HW). pose proof (pend_le B b HW).
    apply wp_bind. unfold adjust_end_m1, current_loc. rewrite Hb. cbn [loc_begin loc_end].
    apply wp_bind, wp_sub_ck; [lia|]. apply wp_ret. unfold arg_ambiguous.
    eapply (neut_use B e); [|exact HF|exact Hb|].
    - apply neut_bind; [|intros; apply neut_ret].
      apply neut_if; apply neut_emit; cbn [loc_begin loc_end]; lia.
    - intros r s' HF' Hb'. apply HQ; auto.
  Qed.

  Ltac un :=
    match goal with
    | HF : LexInv.FR _ _ ?s, Hb : buffer ?s = _, HA : LexInv.IA _ _ _ _ _ _ _ |- wp _ (unary_sign _ _ _) _ ?s =>
        eapply unary_sign_ok; [exact HF|exact Hb|exact HA|]; clear HF Hb;
        let u := fresh "u" in let s' := fresh "ss" in intros u s' HF Hb; try clear s
    end.

  Lemma lex_plus_ok : forall sp ls, OpOk (lex_plus sp ls).
  Proof using All.
    intros sp ls. unfold lex_plus. ops. un. repeat op1.
    eapply parse_numeric_ok; [exact Hfuel|exact HF|exact Hb|exact HI|exact Hst|auto|].
    intros t s1 HF1 HD. apply wp_ret. apply HQ; auto. apply FR_FRt; auto.
  Qed.

  Lemma lex_minus_ok : forall sp ls, OpOk (lex_minus sp ls).
  Proof using All. intros sp ls. unfold lex_minus. ops. un. repeat op1. Qed.

  Lemma lex_slash_ok : forall sp ls, OpOk (lex_slash sp ls).
  Proof using All.
    intros sp ls. unfold lex_slash. intros s0 s b st mu Q HF Hb HI Hst HQ.
    apply wp_bind. nstep. destruct (ls_is_beg (lex_state a)); [repeat op1|].
    apply wp_bind. op1. op1; [repeat op1|]. do 2 op1. apply wp_bind, wp_get.
    destruct (ls_is_spacearg (lex_state ss0) ch sp); [|repeat op1]. apply wp_bind.
    pose proof (it_wf _ _ _ _ _ _ HI) as HW. pose proof (w_pcur2 B _ HW). pose proof (pend_le B _ HW). pose proof (w_tok B _ HW).
    eapply (neut_use B e); [|exact HF|exact Hb|].
    - unfold arg_ambiguous. apply neut_bind; [|intros; apply neut_ret].
      unfold current_loc. rewrite Hb. apply neut_if; apply neut_emit; cbn [loc_begin loc_end]; lia.
    - clear HF Hb. intros r s3 HF Hb. repeat op1.
  Qed.

  (** Operators that may also continue with the next token *)
  Definition OpOk' (m : M Lexer Step) : Prop :=
    forall s0 s b st mu (Q : Step -> Lexer -> Prop),
      FR s0 s -> buffer s = b -> InTok st mu b -> st < pcur b -> eofp b = false ->
      (forall t s', FRt s0 s' -> Dn st mu (buffer s') -> Q (Tk t) s') ->
      (forall sp s', FR s0 s' -> Dn st mu (buffer s') -> Q (Retry sp) s') ->
      wp e m Q s.

  Lemma lex_backslash_ok : OpOk' lex_backslash.
  Proof using All.
    unfold lex_backslash. intros s0 s b st mu Q HF Hb HI Hst _ HQ HQr.
    apply wp_bind. op1.
    assert (HD : Dn st mu bb) by (eapply ia_dn; eauto).
    destruct (mbeq ch 10%N) eqn:E10; [apply wp_ret; apply HQr; [auto|rewrite Hb; auto]|].
    destruct (mbeq ch 32%N) eqn:E32; [fin|].
    destruct (is_space ch) eqn:Es; [|clear E10 E32 Es; repeat op1].
    destruct (mbeq ch 9%N) eqn:E9; [fin|]. destruct (mbeq ch 12%N) eqn:E12; [fin|].
    destruct (mbeq ch 13%N) eqn:E13; [fin|]. destruct (mbeq ch 11%N) eqn:E11; [fin|].
    exfalso. destruct ch as [x|]; [|discriminate]. clear - E10 E32 Es E9 E12 E13 E11.
    unfold is_space, mb_test, b_is_space, in_range, mbeq in *. lia.
  Qed.

  Lemma decimal_dot_ok : forall s0 s b st mu x (Q : Tok -> Lexer -> Prop),
    FR s0 s -> buffer s = b -> InTok st mu b -> st < pcur b ->
    eofp b = false -> pcur b < pend b -> nth_error B (pcur b) = Some x -> b_is_digit x = true ->
    (forall t s', FR s0 s' -> Dn st mu (buffer s') -> Q t s') ->
    wp e (parse_numeric "."%bn) Q s.
  Proof using All.
    intros s0 s b st mu x Q HF Hb HI Hst He Hp Hx Hd HQ. unfold parse_numeric. apply wp_bind. nstep. apply wp_bind. nstep.
    apply wp_bind. apply wp_ret. change (mbeq (Some "."%bn) "0") with false. cbv iota.
    unfold decimal_loop, loop, wp. pose proof (it_wf _ _ _ _ _ _ HI) as HW.
    pose proof (Rm_fuel B n0 b0 e Hfuel b HW) as HRf. pose proof (Rm_le B b HW) as HRl.
    destruct (fuel e) as [|n] eqn:Ef; [lia|]. match goal with |- context [loop_n _ _ _ e ?z] => change (wp e (loop_n (S n) decimal_body (mkNum (Some "."%bn) None false false false)) Q z) end.
    cbn [loop_n]. apply wp_bind. unfold decimal_body at 1.
    change (is_digit (Some "."%bn)) with false. change (mbeq (Some "."%bn) ".") with true. cbv iota. cbn [orb].
    apply wp_bind. eapply wp_nextc_it; [exact HF|exact Hb|exact HI|exact Hst|].
    clear HF Hb. intros c b1 s3 HF Hb HA Pb _ _ _ _ _ HN.
    assert (x <> 10%N /\ x <> 13%N) as (X1 & X2) by (unfold b_is_digit, in_range in Hd; lia).
    destruct (next_known B n0 b0 e ltac:(lia) b c b1 x HW HN He (it_next _ _ _ _ _ _ HI) Hp Hx X1 X2) as (-> & Hp1).
    change (is_digit (Some x)) with (b_is_digit x). rewrite Hd. cbn [is_eof orb negb].
    assert (HI1 : InTok st mu b1). { eapply ia_it; [exact HA| |]; congruence. }
    assert (HR : Rm b1 < Rm b) by (destruct (n_some _ _ _ _ HN x eq_refl); lia).
    apply wp_bind. nstep. apply wp_bind. cbn [tokadd_mb]. nstep. apply wp_bind.
    eapply wp_nextc_it; [exact HF|exact Hb|exact HI1|lia|].
    clear HF Hb. intros c2 b2 s4 HF Hb HA2 Pb2 _ _ _ _ _ HN2. apply wp_ret.
    destruct (numI_next B n0 b0 e ltac:(lia) _ _ _ _ _ None HI1 ltac:(lia) ltac:(congruence) HN2) as (HNI & _ & HR2).
    eapply decimal_loop_n_ok; [rewrite Ef; exact Hfuel|exact HF|exact Hb|left; exact HNI|lia|exact HQ].
  Qed.

  Lemma lex_dot_ok : forall sp ls, OpOk' (lex_dot sp ls).
  Proof using All.
    intros sp ls. unfold lex_dot. intros s0 s b st mu Q HF Hb HI Hst He HQ HQr.
    apply wp_bind. nstep. cbv zeta. apply wp_bind. nstep. apply wp_bind.
    eapply wp_nextc_it; [exact HF|exact Hb|exact HI|exact Hst|]. clear HF Hb.
    intros c b1 ss1 HF Hb HA Pb Pe _ _ _ _ HN. pose proof (ia_st _ _ _ _ _ _ _ HA) as Hst1.
    destruct (mbeq c ".") eqn:E.
    { assert (HI1 : InTok st mu b1) by (eapply ia_it; [exact HA|nonl|nonl]). clear E HI Hst Pb HA. repeat op1. }
    clear E. apply wp_bind. eapply wp_pushback; [exact HF|exact Hb|intros; eapply ia_pos; eauto|]. clear HF Hb. intros ss2 HF Hb.
    pose proof (ia_back _ _ _ _ _ _ _ HA) as HI2. pose proof (ia_back_st _ _ _ _ _ _ _ HA) as HstB. clear Hst Hst1.
    destruct (negb (is_eof c) && is_digit c) eqn:Ed; [|clear Ed HI HA; repeat op1].
    destruct c as [x|]; [|discriminate]. cbn [is_eof negb andb] in Ed. change (is_digit (Some x)) with (b_is_digit x) in Ed.
    destruct (ia_some _ _ _ _ _ _ _ HA x eq_refl) as (K1 & K2 & K3 & K4 & K5).
    assert (x <> 10%N) as X1 by (unfold b_is_digit, in_range in Ed; lia). specialize (K4 X1).
    pose proof (ia_wf _ _ _ _ _ _ _ HA) as HW1. pose proof (w_pcur2 B b1 HW1) as P2.
    destruct (back_fields (Some x) b1) as (B1 & B2 & B3 & B4 & B5 & B6 & B7).
    apply wp_bind. gb. apply wp_bind, wp_sub_ck; [lia|]. apply wp_bind.
    match goal with |- wp e ?m ?P ss2 => assert (HK : forall prev, P prev ss2) end.
    { intros prev. apply wp_bind. eapply decimal_dot_ok; [exact HF|exact Hb|exact HI2|exact HstB| | | | |].
      - rewrite B7. exact K1.
      - rewrite B4. lia.
      - replace (pcur (back (Some x) b1)) with (pcur b1 - 1) by lia. exact K2.
      - exact Ed.
      - clear HF Hb. intros t s5 HF HD. remember (buffer s5) as b5 eqn:Hb. symmetry in Hb.
        pose proof (dn_wf _ _ _ _ _ _ HD) as HW5. apply wp_bind. nstep. apply wp_bind. nstep. apply wp_bind. mstep. apply wp_ret. apply HQr; [exact HF|].
        rewrite Hb. eapply dn_ptok; eauto. }
    destruct (pbeg (back (Some x) b1) <? pcur (back (Some x) b1) - 1) eqn:Epb.
    - apply wp_bind, wp_sub_ck; [lia|]. apply wp_ret. apply HK.
    - apply wp_ret. apply HK.
  Qed.
  Lemma lex_eq_ok : forall sp s0 s b st mu (Q : Step -> Lexer -> Prop),
    FR s0 s -> buffer s = b -> InTok st mu b -> st < pcur b ->
    (was_bol b = true -> is_word_match b (bs "begin") = true -> wp e (lex_embdoc sp) Q s) ->
    (forall t s', FRt s0 s' -> Dn st mu (buffer s') -> Q (Tk t) s') ->
    wp e (lex_eq sp) Q s.
  Proof using All.
    intros sp s0 s b st mu Q HF Hb HI Hst HE HQ. unfold lex_eq. apply wp_bind. gb.
    destruct (was_bol b && is_word_match b (bs "begin")) eqn:E.
    - apply andb_prop in E. apply HE; apply E.
    - clear E HE. repeat op1.
  Qed.

  Lemma lex_lt_ok : forall sp ls s0 s b st mu (Q : Step -> Lexer -> Prop),
    FR s0 s -> buffer s = b -> InTok st mu b -> pcur b = S st ->
    (forall t s', FRt s0 s' -> Dn st mu (buffer s') -> Q (Tk t) s') ->
    (forall t s', t <> END_OF_INPUT -> HereBeg B n0 b0 mu s0 s' -> Q (Tk t) s') ->
    wp e (lex_lt sp ls) Q s.
  Proof using All.
    intros sp ls s0 s b st mu Q HF Hb HI Hpc HQ HQh. unfold lex_lt. assert (Hst : st < pcur b) by lia.
    apply wp_bind. eapply wp_nextc_it; [exact HF|exact Hb|exact HI|exact Hst|]. clear HF Hb.
    intros c b1 ss1 HF Hb HA Pb Pe _ _ _ _ HN. pose proof (ia_st _ _ _ _ _ _ _ HA) as Hst1.
    apply wp_bind. nstep. cbv zeta. apply wp_bind.
    match goal with |- wp e ?m ?P ?z => assert (HK : forall s' b', FR s0 s' -> buffer s' = b' ->
      (mbeq c "<" = true -> InTok st mu b' /\ st < pcur b') -> (mbeq c "<" = false -> IA st mu c b') -> P None s') end.
    { clear - Hfuel HQ Hb0. intros s b HF Hb H1 H2. cbv beta iota. apply wp_bind. nstep. apply wp_bind.
      match goal with |- wp e ?m ?P ?z => assert (HK : forall s', FR s0 s' -> buffer s' = b -> P tt s') end.
      { clear HF Hb. intros s HF Hb. destruct (mbeq c "=") eqn:E1.
        - assert (HA : IA st mu c b) by (apply H2; clear - E1; apply mbeq_iff in E1; subst; reflexivity). clear H1 H2.
          assert (HI : InTok st mu b) by (eapply ia_it; [exact HA|nonl|nonl]).
          pose proof (ia_st _ _ _ _ _ _ _ HA) as Hst. clear HA E1. repeat op1.
        - destruct (mbeq c "<") eqn:E2.
          + destruct (H1 eq_refl) as (HI & Hst). clear H1 H2 E1 E2. repeat op1.
          + specialize (H2 eq_refl). rename H2 into HA. pose proof (ia_st _ _ _ _ _ _ _ HA) as Hst. clear H1 E1 E2. repeat op1. }
      clear H1 H2. match goal with |- wp _ _ ?P _ => set (PP := P) in * end. clearbody PP.
      eapply (neut_use B e); [|exact HF|exact Hb|].
      - apply neut_if; [neut|]. apply neut_bind; [apply neut_when; neut|intros; neut].
      - intros [] s' HF' Hb'. apply HK; auto. }
    match goal with |- wp e (if ?x then _ else _) _ _ => destruct x eqn:E end.
    - assert (Ec : mbeq c "<" = true) by (destruct (mbeq c "<"); auto; discriminate). clear E.
      assert (HI1 : InTok st mu b1) by (eapply ia_it; [exact HA|nonl|nonl]).
      assert (Hp1 : pcur b1 = st + 2).
      { apply mbeq_iff in Ec. destruct (ia_some _ _ _ _ _ _ _ HA _ Ec) as (_ & _ & _ & K & _).
        rewrite K by congruence. lia. }
      eapply heredoc_identifier_ok; [exact Hfuel|exact Hb0|exact HF|exact Hb|exact HI1|exact Hp1| | |].
      + intros s' b' HF' Hb' HI' Hp'. eapply HK; eauto. intros _; split; auto; lia. rewrite Ec; discriminate.
      + intros s' b' HF' Hb' HD. apply wp_ret. apply HQ; [apply FR_FRt; auto|rewrite Hb'; auto].
      + intros t s' Ht HB. apply wp_ret. apply HQh; auto.
    - apply wp_ret. eapply HK; eauto. intros Ec. split; auto. eapply ia_it; [exact HA|nonl|nonl].
  Qed.
End Op.
