(** * Every row of the operator tables *)
Require Import Verif.Base Verif.MaybeByteM Verif.InputM Verif.DiagnosticM Verif.BufferM Verif.TokensM Verif.LexStateM Verif.LexerM Verif.LexIdentM Verif.LexMainM
  Verif.SourceSpec Verif.SourceProofs Verif.Wp Verif.BufInv Verif.LexSpec Verif.NewlineInv Verif.ReadSpec Verif.YylexSpec Verif.Reach Verif.IdentSpec Verif.IdentRead Verif.IdentStep
  Verif.Prop_Ident Verif.OpSpec Verif.OpStep Verif.OpRows.
Require Import ZifyBool ZifyNat ZifyN.

Lemma in_bytes : forall (x : list N) l, existsb (bytes_eqb x) l = true -> In x l.
Proof. intros x l H. apply existsb_exists in H. destruct H as (y & H1 & H2). apply ScopeProofs.bytes_eqb_eq in H2. subst y. exact H1. Qed.
Lemma in_strings : forall (x : string) l, existsb (String.eqb x) l = true -> In x l.
Proof. intros x l H. apply existsb_exists in H. destruct H as (y & H1 & H2). apply String.eqb_eq in H2. subst y. exact H1. Qed.
Ltac in_list := first [apply in_bytes; vm_compute; reflexivity | apply in_strings; vm_compute; reflexivity].

(** Arithmetic with the positions only *)
Ltac pos_lia := repeat match goal with H : @eq bool _ _ |- _ => clear H | H : forall _, _ |- _ => clear H | H : longest _ _ _ _ |- _ => clear H end; lia.

(** Reading on: a byte of the operator, or the byte behind it *)
Ltac op_read :=
  first [ eapply (wp_nx _ _ _ ltac:(eassumption)); [reflexivity | pos_lia | eassumption | discriminate | ]
        | eapply (op_last _ _ _ ltac:(eassumption)); [eassumption | cbn [buffer set_buffer set_lex_state set_lval set_command_start]; f_equal; pos_lia | ];
          let c := fresh "c" in let b' := fresh "b'" in let H1 := fresh "NX" in let H2 := fresh "PC" in let H3 := fresh "DN" in let H4 := fresh "AD" in intros c b' H1 H2 H3 H4 ].
Ltac op_push :=
  apply wp_push; [eassumption|].
Ltac op_cond :=
  cbn [lex_state buffer set_buffer set_lex_state set_lval set_command_start set_diagnostics];
  repeat match goal with
  | NX : next_is ?B ?z ?c, HL : longest ?B ?q ?pl ?w |- context [mbeq ?c ?y] =>
      rewrite (next_not B z c y NX) by first [ split; discriminate | match goal with Hz : z = _ |- _ => rewrite Hz end; apply (longest_next B q pl w y HL); in_list ]
  | NX : next_is ?B ?z ?c, HL : longest ?B ?q ?pl ?w |- context [is_digit ?c] =>
      rewrite (digits_next B q pl w z c HL) by first [ assumption | let d := fresh in let A := fresh in intros d A; repeat (destruct A as [<-|A]; [in_list|]); contradiction ]
  end;
  repeat match goal with H : lex_state ?s = _ |- context [lex_state ?s] => rewrite H end;
  repeat match goal with
  | H : ls_is_after_operator ?st = _ |- context [ls_is_after_operator ?st] => rewrite H
  | H : ls_is_beg ?st = _ |- context [ls_is_beg ?st] => rewrite H
  | H : ls_is_some ?st ?m = _ |- context [ls_is_some ?st ?m] => rewrite H
  | H : forall c, next_is _ _ c -> ls_is_spacearg ?st c ?sp = _, NX : next_is _ _ ?c |- context [ls_is_spacearg ?st ?c ?sp] => rewrite (H c NX)
  | H : is_word_match _ _ = _ |- _ => rewrite H
  end;
  rewrite ?andb_false_r, ?andb_true_r, ?orb_false_r, ?orb_true_r, ?andb_false_l; cbn [andb orb negb is_eof mbeq N.eqb Pos.eqb]; reflexivity.
Ltac op_if :=
  match goal with
  | |- wp _ (if ?c then _ else _) _ _ =>
      let r := open_constr:(_ : bool) in
      let H := fresh in assert (H : c = r) by op_cond;
      lazymatch type of H with _ = true => idtac | _ = false => idtac end; rewrite H; clear H
  end.
Ltac op_class :=
  match goal with H : lex_state ?s = ?st |- wp _ (when (ls_is_some ?u EXPR_CLASS) _) _ _ => change u with (lex_state s); rewrite H; let CL := fresh "CL" in destruct (ls_is_some st EXPR_CLASS) eqn:CL; unfold when end.
Ltac op_step :=
  first
  [ ws
  | progress cbv beta zeta
  | lazymatch goal with
    | |- wp _ nextc _ _ => op_read
    | |- wp _ (pushback _) _ _ => op_push
    | |- wp _ (if _ then _ else _) _ _ => op_if
    | |- wp _ (when (ls_is_some (lex_state _) EXPR_CLASS) _) _ _ => op_class
    | |- wp _ set_arg_or_beg _ _ => apply wp_modify
    | |- wp _ (set_yylval_id _) _ _ => apply wp_modify
    | |- wp _ (op_asgn _) _ _ => unfold op_asgn
    | |- wp _ (tk _) _ _ => unfold tk
    | |- wp _ (as_tk _) _ _ => unfold as_tk
    | |- wp _ (warn0 _) _ _ => unfold warn0
    | |- wp _ (warn _ _) _ _ => unfold warn
    | |- wp _ (emit _ _ _) _ _ => unfold emit
    | |- wp _ lex_bang _ _ => unfold lex_bang
    | |- wp _ lex_gt _ _ => unfold lex_gt
    | |- wp _ lex_caret _ _ => unfold lex_caret
    | |- wp _ lex_semi _ _ => unfold lex_semi
    | |- wp _ lex_comma _ _ => unfold lex_comma
    | |- wp _ lex_tilde _ _ => unfold lex_tilde
    | |- wp _ (lex_star _ _) _ _ => unfold lex_star
    | |- wp _ (lex_eq _) _ _ => unfold lex_eq
    | |- wp _ (lex_lt _ _) _ _ => unfold lex_lt
    | |- wp _ (lex_amp _ _) _ _ => unfold lex_amp
    | |- wp _ (lex_pipe _) _ _ => unfold lex_pipe
    | |- wp _ (lex_plus _ _) _ _ => unfold lex_plus
    | |- wp _ (lex_minus _ _) _ _ => unfold lex_minus
    | |- wp _ (lex_dot _ _) _ _ => unfold lex_dot
    | |- wp _ (lex_slash _ _) _ _ => unfold lex_slash
    | |- wp _ (parse_percent _ _) _ _ => unfold parse_percent
    | |- wp _ (unary_sign _ _ _) _ _ => unfold unary_sign
    | |- wp _ (arg_ambiguous _ _) _ _ => unfold arg_ambiguous
    end ].

(** The end of a run *)
Ltac op_balanced :=
  match goal with HL : longest _ _ _ ?v |- _ => eapply wp_balanced with (w := v) end; [eassumption | eassumption
    | cbn [buffer set_buffer set_lex_state]; match goal with D : Done _ _ (back ?c ?b') |- _ => rewrite (done_ptok _ _ _ D); eassumption end
    | cbn [buffer set_buffer set_lex_state]; match goal with D : Done _ _ (back ?c ?b') |- _ => rewrite (done_pcur _ _ _ D); reflexivity end
    | reflexivity | intros; first [reflexivity | discriminate] | discriminate | discriminate | let ds := fresh "ds" in let HW := fresh "HW" in intros ds HW ].
Ltac op_statement :=
  match goal with
  | CL : ls_is_some ?st EXPR_CLASS = true |- _ => split; [intros _; right; split; [auto|]; apply (bit_some st b_class); exact CL|reflexivity]
  | CL : ls_is_some ?st EXPR_CLASS = false |- _ => split; [discriminate|]; let A := fresh in intros [A|(_ & A)]; [discriminate|]; apply (bit_some st b_class) in A; change (2 ^ b_class)%N with EXPR_CLASS in A; congruence
  | _ => split; [discriminate|]; let A := fresh in intros [A|([A|[A|A]] & _)]; discriminate
  | _ => split; [intros _; left; reflexivity|reflexivity]
  end.
Ltac op_field :=
  cbn [buffer set_buffer set_lex_state set_lval set_command_start set_diagnostics lex_state strterm lval lval_start lval_end paren_nest lpar_beg brace_nest cond cmdarg context command_start static_env diagnostics comments];
  first
  [ assumption
  | reflexivity
  | split; reflexivity
  | split; [reflexivity|split; reflexivity]
  | left; reflexivity
  | right; assumption
  | left; f_equal; pos_lia
  | rewrite app_nil_r; reflexivity
  | op_cond
  | f_equal; f_equal; f_equal; unfold current_loc; cbn [buffer set_buffer set_lex_state];
    match goal with D : Done _ _ (back ?c ?b') |- _ => rewrite (done_ptok _ _ _ D), (done_pcur _ _ _ D); f_equal; assumption end
  | f_equal; f_equal; f_equal; unfold current_loc; cbn [buffer set_buffer ptok pcur set_pcur]; f_equal; assumption ].
Ltac op_warned :=
  first [eassumption | apply wd_name | apply wd_value | apply wd_clear; left; reflexivity | apply wd_no_prefix; reflexivity | apply wd_prefix; reflexivity].
Ltac op_end :=
  try match goal with |- Good _ _ _ _ _ _ _ _ _ ?k _ (Tk (if ?c then ?x else ?y)) _ => replace (if c then x else y) with k by (symmetry; op_cond) end;
  first [eapply done_state with (cmd := false); [op_statement | op_warned | op_field ..]
        | eapply done_state with (cmd := true); [op_statement | op_warned | op_field ..]].
Ltac op_start HL HP :=
  let Hnm := fresh "Hnm" in let Hvl := fresh "Hvl" in let Hsa := fresh "Hsa" in
  pose proof (name_fact _ _ _ _ _ HP) as Hnm; pose proof (value_fact _ _ _ _ _ HP) as Hvl; pose proof (space_fact _ _ _ _ _ HP) as Hsa; cbv iota in Hnm, Hvl, Hsa;
  try (let Hbg := fresh "Hbg" in pose proof (beg_fact _ _ _ _ _ HP ltac:(discriminate)) as Hbg);
  try (let Hcl := fresh "Hcl" in pose proof (class_fact _ _ _ _ _ HP ltac:(discriminate)) as Hcl);
  try (let Hfi := fresh "Hfi" in pose proof (fitem_fact _ _ _ _ _ HP eq_refl) as Hfi);
  let T := fresh "T" in pose proof (proj1 HL) as T;
  match type of T with text_at ?B ?q ?w => let w' := eval vm_compute in w in change (text_at B q w') in T end;
  repeat match type of T with text_at _ _ (_ :: _) => apply text_at_cons in T; let A := fresh "TX" in destruct T as (A & T) end;
  match goal with Hz : _ = _ + String.length _ |- _ => cbn [String.length] in Hz end;
  try match goal with TX : nth_error _ _ = Some 61%N, HR : Ready _ _ |- _ =>
        let WM := fresh "WM" in pose proof (begin_fact _ _ _ _ _ HR HL _ eq_refl ltac:(in_list) ltac:(cbn; pos_lia) TX) as WM end;
  unfold row_ok;
  cbv beta iota zeta delta [lex_char mbeq N.eqb Pos.eqb orb b_is_digit in_range N.leb N.compare Pos.compare Pos.compare_cont andb].

(** In front of an argument *)
Ltac op_ampersand :=
  match goal with
  | NX : next_is ?B ?z ?c, HP : place ?B ?st ?sp ?z AtArgument, HR : Ready ?B ?b, D : Done ?b ?z (back ?c ?b'), AD : forall x, ?c = Some x -> _ |- wp _ (when _ _) _ _ =>
      let A := fresh in
      assert (A : back c b' = set_pcur z b)
        by (let x := fresh in let E := fresh in let X1 := fresh in let X2 := fresh in let X3 := fresh in
            destruct (argument_next _ _ _ _ _ HP c eq_refl NX) as (x & E & X1 & X2 & X3); rewrite (AD x E X1), E; apply (back_byte B b HR); assumption);
      cbn [buffer set_buffer]; rewrite A; rewrite (ampersand_fact B b st sp z AtArgument HR ltac:(assumption) ltac:(assumption) HP c _ eq_refl NX eq_refl); unfold when
  end.
Ltac op_adjust :=
  match goal with
  | NX : next_is ?B ?z ?c, HP : place ?B ?st ?sp ?z AtArgument, Hq : ptok ?b = ?q, AD : forall x, ?c = Some x -> _ |- wp _ (adjust_end_m1 (current_loc ?s)) _ _ =>
      let x := fresh in let E := fresh in let X1 := fresh in let X2 := fresh in let X3 := fresh in let A := fresh in
      destruct (argument_next _ _ _ _ _ HP c eq_refl NX) as (x & E & X1 & X2 & X3); pose proof (AD x E X1) as A; clear E;
      replace (current_loc s) with (mkLoc q (z + 1)) by (unfold current_loc; cbn [buffer set_buffer]; rewrite A; cbn [ptok pcur set_pcur]; rewrite Hq; reflexivity);
      unfold adjust_end_m1; cbn [loc_begin loc_end]; apply wp_bind, wp_sub_ck; [pos_lia|]; replace (z + 1 - 1) with z by pos_lia; apply wp_ret
  end.
Ltac op_row HL HP :=
  match goal with E : (_, _, _) = (_, _, _) |- _ => injection E as <- <- <- end;
  eexists; eexists; split; [vm_compute; reflexivity|]; op_start HL HP;
  solve [repeat first [op_step | op_balanced | op_ampersand | op_adjust]; op_end].
