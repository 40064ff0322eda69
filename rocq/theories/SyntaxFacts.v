(** * Every function of the builder puts its arguments where they belong: the proofs for C55 *)
Require Import Verif.Base Verif.InputM Verif.TokensM Verif.NodeM Verif.ScopesM Verif.DiagnosticM Verif.Utf8M.
Require Import Verif.LexerM Verif.BuilderM Verif.BuilderNodesM Verif.BuilderFacts Verif.KeepSpec Verif.KeepFacts
  Verif.KeepCalls Verif.SyntaxSpec.
From Coq Require Import Lia ZifyBool ZifyNat.

(** ** Texts *)

Lemma text_app p k : text_of (p ++ k) = text_of p ++ text_of k.
Proof. apply flat_map_app. Qed.
Lemma text_P p k : text_of (P p :: k) = p :: text_of k.
Proof. reflexivity. Qed.
Lemma text_C n k : text_of (C n :: k) = reading n ++ text_of k.
Proof. reflexivity. Qed.
Lemma text_cs l : text_of (cs l) = flat_map reading l.
Proof. unfold text_of, cs. induction l as [|a l IH]; [reflexivity|]. cbn. now rewrite <- IH. Qed.
Lemma text_Ps l : text_of (List.map P l) = l.
Proof. unfold text_of. induction l as [|a l IH]; [reflexivity|]. cbn. now rewrite IH. Qed.
Lemma text_q v : text_of (q v) = quoted v.
Proof. now destruct v. Qed.

(** ** Rewritten nodes *)

Lemma cc_reading : forall n, reading (check_condition n) = reading n.
Proof.
  apply (node_ind' (fun n => reading (check_condition n) = reading n)). intros n IH.
  destruct n; try reflexivity; cbn [check_condition children reading] in *.
  - rewrite !IH by (cbn; auto). reflexivity.
  - destruct statements as [|a [|b l]]; try reflexivity. cbn [reading flat_map].
    rewrite IH by (cbn; auto). reflexivity.
  - destruct left_, right_; cbn [map_opt opt]; rewrite ?IH by (cbn; auto); reflexivity.
  - destruct left_, right_; cbn [map_opt opt]; rewrite ?IH by (cbn; auto); reflexivity.
  - rewrite !IH by (cbn; auto). reflexivity.
Qed.
Lemma kwargs_reading l : flat_map reading (rewrite_hash_args_to_kwargs l) = flat_map reading l.
Proof.
  unfold rewrite_hash_args_to_kwargs. destruct (rev l) as [|a r] eqn:E; [reflexivity|].
  assert (El : l = rev (a :: r)) by (rewrite <- E; symmetry; apply rev_involutive).
  destruct a; try reflexivity.
  - destruct r as [|b r]; [reflexivity|]. destruct b; try reflexivity. destruct begin_l, end_l; try reflexivity.
    subst l. cbn [rev]. rewrite !flat_map_app. cbn. now rewrite !app_nil_r.
  - destruct begin_l, end_l; try reflexivity. subst l. cbn [rev]. rewrite !flat_map_app. cbn. now rewrite !app_nil_r.
Qed.

Definition reads (ps : list Part) (n : Node) : Prop := reading n = text_of ps.
Ltac open_text :=
  cbn [reading opt branch sign word_opt id_at id_opt maybe_loc option_map flat_map w_ sg sg_opt tag id id_of co role key
       clause_sign clause_role loop_word post_word command_word number_tag variable_tag symbol_part app];
  repeat rewrite ?text_app, ?text_P, ?text_C, ?text_cs, ?text_Ps, ?text_q, ?cc_reading, ?kwargs_reading, ?flat_map_app.
Ltac agree :=
  unfold w_, sg, tag, id, key; open_text; open_text; change (text_of []) with (@nil Piece);
  cbn [opt branch sign word_opt id_at id_opt quoted flat_map app];
  repeat (rewrite <- ?app_assoc, ?app_nil_r; cbn [app]); reflexivity.
Ltac fields := unfold reads; steps; agree.

(** ** Literals *)

Lemma y_unary_num t m v x e s n s' : numeric m v x -> unary_num t m e s = Ok n s' ->
  reads (tag (number_tag m) ++ [P (Id (token_value t ++ v) (loc_join (token_loc t) x))] ++ sg t) n.
Proof. intros [-> |[-> |[-> | ->]]] H; unfold unary_num in H; fields. Qed.
Lemma str_reads b v l z e s n s' : str_node b v l z e s = Ok n s' ->
  flat_map reading l = quoted v -> reads (sg_opt b ++ cs l ++ sg_opt z) n.
Proof.
  intros H E. unfold str_node in H. destruct (is_heredoc b) eqn:Hb; unfold reads; steps.
  - destruct b, z; try discriminate; cbn [maybe_loc option_map] in *; steps; agree.
  - rewrite !text_app, text_cs, E. destruct b, z; agree.
Qed.
Lemma y_string_compose b l z e s n s' : (b = None /\ z = None) \/ plain_part l -> string_compose b l z e s = Ok n s' ->
  reads (sg_opt b ++ cs l ++ sg_opt z) n.
Proof.
  intros P H. unfold string_compose in H.
  assert (C : forall n s', (if is_heredoc b then
      ' (heredoc_body_l, heredoc_end_l, expression_l) <- heredoc_map b l z ;;
      ret (NHeredoc l heredoc_body_l heredoc_end_l expression_l)
    else
      ' (begin_l, end_l, expression_l) <- collection_map b l z ;;
      ret (NDstr l begin_l end_l expression_l)) e s = Ok n s' -> reads (sg_opt b ++ cs l ++ sg_opt z) n).
  { clear H. intros n0 s0 H0. destruct (is_heredoc b); unfold reads; steps; [|destruct b, z; agree].
    destruct b, z; try discriminate; cbn [maybe_loc option_map] in *; steps; agree. }
  destruct l as [|a [|a' l]]; [|destruct a; try (eapply C; exact H; fail) | destruct a; eapply C; exact H].
  - eapply str_reads; [exact H | reflexivity].
  - destruct (negb (is_some b) && negb (is_some z)) eqn:E; [|discriminate].
    destruct b, z; try discriminate. unfold reads. steps. agree.
  - destruct (negb (is_some b) && negb (is_some z)) eqn:E; [|discriminate].
    destruct b, z; try discriminate. unfold reads. steps. agree.
  - destruct (negb (is_some b) && negb (is_some z)) eqn:E.
    + destruct b, z; try discriminate. unfold reads. steps. agree.
    + destruct P as [[-> ->]|[-> ->]]; [discriminate|]. eapply str_reads; [exact H|].
      cbn. now rewrite !app_nil_r.
Qed.
Lemma y_character t :
  reads (P (Sign (mkLoc (loc_begin (token_loc t)) (loc_begin (token_loc t) + 1))) :: q (token_value t)) (character t).
Proof. unfold reads, character, with_end. agree. Qed.
Lemma y_symbol_compose b l z e s n s' : plain_part l -> symbol_compose b l z e s = Ok n s' ->
  reads (tag "sym" ++ sg b ++ cs l ++ sg z) n.
Proof.
  intros P H. unfold symbol_compose in H.
  assert (C : forall n s', (' (begin_l, end_l, expression_l) <- collection_map (Some b) l (Some z) ;;
      ret (NDsym l begin_l end_l expression_l)) e s = Ok n s' -> reads (tag "sym" ++ sg b ++ cs l ++ sg z) n).
  { clear H. intros n0 s0 H0. unfold reads. steps. agree. }
  destruct l as [|a [|a' l]]; [eapply C; exact H | destruct a; try (eapply C; exact H; fail) | destruct a; eapply C; exact H].
  destruct P as [-> ->]. unfold reads. steps. agree.
Qed.
Lemma y_xstring b l z : reads (tag "xstr" ++ sg b ++ cs l ++ sg z) (xstring_compose b l z).
Proof. unfold reads, xstring_compose. destruct (heredoc_mark _); agree. Qed.
Lemma y_regexp_options t e s n s' : regexp_options t e s = Ok (Some n) s' ->
  reads (tag "regopt" ++ [P (Sign (mkLoc (loc_begin (token_loc t) + 1) (loc_end (token_loc t))))]) n.
Proof. intros H. unfold regexp_options in H. fields. Qed.
Lemma y_regexp_compose b l z o e s n s' : regexp_compose b l z o e s = Ok n s' ->
  reads (tag "regexp" ++ sg b ++ cs l ++ [P (Sign (mkLoc (loc_begin (token_loc z)) (loc_begin (token_loc z) + 1)))] ++ co o) n.
Proof.
  intros H. unfold regexp_compose in H. apply bind_ok' in H as (u & s1 & _ & H). unfold reads, resize, with_end in *.
  steps. destruct o; agree.
Qed.
Lemma y_word l e s n s' : word l e s = Ok n s' -> reads (cs l) n.
Proof.
  intros H. unfold word in H.
  assert (C : forall n s', (' (begin_l, end_l, expression_l) <- collection_map None l None ;;
    ret (NDstr l begin_l end_l expression_l)) e s = Ok n s' -> reads (cs l) n).
  { clear H. intros n0 s0 H0. unfold reads. steps. agree. }
  destruct l as [|a [|a' l]]; [eapply C; exact H | destruct a; try (eapply C; exact H; fail) | destruct a; eapply C; exact H];
    unfold reads; steps; agree.
Qed.
Lemma symbols_part_reads m e s n s' : symbols_part m e s = Ok n s' -> reading n = text_of (symbol_part m).
Proof. intros H. destruct m; cbn [symbols_part] in H; try (injection H as <- <-; cbn [symbol_part]; now rewrite text_C, app_nil_r); steps; agree. Qed.
Lemma symbols_reads l : forall e s r s', map_m symbols_part l e s = Ok r s' ->
  flat_map reading r = text_of (flat_map symbol_part l).
Proof.
  induction l as [|m l IH]; intros e s r s' H; cbn [map_m] in H; [now steps|].
  apply bind_ok' in H as (a & s1 & H1 & H). apply bind_ok' in H as (k & s2 & H2 & H). injection H as <- <-.
  cbn [flat_map]. rewrite text_app. apply symbols_part_reads in H1. apply IH in H2. congruence.
Qed.
Lemma y_symbols_compose b l z e s n s' : symbols_compose b l z e s = Ok n s' ->
  reads (tag "array" ++ sg b ++ flat_map symbol_part l ++ sg z) n.
Proof.
  intros H. unfold symbols_compose in H. apply bind_ok' in H as (k & s1 & H1 & H). apply symbols_reads in H1.
  unfold reads. rewrite !text_app, <- H1. steps. agree.
Qed.

(** ** Pairs and variables *)

Lemma y_pair_keyword t v e s n s' : pair_keyword t v e s = Ok n s' ->
  reads (tag "sym" ++ q (token_value t) ++ [P (Sign (colon_of (token_loc t))); C v]) n.
Proof. intros H. unfold pair_keyword in H. unfold reads. steps. rewrite colon_ok. agree. Qed.
Lemma y_pair_quoted b l z v e s n s' : plain_part l -> pair_quoted b l z v e s = Ok n s' ->
  reads (tag "sym" ++ sg b ++ cs l ++ [P (Sign (mkLoc (loc_end (token_loc z) - 2) (loc_end (token_loc z) - 1)));
            P (Sign (colon_of (token_loc z))); C v]) n.
Proof.
  intros P H. unfold pair_quoted in H. apply bind_ok' in H as (b2 & s1 & H1 & H). apply sub_pos in H1 as ->.
  apply bind_ok' in H as (b1 & s2 & H1 & H). apply sub_pos in H1 as ->.
  apply bind_ok' in H as (k & s3 & H1 & H). apply y_symbol_compose in H1; [|exact P]. injection H as <- <-.
  unfold reads in *. cbn [reading]. rewrite H1. rewrite colon_ok. unfold sg. cbn [token_loc]. agree.
Qed.
Lemma y_accessible_name x l e s n s' : accessible (NLvar x l) e s = Ok n s' -> reads (tag (variable_tag n) ++ [P (Id x l)]) n.
Proof.
  intros H. cbn [accessible] in H. unfold reads.
  apply bind_ok' in H as (u & s1 & _ & H). apply bind_ok' in H as (d & s2 & _ & H). destruct d; [steps; agree|].
  apply bind_ok' in H as (d & s3 & _ & H). destruct (negb _); [steps; agree|]. apply bind_ok' in H as (d' & s4 & _ & H). steps; agree.
Qed.
Lemma accessible_id m e s n s' : (forall x l, m <> NLvar x l) -> accessible m e s = Ok n s' -> n = m.
Proof.
  intros N H. destruct m; cbn [accessible] in H; try (now injection H as <- <-). exfalso. eapply N. reflexivity.
Qed.
Lemma y_accessible m e s n s' : (forall x l, m <> NLvar x l) -> accessible m e s = Ok n s' -> reads [C m] n.
Proof. intros N H. apply accessible_id in H as ->; [|exact N]. unfold reads. agree. Qed.
Lemma y_pair_label t v e s n s' k o l : pair_label t e s = Ok n s' -> n = NPair k v o l ->
  reads (tag "sym" ++ q (token_value t) ++ [P (Sign (colon_of (token_loc t)))] ++ tag (variable_tag v) ++ key t) n.
Proof.
  intros H En. unfold pair_label in H. apply bind_ok' in H as (vl & s1 & H1 & H). apply adjust_end_pos in H1 as ->.
  apply bind_ok' in H as (lab & s2 & H1 & H). apply value_ok in H1 as [-> ->].
  apply bind_ok' in H as (cc & s3 & _ & H). apply bind_ok' in H as (c & s4 & _ & H).
  apply bind_ok' in H as (v' & s5 & H1 & H).
  assert (Ev : v' = v).
  { subst n. clear -H. unfold pair_keyword in H. now steps. }
  subst v'. apply y_pair_keyword in H. unfold reads in *. rewrite H.
  assert (E : reading v = text_of (tag (variable_tag v) ++ key t)).
  { destruct (is_lowercase cc c).
    - now apply y_accessible_name in H1.
    - apply accessible_id in H1 as ->; [agree | discriminate]. }
  rewrite !text_app in *. open_text. rewrite E. agree.
Qed.
Lemma y_assignable m e s n s' : assignable m e s = Ok (Some n) s' -> reads [C m] n.
Proof. intros H. unfold reads. destruct m; cbn [assignable] in H; steps; agree. Qed.
Lemma y_const_op m e s n s' : const_op_assignable m e s = Ok n s' -> reads [C m] n.
Proof. intros H. unfold reads. destruct m; cbn [const_op_assignable] in H; steps; agree. Qed.
Lemma y_assign l t r e s n s' : open_target l -> assign l t r e s = Ok n s' -> reads ([C l] ++ sg t ++ [C r]) n.
Proof.
  intros [P Q] H. unfold reads. destruct l; cbn [assign no_value] in H, P, Q; try discriminate; unfold assign in H; steps;
    repeat match goal with H : _ /\ _ |- _ => destruct H end; subst; agree.
Qed.
Lemma y_op_assign l t o r e s n s' : token_value t = o ++ [61%N] -> forallb (fun c => (c <? 128)%N) o = true ->
  op_assign l t r e s = Ok (Some n) s' -> reads ([C l] ++ operator_part o (token_loc t) ++ [C r]) n.
Proof.
  intros Ev Ha H. unfold op_assign in H. apply bind_ok' in H as (v & s1 & H1 & H). apply value_ok in H1 as [-> ->].
  assert (Eo : flat_map utf8_encode (removelast (chars (token_value t))) = o).
  { rewrite Ev. unfold chars. rewrite chars_ascii; [|lia|rewrite forallb_app, Ha; reflexivity].
    rewrite removelast_last. now apply encode_ascii. }
  rewrite Eo in H. apply bind_ok' in H as (q & s2 & H1 & H). destruct q as [l'|]; [|discriminate]. injection H as <- <-.
  assert (E : reading l' = reading l) by (destruct l; steps; try reflexivity; agree).
  unfold reads, operator_part. destruct (bytes_eqb o (bs "&&")); [|destruct (bytes_eqb o (bs "||"))]; cbn [reading];
    rewrite E; agree.
Qed.
Lemma y_args b l z e s n s' : args_ b l z e s = Ok (Some n) s' -> reads (tag "args" ++ sg_opt b ++ cs l ++ sg_opt z) n.
Proof.
  intros H. unfold args_ in H. apply bind_ok' in H as (u & s1 & _ & H). apply bind_ok' in H as (u' & s2 & _ & H).
  unfold reads. destruct b, l, z; steps; agree.
Qed.
Lemma reserved_reads t e s r l s' : reserved_name t e s = Ok (Some (r, l)) s' -> id_opt r l = text_of (id_of t).
Proof.
  destruct t as [t|]; cbn [reserved_name id_of].
  - intros H. apply bind_ok' in H as (v & s1 & H1 & H). apply value_ok in H1 as [-> ->].
    apply bind_ok' in H as (x & s2 & _ & H). destruct x; [|discriminate]. now injection H as <- <- <-.
  - now intros [= <- <- <-].
Qed.
Lemma y_restarg t v e s n s' : restarg t v e s = Ok (Some n) s' -> reads (w_ "*arg" t ++ id_of v) n.
Proof.
  intros H. unfold restarg in H. apply bind_ok' in H as (r & s1 & H1 & H). destruct r as [[r l]|]; [|steps].
  apply reserved_reads in H1. unfold reads. steps. rewrite text_app. cbn [reading]. now rewrite H1.
Qed.
Lemma y_kwrestarg t v e s n s' : kwrestarg t v e s = Ok (Some n) s' -> reads (w_ "**arg" t ++ id_of v) n.
Proof.
  intros H. unfold kwrestarg in H. apply bind_ok' in H as (r & s1 & H1 & H). destruct r as [[r l]|]; [|steps].
  apply reserved_reads in H1. unfold reads. steps. rewrite text_app. cbn [reading]. now rewrite H1.
Qed.
Lemma y_blockarg t v e s n s' : blockarg t v e s = Ok (Some n) s' -> reads (w_ "&arg" t ++ id_of v) n.
Proof.
  intros H. unfold blockarg in H. unfold reads. destruct v; steps; cbn [maybe_loc option_map] in *; steps; agree.
Qed.
Lemma y_procarg0 x l e s n s' : procarg0 (NArg x l) e s = Ok n s' -> reads (tag "procarg0" ++ [C (NArg x l)]) n.
Proof. intros H. unfold reads. cbn [procarg0] in H; steps; agree. Qed.
Lemma y_procarg0_list l b z r e s n s' : procarg0 (NMlhs l b z r) e s = Ok n s' ->
  reads (tag "procarg0" ++ List.map P (sign b) ++ cs l ++ List.map P (sign z)) n.
Proof. intros H. unfold reads. cbn [procarg0] in H; steps; agree. Qed.

(** ** Calls *)

Lemma safe_dot t : is_csend (Some t) = true -> dot_part (Some t) = w_ "&." t.
Proof. cbn [is_csend dot_part]. destruct (token_type t); try discriminate. reflexivity. Qed.
Lemma plain_dot t : is_csend (Some t) = false -> dot_part (Some t) = sg t.
Proof. cbn [is_csend dot_part]. destruct (token_type t); try discriminate; reflexivity. Qed.
Lemma no_dot : dot_part None = [].
Proof. reflexivity. Qed.
Ltac dots := repeat match goal with
  | E : is_csend (Some _) = true |- _ => rewrite (safe_dot _ E); clear E
  | E : is_csend (Some _) = false |- _ => rewrite (plain_dot _ E); clear E
  end; rewrite ?no_dot.

Lemma y_call_method recv dot sel b args z e s n s' : call_method recv dot sel b args z e s = Ok n s' ->
  reads (tag "call" ++ co recv ++ dot_part dot ++ match sel with Some sel => id sel | None => [P (Quoted (bs "call"))] end ++
            sg_opt b ++ cs args ++ sg_opt z) n.
Proof.
  intros H. unfold call_method in H. apply bind_ok' in H as (x & s1 & _ & H). apply bind_ok' in H as (y & s2 & _ & H).
  unfold reads. steps; cbn [maybe_loc option_map unwrap_or] in *; steps; destruct sel; cbn [option_map unwrap_or maybe_loc] in *; opts;
    cbn [maybe_loc option_map] in *; steps; dots; agree.
Qed.
Definition lam (n : Node) : bool := match n with NLambda _ => true | _ => false end.
Lemma block_reading m args body b z x : reading (NBlock m args body b z x) =
  reading m ++ (if lam m then opt reading args ++ [Sign b] else [Sign b] ++ opt reading args) ++
  branch reading "body" body ++ [Sign z].
Proof. destruct m; reflexivity. Qed.
Lemma y_block m b args body z e s n s' : takes_block m -> block m b (ArgsT args) body z e s = Ok (Some n) s' ->
  reads ([C m] ++ (if is_lambda m then co args ++ sg b else sg b ++ co args) ++ role "body" body ++ sg z) n.
Proof.
  intros P H. unfold block in H. apply bind_ok' in H as (u & s1 & _ & H). destruct u; [|discriminate].
  unfold reads.
  assert (D : (exists a k x, m = NReturn [a] k x \/ m = NBreak [a] k x \/ m = NNext [a] k x) \/
    (is_lambda m = lam m /\ exists x, n = NBlock m args body (token_loc b) (token_loc z) x)).
  { destruct m; try discriminate; unfold ok, ret in H;
      try (right; split; [reflexivity|]; injection H as <- <-; eexists; reflexivity); left;
      destruct args0 as [|a [|a' l]]; cbn in P; try discriminate P; eauto 8. }
  destruct D as [(a & k & x & D)|(D & x & ->)].
  - assert (E : is_lambda m = lam a) by (destruct D as [-> |[-> | ->]]; destruct a; reflexivity). rewrite E.
    assert (R : exists x w, reading m = Word w k :: reading a /\ reading n = Word w k :: reading (NBlock a args body (token_loc b) (token_loc z) x)).
    { destruct D as [-> |[-> | ->]]; apply bind_ok' in H as ([q r] & s2 & H1 & H); injection H as <- <-;
        unfold rewrite_args_and_loc, bind, expect, ret in H1; cbn [first_opt] in H1; injection H1 as <- <- <-;
        exists k; eexists; cbn [reading flat_map]; rewrite !app_nil_r; split; reflexivity. }
    destruct R as (y & w & R1 & R2). rewrite R2, block_reading. rewrite text_app, text_C, R1.
    destruct (lam a), args, body; agree.
  - rewrite D, block_reading. destruct (lam m), args, body; agree.
Qed.
Lemma y_numblock m b k body z e s n s' : takes_block m -> block m b (Numargs k) (Some body) z e s = Ok (Some n) s' ->
  reads ([C m] ++ sg b ++ [P (Quoted [k]); C body] ++ sg z) n.
Proof.
  intros P H. unfold block in H. apply bind_ok' in H as (u & s1 & _ & H). destruct u; [|discriminate].
  unfold reads. destruct m; try discriminate; unfold ok, ret in H;
    try (injection H as <- <-; unfold block_node; cbn [unwrap_or]; agree).
  all: apply bind_ok' in H as ([q r] & s2 & H1 & H); injection H as <- <-.
  all: destruct args as [|a [|a' l]]; cbn in P; try discriminate P.
  all: unfold rewrite_args_and_loc, bind, expect, ret in H1; cbn [first_opt] in H1; injection H1 as <- <- <-.
  all: unfold block_node; cbn [unwrap_or]; agree.
Qed.
Lemma y_attr_asgn m dot t e s n s' : attr_asgn m dot t e s = Ok n s' ->
  reads (tag "call" ++ [C m] ++ dot_part (Some dot) ++ [P (Id (token_value t ++ [61%N]) (token_loc t))]) n.
Proof.
  intros H. unfold attr_asgn in H. change (bs "=") with [61%N] in H. unfold reads. steps; dots; agree.
Qed.
Lemma y_match_op l t r e s n s' : match_op l t r e s = Ok (Some n) s' ->
  reads (match n with
         | NMatchWithLvasgn _ _ _ _ => [C l] ++ w_ "=~" t ++ [C r]
         | _ => tag "call" ++ [C l] ++ [P (Id (bs "=~") (token_loc t))] ++ [C r]
         end) n.
Proof.
  intros H. unfold match_op in H. apply bind_ok' in H as (u & s1 & _ & H). destruct u; [|discriminate].
  apply bind_ok' in H as (u' & s2 & _ & H). destruct u'; [|discriminate].
  apply bind_ok' in H as (c & s3 & _ & H). destruct c; unfold reads.
  - apply bind_ok' in H as (u'' & s4 & _ & H). steps. agree.
  - steps. agree.
Qed.
Lemma y_unary_op t m e s n s' : unary_op t m e s = Ok (Some n) s' ->
  reads (tag "call" ++ [C m] ++
    [P (Id (token_value t ++ match token_value t with [43%N] | [45%N] => [64%N] | _ => [] end) (token_loc t))]) n.
Proof.
  intros H. unfold unary_op in H. apply bind_ok' in H as (u & s1 & _ & H). destruct u; [|discriminate].
  apply bind_ok' in H as (v & s2 & H1 & H). apply value_ok in H1 as [-> ->]. injection H as <- <-.
  change (bs "@") with [64%N].
  destruct (bytes_eqb (token_value t) (bs "+") || bytes_eqb (token_value t) (bs "-")) eqn:E.
  - apply orb_true_iff in E as [E|E]; apply bytes_eqb_eq in E; rewrite E; [change (bs "+") with [43%N] | change (bs "-") with [45%N]];
      unfold reads; agree.
  - apply orb_false_iff in E as [E1 E2]. apply bytes_eqb_neq in E1, E2.
    replace (match token_value t with [43%N] | [45%N] => [64%N] | _ => [] end) with (@nil N).
    + rewrite app_nil_r. unfold reads. agree.
    + destruct (token_value t) as [|c [|d l]]; [reflexivity | | destruct c as [|p]; [reflexivity|]; repeat (first [reflexivity | destruct p as [p|p|]])].
      destruct (N.eq_dec c 43) as [-> |N1]; [now destruct E1|]. destruct (N.eq_dec c 45) as [-> |N2]; [now destruct E2|].
      clear -N1 N2. destruct c as [|p]; [reflexivity|]. repeat (first [reflexivity | congruence | destruct p as [p|p|]]).
Qed.
Lemma y_not_op t b m z e s n s' : not_op t b (Some m) z e s = Ok (Some n) s' ->
  reads (tag "call" ++ [C m] ++ [P (Id (bs "!") (token_loc t))] ++ sg_opt b ++ sg_opt z) n.
Proof.
  intros H. unfold reads. cbn [not_op] in H. apply bind_ok' in H as (u & s1 & _ & H). destruct u; [|discriminate]. steps.
  destruct b, z; agree.
Qed.
Lemma y_not_nothing t b z e s n s' : not_op t b None z e s = Ok (Some n) s' ->
  reads (tag "call" ++ sg_opt b ++ sg_opt z ++ [P (Id (bs "!") (token_loc t))]) n.
Proof. intros H. unfold reads. cbn [not_op] in H. steps. destruct b, z; agree. Qed.

(** ** Control flow *)

Lemma y_logical_op k l t r e s n s' : logical_op k l t r e s = Ok (Some n) s' ->
  reads ([C l] ++ w_ (match k with LAnd => "and" | LOr => "or" end) t ++ [C r]) n.
Proof.
  intros H. unfold logical_op in H. apply bind_ok' in H as (u & s1 & _ & H). destruct u; [|discriminate].
  unfold reads. steps. destruct k; agree.
Qed.
Lemma y_loop k kw c d body z : reads (w_ (loop_word k) kw ++ [C c] ++ sg d ++ co body ++ sg z) (loop_ k kw c d body z).
Proof. unfold reads, loop_. destruct k, body; agree. Qed.
Lemma y_loop_mod k body kw c : reads ([C body] ++ w_ (post_word k body) kw ++ [C c]) (loop_mod k body kw c).
Proof.
  unfold reads. assert (D : (exists l b e x, body = NKwBegin l b e x) \/
    (loop_mod k body kw c = match k with
       | LWhile => NWhile (check_condition c) (Some body) (token_loc kw) None None (loc_join (expression body) (expression c))
       | LUntil => NUntil (check_condition c) (Some body) (token_loc kw) None None (loc_join (expression body) (expression c))
       end /\ post_word k body = loop_word k)).
  { destruct body; try (right; destruct k; split; reflexivity). left. do 4 eexists. reflexivity. }
  destruct D as [(l & b & e & x & ->)|[-> ->]]; destruct k; unfold loop_mod; agree.
Qed.
Lemma y_keyword_cmd k kw b l z e s n s' : keyword_shape k b l z -> keyword_cmd k kw b l z e s = Ok (Some n) s' ->
  reads (w_ (command_word k) kw ++ sg_opt b ++ cs l ++ sg_opt z) n.
Proof.
  intros P H. unfold keyword_cmd in H.
  match type of H with (if ?c then _ else _) _ _ = _ => destruct c end; [steps|].
  assert (J : forall x, loc_join x x = x) by (intros [p q]; unfold loc_join; cbn; f_equal; lia).
  unfold reads. destruct k; cbn [keyword_shape] in P; repeat match goal with P : _ /\ _ |- _ => destruct P end; subst;
    unfold ok, ret in H; try (injection H as <- <-; cbn [maybe_loc option_map or_else last_opt maybe_node_expr unwrap_or];
      rewrite ?J; opts; agree).
  destruct l as [|a [|a' l]]; try discriminate P. steps. cbn [first_opt] in *. steps. opts; agree.
Qed.

(** ** Clauses and groups *)

Lemma y_begin_body c l el e s n s' : l <> [] -> begin_body c l el None e s = Ok (Some n) s' ->
  reads (role "body" c ++ cs l ++ clause_sign el ++ clause_role "else" el) n.
Proof.
  intros N H. unfold begin_body in H. apply bind_ok' in H as (r & s1 & H1 & H). injection H as -> <-.
  unfold begin_body_rescue in H1. destruct l as [|a l]; [now destruct N|].
  apply bind_ok' in H1 as (b & s2 & _ & H). unfold reads. destruct el as [[t body]|]; steps; [destruct c, body; agree | destruct c; agree].
Qed.
Lemma y_begin_else c t b e s n s' : undelimited_opt c -> begin_body c [] (Some (t, b)) None e s = Ok (Some n) s' ->
  reads (co c ++ sg t ++ co b) n.
Proof.
  intros P H. unfold begin_body in H. apply bind_ok' in H as (r & s1 & H1 & H). injection H as -> <-.
  unfold begin_body_rescue in H1.
  apply bind_ok' in H1 as ([[b1 e1] x1] & s2 & H1 & H). apply collection_ok' in H1 as [-> ->].
  apply bind_ok' in H as ([[b2 e2] x2] & s3 & H2 & H). apply collection_ok' in H2 as [-> ->]. injection H as <- <-.
  assert (E : flat_map reading (match c with Some (NBegin l _ _ _) => l | Some m => [m] | None => [] end) = text_of (co c)).
  { destruct c as [c|]; [|reflexivity]. assert (W : flat_map reading [c] = text_of (co (Some c))) by agree.
    destruct c; try exact W. destruct P as [-> ->]. agree. }
  match type of E with flat_map reading ?m = _ => set (L := m) in *; clearbody L end.
  unfold reads. rewrite text_app, <- E. destruct b; cbn [olist]; agree.
Qed.
Lemma y_begin_plain c e s n s' : begin_body c [] None None e s = Ok (Some n) s' -> reads (co c) n.
Proof.
  intros H. unfold begin_body in H. apply bind_ok' in H as (r & s1 & H1 & H). injection H as -> <-.
  unfold begin_body_rescue in H1. injection H1 as -> <-. unfold reads. agree.
Qed.
Lemma y_ensure c l el t b m e s n s' r s1 : begin_body c l el None e s = Ok m s1 ->
  begin_body c l el (Some (t, b)) e s = Ok (Some n) s' -> r = m -> reads (co r ++ w_ "ensure" t ++ co b) n.
Proof.
  intros H H' ->. unfold begin_body in *. apply bind_ok' in H as (r & s2 & H1 & H). injection H as -> <-.
  apply bind_ok' in H' as (r' & s3 & H2 & H'). rewrite H1 in H2. injection H2 as -> ->. injection H' as <- <-.
  unfold reads. destruct r', b; agree.
Qed.
Lemma y_compstmt l e s n s' : compstmt l e s = Ok (Some n) s' -> reads (cs l) n.
Proof. intros H. unfold reads. destruct l as [|a [|b l]]; cbn [compstmt] in H; steps; agree. Qed.
Lemma y_begin b body z : (forall l x y r, body = Some (NMlhs l x y r) -> x = None /\ y = None) ->
  reads (sg b ++ co body ++ sg z) (begin b body z).
Proof.
  intros P. unfold begin. destruct body as [m|]; [|unfold reads; agree].
  assert (W : forall x, reads (sg b ++ co (Some m) ++ sg z) (NBegin [m] (Some (token_loc b)) (Some (token_loc z)) x))
    by (intros x; unfold reads; agree).
  destruct m; try apply W; unfold reads.
  - destruct begin_l, end_l; agree.
  - destruct (P _ _ _ _ eq_refl) as [-> ->]. agree.
Qed.
Lemma y_begin_keyword b body z : undelimited_opt body ->
  reads (tag "kwbegin" ++ sg b ++ co body ++ sg z) (begin_keyword b body z).
Proof.
  intros P. unfold begin_keyword. destruct body as [m|]; [|unfold reads; agree].
  assert (W : forall x, reads (tag "kwbegin" ++ sg b ++ co (Some m) ++ sg z) (NKwBegin [m] (Some (token_loc b)) (Some (token_loc z)) x))
    by (intros x; unfold reads; agree).
  destruct m; try apply W; unfold reads. destruct P as [-> ->]. agree.
Qed.

(** ** Patterns *)

Lemma y_case_match kw x l el body z :
  reads (w_ "case/in" kw ++ [C x] ++ cs l ++ sg_opt el ++
         match body, el with
         | None, Some t => tag "else" ++ w_ "else" t
         | _, _ => role "else" body
         end ++ sg z) (case_match kw x l el body z).
Proof. unfold reads, case_match. destruct el, body; agree. Qed.
Lemma y_match_var t e s n s' : match_var t e s = Ok (Some n) s' -> reads (tag "match_var" ++ id t) n.
Proof.
  intros H. unfold match_var in H. apply bind_ok' in H as (v & s1 & H1 & H). apply value_ok in H1 as [-> ->].
  apply bind_ok' in H as (u & s2 & _ & H). destruct u; [|discriminate].
  apply bind_ok' in H as (u' & s3 & _ & H). destruct u'; [|discriminate].
  apply bind_ok' in H as (u'' & s4 & _ & H). injection H as <- <-. unfold reads. agree.
Qed.
Lemma y_from_str b t z e s n s' : utf8_lossy (token_value t) = token_value t ->
  match_hash_var_from_str b [string_internal t] z e s = Ok (Some n) s' -> reads (tag "match_var" ++ id t) n.
Proof.
  intros L H. unfold match_hash_var_from_str, string_internal in H. cbn [match_hash_var_node] in H. rewrite L in H.
  apply bind_ok' in H as (u & s2 & _ & H). destruct u; [|discriminate].
  apply bind_ok' in H as (u' & s3 & _ & H). destruct u'; [|discriminate].
  apply bind_ok' in H as (u'' & s4 & _ & H). apply bind_ok' in H as (l1 & s5 & H1 & H). injection H1 as <- <-.
  apply bind_ok' in H as (l2 & s6 & H1 & H). injection H1 as <- <-. injection H as <- <-. unfold reads. agree.
Qed.
Lemma y_match_rest t v e s n s' : match_rest t (Some v) e s = Ok (Some n) s' -> reads (w_ "*" t ++ tag "match_var" ++ id v) n.
Proof.
  intros H. unfold match_rest in H. apply bind_ok' in H as (m & s1 & H1 & H). destruct m as [m|]; [|discriminate].
  injection H as <- <-. unfold reads.
  apply bind_ok' in H1 as (q & s2 & H2 & H1). destruct q as [q|]; [|discriminate]. injection H1 as <- <-.
  apply y_match_var in H2. unfold reads in H2. cbn [reading opt]. rewrite H2. agree.
Qed.
Lemma y_match_rest_only t e s n s' : match_rest t None e s = Ok (Some n) s' -> reads (w_ "*" t) n.
Proof. intros H. unfold match_rest in H. fields. Qed.
Lemma y_match_pair_plain t v e s n s' : match_pair (PlainLabel t) v e s = Ok (Some n) s' ->
  reads (tag "sym" ++ q (token_value t) ++ [P (Sign (colon_of (token_loc t))); C v]) n.
Proof.
  intros H. unfold match_pair in H. apply bind_ok' in H as (u & s1 & _ & H). destruct u; [|discriminate].
  apply bind_ok' in H as (m & s2 & H1 & H). injection H as <- <-. eapply y_pair_keyword; eauto.
Qed.
Lemma y_match_pair_quoted b l z v e s n s' : plain_part l -> match_pair (QuotedLabel b l z) v e s = Ok (Some n) s' ->
  reads (tag "sym" ++ sg b ++ cs l ++ [P (Sign (mkLoc (loc_end (token_loc z) - 2) (loc_end (token_loc z) - 1)));
            P (Sign (colon_of (token_loc z))); C v]) n.
Proof.
  intros P H. unfold match_pair in H. destruct (static_string l); [|steps].
  apply bind_ok' in H as (u & s1 & _ & H). destruct u; [|discriminate].
  apply bind_ok' in H as (m & s2 & H1 & H). injection H as <- <-. eapply y_pair_quoted; eauto.
Qed.
