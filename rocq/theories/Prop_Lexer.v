(** * C06, C07, C08, C10, C11, C40: whole runs of the lexer *)
Require Import Verif.Base Verif.Wp Verif.InputM Verif.DiagnosticM Verif.TokensM Verif.BufferM Verif.LexerM Verif.LexMainM
  Verif.SourceSpec Verif.SourceProofs Verif.LexInv Verif.HereDocInv Verif.MagicInv Verif.LexSpec Verif.MainInv Verif.RunInv
  Verif.FuelMono.

(** The environment without a custom decoder: [fuel] bounds loops, [upper] says which non-ASCII characters are
    upper case *)
Definition plain_env (fuel : nat) (upper : N -> bool) : Env := mkEnv fuel None upper.

(** The bound on loops that is always enough *)
Definition enough (B : list N) : nat := 9 * List.length B + 21.

Lemma run_fixed : forall (B name : list N) upper, exists ts s,
  (forall n, enough B <= n -> run_lexer B name (plain_env n upper) = Ok ts s) /\ RunOk B ts s.
Proof.
  intros B name upper.
  destruct (run_lexer_ok B (plain_env (enough B) upper)) with (name := name) as (ts & s & H1 & H2).
  - unfold enough. cbn [plain_env fuel]. lia.
  - apply no_decoder_safe. reflexivity.
  - exists ts, s. split; auto. intros n Hn. rewrite <- H1. apply run_lexer_mono; [|congruence].
    unfold more_fuel. cbn. auto.
Qed.

(** C06.  Lexing never panics, whatever the input, and however long loops are allowed to run. *)
Theorem C06_lexing_never_panics : forall (B name : list N) (n : nat) (upper : N -> bool) (w : string),
  run_lexer B name (plain_env n upper) <> Panic w.
Proof.
  intros B name n upper w H. destruct (run_fixed B name upper) as (ts & s & H1 & _).
  assert (E : run_lexer B name (plain_env (n + enough B) upper) = Panic w).
  { rewrite <- H. apply run_lexer_mono; [|congruence]. unfold more_fuel. cbn. splits; auto. lia. }
  rewrite H1 in E by lia. discriminate.
Qed.
Print Assumptions C06_lexing_never_panics.

Definition lexed (B : list N) : option (list Token * Lexer) :=
  match run_lexer B [] (plain_env (enough B) (fun _ => false)) with Ok ts s => Some (ts, s) | _ => None end.
Definition kinds (B : list N) : option (list (Tok * (nat * nat))) :=
  match lexed B with
  | Some (ts, _) => Some (map (fun t => (token_type t, (loc_begin (token_loc t), loc_end (token_loc t)))) ts)
  | None => None
  end.

Example C06_example :
  kinds (bs "x = <<A + 1" ++ [10%N] ++ bs "a#{y}" ++ [10; 255; 0; 10]%N ++ bs "A" ++ [10%N]) =
  Some [(tIDENTIFIER, (0, 1)); (tEQL, (2, 3)); (tSTRING_BEG, (4, 7)); (tSTRING_CONTENT, (12, 14));
        (tSTRING_DBEG, (13, 15)); (tSTRING_CONTENT, (15, 21)); (tSTRING_END, (21, 22)); (tPLUS, (8, 9));
        (tINTEGER, (10, 11)); (tNL, (11, 12))].
Proof. vm_compute. reflexivity. Qed.

(** C07.  Lexing terminates: [9 * length + 21] iterations are enough for every loop, and more iterations change
    nothing.  The number of tokens is linear in the length. *)
Theorem C07_lexing_terminates : forall (B name : list N) (upper : N -> bool), exists ts s,
  (forall n, enough B <= n -> run_lexer B name (plain_env n upper) = Ok ts s) /\
  List.length ts <= 9 * List.length B + 3.
Proof.
  intros B name upper. destruct (run_fixed B name upper) as (ts & s & H1 & []). exists ts, s. auto.
Qed.
Print Assumptions C07_lexing_terminates.

Example C07_example : option_map (@List.length _) (kinds (bs "a;b")) = Some 3.
Proof. vm_compute. reflexivity. Qed.

(** What holds of the outcome of any run *)
Lemma run_outcome : forall (B name : list N) n upper ts s,
  run_lexer B name (plain_env n upper) = Ok ts s -> RunOk B ts s.
Proof.
  intros B name n upper ts s H. destruct (run_fixed B name upper) as (ts' & s' & H1 & H2).
  assert (E : run_lexer B name (plain_env (n + enough B) upper) = Ok ts s).
  { rewrite <- H. apply run_lexer_mono; [|congruence]. unfold more_fuel. cbn. splits; auto. lia. }
  rewrite H1 in E by lia. injection E as -> ->. exact H2.
Qed.

(** C08.  Token ranges lie inside the source, unless the run reports an unterminated heredoc.
    Partial: the full claim has no such exception; it is refuted below. *)
Theorem C08_token_ranges_partial : forall (B name : list N) n upper ts s,
  run_lexer B name (plain_env n upper) = Ok ts s ->
  (forall d id, In d (diagnostics s) -> dg_message d <> UnterminatedHeredoc id) ->
  forall t, In t ts ->
    loc_begin (token_loc t) <= loc_end (token_loc t) /\ loc_end (token_loc t) <= List.length B.
Proof.
  intros B name n upper ts s H Hd t Ht. destruct (run_outcome _ _ _ _ _ _ H) as [_ [HR|(d & id & H1 & H2)] _ _ _].
  - rewrite Forall_forall in HR. exact (HR t Ht).
  - exfalso. exact (Hd d id H1 H2).
Qed.
Print Assumptions C08_token_ranges_partial.

Example C08_example :
  kinds (bs "'a b' ") = Some [(tSTRING_BEG, (0, 1)); (tSTRING_CONTENT, (1, 4)); (tSTRING_END, (4, 5))] /\
  option_map (fun r => diagnostics (snd r)) (lexed (bs "'a b' ")) = Some [].
Proof. split; vm_compute; reflexivity. Qed.

Theorem C08_token_ranges_refuted : exists (B : list N) ts s t,
  run_lexer B [] (plain_env (enough B) (fun _ => false)) = Ok ts s /\ In t ts /\
  ~ (loc_begin (token_loc t) <= loc_end (token_loc t) /\ loc_end (token_loc t) <= List.length B).
Proof.
  exists (bs "<<A" ++ [10%N] ++ bs "foo").
  destruct (run_lexer (bs "<<A" ++ [10%N] ++ bs "foo") [] (plain_env (enough (bs "<<A" ++ [10%N] ++ bs "foo")) (fun _ => false)))
    as [ts s| |] eqn:E; [|vm_compute in E; discriminate|vm_compute in E; discriminate].
  assert (H : match run_lexer (bs "<<A" ++ [10%N] ++ bs "foo") [] (plain_env (enough (bs "<<A" ++ [10%N] ++ bs "foo")) (fun _ => false)) with
              | Ok ts _ => option_map token_loc (nth_error ts 1) | _ => None end = Some (mkLoc 4 8)) by (vm_compute; reflexivity).
  rewrite E in H. destruct (nth_error ts 1) as [t|] eqn:Et; [|discriminate]. injection H as H.
  exists ts, s, t. split; auto. split; [eapply nth_error_In; eauto|]. rewrite H. cbn. lia.
Qed.
Print Assumptions C08_token_ranges_refuted.

(** C10.  Recorded comments are real comments. *)
Theorem C10_comments_real : forall (B name : list N) n upper ts s,
  run_lexer B name (plain_env n upper) = Ok ts s ->
  forall c, In c (comments s) ->
    match cm_kind c with
    | Inline => inline_comment B (cm_location c)
    | Document => document_comment B (cm_location c)
    | Unknown => False
    end.
Proof.
  intros B name n upper ts s H c Hc. destruct (run_outcome _ _ _ _ _ _ H) as [_ _ HC _ _].
  rewrite Forall_forall in HC. exact (HC c Hc).
Qed.
Print Assumptions C10_comments_real.

Example C10_example :
  option_map (fun r => comments (snd r)) (lexed (bs "a # b" ++ [10%N] ++ bs "=begin" ++ [10%N] ++ bs "=end" ++ [10%N])) =
  Some [mkComment (mkLoc 2 6) Inline; mkComment (mkLoc 6 18) Document].
Proof. vm_compute. reflexivity. Qed.

(** C11.  Recorded magic comments. *)
Theorem C11_magic_comments : forall (B name : list N) n upper ts s,
  run_lexer B name (plain_env n upper) = Ok ts s ->
  forall m, In m (magic_comments s) -> magic_ok B m.
Proof.
  intros B name n upper ts s H m Hm. destruct (run_outcome _ _ _ _ _ _ H) as [_ _ _ HM _].
  rewrite Forall_forall in HM. exact (HM m Hm).
Qed.
Print Assumptions C11_magic_comments.

Example C11_example :
  option_map (fun r => magic_comments (snd r)) (lexed (bs "# -*- warn-indent: true; coding: utf-8 -*-" ++ [10%N])) =
  Some [mkMagic MC_WarnIndent (mkLoc 6 17) (mkLoc 19 23); mkMagic MC_Encoding (mkLoc 25 31) (mkLoc 33 38)].
Proof. vm_compute. reflexivity. Qed.

(** C40.  Every diagnostic of a run can be rendered. *)
Theorem C40_diagnostics_renderable : forall (B name : list N) n upper ts s,
  run_lexer B name (plain_env n upper) = Ok ts s ->
  forall d, In d (diagnostics s) ->
    loc_begin (dg_loc d) <= loc_end (dg_loc d) /\ loc_begin (dg_loc d) <= List.length B /\
    forall (e : Env) (text : list N), exists out,
      render (dg_level d) text (dg_loc d) e (update_bytes B (named name)) = Ok (Some out) (update_bytes B (named name)).
Proof.
  intros B name n upper ts s H d Hd. destruct (run_outcome _ _ _ _ _ _ H) as [_ _ _ _ HD].
  rewrite Forall_forall in HD. destruct (HD d Hd) as (H1 & H2). splits; auto.
  intros e text. destruct (render_exact B (named name) e (dg_level d) text (dg_loc d) H1 H2) as (l & c & _ & _ & E).
  eauto.
Qed.
Print Assumptions C40_diagnostics_renderable.

Example C40_example :
  option_map (fun r => map dg_loc (diagnostics (snd r))) (lexed (bs "1__2 'a")) = Some [mkLoc 1 2; mkLoc 7 7].
Proof. vm_compute. reflexivity. Qed.
