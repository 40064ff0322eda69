(** * Every function of the builder records what it is given: the proofs for C52 *)
Require Import Verif.Base Verif.InputM Verif.TokensM Verif.NodeM Verif.ScopesM Verif.DiagnosticM Verif.Utf8M.
Require Import Verif.LexerM Verif.BuilderM Verif.BuilderNodesM Verif.BuilderFacts Verif.KeepSpec.
From Coq Require Import Lia ZifyBool ZifyNat Permutation.

(** ** Counting pieces *)

Lemma item_dec (a b : Item) : {a = b} + {a <> b}.
Proof. repeat decide equality. Defined.
Definition cnt (x : Item) (l : list Item) : nat := count_occ item_dec l x.
Lemma cnt_app x l k : cnt x (l ++ k) = cnt x l + cnt x k.
Proof. apply count_occ_app. Qed.
Definition one (x a : Item) : nat := cnt x [a].
Lemma cnt_cons x a l : cnt x (a :: l) = one x a + cnt x l.
Proof. apply (cnt_app x [a]). Qed.
Lemma cnt_nil x : cnt x [] = 0.
Proof. reflexivity. Qed.
Lemma same_count l k : (forall x, cnt x l = cnt x k) -> Permutation l k.
Proof. apply Permutation_count_occ. Qed.
Lemma all_app l k : all_items (l ++ k) = all_items l ++ all_items k.
Proof. apply flat_map_app. Qed.
Lemma all_cons a l : all_items (a :: l) = items a ++ all_items l.
Proof. reflexivity. Qed.
Lemma all_olist o : all_items (olist o) = opt_items items o.
Proof. destruct o; [apply app_nil_r | reflexivity]. Qed.

(** ** Rewritten nodes *)

Lemma cc_items : forall n, items (check_condition n) = items n.
Proof.
  apply (node_ind' (fun n => items (check_condition n) = items n)). intros n IH.
  destruct n; try reflexivity; cbn [check_condition children items] in *.
  - rewrite !IH by (cbn; auto). reflexivity.
  - destruct statements as [|a [|b l]]; try reflexivity. cbn [items flat_map].
    rewrite IH by (cbn; auto). reflexivity.
  - destruct left_, right_; cbn [map_opt opt_items]; rewrite ?IH by (cbn; auto); reflexivity.
  - destruct left_, right_; cbn [map_opt opt_items]; rewrite ?IH by (cbn; auto); reflexivity.
  - rewrite !IH by (cbn; auto). reflexivity.
Qed.
Lemma kwargs_items l : all_items (rewrite_hash_args_to_kwargs l) = all_items l.
Proof.
  unfold rewrite_hash_args_to_kwargs. destruct (rev l) as [|a r] eqn:E; [reflexivity|].
  assert (El : l = rev (a :: r)) by (rewrite <- E; symmetry; apply rev_involutive).
  destruct a; try reflexivity.
  - destruct r as [|b r]; [reflexivity|]. destruct b; try reflexivity. destruct begin_l, end_l; try reflexivity.
    subst l. cbn [rev]. rewrite !all_app. reflexivity.
  - destruct begin_l, end_l; try reflexivity. subst l. cbn [rev]. rewrite !all_app. reflexivity.
Qed.

(** ** Inverting calls *)

Lemma bind_ok' {S A B} (m : M S A) (k : A -> M S B) e s r s' : bind m k e s = Ok r s' ->
  exists a s1, m e s = Ok a s1 /\ k a e s1 = Ok r s'.
Proof. unfold bind. destruct (m e s) as [a s1| |]; [eauto | discriminate | discriminate]. Qed.
Lemma value_ok t e s v s' : value t e s = Ok v s' -> v = token_value t /\ s' = s.
Proof. unfold value. destruct (utf8_valid _); [|discriminate]. intros [= <- <-]. auto. Qed.
Lemma maybe_value_ok t e s v s' : maybe_value t e s = Ok v s' -> v = option_map token_value t.
Proof.
  destruct t as [t|]; cbn [maybe_value option_map].
  - intros H. apply bind_ok' in H as (x & s1 & H1 & H). apply value_ok in H1 as [-> ->]. now injection H as <- <-.
  - now intros [= <- <-].
Qed.
Lemma collection_ok' b l z e s bl el r s' : collection_map b l z e s = Ok (bl, el, r) s' ->
  bl = maybe_loc b /\ el = maybe_loc z.
Proof.
  unfold collection_map. intros H. apply bind_ok' in H as (x & s1 & _ & H). injection H as <- <- _ _. auto.
Qed.
Lemma heredoc_ok b l z e s bl el r s' : heredoc_map b l z e s = Ok (bl, el, r) s' ->
  maybe_loc b = Some r /\ maybe_loc z = Some el.
Proof.
  unfold heredoc_map, bind, expect, ret, panic. destruct b, z; try discriminate. intros [= <- <- <- <-]. auto.
Qed.
Lemma adjust_end_pos l e s r s' : adjust_end l (-1) e s = Ok r s' -> r = key_of l.
Proof.
  unfold adjust_end, shift_pos, key_of. intros H. apply bind_ok' in H as (p & s1 & H1 & H). injection H as <- <-.
  repeat match type of H1 with (if ?c then _ else _) _ _ = _ => destruct c eqn:?; try discriminate end.
  injection H1 as <- <-. f_equal. lia.
Qed.
Lemma adjust_begin_pos l e s r s' : adjust_begin l 1 e s = Ok r s' -> r = mkLoc (loc_begin l + 1) (loc_end l).
Proof.
  unfold adjust_begin, shift_pos. intros H. apply bind_ok' in H as (p & s1 & H1 & H). injection H as <- <-.
  repeat match type of H1 with (if ?c then _ else _) _ _ = _ => destruct c eqn:?; try discriminate end.
  injection H1 as <- <-. f_equal. lia.
Qed.
Lemma sub_pos a b e (s : Builder) r s' : sub_ck a b e s = Ok r s' -> r = a - b.
Proof. unfold sub_ck. destruct (b <=? a); [|discriminate]. now intros [= <- <-]. Qed.
Lemma from1_ok v e s r s' : str_from1 v e s = Ok r s' -> r = tl v.
Proof. unfold str_from1. destruct (boundary1 v); [|discriminate]. now intros [= <- <-]. Qed.
Lemma reserved_ok t e s r l s' : reserved_name t e s = Ok (Some (r, l)) s' -> name_opt r l = called_opt t.
Proof.
  destruct t as [t|]; cbn [reserved_name called_opt opt_items].
  - intros H. apply bind_ok' in H as (v & s1 & H1 & H). apply value_ok in H1 as [-> ->].
    apply bind_ok' in H as (x & s2 & _ & H). destruct x; [|discriminate]. now injection H as <- <- <-.
  - now intros [= <- <- <-].
Qed.

Ltac step1 :=
  match goal with
  | H : bind _ _ _ _ = Ok _ _ |- _ => apply bind_ok' in H; destruct H as (? & ? & ? & H)
  | H : ret _ _ _ = Ok _ _ |- _ => unfold ret in H
  | H : ok _ _ _ = Ok _ _ |- _ => unfold ok in H
  | H : err _ _ = Ok _ _ |- _ => unfold err in H
  | H : panic _ _ _ = Ok _ _ |- _ => discriminate H
  | H : Ok _ _ = Ok _ _ |- _ => injection H; clear H; intros; subst
  | H : Some _ = Some _ |- _ => injection H; clear H; intros; subst
  | H : None = Some _ |- _ => discriminate H
  | H : Some _ = None |- _ => discriminate H
  | H : (_, _) = (_, _) |- _ => injection H; clear H; intros; subst
  | H : value _ _ _ = Ok _ _ |- _ => apply value_ok in H; destruct H; subst
  | H : maybe_value _ _ _ = Ok _ _ |- _ => apply maybe_value_ok in H; subst
  | H : collection_map _ _ _ _ _ = Ok (_, _, _) _ |- _ => apply collection_ok' in H; destruct H; subst
  | H : heredoc_map _ _ _ _ _ = Ok (_, _, _) _ |- _ => apply heredoc_ok in H; destruct H
  | H : adjust_end _ _ _ _ = Ok _ _ |- _ => apply adjust_end_pos in H; subst
  | H : adjust_begin _ _ _ _ = Ok _ _ |- _ => apply adjust_begin_pos in H; subst
  | H : sub_ck _ _ _ _ = Ok _ _ |- _ => apply sub_pos in H; subst
  | H : str_from1 _ _ _ = Ok _ _ |- _ => apply from1_ok in H; subst
  | H : reserved_name _ _ _ = Ok (Some (_, _)) _ |- _ => apply reserved_ok in H
  | H : expect ?o _ _ _ = Ok _ _ |- _ => destruct o eqn:?; unfold expect in H
  | H : (let '(_, _) := ?x in _) _ _ = Ok _ _ |- _ => destruct x
  | H : (match ?x with _ => _ end) _ _ = Ok _ _ |- _ => destruct x eqn:?
  | H : (_ * _)%type |- _ => destruct H
  end.
Ltac steps := repeat (step1; try discriminate).
(** Compare the pieces by number *)
Ltac open_items :=
  cbn [items opt_items at_ at_opt called called_opt marks named_at name_opt maybe_loc option_map olist
       clause_given clause_body];
  repeat match goal with |- context [flat_map items ?l] => change (flat_map items l) with (all_items l) end;
  repeat rewrite ?all_app, ?all_cons, ?all_olist, ?cc_items, ?kwargs_items.
Ltac tally0 :=
  open_items; open_items;
  change (all_items []) with (@nil Item);
  let x := fresh "x" in apply same_count; intros x;
  cbn [opt_items at_ at_opt called called_opt marks named_at name_opt app];
  repeat rewrite ?cnt_app, ?cnt_cons, ?cnt_nil.
Ltac tally := tally0; lia.
Definition keeps (its : list Item) (ns : list Node) (n : Node) : Prop :=
  Permutation (items n) (its ++ all_items ns).
Ltac opts := repeat match goal with
  | o : option Token |- _ => destruct o
  | o : option Node |- _ => destruct o
  end.
