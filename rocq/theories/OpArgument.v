(** * The rows of the operator table in front of an argument *)
Require Import Verif.Base Verif.MaybeByteM Verif.InputM Verif.DiagnosticM Verif.BufferM Verif.TokensM Verif.LexStateM Verif.LexerM Verif.LexIdentM Verif.LexMainM
  Verif.SourceSpec Verif.SourceProofs Verif.Wp Verif.BufInv Verif.LexSpec Verif.NewlineInv Verif.ReadSpec Verif.YylexSpec Verif.Reach Verif.IdentSpec Verif.IdentRead Verif.IdentStep
  Verif.Prop_Ident Verif.OpSpec Verif.OpStep Verif.OpRows Verif.OpTable.
Require Import ZifyBool ZifyNat ZifyN.

Lemma rows_argument : forall B e b s1 st sp cs seen q z w k st',
  Ready B b -> ptok b = q -> pbeg b <= q -> lex_state s1 = st -> lval s1 = None -> command_start s1 = false ->
  In (w, k, st') (rows AtArgument) -> longest B q AtArgument w -> z = q + String.length w -> z <= pend b -> InL B b z -> place B st sp z AtArgument ->
  exists x r, bs w = x :: r /\ row_ok B e b s1 st sp cs seen q z w AtArgument x k st'.
Proof.
  intros B e b s1 st sp cs seen q z w k st' HR Hq Hb Hst HN HC HIn HL Hz HF HI HP. unfold rows in HIn. cbn [app common_rows special_rows] in HIn.
  repeat (destruct HIn as [E|HIn]; [op_row HL HP|]). contradiction.
Qed.
