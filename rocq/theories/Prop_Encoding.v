(** * C39: the input under encoding handling *)
Require Import Verif.Base Verif.MaybeByteM Verif.InputM Verif.DiagnosticM Verif.TokensM Verif.BufferM Verif.LexStateM Verif.LexerM Verif.LexMainM
  Verif.SourceSpec Verif.SourceProofs Verif.Wp Verif.BufInv Verif.MainInv Verif.RunInv Verif.Prop_Lexer Verif.YylexSpec Verif.Reach.
Require Import ZifyBool ZifyNat ZifyN.

(** ** Specification *)

(** Equal up to the case of ASCII letters; the second letter is upper case *)
Definition same_letter (a b : N) : Prop := a = b \/ (65 <= b <= 90 /\ a = b + 32)%N.
Definition in_any_case (enc name : list N) : Prop := Forall2 same_letter enc name.
Definition known_encoding (enc : list N) : Prop :=
  in_any_case enc (bs "UTF-8") \/ in_any_case enc (bs "ASCII-8BIT") \/ in_any_case enc (bs "BINARY").

Lemma upper_case : forall enc name, in_any_case enc name -> Forall (fun c => c < 128 /\ ~ (97 <= c <= 122))%N name -> to_uppercase enc = name.
Proof.
  intros enc name H. induction H as [|a b enc name Hab H IH]; intros HF; [reflexivity|].
  inversion HF as [|x l (Hx1 & Hx2) HF']; subst. specialize (IH HF').
  cbn [to_uppercase]. replace (N.eqb a 196) with false by (unfold same_letter in Hab; lia). replace (N.eqb a 197) with false by (unfold same_letter in Hab; lia).
  rewrite IH. f_equal. unfold same_letter in Hab. unfold b_is_lower. destruct (in_range "a" "z" a) eqn:E; unfold in_range in E; lia.
Qed.

Lemma known_decode : forall e enc B, known_encoding enc -> decode_input e B enc = DecOk B.
Proof.
  intros e enc B H. unfold decode_input.
  assert (K : to_uppercase enc = bs "UTF-8" \/ to_uppercase enc = bs "ASCII-8BIT" \/ to_uppercase enc = bs "BINARY").
  { destruct H as [H|[H|H]]; [left|right; left|right; right]; (apply upper_case; [exact H|]); cbv; repeat constructor; intros (A & C); congruence. }
  destruct K as [K|[K|K]]; rewrite K; reflexivity.
Qed.

(** C39.  The three encodings known to the library leave the input as it was: bytes, name and lines *)
Theorem C39_known_encodings : forall enc e B d, known_encoding enc ->
  set_encoding enc e (update_bytes B d) = Ok None (update_bytes B d).
Proof.
  intros enc e B d H. unfold set_encoding, bind, get, ask, modify, ret.
  assert (Hb : d_bytes (update_bytes B d) = B) by (unfold update_bytes; destruct (update_loop _ _ _ _); reflexivity).
  rewrite Hb, known_decode by exact H. f_equal. unfold update_bytes. destruct (update_loop _ _ _ _); reflexivity.
Qed.
Print Assumptions C39_known_encodings.

Lemma case_upper : forall enc, Forall (fun c => c < 128)%N enc -> in_any_case enc (to_uppercase enc).
Proof.
  intros enc H. unfold in_any_case. induction H as [|a enc Ha H IH]; [constructor|].
  cbn [to_uppercase]. replace (N.eqb a 196) with false by lia. replace (N.eqb a 197) with false by lia.
  constructor; [|exact IH]. unfold same_letter, b_is_lower. destruct (in_range "a" "z" a) eqn:E; unfold in_range in E; lia.
Qed.

Lemma bytes_eqb_true : forall a b, bytes_eqb a b = true -> a = b.
Proof.
  induction a as [|x a IH]; intros [|y b] H; try discriminate; [reflexivity|]. cbn in H. apply andb_prop in H. destruct H as (H1 & H2).
  apply N.eqb_eq in H1. subst y. f_equal. auto.
Qed.

Lemma other_decode : forall e enc B, ~ known_encoding enc -> Forall (fun c => c < 128)%N enc ->
  decode_input e B enc = match decoder e with Some f => f enc B | None => DecErr (UnsupportedEncoding enc) end.
Proof.
  intros e enc B H HA. unfold decode_input. pose proof (case_upper enc HA) as K.
  destruct (_ || _ || _) eqn:E; [|reflexivity]. exfalso. apply H. unfold known_encoding.
  apply orb_prop in E. destruct E as [E|E]; [apply orb_prop in E; destruct E as [E|E]|]; apply bytes_eqb_true in E; rewrite E in K; auto.
Qed.

(** C39.  For other names the decoder decides: the input becomes what it returns, with the lines of that text (C01 says which
    those are). *)
Theorem C39_decoder_output : forall enc B out d f n upper, ~ known_encoding enc -> Forall (fun c => c < 128)%N enc ->
  f enc B = DecOk out -> set_encoding enc (mkEnv n (Some f) upper) (update_bytes B d) = Ok None (update_bytes out d).
Proof.
  intros enc B out d f n upper H HA Hf. unfold set_encoding, bind, get, ask, modify, ret.
  assert (Hb : d_bytes (update_bytes B d) = B) by (unfold update_bytes; destruct (update_loop _ _ _ _); reflexivity).
  rewrite Hb, other_decode by auto. cbn [decoder]. rewrite Hf. f_equal. unfold update_bytes. cbn [d_name].
  destruct (update_loop B _ _ _); destruct (update_loop out _ _ _); reflexivity.
Qed.
Print Assumptions C39_decoder_output.

(** C39.  Without a custom decoder the input of the lexer is the source in every state before the end of input, whatever magic
    comments it has read. *)
Theorem C39_input_kept : forall B n upper s, reached B n upper s ->
  d_bytes (input (buffer s)) = B /\ d_lines (input (buffer s)) = d_lines (update_bytes B (named [])).
Proof.
  intros B n upper s HR. pose proof (reached_inv _ _ _ _ HR) as [HW _ _ _]. split; [apply (w_bytes B _ HW)|apply (w_lines B _ HW)].
Qed.
Print Assumptions C39_input_kept.

(** C39 is false where decoding fails: the encoding is reported, the bytes are gone but the lines are kept, and the report
    cannot be rendered on the input that is left. *)
Theorem C39_failed_decoding_refuted : exists B n upper ts s d, enough B <= n /\ run_lexer B (bs "f") (plain_env n upper) = Ok ts s /\
  In d (diagnostics s) /\ d_bytes (input (buffer s)) = [] /\ d_lines (input (buffer s)) <> d_lines (update_bytes [] (named (bs "f"))) /\
  forall e text, ~ exists out, render (dg_level d) text (dg_loc d) e (input (buffer s)) = Ok (Some out) (input (buffer s)).
Proof.
  exists (bs "# encoding: koi8-r
x"), 300, (fun _ => false). do 3 eexists. split; [vm_compute; lia|]. split; [vm_compute; reflexivity|].
  split; [left; reflexivity|]. split; [reflexivity|]. split; [vm_compute; discriminate|].
  intros e text (out & H). vm_compute in H. discriminate H.
Qed.
Print Assumptions C39_failed_decoding_refuted.

(** ** The hypotheses are met *)
Example C39_known_example : known_encoding (bs "Utf-8") /\ known_encoding (bs "ascii-8bit") /\ known_encoding (bs "BINARY") /\ ~ known_encoding (bs "koi8-r").
Proof.
  splits.
  - left. repeat constructor; unfold same_letter; cbn; lia.
  - right. left. repeat constructor; unfold same_letter; cbn; lia.
  - right. right. repeat constructor; unfold same_letter; cbn; lia.
  - intros [H|[H|H]]; inversion H as [|a b l l' H1 H2]; subst; clear H; unfold same_letter in H1; cbn in H1; try lia.
Qed.

Example C39_decoder_example : set_encoding (bs "koi8-r") (mkEnv 0 (Some (fun _ b => DecOk (b ++ bs "
y"))) (fun _ => false)) (update_bytes (bs "x") (named [])) = Ok None (update_bytes (bs "x
y") (named [])).
Proof. reflexivity. Qed.
