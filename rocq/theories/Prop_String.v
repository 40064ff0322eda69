(** * C15, C16, C17, C25, C26: string literals *)
Require Import Verif.Base Verif.MaybeByteM Verif.Utf8M Verif.InputM Verif.DiagnosticM Verif.TokensM Verif.BufferM Verif.LexStateM
  Verif.LexerM Verif.LexStringM Verif.LexIdentM Verif.LexMainM Verif.ParserClientM
  Verif.SourceSpec Verif.SourceProofs Verif.Wp Verif.BufInv Verif.LexSpec Verif.NewlineInv Verif.MainInv Verif.RunInv Verif.Prop_Lexer
  Verif.ReadSpec Verif.YylexSpec Verif.Reach Verif.NumberSpec Verif.NumRead Verif.IdentRead Verif.IdentStep Verif.Prop_Ident Verif.Prop_Crlf Verif.Prop_End
  Verif.StringSpec Verif.StrNum Verif.StrRead Verif.StrStep Verif.StrOpen.
Require Import ZifyBool ZifyNat ZifyN.

(** No squiggly heredoc is being read (the lexer measures indentation only there) *)
Definition no_squiggly (s : Lexer) : Prop := (heredoc_indent (buffer s) <= 0)%Z.

(** ** All literals: the tokens at a state that some parser reaches *)

(** What is asked of the place of a literal: a state that some parser reaches, outside of literals, with the text [sp ++ text] next *)
Record Place (B : list N) (n : nat) (upper : N -> bool) (s : Lexer) (p : nat) (sp text : list N) : Prop := mkPlace {
  pl_reached : reached B n upper s;
  pl_term : strterm s = None;
  pl_next : upcoming (buffer s) p;
  pl_text : text_at B p (sp ++ text);
  pl_space : spacing (buffer s) sp;
  pl_quiet : no_squiggly s;
  pl_order : In 10%N text -> in_order (buffer s);
  pl_fuel : List.length B < n
}.

(** The lexer behind the literal: the next byte to be read, the state, what was reported *)
Record Done (B : list N) (s s' : Lexer) (q : nat) (d : list Diagnostic) : Prop := mkDone {
  dn_next : q < List.length B -> upcoming (buffer s') q;
  dn_pos : pcur (buffer s') = q;
  dn_term : strterm s' = None;
  dn_state : lex_state s' = EXPR_END;
  dn_diags : diagnostics s' = diagnostics s ++ d;
  dn_comments : comments s' = comments s;
  dn_quiet : no_squiggly s';
  dn_order : in_order (buffer s) -> in_order (buffer s')
}.

Lemma behind_done : forall B s s' q d, Behind B (in_order (buffer s)) s s' q d -> Done B s s' q d.
Proof.
  intros B s s' q d [[W P U Q O] T S V D C]. constructor; auto. unfold no_squiggly. lia.
Qed.

(** A quoted string directly before a colon is a label; here it is not *)
Definition no_label (B : list N) (op : list N) (q : nat) : Prop := op = [39%N] \/ op = [34%N] -> nth_error B q <> Some 58%N.

Lemma literal_at : forall B n upper s p sp op k interp opn cls txt v d,
  Place B n upper s p sp (op ++ txt ++ [cls]) ->
  opening op k interp false opn cls -> opening_starts (lex_state s) sp op -> (interp = true -> ~ delim opn cls 35%N) ->
  body interp false opn cls cls (p + List.length sp + List.length op) 0 txt v d 0 ->
  no_label B op (p + List.length sp + List.length op + List.length txt + 1) ->
  exists s', lexes (plain_env n upper) s (tok_at k op (p + List.length sp) (List.length op) ::
      (if txt then [] else [tok_at tSTRING_CONTENT v (p + List.length sp + List.length op) (List.length txt)]) ++
      [tok_at tSTRING_END [cls] (p + List.length sp + List.length op + List.length txt) 1]) s' /\
    Done B s s' (p + List.length sp + List.length op + List.length txt + 1) d.
Proof.
  intros B n upper s p sp op k interp opn cls txt v d [P1 P2 P3 P4 P5 P6 P7 P8] HOp HSt HH HB HLb.
  pose proof (reached_inv B n upper s P1) as [HW _ _ (L1 & L2)]. unfold no_squiggly in P6.
  destruct (string_lexes B (in_order (buffer s)) (plain_env n upper) P8 s p sp op k interp opn cls txt v d) as (s' & X1 & X2); auto; [lia|].
  exists s'. split; auto. apply behind_done; auto.
Qed.

Lemma list_at : forall B n upper s p sp op k interp opn cls gap txt toks d,
  Place B n upper s p sp (op ++ gap ++ txt ++ [cls]) ->
  opening op k interp true opn cls -> opening_starts (lex_state s) sp op -> (interp = true -> ~ delim opn cls 35%N) -> ~ white_byte cls ->
  Forall (fun c => white_byte c /\ c <> 13%N) gap ->
  word_items interp opn cls (p + List.length sp + List.length op + List.length gap) 0 txt toks d ->
  exists s', lexes (plain_env n upper) s (tok_at k op (p + List.length sp) (List.length op) ::
      tok_at tSPACE gap (p + List.length sp + List.length op) (List.length gap) :: toks ++
      [tok_at tSTRING_END [cls] (p + List.length sp + List.length op + List.length gap + List.length txt) 1]) s' /\
    Done B s s' (p + List.length sp + List.length op + List.length gap + List.length txt + 1) d.
Proof.
  intros B n upper s p sp op k interp opn cls gap txt toks d [P1 P2 P3 P4 P5 P6 P7 P8] HOp HSt HH HWc HG HIt.
  pose proof (reached_inv B n upper s P1) as [HW _ _ (L1 & L2)]. unfold no_squiggly in P6.
  destruct (list_lexes B (in_order (buffer s)) (plain_env n upper) P8 s p sp op k interp opn cls gap txt toks d) as (s' & X1 & X2); auto; [lia|].
  exists s'. split; auto. apply behind_done; auto.
Qed.

(** ** Whole programs *)
Lemma program_place : forall B name n upper x r, B = x :: r -> x <> 239%N -> List.length B < n ->
  exists s, lexer_new B name (plain_env n upper) = Ok tt s /\ Place B n upper s 0 [] B /\ lex_state s = EXPR_BEG /\ diagnostics s = [] /\ comments s = [].
Proof.
  intros B name n upper x r HB H239 Hn. destruct (start_reading B (plain_env n upper) name x r HB H239) as (b & E1 & E2 & E3 & E4 & E5).
  exists (lexer_init b). splits; auto. constructor; auto.
  - eapply reached_start; eauto.
  - cbn [app]. unfold text_at. cbn [skipn]. apply firstn_all.
  - unfold no_squiggly. rewrite (start_quiet B name _ _ E1). lia.
Qed.

Lemma program_run : forall B name n upper s ts s' d, lexer_new B name (plain_env n upper) = Ok tt s -> lexes (plain_env n upper) s ts s' ->
  Done B s s' (List.length B) d -> reached B n upper s -> List.length ts < n -> 0 < n ->
  exists s'', run_lexer B name (plain_env n upper) = Ok ts s'' /\ diagnostics s'' = diagnostics s ++ d /\ comments s'' = comments s.
Proof.
  intros B name n upper s ts s' d H1 H2 HD HR Hl Hn. pose proof (reached_inv B n upper s HR) as HI.
  assert (HI' : LInv B s').
  { clear - H2 HI. induction H2 as [s|s t s1 ts s2 K1 K2 K3 IH]; auto. apply IH. eapply step_inv; eauto. }
  destruct HD as [D1 D2 D3 D4 D5 D6 D7 D8]. destruct HI' as [W _ _ V].
  destruct (ended_step B (plain_env n upper) s') as (s'' & E1 & E2 & [] & E4); auto.
  - constructor; auto. split; auto.
  - exists s''. splits; try congruence. eapply run_exact; eauto.
Qed.

(** The whole program is one literal *)
Lemma literal_program : forall op k interp opn cls txt v d name n upper,
  opening op k interp false opn cls -> (interp = true -> ~ delim opn cls 35%N) ->
  body interp false opn cls cls (List.length op) 0 txt v d 0 -> enough (op ++ txt ++ [cls]) <= n ->
  exists s, run_lexer (op ++ txt ++ [cls]) name (plain_env n upper) =
      Ok (tok_at k op 0 (List.length op) :: (if txt then [] else [tok_at tSTRING_CONTENT v (List.length op) (List.length txt)]) ++
          [tok_at tSTRING_END [cls] (List.length op + List.length txt) 1]) s /\
    diagnostics s = d /\ comments s = [].
Proof.
  intros op k interp opn cls txt v d name n upper HOp HH HB Hn. set (B := op ++ txt ++ [cls]) in *.
  assert (HX : exists x r, op = x :: r /\ x <> 239%N) by (destruct HOp; eexists; eexists; (split; [reflexivity|discriminate])).
  destruct HX as (x & r & Eop & H239). unfold enough in Hn.
  destruct (program_place B name n upper x (r ++ txt ++ [cls])) as (s & E1 & HP & E2 & E3 & E4); auto; [unfold B; rewrite Eop; reflexivity|lia|].
  assert (Hl : List.length B = List.length op + List.length txt + 1) by (unfold B; rewrite !app_length; cbn; lia).
  destruct (literal_at B n upper s 0 [] op k interp opn cls txt v d) as (s' & X1 & X2); auto.
  - unfold opening_starts. rewrite E2. destruct HOp as [| |l k' i w c o cl K1 K2 K3]; auto. destruct l; cbn; left; left; reflexivity.
  - intros _. cbn [List.length Nat.add]. rewrite <- Hl. intros K. assert (nth_error B (List.length B) = None) by (apply nth_error_None; lia). congruence.
  - cbn [List.length Nat.add] in X1, X2. rewrite <- Hl in X2.
    destruct (program_run B name n upper s _ s' d E1 X1 X2) as (s'' & Y1 & Y2 & Y3); auto; try lia.
    + apply HP.
    + destruct txt; cbn; lia.
    + exists s''. rewrite E3 in Y2. rewrite E4 in Y3. splits; auto.
Qed.

(** ** C15: single quotes *)

(** The text of [w] between single quotes: backslashes and quotes get a backslash *)
Definition quoted (w : list N) : list N := flat_map (fun c => if N.eqb c 92 || N.eqb c 39 then [92%N; c] else [c]) w.

Lemma quoted_body : forall w p, ~ In 13%N w -> body false false None 39 39 p 0 (quoted w) w [] 0.
Proof.
  induction w as [|c w IH]; intros p H13; [constructor|].
  assert (N92 : ~ delim None 39 92%N) by (intros [A|A]; discriminate).
  assert (Hc : c <> 13%N) by (intros ->; apply H13; left; reflexivity).
  assert (H13' : ~ In 13%N w) by (intros A; apply H13; right; exact A).
  unfold quoted. cbn [flat_map]. fold (quoted w).
  destruct (N.eqb_spec c 92) as [->|E1]; [|destruct (N.eqb_spec c 39) as [->|E2]]; cbn [orb].
  - refine (bd_cons _ _ _ _ _ p 0 [92; 92]%N [92%N] [] 0 (quoted w) w [] 0 _ _); auto. apply pc_backslash. exact N92.
  - refine (bd_cons _ _ _ _ _ p 0 [92; 39]%N [39%N] [] 0 (quoted w) w [] 0 _ _); auto. apply pc_quoted; auto; try discriminate; try reflexivity. left. left. reflexivity.
  - refine (bd_cons _ _ _ _ _ p 0 [c] [c] [] 0 (quoted w) w [] 0 _ _); auto. apply pc_char; auto; try discriminate. intros [A|A]; [congruence|discriminate].
Qed.

Lemma quoted_nil : forall w, w <> [] -> quoted w <> [].
Proof. intros [|c w] H; [congruence|]. unfold quoted. cbn. destruct (_ || _); discriminate. Qed.

(** C15.  Wherever a parser asks for a token and a single-quoted literal comes next whose text is [w] with backslashes and quotes
    escaped, the tokens are the quote, one content token with value [w] (none if [w] is empty), and the quote, with exact extents;
    nothing is reported. *)
Theorem C15_single_quotes : forall B n upper s p sp w,
  Place B n upper s p sp (39%N :: quoted w ++ [39%N]) -> ~ In 13%N w ->
  nth_error B (p + List.length sp + List.length (quoted w) + 2) <> Some 58%N ->
  exists s', lexes (plain_env n upper) s (mkToken tSTRING_BEG [39%N] (mkLoc (p + List.length sp) (p + List.length sp + 1)) ::
      (if w then [] else [mkToken tSTRING_CONTENT w (mkLoc (p + List.length sp + 1) (p + List.length sp + 1 + List.length (quoted w)))]) ++
      [mkToken tSTRING_END [39%N] (mkLoc (p + List.length sp + 1 + List.length (quoted w)) (p + List.length sp + 1 + List.length (quoted w) + 1))]) s' /\
    Done B s s' (p + List.length sp + 1 + List.length (quoted w) + 1) [].
Proof.
  intros B n upper s p sp w HP H13 HLb.
  destruct (literal_at B n upper s p sp [39%N] tSTRING_BEG false None 39 (quoted w) w []) as (s' & X1 & X2); auto; try discriminate.
  - constructor.
  - exact I.
  - apply quoted_body; auto.
  - intros _. cbn [List.length]. replace (p + List.length sp + 1 + List.length (quoted w) + 1) with (p + List.length sp + List.length (quoted w) + 2) by lia. exact HLb.
  - exists s'. split; [|exact X2]. destruct w as [|c w]; [exact X1|]. destruct (quoted (c :: w)) eqn:E; [exfalso; eapply quoted_nil; eauto; discriminate|exact X1].
Qed.
Print Assumptions C15_single_quotes.

(** The program that consists of the literal *)
Theorem C15_program : forall w name n upper, ~ In 13%N w -> enough (39%N :: quoted w ++ [39%N]) <= n ->
  exists s, run_lexer (39%N :: quoted w ++ [39%N]) name (plain_env n upper) =
      Ok (mkToken tSTRING_BEG [39%N] (mkLoc 0 1) :: (if w then [] else [mkToken tSTRING_CONTENT w (mkLoc 1 (1 + List.length (quoted w)))]) ++
          [mkToken tSTRING_END [39%N] (mkLoc (1 + List.length (quoted w)) (1 + List.length (quoted w) + 1))]) s /\
    diagnostics s = [] /\ comments s = [].
Proof.
  intros w name n upper H13 Hn.
  destruct (literal_program [39%N] tSTRING_BEG false None 39 (quoted w) w [] name n upper) as (s & X1 & X2); auto; try discriminate.
  - constructor.
  - apply quoted_body; auto.
  - exists s. split; [|exact X2]. destruct w as [|c w]; [exact X1|]. destruct (quoted (c :: w)) eqn:E; [exfalso; eapply quoted_nil; eauto; discriminate|exact X1].
Qed.
Print Assumptions C15_program.

(** ** C16: hexadecimal and octal escapes *)

(** A byte spelled with two hexadecimal or three octal digits (or one or two, if no digit follows; [next] is the byte behind) *)
Inductive byte_escape (next : N) : N -> list N -> Prop :=
| be_hex : forall a b, hexadecimal a -> hexadecimal b -> byte_escape next (16 * hex_digit a + hex_digit b) [92; 120; a; b]%N
| be_hex1 : forall a, hexadecimal a -> ~ hexadecimal next -> byte_escape next (hex_digit a) [92; 120; a]%N
| be_octal : forall a b c, (48 <= a <= 51)%N -> octal b -> octal c -> byte_escape next (64 * (a - 48) + 8 * (b - 48) + (c - 48)) [92; a; b; c]%N
| be_octal2 : forall a b, octal a -> octal b -> ~ octal next -> byte_escape next (8 * (a - 48) + (b - 48)) [92; a; b]%N
| be_octal1 : forall a, octal a -> ~ octal next -> byte_escape next (a - 48) [92; a]%N.
Inductive byte_escapes : list N -> list N -> Prop :=
| bes_nil : byte_escapes [] []
| bes_cons : forall b w txt rest, byte_escape (hd 34%N rest) b txt -> byte_escapes w rest -> byte_escapes (b :: w) (txt ++ rest).

Lemma byte_escape_piece : forall next b txt p n, byte_escape next b txt -> piece true false None 34 next p n txt [b] [] n.
Proof.
  assert (N92 : ~ delim None 34 92%N) by (intros [A|A]; discriminate).
  intros next b txt p n [a b' H1 H2|a H1 H2|a b' c H1 H2 H3|a b' H1 H2 H3|a H1 H2].
  - replace (16 * hex_digit a + hex_digit b')%N with (hex_number [a; b']) by (unfold hex_number, number; cbn [fold_left]; lia).
    apply pc_hex; auto; cbn; lia.
  - replace (hex_digit a) with (hex_number [a]) by (unfold hex_number, number; cbn [fold_left]; lia). apply pc_hex; auto; cbn; lia.
  - unfold octal in *. replace (64 * (a - 48) + 8 * (b' - 48) + (c - 48))%N with (octal_value [a; b'; c] mod 256)%N.
    2:{ unfold octal_value, number. cbn [fold_left]. rewrite N.mod_small; lia. }
    apply pc_octal; auto; try (cbn; lia). repeat constructor; unfold octal; lia.
  - unfold octal in *. replace (8 * (a - 48) + (b' - 48))%N with (octal_value [a; b'] mod 256)%N.
    2:{ unfold octal_value, number. cbn [fold_left]. rewrite N.mod_small; lia. }
    apply pc_octal; auto; try (cbn; lia).
  - unfold octal in *. replace (a - 48)%N with (octal_value [a] mod 256)%N.
    2:{ unfold octal_value, number. cbn [fold_left]. rewrite N.mod_small; lia. }
    apply pc_octal; auto; try (cbn; lia).
Qed.

Lemma byte_escapes_body : forall w txt, byte_escapes w txt -> forall p, body true false None 34 34 p 0 txt w [] 0.
Proof.
  intros w txt H. induction H as [|b w txt rest H1 H2 IH]; intros p; [constructor|].
  refine (bd_cons _ _ _ _ _ p 0 txt [b] [] 0 rest w [] 0 _ _); auto. apply byte_escape_piece; auto.
Qed.

Lemma byte_escapes_nil : forall w txt, byte_escapes w txt -> (txt = [] <-> w = []).
Proof. intros w txt HE. destruct HE as [|b w0 t r HB HE]; [tauto|]. split; [|discriminate]. destruct HB; discriminate. Qed.

(** Every byte has a hexadecimal and an octal spelling *)
Lemma byte_spelled : forall b, (b < 256)%N -> (exists x y, forall next, byte_escape next b [92; 120; x; y]%N) /\ (exists x y z, forall next, byte_escape next b [92; x; y; z]%N).
Proof.
  intros b Hb. split.
  - assert (HD : forall k, (k < 16)%N -> exists x, hexadecimal x /\ hex_digit x = k).
    { intros k Hk. destruct (N.ltb_spec k 10) as [A|A].
      - exists (48 + k)%N. unfold hexadecimal, hex_digit. split; [lia|]. replace (48 + k <? 58)%N with true by lia. lia.
      - exists (55 + k)%N. unfold hexadecimal, hex_digit. split; [lia|]. replace (55 + k <? 58)%N with false by lia. replace (55 + k <? 71)%N with true by lia. lia. }
    destruct (HD (b / 16)%N) as (x & X1 & X2); [apply N.div_lt_upper_bound; lia|]. destruct (HD (b mod 16)%N) as (y & Y1 & Y2); [apply N.mod_lt; lia|].
    exists x, y. intros next. rewrite (N.div_mod b 16) by lia. rewrite <- X2, <- Y2. apply be_hex; auto.
  - exists (48 + b / 64)%N, (48 + b / 8 mod 8)%N, (48 + b mod 8)%N. intros next.
    assert (E : b = (64 * (48 + b / 64 - 48) + 8 * (48 + b / 8 mod 8 - 48) + (48 + b mod 8 - 48))%N).
    { replace (48 + b / 64 - 48)%N with (b / 64)%N by lia. replace (48 + b / 8 mod 8 - 48)%N with (b / 8 mod 8)%N by lia. replace (48 + b mod 8 - 48)%N with (b mod 8)%N by lia.
      rewrite (N.div_mod b 8) at 1 by lia. rewrite (N.div_mod (b / 8) 8) at 1 by lia. rewrite N.div_div by lia. change (8 * 8)%N with 64%N. lia. }
    rewrite E at 1. apply be_octal; unfold octal; [|split; [lia|]|split; [lia|]].
    + assert (b / 64 < 4)%N by (apply N.div_lt_upper_bound; lia). lia.
    + pose proof (N.mod_lt (b / 8) 8 ltac:(lia)). lia.
    + pose proof (N.mod_lt b 8 ltac:(lia)). lia.
Qed.

(** C16.  A double-quoted literal made of such escapes denotes exactly these bytes. *)
Theorem C16_byte_escapes : forall B n upper s p sp w txt,
  Place B n upper s p sp (34%N :: txt ++ [34%N]) -> byte_escapes w txt ->
  nth_error B (p + List.length sp + List.length txt + 2) <> Some 58%N ->
  exists s', lexes (plain_env n upper) s (mkToken tSTRING_BEG [34%N] (mkLoc (p + List.length sp) (p + List.length sp + 1)) ::
      (if w then [] else [mkToken tSTRING_CONTENT w (mkLoc (p + List.length sp + 1) (p + List.length sp + 1 + List.length txt))]) ++
      [mkToken tSTRING_END [34%N] (mkLoc (p + List.length sp + 1 + List.length txt) (p + List.length sp + 1 + List.length txt + 1))]) s' /\
    Done B s s' (p + List.length sp + 1 + List.length txt + 1) [].
Proof.
  intros B n upper s p sp w txt HP HE HLb.
  destruct (literal_at B n upper s p sp [34%N] tSTRING_BEG true None 34 txt w []) as (s' & X1 & X2); auto.
  - constructor.
  - exact I.
  - intros _ [A|A]; discriminate.
  - apply byte_escapes_body; auto.
  - intros _. cbn [List.length]. replace (p + List.length sp + 1 + List.length txt + 1) with (p + List.length sp + List.length txt + 2) by lia. exact HLb.
  - exists s'. split; [|exact X2]. pose proof (byte_escapes_nil _ _ HE) as HN. destruct w, txt; try exact X1; exfalso; destruct HN as (N1 & N2); [specialize (N2 eq_refl)|specialize (N1 eq_refl)]; discriminate.
Qed.
Print Assumptions C16_byte_escapes.

(** The program that spells every byte with hexadecimal digits, and the one that spells it with octal digits *)
Definition hex_char (k : N) : N := if (k <? 10)%N then (48 + k)%N else (87 + k)%N.
Definition in_hex (w : list N) : list N := flat_map (fun b => [92; 120; hex_char (b / 16); hex_char (b mod 16)])%N w.
Definition in_octal (w : list N) : list N := flat_map (fun b => [92; 48 + b / 64; 48 + b / 8 mod 8; 48 + b mod 8])%N w.

Lemma in_hex_escapes : forall w, Forall (fun b => b < 256)%N w -> byte_escapes w (in_hex w).
Proof.
  intros w H. induction H as [|b w Hb H IH]; [constructor|]. unfold in_hex. cbn [flat_map]. fold (in_hex w). constructor; auto.
  assert (HD : forall k, (k < 16)%N -> hexadecimal (hex_char k) /\ hex_digit (hex_char k) = k).
  { intros k Hk. unfold hex_char, hexadecimal, hex_digit. destruct (N.ltb_spec k 10) as [A|A].
    - split; [lia|]. replace (48 + k <? 58)%N with true by lia. lia.
    - split; [lia|]. replace (87 + k <? 58)%N with false by lia. replace (87 + k <? 71)%N with false by lia. lia. }
  destruct (HD (b / 16)%N) as (X1 & X2); [apply N.div_lt_upper_bound; lia|]. destruct (HD (b mod 16)%N) as (Y1 & Y2); [apply N.mod_lt; lia|].
  rewrite (N.div_mod b 16) at 1 by lia. rewrite <- X2 at 1. rewrite <- Y2 at 1. apply be_hex; auto.
Qed.

Lemma in_octal_escapes : forall w, Forall (fun b => b < 256)%N w -> byte_escapes w (in_octal w).
Proof.
  intros w H. induction H as [|b w Hb H IH]; [constructor|]. unfold in_octal. cbn [flat_map]. fold (in_octal w). apply (bes_cons b w [_; _; _; _]); auto.
  assert (E : b = (64 * (48 + b / 64 - 48) + 8 * (48 + b / 8 mod 8 - 48) + (48 + b mod 8 - 48))%N).
  { replace (48 + b / 64 - 48)%N with (b / 64)%N by lia. replace (48 + b / 8 mod 8 - 48)%N with (b / 8 mod 8)%N by lia. replace (48 + b mod 8 - 48)%N with (b mod 8)%N by lia.
    rewrite (N.div_mod b 8) at 1 by lia. rewrite (N.div_mod (b / 8) 8) at 1 by lia. rewrite N.div_div by lia. change (8 * 8)%N with 64%N. lia. }
  rewrite E at 1. apply be_octal; unfold octal; [|split; [lia|]|split; [lia|]].
  - assert (b / 64 < 4)%N by (apply N.div_lt_upper_bound; lia). lia.
  - pose proof (N.mod_lt (b / 8) 8 ltac:(lia)). lia.
  - pose proof (N.mod_lt b 8 ltac:(lia)). lia.
Qed.

Theorem C16_program : forall w txt name n upper, Forall (fun b => b < 256)%N w -> txt = in_hex w \/ txt = in_octal w ->
  enough (34%N :: txt ++ [34%N]) <= n ->
  exists s, run_lexer (34%N :: txt ++ [34%N]) name (plain_env n upper) =
      Ok (mkToken tSTRING_BEG [34%N] (mkLoc 0 1) :: (if w then [] else [mkToken tSTRING_CONTENT w (mkLoc 1 (1 + List.length txt))]) ++
          [mkToken tSTRING_END [34%N] (mkLoc (1 + List.length txt) (1 + List.length txt + 1))]) s /\
    diagnostics s = [] /\ comments s = [].
Proof.
  intros w txt name n upper Hw HT Hn.
  assert (HE : byte_escapes w txt) by (destruct HT as [->| ->]; [apply in_hex_escapes|apply in_octal_escapes]; auto).
  destruct (literal_program [34%N] tSTRING_BEG true None 34 txt w [] name n upper) as (s & X1 & X2); auto.
  - constructor.
  - intros _ [A|A]; discriminate.
  - apply byte_escapes_body; auto.
  - exists s. split; [|exact X2]. pose proof (byte_escapes_nil _ _ HE) as HN. destruct w, txt; try exact X1; exfalso; destruct HN as (N1 & N2); [specialize (N2 eq_refl)|specialize (N1 eq_refl)]; discriminate.
Qed.
Print Assumptions C16_program.

(** ** C17: code points *)

(** An escape at position [p]: four digits, or code points between braces; the bytes it stands for, and what is reported *)
Inductive u_escape (p : nat) : list N -> list N -> list Diagnostic -> Prop :=
| ue_four : forall ds, Forall hexadecimal ds -> List.length ds = 4 -> scalar (hex_number ds) ->
    u_escape p (92 :: 117 :: ds)%N (utf8 (hex_number ds)) []
| ue_surrogate : forall ds, Forall hexadecimal ds -> List.length ds = 4 -> surrogate (hex_number ds) ->
    u_escape p (92 :: 117 :: ds)%N [] [mkDiag Error InvalidUnicodeCodepoint (mkLoc (p + 2) (p + 6))]
| ue_braces : forall gap us v d, Forall gap_byte gap -> code_points (p + 3 + List.length gap) us v d ->
    u_escape p ([92; 117; 123]%N ++ gap ++ us ++ [125%N]) v d.
Inductive u_escapes : nat -> list N -> list N -> list Diagnostic -> Prop :=
| ues_nil : forall p, u_escapes p [] [] []
| ues_cons : forall p txt v d rest v' d', u_escape p txt v d -> u_escapes (p + List.length txt) rest v' d' ->
    u_escapes p (txt ++ rest) (v ++ v') (d ++ d').

Lemma u_escape_piece : forall next p n txt v d, u_escape p txt v d -> piece true false None 34 next p n txt v d n.
Proof.
  assert (N92 : ~ delim None 34 92%N) by (intros [A|A]; discriminate).
  intros next p n txt v d [ds H1 H2 H3|ds H1 H2 H3|gap us v' d' H1 H2].
  - apply pc_unicode; auto.
  - apply pc_surrogate; auto.
  - apply pc_braces; auto. unfold hexadecimal. lia.
Qed.

Lemma u_escapes_body : forall p txt v d, u_escapes p txt v d -> body true false None 34 34 p 0 txt v d 0.
Proof.
  intros p txt v d H. induction H as [|p txt v d rest v' d' H1 H2 IH]; [constructor|].
  refine (bd_cons _ _ _ _ _ p 0 txt v d 0 rest v' d' 0 _ _); auto. apply u_escape_piece; auto.
Qed.

(** C17.  A double-quoted literal made of such escapes denotes the UTF-8 encoding of the code points in order; a surrogate, a value above
    0x10FFFF and more than six digits are reported, each once, in order, and add nothing. *)
Theorem C17_code_points : forall B n upper s p sp txt v d,
  Place B n upper s p sp (34%N :: txt ++ [34%N]) -> u_escapes (p + List.length sp + 1) txt v d ->
  nth_error B (p + List.length sp + List.length txt + 2) <> Some 58%N ->
  exists s', lexes (plain_env n upper) s (mkToken tSTRING_BEG [34%N] (mkLoc (p + List.length sp) (p + List.length sp + 1)) ::
      (if txt then [] else [mkToken tSTRING_CONTENT v (mkLoc (p + List.length sp + 1) (p + List.length sp + 1 + List.length txt))]) ++
      [mkToken tSTRING_END [34%N] (mkLoc (p + List.length sp + 1 + List.length txt) (p + List.length sp + 1 + List.length txt + 1))]) s' /\
    Done B s s' (p + List.length sp + 1 + List.length txt + 1) d.
Proof.
  intros B n upper s p sp txt v d HP HE HLb.
  destruct (literal_at B n upper s p sp [34%N] tSTRING_BEG true None 34 txt v d) as (s' & X1 & X2); auto.
  - constructor.
  - exact I.
  - intros _ [A|A]; discriminate.
  - apply u_escapes_body; auto.
  - intros _. cbn [List.length]. replace (p + List.length sp + 1 + List.length txt + 1) with (p + List.length sp + List.length txt + 2) by lia. exact HLb.
  - exists s'. split; [exact X1|exact X2].
Qed.
Print Assumptions C17_code_points.

(** The program that consists of such a literal *)
Theorem C17_program : forall txt v d name n upper, u_escapes 1 txt v d -> txt <> [] -> enough (34%N :: txt ++ [34%N]) <= n ->
  exists s, run_lexer (34%N :: txt ++ [34%N]) name (plain_env n upper) =
      Ok [mkToken tSTRING_BEG [34%N] (mkLoc 0 1); mkToken tSTRING_CONTENT v (mkLoc 1 (1 + List.length txt));
          mkToken tSTRING_END [34%N] (mkLoc (1 + List.length txt) (1 + List.length txt + 1))] s /\
    diagnostics s = d /\ comments s = [].
Proof.
  intros txt v d name n upper HE HT Hn.
  destruct (literal_program [34%N] tSTRING_BEG true None 34 txt v d name n upper) as (s & X1 & X2); auto.
  - constructor.
  - intros _ [A|A]; discriminate.
  - apply u_escapes_body; auto.
  - exists s. split; [|exact X2]. destruct txt; [congruence|exact X1].
Qed.
Print Assumptions C17_program.

(** Every code point, between braces, in every spelling with one to six digits *)
Theorem C17_every_code_point : forall u ds name n upper, Forall hexadecimal ds -> 1 <= List.length ds <= 6 -> hex_number ds = u ->
  enough ([34; 92; 117; 123]%N ++ ds ++ [125; 34]%N) <= n ->
  exists s v, run_lexer ([34; 92; 117; 123]%N ++ ds ++ [125; 34]%N) name (plain_env n upper) =
      Ok [mkToken tSTRING_BEG [34%N] (mkLoc 0 1); mkToken tSTRING_CONTENT v (mkLoc 1 (List.length ds + 5));
          mkToken tSTRING_END [34%N] (mkLoc (List.length ds + 5) (List.length ds + 6))] s /\
    (scalar u -> v = utf8 u /\ diagnostics s = []) /\
    (surrogate u -> v = [] /\ diagnostics s = [mkDiag Error InvalidUnicodeCodepoint (mkLoc 4 (4 + List.length ds))]) /\
    (1114111 < u -> v = [] /\ diagnostics s = [mkDiag Error TooLargeUnicodeCodepoint (mkLoc 4 (4 + List.length ds))])%N.
Proof.
  intros u ds name n upper H1 H2 H3 Hn.
  assert (HX : exists v d, code_point 4 ds v d /\ (scalar u -> v = utf8 u /\ d = []) /\
    (surrogate u -> v = [] /\ d = [mkDiag Error InvalidUnicodeCodepoint (mkLoc 4 (4 + List.length ds))]) /\
    (1114111 < u -> v = [] /\ d = [mkDiag Error TooLargeUnicodeCodepoint (mkLoc 4 (4 + List.length ds))])%N).
  { rewrite <- H3. assert (HC : scalar (hex_number ds) \/ surrogate (hex_number ds) \/ (1114111 < hex_number ds)%N) by (unfold scalar, surrogate; lia).
    unfold scalar, surrogate. destruct HC as [HC|[HC|HC]]; (eexists; eexists; split; [first [apply cp_ok; solve [auto]|apply cp_surrogate; solve [auto]|apply cp_large; solve [auto]]|]);
      unfold scalar, surrogate in HC; splits; intros HD; solve [split; reflexivity|exfalso; lia]. }
  destruct HX as (v & d & HC & HX).
  assert (HE : u_escapes 1 ([92; 117; 123]%N ++ ds ++ [125%N]) v d).
  { pose proof (ue_braces 1 [] ds v d) as HU. cbn [List.length app] in HU. pose proof (cps_last 4 ds [] v d HC) as HQ. rewrite app_nil_r in HQ.
    specialize (HU (Forall_nil _) (HQ (Forall_nil _))). pose proof (ues_cons 1 _ v d [] [] [] HU (ues_nil _)) as HV. rewrite !app_nil_r in HV. exact HV. }
  assert (EB : [34; 92; 117; 123]%N ++ ds ++ [125; 34]%N = 34%N :: ([92; 117; 123]%N ++ ds ++ [125%N]) ++ [34%N]) by (cbn [app]; rewrite <- app_assoc; reflexivity).
  rewrite EB in *. destruct (C17_program _ v d name n upper HE) as (s & X1 & X2 & X3); auto; [discriminate|].
  exists s, v. rewrite X2. split; [|exact HX]. rewrite X1. rewrite !app_length. cbn [List.length].
  replace (1 + (3 + (List.length ds + 1))) with (List.length ds + 5) by lia. replace (List.length ds + 5 + 1) with (List.length ds + 6) by lia. reflexivity.
Qed.
Print Assumptions C17_every_code_point.

(** [utf8] can be read back, so different code points have different encodings *)
Definition utf8_value (bs : list N) : option N :=
  match bs with
  | [a] => Some a
  | [a; b] => Some ((a - 192) * 64 + (b - 128))%N
  | [a; b; c] => Some ((a - 224) * 4096 + (b - 128) * 64 + (c - 128))%N
  | [a; b; c; d] => Some ((a - 240) * 262144 + (b - 128) * 4096 + (c - 128) * 64 + (d - 128))%N
  | _ => None
  end.
Lemma utf8_read_back : forall u, utf8_value (utf8 u) = Some u.
Proof.
  intros u. unfold utf8. destruct (u <? 128)%N; [reflexivity|]. destruct (u <? 2048)%N; [|destruct (u <? 65536)%N]; cbn [utf8_value]; f_equal.
  - pose proof (N.div_mod u 64 ltac:(lia)). lia.
  - pose proof (N.div_mod u 64 ltac:(lia)). pose proof (N.div_mod (u / 64) 64 ltac:(lia)) as H2. rewrite N.div_div in H2 by lia. change (64 * 64)%N with 4096%N in H2. lia.
  - pose proof (N.div_mod u 64 ltac:(lia)). pose proof (N.div_mod (u / 64) 64 ltac:(lia)) as H2. rewrite N.div_div in H2 by lia. change (64 * 64)%N with 4096%N in H2.
    pose proof (N.div_mod (u / 4096) 64 ltac:(lia)) as H3. rewrite N.div_div in H3 by lia. change (4096 * 64)%N with 262144%N in H3. lia.
Qed.

(** ** C25: brackets *)

(** A text that is balanced with respect to the brackets [o] and [c] *)
Inductive balanced (o c : N) : list N -> Prop :=
| bl_nil : balanced o c []
| bl_char : forall x t, x <> o -> x <> c -> x <> 92%N -> x <> 13%N -> balanced o c t -> balanced o c (x :: t)
| bl_group : forall t t', balanced o c t -> balanced o c t' -> balanced o c (o :: t ++ c :: t').
Inductive pair : N -> N -> Prop :=
| pr_round : pair 40 41
| pr_square : pair 91 93
| pr_curly : pair 123 125
| pr_angle : pair 60 62.

Lemma balanced_body : forall o c t, pair o c -> balanced o c t -> forall fin p n rest v d n', body false false (Some o) c fin (p + List.length t) n rest v d n' ->
  body false false (Some o) c fin p n (t ++ rest) (t ++ v) d n'.
Proof.
  intros o c t HP HB. assert (HO : o <> 13%N /\ c <> 13%N /\ o <> c) by (destruct HP; splits; discriminate). destruct HO as (O1 & O2 & O3).
  induction HB as [|x t X1 X2 X3 X4 HB IH|t t' HB IH HB' IH']; intros fin p n rest v d n' H.
  - cbn in *. rewrite Nat.add_0_r in H. exact H.
  - refine (bd_cons _ _ _ _ _ p n [x] [x] [] n (t ++ rest) (t ++ v) d n' _ _).
    + apply pc_char; auto; try discriminate. intros [A|A]; congruence.
    + apply IH. cbn [List.length] in *. replace (p + 1 + List.length t) with (p + S (List.length t)) by lia. exact H.
  - cbn [app List.length] in *. rewrite app_length in H. cbn [List.length] in H. rewrite <- !app_assoc. cbn [app].
    refine (bd_cons _ _ _ _ _ p n [o] [o] [] (S n) (t ++ c :: t' ++ rest) (t ++ c :: t' ++ v) d n' _ _).
    + apply pc_open; auto.
    + apply IH. refine (bd_cons _ _ _ _ _ _ (S n) [c] [c] [] n (t' ++ rest) (t' ++ v) d n' _ _).
      * apply pc_close; congruence.
      * apply IH'. cbn [List.length]. replace (p + 1 + List.length t + 1 + List.length t') with (p + S (List.length t + S (List.length t'))) by lia. exact H.
Qed.

Lemma pair_opening : forall o c, pair o c -> opening [37; 113; o]%N tSTRING_BEG false false (Some o) c.
Proof. intros o c H. refine (on_percent [113%N] tSTRING_BEG false false o (Some o) c pk_q _ _); destruct H; try constructor; unfold delimiter; splits; lia. Qed.

Lemma balanced_whole : forall o c t p, pair o c -> balanced o c t -> body false false (Some o) c c p 0 t t [] 0.
Proof. intros o c t p HP HB. pose proof (balanced_body o c t HP HB c p 0 [] [] [] 0 (bd_nil _ _ _ _ _ _ _)) as H. rewrite !app_nil_r in H. exact H. Qed.

(** C25.  Wherever a [%q] literal can start, its content is the text between the bracket and the matching bracket, unchanged. *)
Theorem C25_brackets : forall B n upper s p sp o c t,
  Place B n upper s p sp ([37; 113; o]%N ++ t ++ [c]) -> percent_starts (lex_state s) sp 113 -> pair o c -> balanced o c t ->
  exists s', lexes (plain_env n upper) s (mkToken tSTRING_BEG [37; 113; o]%N (mkLoc (p + List.length sp) (p + List.length sp + 3)) ::
      (if t then [] else [mkToken tSTRING_CONTENT t (mkLoc (p + List.length sp + 3) (p + List.length sp + 3 + List.length t))]) ++
      [mkToken tSTRING_END [c] (mkLoc (p + List.length sp + 3 + List.length t) (p + List.length sp + 3 + List.length t + 1))]) s' /\
    Done B s s' (p + List.length sp + 3 + List.length t + 1) [].
Proof.
  intros B n upper s p sp o c t HP HS HPr HB.
  destruct (literal_at B n upper s p sp [37; 113; o]%N tSTRING_BEG false (Some o) c t t []) as (s' & X1 & X2); auto; try discriminate.
  - apply pair_opening; auto.
  - apply balanced_whole; auto.
  - intros [A|A]; destruct HPr; discriminate.
  - exists s'. split; [exact X1|exact X2].
Qed.
Print Assumptions C25_brackets.

(** The program that consists of such a literal *)
Theorem C25_program : forall o c t name n upper, pair o c -> balanced o c t -> enough ([37; 113; o]%N ++ t ++ [c]) <= n ->
  exists s, run_lexer ([37; 113; o]%N ++ t ++ [c]) name (plain_env n upper) =
      Ok (mkToken tSTRING_BEG [37; 113; o]%N (mkLoc 0 3) :: (if t then [] else [mkToken tSTRING_CONTENT t (mkLoc 3 (3 + List.length t))]) ++
          [mkToken tSTRING_END [c] (mkLoc (3 + List.length t) (3 + List.length t + 1))]) s /\
    diagnostics s = [] /\ comments s = [].
Proof.
  intros o c t name n upper HP HB Hn.
  destruct (literal_program [37; 113; o]%N tSTRING_BEG false (Some o) c t t [] name n upper) as (s & X1 & X2); auto; try discriminate.
  - apply pair_opening; auto.
  - apply balanced_whole; auto.
  - exists s. split; [exact X1|exact X2].
Qed.
Print Assumptions C25_program.

(** ** C26: lists of words *)

(** Words with the white space behind each: only the last word needs none *)
Inductive word_list (opn : option N) (cls : N) : list (list N * list N) -> Prop :=
| wd_nil : word_list opn cls []
| wd_cons : forall w gap l, w <> [] -> Forall (fun c => ~ white_byte c /\ ~ delim opn cls c /\ c <> 92%N) w ->
    Forall (fun c => white_byte c /\ c <> 13%N) gap -> (gap = [] -> l = []) -> word_list opn cls l -> word_list opn cls ((w, gap) :: l).
Definition list_text (l : list (list N * list N)) : list N := flat_map (fun wg => fst wg ++ snd wg) l.
(** The tokens: the word and the white space behind it *)
Fixpoint list_tokens (p : nat) (l : list (list N * list N)) : list Token :=
  match l with
  | [] => []
  | (w, gap) :: l' => tok_at tSTRING_CONTENT w p (List.length w) :: tok_at tSPACE gap (p + List.length w) (List.length gap) ::
      list_tokens (p + List.length w + List.length gap) l'
  end.

Lemma word_body : forall opn cls fin w, Forall (fun c => ~ white_byte c /\ ~ delim opn cls c /\ c <> 92%N) w -> forall p n, body false true opn cls fin p n w w [] n.
Proof.
  intros opn cls fin w H. induction H as [|c w (H1 & H2 & H3) H IH]; intros p n; [constructor|].
  refine (bd_cons _ _ _ _ _ p n [c] [c] [] n w w [] n _ _); auto. apply pc_char; auto; try discriminate. intros ->. apply H1. unfold white_byte. lia.
Qed.

Lemma word_list_items : forall opn cls l, word_list opn cls l -> forall p, word_items false opn cls p 0 (list_text l) (list_tokens p l) [].
Proof.
  intros opn cls l H. induction H as [|w gap l H1 H2 H3 H4 H5 IH]; intros p; [constructor|].
  unfold list_text. cbn [flat_map fst snd list_tokens]. fold (list_text l). rewrite <- app_assoc.
  change (@nil Diagnostic) with (@nil Diagnostic ++ []). eapply wl_word; auto.
  - apply word_body; auto.
  - intros E. rewrite (H4 E). auto.
Qed.

(** The values of the content tokens *)
Fixpoint contents (ts : list Token) : list (list N) :=
  match ts with
  | [] => []
  | t :: ts' => match token_type t with tSTRING_CONTENT => token_value t :: contents ts' | _ => contents ts' end
  end.
Lemma list_contents : forall l p, contents (list_tokens p l) = map fst l.
Proof. induction l as [|(w, gap) l IH]; intros p; [reflexivity|]. cbn [list_tokens contents tok_at token_type token_value map fst]. f_equal. apply IH. Qed.

(** C26.  A [%w] or [%i] list with any delimiters: the opening, the white space before the first word, then for each word its content
    token and the white space behind it, and the closing delimiter.  So the content tokens are the words, in order. *)
Theorem C26_words : forall B n upper s p sp letter k c opn cls gap l,
  Place B n upper s p sp ([37; letter; c]%N ++ gap ++ list_text l ++ [cls]) -> percent_starts (lex_state s) sp letter ->
  percent_kind [letter] k false true -> delimiter c -> bracket c opn cls -> ~ white_byte c ->
  Forall (fun c => white_byte c /\ c <> 13%N) gap -> word_list opn cls l ->
  let q := p + List.length sp + 3 + List.length gap in
  contents (list_tokens q l) = map fst l /\
  exists s', lexes (plain_env n upper) s (mkToken k [37; letter; c]%N (mkLoc (p + List.length sp) (p + List.length sp + 3)) ::
      mkToken tSPACE gap (mkLoc (p + List.length sp + 3) q) :: list_tokens q l ++
      [mkToken tSTRING_END [cls] (mkLoc (q + List.length (list_text l)) (q + List.length (list_text l) + 1))]) s' /\
    Done B s s' (q + List.length (list_text l) + 1) [].
Proof.
  intros B n upper s p sp letter k c opn cls gap l HP HS HK HD HBr HWc HG HL q. split; [apply list_contents|].
  assert (HWx : ~ white_byte cls) by (destruct HBr; auto; unfold white_byte; lia).
  destruct (list_at B n upper s p sp [37; letter; c]%N k false opn cls gap (list_text l) (list_tokens q l) []) as (s' & X1 & X2); auto; try discriminate.
  - exact (on_percent [letter] k false true c opn cls HK HD HBr).
  - apply word_list_items; auto.
  - exists s'. split; [exact X1|exact X2].
Qed.
Print Assumptions C26_words.

Lemma list_tokens_bound : forall opn cls l, word_list opn cls l -> forall p, List.length (list_tokens p l) <= 2 * List.length (list_text l).
Proof.
  intros opn cls l H. induction H as [|w gap l H1 H2 H3 H4 H5 IH]; intros p; [cbn; lia|].
  unfold list_text. cbn [flat_map fst snd list_tokens List.length]. fold (list_text l). rewrite !app_length. specialize (IH (p + List.length w + List.length gap)).
  destruct w; [congruence|]. cbn [List.length] in *. lia.
Qed.

(** The program that consists of such a list *)
Theorem C26_program : forall letter k c opn cls gap l name n upper, percent_kind [letter] k false true -> delimiter c -> bracket c opn cls -> ~ white_byte c ->
  Forall (fun c => white_byte c /\ c <> 13%N) gap -> word_list opn cls l ->
  enough ([37; letter; c]%N ++ gap ++ list_text l ++ [cls]) <= n ->
  let q := 3 + List.length gap in
  contents (list_tokens q l) = map fst l /\
  exists s, run_lexer ([37; letter; c]%N ++ gap ++ list_text l ++ [cls]) name (plain_env n upper) =
      Ok (mkToken k [37; letter; c]%N (mkLoc 0 3) :: mkToken tSPACE gap (mkLoc 3 q) :: list_tokens q l ++
          [mkToken tSTRING_END [cls] (mkLoc (q + List.length (list_text l)) (q + List.length (list_text l) + 1))]) s /\
    diagnostics s = [] /\ comments s = [].
Proof.
  intros letter k c opn cls gap l name n upper HK HD HBr HWc HG HL Hn q. split; [apply list_contents|].
  set (B := [37; letter; c]%N ++ gap ++ list_text l ++ [cls]) in *. unfold enough in Hn.
  assert (Hl : List.length B = q + List.length (list_text l) + 1) by (unfold B, q; rewrite !app_length; cbn [List.length]; lia).
  destruct (program_place B name n upper 37%N ([letter; c] ++ gap ++ list_text l ++ [cls])) as (s & E1 & HP & E2 & E3 & E4); auto; [discriminate|lia|].
  destruct (C26_words B n upper s 0 [] letter k c opn cls gap l HP) as (_ & s' & X1 & X2); auto.
  - left. left. rewrite E2. reflexivity.
  - assert (X3 : Done B s s' (List.length B) []) by (rewrite Hl; exact X2).
    destruct (program_run B name n upper s _ s' [] E1 X1 X3) as (s'' & Y1 & Y2 & Y3); auto; try lia.
    + apply HP.
    + cbn [List.length]. rewrite !app_length. cbn [List.length]. match goal with |- context [list_tokens ?z l] => pose proof (list_tokens_bound opn cls l HL z) end. lia.
    + exists s''. rewrite E3 in Y2. rewrite E4 in Y3. splits; auto.
Qed.
Print Assumptions C26_program.

(** ** Examples *)
Definition shown (src : list N) := option_map (fun r => (map (fun t => (token_type t, token_value t, loc_begin (token_loc t), loc_end (token_loc t))) (fst r),
  map (fun d => (dg_message d, loc_begin (dg_loc d), loc_end (dg_loc d))) (diagnostics (snd r)))) (lexed src).

Example C15_example : shown (39%N :: quoted (bs "it's \ new") ++ [39%N]) =
  Some ([(tSTRING_BEG, [39%N], 0, 1); (tSTRING_CONTENT, bs "it's \ new", 1, 13); (tSTRING_END, [39%N], 13, 14)], []).
Proof. vm_compute. reflexivity. Qed.
Example C16_example : shown ([34%N] ++ bs "\xff\0\12\x7" ++ [34%N]) =
  Some ([(tSTRING_BEG, [34%N], 0, 1); (tSTRING_CONTENT, [255; 0; 10; 7]%N, 1, 13); (tSTRING_END, [34%N], 13, 14)], []).
Proof. vm_compute. reflexivity. Qed.
Example C17_example : shown ([34%N] ++ bs "\u00e9\u{41 20ac  1F600}\ud800" ++ [34%N]) =
  Some ([(tSTRING_BEG, [34%N], 0, 1); (tSTRING_CONTENT, [195; 169; 65; 226; 130; 172; 240; 159; 152; 128]%N, 1, 31); (tSTRING_END, [34%N], 31, 32)],
    [(InvalidUnicodeCodepoint, 27, 31)]).
Proof. vm_compute. reflexivity. Qed.
Example C25_example : shown (bs "%q{a{b}{{}}c}") = Some ([(tSTRING_BEG, bs "%q{", 0, 3); (tSTRING_CONTENT, bs "a{b}{{}}c", 3, 12); (tSTRING_END, bs "}", 12, 13)], []).
Proof. vm_compute. reflexivity. Qed.
Example C26_example : shown (bs "%w( ab  c )") =
  Some ([(tQWORDS_BEG, bs "%w(", 0, 3); (tSPACE, bs " ", 3, 4); (tSTRING_CONTENT, bs "ab", 4, 6); (tSPACE, bs "  ", 6, 8);
         (tSTRING_CONTENT, bs "c", 8, 9); (tSPACE, bs " ", 9, 10); (tSTRING_END, bs ")", 10, 11)], []).
Proof. vm_compute. reflexivity. Qed.

(** The hypotheses are met *)
Ltac place := constructor; auto; try reflexivity; [split; [reflexivity|]; left; splits; auto; cbn; lia|apply blank_spacing; repeat constructor; unfold blank; cbn; lia|unfold no_squiggly; cbn; lia|cbn; lia].

Example C15_hypotheses : let src := bs "x = 'it\'s' + y" in
  exists s, Place src 200 (fun _ => false) s 3 [32%N] (39%N :: quoted (bs "it's") ++ [39%N]) /\ nth_error src (3 + 1 + List.length (quoted (bs "it's")) + 2) <> Some 58%N.
Proof. set (src := bs "x = 'it\'s' + y"). cbn zeta. reach_state src [PNext; PNext]. split; [place|vm_compute; discriminate]. Qed.
Example C25_hypotheses : let src := bs "f %q(a(b)c), 2" in
  exists s, Place src 200 (fun _ => false) s 1 [32%N] ([37; 113; 40]%N ++ bs "a(b)c" ++ [41%N]) /\ percent_starts (lex_state s) [32%N] 113.
Proof.
  set (src := bs "f %q(a(b)c), 2"). cbn zeta. reach_state src [PNext]. split; [place|].
  right. splits; try discriminate; [left; vm_compute; reflexivity|unfold white_byte; lia].
Qed.
Example C25_balanced : balanced 40 41 (bs "a(b)c").
Proof.
  apply bl_char; try discriminate. apply (bl_group 40 41 (bs "b") (bs "c")); apply bl_char; try discriminate; constructor.
Qed.
Ltac plain := unfold bs; repeat (apply Forall_cons || apply Forall_nil); (split; [unfold white_byte; cbn; lia|split; [intros [A|A]; discriminate|discriminate]]).
Example C26_word_list : word_list (Some 40%N) 41 [(bs "ab", bs "  "); (bs "c", [])].
Proof.
  apply wd_cons; try discriminate.
  - plain.
  - unfold bs; repeat (apply Forall_cons || apply Forall_nil); (split; [unfold white_byte; cbn; lia|discriminate]).
  - apply wd_cons; try discriminate; auto; [|constructor]. plain.
Qed.
Example C17_escapes : exists v d, u_escapes 1 (bs "\u00e9\u{41 d800}") v d.
Proof.
  eexists. eexists. eapply (ues_cons 1 (bs "\u00e9")); [apply (ue_four 1 (bs "00e9")); [|reflexivity|]|].
  - repeat constructor; unfold hexadecimal; cbn; lia.
  - vm_compute. left. reflexivity.
  - eapply (ues_cons 7 (bs "\u{41 d800}") _ _ []); [|constructor]. apply (ue_braces 7 [] (bs "41 d800")); [constructor|].
    eapply (cps_more _ (bs "41") (bs " ") (bs "d800")); [apply cp_ok| |discriminate|].
    + repeat constructor; unfold hexadecimal; cbn; lia.
    + cbn. lia.
    + vm_compute. left. reflexivity.
    + repeat constructor.
    + apply (cps_last _ (bs "d800") []); [|constructor]. apply cp_surrogate; [repeat constructor; unfold hexadecimal; cbn; lia|cbn; lia|vm_compute; split; discriminate].
Qed.
