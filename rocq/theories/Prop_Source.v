(** * C01-C05: line table, positions, lines, slices, rendering *)
Require Import Verif.Base Verif.InputM Verif.DiagnosticM Verif.SourceSpec Verif.SourceProofs.

(** C01.  The line table partitions the source. *)
Theorem C01_line_table_partitions : forall (b : list N) (d : DecodedInput),
  let d' := update_bytes b d in
  let ls := d_lines d' in
  d_bytes d' = b /\ d_name d' = d_name d /\
  (exists l, nth_error ls 0 = Some l /\ l_start l = 0) /\
  forall i l, nth_error ls i = Some l ->
    l_start l <= l_end l /\ l_end l <= List.length b /\
    (* every line but the last ends with the only newline it contains, and the next line starts there *)
    (i + 1 < List.length ls ->
       l_start l < l_end l /\ l_ends_with_eof l = false /\ at_ b (l_end l - 1) = Some newline /\
       no_newline_in b (l_start l) (l_end l - 1) /\
       exists l', nth_error ls (i + 1) = Some l' /\ l_start l' = l_end l) /\
    (* the last line ends with the source and contains no newline *)
    (i + 1 = List.length ls ->
       l_ends_with_eof l = true /\ l_end l = List.length b /\ no_newline_in b (l_start l) (l_end l)).
Proof.
  intros b d d' ls. destruct (update_bytes_table b d) as (H1 & H2 & H3).
  split; [exact H1|]. split; [exact H2|]. split; [exact (table_first _ _ _ H3)|].
  intros i l Hn. exact (proj2 (table_nth b ls 0 i l H3 Hn)).
Qed.
Print Assumptions C01_line_table_partitions.

Example C01_example :
  d_lines (update_bytes (bs "ab" ++ [10%N] ++ [10%N] ++ bs "c") (named []))
  = [mkLine 0 3 false; mkLine 3 4 false; mkLine 4 5 true].
Proof. reflexivity. Qed.

(** C02.  Line and column of an offset, and that they determine the offset. *)
Theorem C02_line_col_for_pos : forall (b : list N) (d : DecodedInput) (p : nat),
  line_col_for_pos (update_bytes b d) p =
  if p <=? List.length b
  then Some (newlines (firstn p b), List.length (line_before b p))
  else None.
Proof. exact line_col_exact. Qed.
Print Assumptions C02_line_col_for_pos.

Theorem C02_line_col_injective : forall (b : list N) (d : DecodedInput) (p q : nat) lc,
  line_col_for_pos (update_bytes b d) p = Some lc ->
  line_col_for_pos (update_bytes b d) q = Some lc -> p = q.
Proof.
  intros b d p q lc Hp Hq. rewrite line_col_exact in Hp, Hq.
  destruct (p <=? List.length b) eqn:Ep; [|discriminate].
  destruct (q <=? List.length b) eqn:Eq; [|discriminate].
  apply Nat.leb_le in Ep, Eq. inversion Hp; subst. inversion Hq.
  destruct (le_lt_dec p q) as [G|G].
  - apply (newlines_pos_inj b); auto.
  - symmetry. apply (newlines_pos_inj b); auto. lia.
Qed.
Print Assumptions C02_line_col_injective.

Example C02_example :
  line_col_for_pos (update_bytes (bs "ab" ++ [10%N] ++ bs "cde") (named [])) 5 = Some (1, 2) /\
  line_col_for_pos (update_bytes (bs "ab" ++ [10%N] ++ bs "cde") (named [])) 6 = Some (1, 3) /\
  line_col_for_pos (update_bytes (bs "ab" ++ [10%N] ++ bs "cde") (named [])) 7 = None.
Proof. repeat split; reflexivity. Qed.

(** C03.  expand_to_line returns the whole line around [begin]. *)
Theorem C03_expand_to_line : forall (b : list N) (d0 : DecodedInput) (e : Env) (l : Loc),
  let d := update_bytes b d0 in
  (loc_begin l <= List.length b ->
   exists lo hi,
     expand_to_line l e d = Ok (Some (newlines (firstn (loc_begin l) b), mkLoc lo hi)) d /\
     lo <= loc_begin l <= hi /\ hi <= List.length b /\
     (lo = 0 \/ at_ b (lo - 1) = Some newline) /\
     (hi = List.length b \/ at_ b hi = Some newline) /\
     no_newline_in b lo hi) /\
  (List.length b < loc_begin l -> expand_to_line l e d = Ok None d).
Proof.
  intros b d0 e l d. split; [exact (expand_to_line_exact b d0 e l)|exact (expand_to_line_none b d0 e l)].
Qed.
Print Assumptions C03_expand_to_line.

Example C03_example :
  let d := update_bytes (bs "ab" ++ [10%N] ++ bs "cde" ++ [10%N]) (named []) in
  expand_to_line (mkLoc 4 5) (mkEnv 0 None (fun _ => false)) d = Ok (Some (1, mkLoc 3 6)) d.
Proof. reflexivity. Qed.

(** C04.  Slices. *)
Theorem C04_source_slice : forall (d : DecodedInput) (l : Loc),
  ((exists s, loc_source l d = Some s) <-> loc_begin l <= loc_end l <= List.length (d_bytes d)) /\
  (forall s, loc_source l d = Some s ->
     List.length s = loc_end l - loc_begin l /\
     forall p, p < loc_end l - loc_begin l -> nth_error s p = nth_error (d_bytes d) (loc_begin l + p)).
Proof. intros d l. split; [apply substr_at_exact|apply substr_at_bytes]. Qed.
Print Assumptions C04_source_slice.

Theorem C04_source_concat : forall (d : DecodedInput) (a b c : nat) x y,
  loc_source (mkLoc a b) d = Some x -> loc_source (mkLoc b c) d = Some y ->
  loc_source (mkLoc a c) d = Some (x ++ y).
Proof. intros d a b c x y. exact (substr_at_join d a b c x y). Qed.
Print Assumptions C04_source_concat.

Example C04_example :
  loc_source (mkLoc 1 3) (update_bytes (bs "abcd") (named [])) = Some (bs "bc") /\
  loc_source (mkLoc 3 5) (update_bytes (bs "abcd") (named [])) = None.
Proof. split; reflexivity. Qed.

(** C05.  Rendering. *)
Theorem C05_render_layout : forall (b : list N) (d0 : DecodedInput) (e : Env) level msg (l : Loc),
  let d := update_bytes b d0 in
  loc_begin l <= loc_end l -> loc_begin l <= List.length b ->
  exists lno col,
    decimal lno (newlines (firstn (loc_begin l) b) + 1) /\
    decimal col (List.length (line_before b (loc_begin l))) /\
    render level msg l e d =
    Ok (Some (d_name d0 ++ bs ":" ++ lno ++ bs ":" ++ col ++ bs ": "
              ++ (match level with Warning => bs "warning" | Error => bs "error" end) ++ bs ": " ++ msg ++ [newline]
              ++ d_name d0 ++ bs ":" ++ lno ++ bs ": " ++ (line_before b (loc_begin l) ++ line_after b (loc_begin l))
              ++ [newline]
              ++ d_name d0 ++ bs ":" ++ lno ++ bs ": "
              ++ repeat 32%N (List.length (line_before b (loc_begin l))) ++ bs "^"
              ++ repeat 126%N (loc_end l - loc_begin l - 1))) d.
Proof. exact render_exact. Qed.
Print Assumptions C05_render_layout.

Theorem C05_render_none : forall (b : list N) (d0 : DecodedInput) (e : Env) level msg (l : Loc),
  List.length b < loc_begin l -> render level msg l e (update_bytes b d0) = Ok None (update_bytes b d0).
Proof. exact render_none. Qed.
Print Assumptions C05_render_none.

Example C05_example :
  let d := update_bytes (bs "ab" ++ [10%N] ++ bs "cde") (named (bs "f.rb")) in
  render Warning (bs "msg") (mkLoc 4 6) (mkEnv 0 None (fun _ => false)) d =
  Ok (Some (bs "f.rb:2:1: warning: msg" ++ [10%N] ++ bs "f.rb:2: cde" ++ [10%N] ++ bs "f.rb:2:  ^~")) d.
Proof. vm_compute. reflexivity. Qed.
