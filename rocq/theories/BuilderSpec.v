(** * Independent specifications for the builder (C24, C30-C38, C42)

    Nothing here refers to the functions of BuilderM or BuilderNodesM; only to nodes, locations, diagnostics
    and bytes. *)
Require Import NArith ZArith List Bool Lia.
Require Import Verif.Base Verif.InputM Verif.DiagnosticM Verif.NodeM.
Import ListNotations.

(** ** C24: indentation of a line *)
Definition blank (c : N) : Prop := c = 32%N \/ c = 9%N.
(** The column reached after printing [s] from column [col]: a tab goes to the next multiple of 8 *)
Fixpoint column (s : list N) (col : nat) : nat :=
  match s with
  | [] => col
  | c :: s => column s (if N.eqb c 9 then (col / 8 + 1) * 8 else S col)
  end.
(** [r] is [s] without the longest prefix of blanks at most [w] columns wide *)
Definition dedented (s : list N) (w : nat) (r : list N) : Prop :=
  exists p, s = p ++ r /\ Forall blank p /\ column p 0 <= w /\
    (forall p' r', s = p' ++ r' -> Forall blank p' -> column p' 0 <= w -> List.length p' <= List.length p).

(** ** C30: the parameters of a list, with the location of their name, in order *)
Record Param : Type := mkParam { pr_name : list N; pr_loc : Loc }.
Definition param_of (n : Node) : list Param :=
  match n with
  | NArg name l | NShadowarg name l => [mkParam name l]
  | NOptarg name _ l _ _ | NKwarg name l _ | NKwoptarg name _ l _ => [mkParam name l]
  | NRestarg (Some name) _ (Some l) _ | NKwrestarg (Some name) _ (Some l) _ | NBlockarg (Some name) _ (Some l) _ =>
      [mkParam name l]
  | _ => []
  end.
(** A parameter list: parameters, parameters without a name, nested destructuring, [...] and [**nil].
    [ParamList l ps]: the list [l] consists of such parameters and [ps] are the named ones in order *)
Inductive ParamList : list Node -> list Param -> Prop :=
| pl_nil : ParamList [] []
| pl_named : forall n p l ps, param_of n = [p] -> ParamList l ps -> ParamList (n :: l) (p :: ps)
| pl_anon_rest : forall a b l ps, ParamList l ps -> ParamList (NRestarg None a None b :: l) ps
| pl_anon_kwrest : forall a b l ps, ParamList l ps -> ParamList (NKwrestarg None a None b :: l) ps
| pl_anon_block : forall a b l ps, ParamList l ps -> ParamList (NBlockarg None a None b :: l) ps
| pl_forward : forall a l ps, ParamList l ps -> ParamList (NForwardArg a :: l) ps
| pl_kwnil : forall a b l ps, ParamList l ps -> ParamList (NKwnilarg a b :: l) ps
| pl_mlhs : forall items a b c ps l ps', ParamList items ps -> ParamList l ps' ->
    ParamList (NMlhs items a b c :: l) (ps ++ ps')
| pl_procarg0 : forall items a b c ps l ps', ParamList items ps -> ParamList l ps' ->
    ParamList (NProcarg0 items a b c :: l) (ps ++ ps').
Definition underscored (name : list N) : bool :=
  match name with c :: _ => N.eqb c 95 | [] => false end.
(** The occurrences that repeat an earlier name, except names that start with an underscore *)
Fixpoint repeated (seen : list (list N)) (ps : list Param) : list Param :=
  match ps with
  | [] => []
  | p :: ps =>
      let rest := repeated (pr_name p :: seen) ps in
      if in_dec (list_eq_dec N.eq_dec) (pr_name p) seen then
        if underscored (pr_name p) then rest else p :: rest
      else rest
  end.
(** The first byte of a name is a whole character *)
Definition ascii_name (name : list N) : Prop := exists c r, name = c :: r /\ (c < 128)%N.

(** ** C31: equal literal keys *)
Definition options_of (o : option Node) : option (list N) :=
  match o with Some (NRegOpt letters _) => letters | _ => None end.
Inductive same_literal : Node -> Node -> Prop :=
| sl_sym : forall v a b c a' b' c', same_literal (NSym v a b c) (NSym v a' b' c')
| sl_str : forall v a b c a' b' c', same_literal (NStr v a b c) (NStr v a' b' c')
| sl_int : forall v a b a' b', same_literal (NInt v a b) (NInt v a' b')
| sl_float : forall v a b a' b', same_literal (NFloat v a b) (NFloat v a' b')
| sl_rational : forall v a b a' b', same_literal (NRational v a b) (NRational v a' b')
| sl_complex : forall v a b a' b', same_literal (NComplex v a b) (NComplex v a' b')
| sl_regexp : forall ps o a b c ps' o' a' b' c', Forall2 same_literal ps ps' -> options_of o = options_of o' ->
    same_literal (NRegexp ps o a b c) (NRegexp ps' o' a' b' c').
(** A key in which no regexp has options *)
Inductive plain_key : Node -> Prop :=
| pk_other : forall n, (forall ps o a b c, n <> NRegexp ps o a b c) -> plain_key n
| pk_regexp : forall ps a b c, Forall plain_key ps -> plain_key (NRegexp ps None a b c).

(** ** C33: canonical option letters *)
Fixpoint increasing (l : list N) : Prop :=
  match l with
  | c :: ((d :: _) as r) => (c < d)%N /\ increasing r
  | _ => True
  end.

(** ** C34: the value of a digit string *)
Definition is_digit_byte (c : N) : Prop := (48 <= c <= 57)%N.
Fixpoint decimal (l : list N) (acc : N) : N :=
  match l with [] => acc | c :: l => decimal l (acc * 10 + (c - 48))%N end.

(** ** C36: an expression that may produce a value.  Jumps never do; a sequence does if its last statement
    does; a conditional if one of its branches (a missing branch is nil) does; [and]/[or] and pattern matches
    if the operand that is always evaluated does; everything else does. *)
Definition is_jump (n : Node) : Prop :=
  match n with NReturn _ _ _ | NBreak _ _ _ | NNext _ _ _ | NRedo _ | NRetry _ => True | _ => False end.
Definition is_compound (n : Node) : Prop :=
  match n with
  | NMatchPattern _ _ _ _ | NMatchPatternP _ _ _ _ | NBegin _ _ _ _ | NKwBegin _ _ _ _ | NIfTernary _ _ _ _ _ _
  | NIf _ _ _ _ _ _ _ _ | NIfMod _ _ _ _ _ | NAnd _ _ _ _ | NOr _ _ _ _ => True
  | _ => False
  end.
Inductive MayProduce : Node -> Prop :=
| mp_other : forall n, ~ is_jump n -> ~ is_compound n -> MayProduce n
| mp_match : forall v p a b, MayProduce v -> MayProduce (NMatchPattern v p a b)
| mp_match_p : forall v p a b, MayProduce v -> MayProduce (NMatchPatternP v p a b)
| mp_begin_empty : forall a b c, MayProduce (NBegin [] a b c)
| mp_begin : forall l s a b c, MayProduce s -> MayProduce (NBegin (l ++ [s]) a b c)
| mp_kwbegin_empty : forall a b c, MayProduce (NKwBegin [] a b c)
| mp_kwbegin : forall l s a b c, MayProduce s -> MayProduce (NKwBegin (l ++ [s]) a b c)
| mp_ternary_true : forall c t f a b e, MayProduce t -> MayProduce (NIfTernary c t f a b e)
| mp_ternary_false : forall c t f a b e, MayProduce f -> MayProduce (NIfTernary c t f a b e)
| mp_if_no_true : forall c f k b l e x, MayProduce (NIf c None f k b l e x)
| mp_if_no_false : forall c t k b l e x, MayProduce (NIf c t None k b l e x)
| mp_if_true : forall c t f k b l e x, MayProduce t -> MayProduce (NIf c (Some t) f k b l e x)
| mp_if_false : forall c t f k b l e x, MayProduce f -> MayProduce (NIf c t (Some f) k b l e x)
| mp_ifmod_no_true : forall c f k x, MayProduce (NIfMod c None f k x)
| mp_ifmod_no_false : forall c t k x, MayProduce (NIfMod c t None k x)
| mp_ifmod_true : forall c t f k x, MayProduce t -> MayProduce (NIfMod c (Some t) f k x)
| mp_ifmod_false : forall c t f k x, MayProduce f -> MayProduce (NIfMod c t (Some f) k x)
| mp_and : forall l r o x, MayProduce l -> MayProduce (NAnd l r o x)
| mp_or : forall l r o x, MayProduce l -> MayProduce (NOr l r o x).

(** ** C37: [InCond n m]: the node [m] is in condition position of the condition [n] *)
Inductive InCond : Node -> Node -> Prop :=
| ic_self : forall n, InCond n n
| ic_begin : forall s a b c m, InCond s m -> InCond (NBegin [s] a b c) m
| ic_and_l : forall l r o x m, InCond l m -> InCond (NAnd l r o x) m
| ic_and_r : forall l r o x m, InCond r m -> InCond (NAnd l r o x) m
| ic_or_l : forall l r o x m, InCond l m -> InCond (NOr l r o x) m
| ic_or_r : forall l r o x m, InCond r m -> InCond (NOr l r o x) m
| ic_irange_l : forall l r o x m, InCond l m -> InCond (NIrange (Some l) r o x) m
| ic_irange_r : forall l r o x m, InCond r m -> InCond (NIrange l (Some r) o x) m
| ic_erange_l : forall l r o x m, InCond l m -> InCond (NErange (Some l) r o x) m
| ic_erange_r : forall l r o x m, InCond r m -> InCond (NErange l (Some r) o x) m
| ic_iflip_l : forall l r o x m, InCond l m -> InCond (NIFlipFlop (Some l) r o x) m
| ic_iflip_r : forall l r o x m, InCond r m -> InCond (NIFlipFlop l (Some r) o x) m
| ic_eflip_l : forall l r o x m, InCond l m -> InCond (NEFlipFlop (Some l) r o x) m
| ic_eflip_r : forall l r o x m, InCond r m -> InCond (NEFlipFlop l (Some r) o x) m.
(** Rewriting one condition: [Rewritten n n'] holds for exactly one [n'].  Ranges become flip-flops, a regexp
    literal becomes a match against the current line; parentheses, [and] and [or] are looked into; nothing
    else changes. *)
Definition looked_into (n : Node) : Prop :=
  match n with
  | NBegin [_] _ _ _ | NAnd _ _ _ _ | NOr _ _ _ _ | NIrange _ _ _ _ | NErange _ _ _ _ | NRegexp _ _ _ _ _ => True
  | _ => False
  end.
Inductive OptRel (R : Node -> Node -> Prop) : option Node -> option Node -> Prop :=
| or_none : OptRel R None None
| or_some : forall a b, R a b -> OptRel R (Some a) (Some b).
Inductive Rewritten : Node -> Node -> Prop :=
| rw_keep : forall n, ~ looked_into n -> Rewritten n n
| rw_begin : forall s s' a b c, Rewritten s s' -> Rewritten (NBegin [s] a b c) (NBegin [s'] a b c)
| rw_and : forall l r l' r' o x, Rewritten l l' -> Rewritten r r' -> Rewritten (NAnd l r o x) (NAnd l' r' o x)
| rw_or : forall l r l' r' o x, Rewritten l l' -> Rewritten r r' -> Rewritten (NOr l r o x) (NOr l' r' o x)
| rw_irange : forall l r l' r' o x, OptRel Rewritten l l' -> OptRel Rewritten r r' ->
    Rewritten (NIrange l r o x) (NIFlipFlop l' r' o x)
| rw_erange : forall l r l' r' o x, OptRel Rewritten l l' -> OptRel Rewritten r r' ->
    Rewritten (NErange l r o x) (NEFlipFlop l' r' o x)
| rw_regexp : forall p o a b x, Rewritten (NRegexp p o a b x) (NMatchCurrentLine (NRegexp p o a b x) x).

(** ** C38: ranges *)
Definition proper (l : Loc) : Prop := loc_begin l <= loc_end l.
Definition encloses (outer inner : Loc) : Prop :=
  loc_begin outer <= loc_begin inner /\ loc_end inner <= loc_end outer.
(** [a] stands before [b] in the source *)
Definition before (a b : Loc) : Prop := loc_end a <= loc_begin b.
(** Locations in source order, one after the other *)
Fixpoint in_order (l : list Loc) : Prop :=
  match l with
  | [] => True
  | a :: r => proper a /\ Forall (before a) r /\ in_order r
  end.

(** ** C32: what happens to a pattern stack: a pattern is entered, left, or a name occurs at a location *)
Inductive PatEvent : Type :=
| PEnter
| PLeave
| PName (name : list N) (l : Loc).
(** [opens k h]: the history [h] (latest event first) enters [k] patterns that it does not leave, and leaves
    none that it did not enter.  [opens 0 h]: every pattern entered in [h] is left in [h]. *)
Inductive opens : nat -> list PatEvent -> Prop :=
| op_nil : opens 0 []
| op_name : forall k h name l, opens k h -> opens k (PName name l :: h)
| op_enter : forall k h, opens k h -> opens (S k) (PEnter :: h)
| op_leave : forall k h, opens (S k) h -> opens k (PLeave :: h).
(** [name] occurred before in the same pattern: between that occurrence and now all patterns are closed *)
Definition occurred (name : list N) (past : list PatEvent) : Prop :=
  exists recent l older, past = recent ++ PName name l :: older /\ opens 0 recent.
(** [reports ignored past h ls]: of the events [h] (oldest first) after [past], exactly the names at [ls] are
    duplicates *)
Inductive reports (ignored : list N -> bool) : list PatEvent -> list PatEvent -> list Loc -> Prop :=
| rp_nil : forall past, reports ignored past [] []
| rp_enter : forall past h ls, reports ignored (PEnter :: past) h ls -> reports ignored past (PEnter :: h) ls
| rp_leave : forall past h ls, reports ignored (PLeave :: past) h ls -> reports ignored past (PLeave :: h) ls
| rp_first : forall past name l h ls, ignored name = true \/ ~ occurred name past ->
    reports ignored (PName name l :: past) h ls -> reports ignored past (PName name l :: h) ls
| rp_again : forall past name l h ls, ignored name = false -> occurred name past ->
    reports ignored (PName name l :: past) h ls -> reports ignored past (PName name l :: h) (l :: ls).
(** Names occur only inside a pattern and only entered patterns are left *)
Fixpoint within (depth : nat) (h : list PatEvent) : Prop :=
  match h with
  | [] => True
  | PEnter :: h => within (S depth) h
  | PLeave :: h => match depth with 0 => False | S d => within d h end
  | PName _ _ :: h => depth <> 0 /\ within depth h
  end.
