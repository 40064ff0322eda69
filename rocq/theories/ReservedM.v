(** * Reserved words

    src/reserved_words/{mod,reserved_word}.rs and the table of codegen/rust/reserved_words.rs 10-257, from
    which [src/reserved_words/list.rs] is generated (grouped by length, each group sorted by name,
    reserved_words.rs 265-291). *)
Require Import Verif.Base Verif.LexStateM Verif.TokensM.

(** reserved_word.rs 3-8 *)
Record ReservedWord : Type := mkRW {
  rw_name : list N;
  rw_id : Tok;
  rw_modifier_id : Tok;
  rw_state : LexState
}.

(** codegen/rust/reserved_words.rs 10-257, in source order *)
Definition RESERVED_TABLE : list ReservedWord := [
  mkRW (bs "BEGIN") klBEGIN klBEGIN EXPR_END;
  mkRW (bs "END") klEND klEND EXPR_END;
  mkRW (bs "__ENCODING__") k__ENCODING__ k__ENCODING__ EXPR_END;
  mkRW (bs "__FILE__") k__FILE__ k__FILE__ EXPR_END;
  mkRW (bs "__LINE__") k__LINE__ k__LINE__ EXPR_END;
  mkRW (bs "alias") kALIAS kALIAS (N.lor EXPR_FNAME EXPR_FITEM);
  mkRW (bs "and") kAND kAND EXPR_VALUE;
  mkRW (bs "begin") kBEGIN kBEGIN EXPR_BEG;
  mkRW (bs "break") kBREAK kBREAK EXPR_MID;
  mkRW (bs "case") kCASE kCASE EXPR_VALUE;
  mkRW (bs "class") kCLASS kCLASS EXPR_CLASS;
  mkRW (bs "def") kDEF kDEF EXPR_FNAME;
  mkRW (bs "defined?") kDEFINED kDEFINED EXPR_ARG;
  mkRW (bs "do") kDO kDO EXPR_BEG;
  mkRW (bs "else") kELSE kELSE EXPR_BEG;
  mkRW (bs "elsif") kELSIF kELSIF EXPR_VALUE;
  mkRW (bs "end") kEND kEND EXPR_END;
  mkRW (bs "ensure") kENSURE kENSURE EXPR_BEG;
  mkRW (bs "false") kFALSE kFALSE EXPR_END;
  mkRW (bs "for") kFOR kFOR EXPR_VALUE;
  mkRW (bs "if") kIF kIF_MOD EXPR_VALUE;
  mkRW (bs "in") kIN kIN EXPR_VALUE;
  mkRW (bs "module") kMODULE kMODULE EXPR_VALUE;
  mkRW (bs "next") kNEXT kNEXT EXPR_MID;
  mkRW (bs "nil") kNIL kNIL EXPR_END;
  mkRW (bs "not") kNOT kNOT EXPR_ARG;
  mkRW (bs "or") kOR kOR EXPR_VALUE;
  mkRW (bs "redo") kREDO kREDO EXPR_END;
  mkRW (bs "rescue") kRESCUE kRESCUE_MOD EXPR_MID;
  mkRW (bs "retry") kRETRY kRETRY EXPR_END;
  mkRW (bs "return") kRETURN kRETURN EXPR_MID;
  mkRW (bs "self") kSELF kSELF EXPR_END;
  mkRW (bs "super") kSUPER kSUPER EXPR_ARG;
  mkRW (bs "then") kTHEN kTHEN EXPR_BEG;
  mkRW (bs "true") kTRUE kTRUE EXPR_END;
  mkRW (bs "undef") kUNDEF kUNDEF (N.lor EXPR_FNAME EXPR_FITEM);
  mkRW (bs "unless") kUNLESS kUNLESS_MOD EXPR_VALUE;
  mkRW (bs "until") kUNTIL kUNTIL_MOD EXPR_VALUE;
  mkRW (bs "when") kWHEN kWHEN EXPR_VALUE;
  mkRW (bs "while") kWHILE kWHILE_MOD EXPR_VALUE;
  mkRW (bs "yield") kYIELD kYIELD EXPR_ARG
].

(** [Ord] on byte slices: lexicographic *)
Fixpoint bytes_cmp (a b : list N) : comparison :=
  match a, b with
  | [], [] => Eq
  | [], _ => Lt
  | _, [] => Gt
  | x :: a', y :: b' => match N.compare x y with Eq => bytes_cmp a' b' | o => o end
  end.

(** [words.sort_by(|x, y| x.name.cmp(y.name))], reserved_words.rs 284: a stable insertion sort *)
Fixpoint sort_insert (w : ReservedWord) (l : list ReservedWord) : list ReservedWord :=
  match l with
  | [] => [w]
  | v :: l' => match bytes_cmp (rw_name w) (rw_name v) with
               | Gt => v :: sort_insert w l'
               | _ => w :: l
               end
  end.
Definition sort_words (l : list ReservedWord) : list ReservedWord := fold_right sort_insert [] l.

(** group_by_word_size, reserved_words.rs 277-290 *)
Definition max_len : nat := fold_right Nat.max 0 (map (fun w => List.length (rw_name w)) RESERVED_TABLE).
Definition RESERVED_WORDS : list (list ReservedWord) :=
  map (fun len => sort_words (filter (fun w => List.length (rw_name w) =? len) RESERVED_TABLE))
      (seq 0 (max_len + 1)).

(** [slice::binary_search_by] as in the standard library (the loop [while left < right] with
    [mid = left + size / 2]); [size] halves in each step, so [fuel = len + 1] iterations are enough.
    Returns the index of a matching element.  The exact probe order of std is an implementation detail that
    does not matter for a sorted slice without duplicates. *)
Fixpoint bsearch_loop (fuel : nat) (bucket : list ReservedWord) (tok : list N) (left right : nat)
  : option nat :=
  match fuel with
  | O => None
  | S fuel =>
      if left <? right then
        let mid := left + (right - left) / 2 in
        match nth_error bucket mid with
        | None => None
        | Some e =>
            match bytes_cmp (rw_name e) tok with
            | Lt => bsearch_loop fuel bucket tok (mid + 1) right
            | Gt => bsearch_loop fuel bucket tok left mid
            | Eq => Some mid
            end
        end
      else None
  end.
Definition binary_search (bucket : list ReservedWord) (tok : list N) : option nat :=
  bsearch_loop (List.length bucket + 1) bucket tok 0 (List.length bucket).

(** reserved_words/mod.rs 9-16 *)
Definition reserved_word (tok : list N) : option ReservedWord :=
  match nth_error RESERVED_WORDS (List.length tok) with
  | None => None
  | Some bucket =>
      match binary_search bucket tok with
      | Some idx => nth_error bucket idx
      | None => None
      end
  end.
