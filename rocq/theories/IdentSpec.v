(** * Specification of names, as sets of byte strings *)
Require Import Verif.Base Verif.TokensM Verif.ScopeSpec.

Definition letter (c : N) : Prop := (65 <= c <= 90 \/ 97 <= c <= 122 \/ c = 95)%N.
Definition digit (c : N) : Prop := (48 <= c <= 57)%N.
Definition cont (c : N) : Prop := (128 <= c <= 191)%N.

(** The UTF-8 encodings of the non-ASCII characters (Unicode table 3-7) *)
Inductive wide_char : list N -> Prop :=
| wc2 : forall a b, (194 <= a <= 223)%N -> cont b -> wide_char [a; b]
| wc3 : forall a b c, (224 <= a <= 239)%N -> cont b -> cont c -> (a = 224 -> 160 <= b)%N -> (a = 237 -> b <= 159)%N ->
    wide_char [a; b; c]
| wc4 : forall a b c d, (240 <= a <= 244)%N -> cont b -> cont c -> cont d -> (a = 240 -> 144 <= b)%N -> (a = 244 -> b <= 143)%N ->
    wide_char [a; b; c; d].

(** What may follow the first character of a name *)
Inductive name_tail : list N -> Prop :=
| nt_nil : name_tail []
| nt_ascii : forall c w, letter c \/ digit c -> name_tail w -> name_tail (c :: w)
| nt_wide : forall u w, wide_char u -> name_tail w -> name_tail (u ++ w).

Inductive name : list N -> Prop :=
| nm_ascii : forall c w, letter c -> name_tail w -> name (c :: w)
| nm_wide : forall u w, wide_char u -> name_tail w -> name (u ++ w).

(** No name continues at [q] *)
Definition name_ends (B : list N) (q : nat) : Prop :=
  forall c, nth_error B q = Some c -> ~ letter c /\ ~ digit c /\ (c < 128)%N.

(** The code point of a wide character *)
Inductive code_point : list N -> N -> Prop :=
| cp2 : forall a b, code_point [a; b] ((a - 192) * 64 + (b - 128))
| cp3 : forall a b c, code_point [a; b; c] ((a - 224) * 4096 + (b - 128) * 64 + (c - 128))
| cp4 : forall a b c d, code_point [a; b; c; d] ((a - 240) * 262144 + (b - 128) * 4096 + (c - 128) * 64 + (d - 128)).

(** Names that start with an upper case letter; [upper] tells which non-ASCII characters are upper case *)
Inductive capital (upper : N -> bool) : list N -> Prop :=
| cap_ascii : forall c w, (65 <= c <= 90)%N -> capital upper (c :: w)
| cap_wide : forall u w cp, wide_char u -> code_point u cp -> upper cp = true -> capital upper (u ++ w).

Definition keyword (w : list N) : Prop := In w (map bs ruby_keywords).

(** A word is a name, possibly with a final exclamation or question mark; [sfx] tells which *)
Inductive word : list N -> bool -> Prop :=
| wd_name : forall w, name w -> word w false
| wd_mark : forall w m, name w -> (m = 33 \/ m = 63)%N -> word (w ++ [m]) true.

(** The word ends at [q]: a mark followed by an equals sign is not part of it *)
Definition word_ends (B : list N) (q : nat) (sfx : bool) : Prop :=
  if sfx then nth_error B q <> Some 61%N
  else name_ends B q /\ (nth_error B q = Some 33%N \/ nth_error B q = Some 63%N -> nth_error B (q + 1) = Some 61%N).

(** A single colon, which makes a word a label *)
Definition single_colon (B : list N) (q : nat) : Prop := nth_error B q = Some 58%N /\ nth_error B (q + 1) <> Some 58%N.

(** Token kinds of the reserved words, and of those that differ behind an expression *)
Definition keyword_kinds : list (string * Tok) :=
  [("__ENCODING__", k__ENCODING__); ("__LINE__", k__LINE__); ("__FILE__", k__FILE__); ("BEGIN", klBEGIN); ("END", klEND);
   ("alias", kALIAS); ("and", kAND); ("begin", kBEGIN); ("break", kBREAK); ("case", kCASE); ("class", kCLASS);
   ("def", kDEF); ("defined?", kDEFINED); ("do", kDO); ("else", kELSE); ("elsif", kELSIF); ("end", kEND);
   ("ensure", kENSURE); ("false", kFALSE); ("for", kFOR); ("if", kIF); ("in", kIN); ("module", kMODULE); ("next", kNEXT);
   ("nil", kNIL); ("not", kNOT); ("or", kOR); ("redo", kREDO); ("rescue", kRESCUE); ("retry", kRETRY); ("return", kRETURN);
   ("self", kSELF); ("super", kSUPER); ("then", kTHEN); ("true", kTRUE); ("undef", kUNDEF); ("unless", kUNLESS);
   ("until", kUNTIL); ("when", kWHEN); ("while", kWHILE); ("yield", kYIELD)]%string.
Definition modifier_kinds : list (string * Tok) :=
  [("if", kIF_MOD); ("unless", kUNLESS_MOD); ("while", kWHILE_MOD); ("until", kUNTIL_MOD); ("rescue", kRESCUE_MOD)]%string.

(** ** Lexer states, as bit sets *)
Definition in_state (st k : N) : Prop := N.testbit st k = true.
Definition b_beg : N := 0.
Definition b_endfn : N := 3.
Definition b_arg : N := 4.
Definition b_cmdarg : N := 5.
Definition b_mid : N := 6.
Definition b_fname : N := 7.
Definition b_dot : N := 8.
Definition b_class : N := 9.
Definition b_label : N := 10.
Definition b_labeled : N := 11.
(** At the start of an expression; behind [def] and the like; behind a dot *)
Definition expr_start (st : N) : Prop := in_state st b_beg \/ in_state st b_labeled.
Definition after_def (st : N) : Prop := in_state st b_fname.
Definition after_dot (st : N) : Prop := in_state st b_dot.
(** A colon behind a word makes it a label *)
Definition label_allowed (st : N) (cmd : bool) : Prop :=
  ((in_state st b_label \/ in_state st b_endfn) /\ cmd = false) \/ in_state st b_arg \/ in_state st b_cmdarg.

(** ** Global, instance and class variables *)
(** One character of a name, or a digit *)
Inductive one_char : list N -> Prop :=
| oc_ascii : forall c, letter c \/ digit c -> one_char [c]
| oc_wide : forall u, wide_char u -> one_char u.

(** The punctuation marks that make a global variable with a dollar sign, and those naming parts of the last match *)
Definition global_marks : list N := [126; 42; 36; 63; 33; 64; 47; 92; 59; 44; 46; 61; 58; 60; 62; 34]%N.
Definition match_marks : list N := [38; 96; 39; 43]%N.

(** Global variables: text and kind, when the bytes [B] go on at [z]; [fname] tells that a method name is expected *)
Inductive global_var (B : list N) (z : nat) (fname : bool) : list N -> Tok -> Prop :=
| gv_name : forall w, name w -> name_ends B z -> global_var B z fname (36%N :: w) tGVAR
| gv_zero : forall w, name_tail w -> name_ends B z -> global_var B z fname (36%N :: 48%N :: w) tGVAR
| gv_mark : forall c, In c global_marks -> global_var B z fname [36%N; c] tGVAR
| gv_dash : forall u, one_char u -> global_var B z fname (36%N :: 45%N :: u) tGVAR
| gv_match : forall c, In c match_marks -> global_var B z fname [36%N; c] (if fname then tGVAR else tBACK_REF)
| gv_nth : forall d r, (49 <= d <= 57)%N -> Forall digit r -> (forall c, nth_error B z = Some c -> ~ digit c) ->
    global_var B z fname (36%N :: d :: r) (if fname then tGVAR else tNTH_REF).

Inductive object_var : list N -> Tok -> Prop :=
| ov_instance : forall w, name w -> object_var (64%N :: w) tIVAR
| ov_class : forall w, name w -> object_var (64%N :: 64%N :: w) tCVAR.
