(** * Operators and punctuation: what a reader of Ruby expects, by the place they stand at

    The specification knows nothing of the lexer's control flow.  A place is one of four, decided by the state the
    lexer is in, by whether white space precedes, and by whether white space follows.  For each place there is a table
    of texts; the token at a position is the longest text of the table that stands there. *)
Require Import Verif.Base Verif.InputM Verif.DiagnosticM Verif.TokensM Verif.BufferM Verif.LexStateM Verif.LexerM Verif.LexSpec Verif.IdentSpec Verif.YylexSpec.

Definition b_end : N := 1.
Definition b_endarg : N := 2.
Definition b_fitem : N := 12.

(** Behind [def], [alias], a dot and the like: an operator is a method name *)
Definition name_place (st : N) : Prop := in_state st b_fname \/ in_state st b_dot.
(** An operand has to come *)
Definition value_place (st : N) : Prop :=
  in_state st b_beg \/ in_state st b_mid \/ in_state st b_class \/ (in_state st b_arg /\ in_state st b_labeled).
(** Behind a method name: arguments may come *)
Definition argument_place (st : N) : Prop := in_state st b_arg \/ in_state st b_cmdarg.

(** White space stands at [z] *)
Definition spaced (B : list N) (z : nat) : Prop := exists c, nth_error B z = Some c /\ (c = 32 \/ 9 <= c <= 13)%N.

Inductive Place : Type := AtName | AtValue | AtOperator | AtArgument.

(** [sp]: white space precedes; [z]: the end of the operator *)
Inductive place (B : list N) (st : N) (sp : bool) (z : nat) : Place -> Prop :=
| pl_name : name_place st -> ~ value_place st -> ~ argument_place st -> place B st sp z AtName
| pl_value : value_place st -> ~ name_place st -> (argument_place st -> sp = false \/ spaced B z) -> place B st sp z AtValue
| pl_operator : ~ value_place st -> ~ name_place st -> ~ in_state st b_fitem -> (argument_place st -> sp = false \/ spaced B z) ->
    place B st sp z AtOperator
| pl_argument : ~ value_place st -> ~ name_place st -> argument_place st -> sp = true -> ~ spaced B z -> z < List.length B ->
    place B st sp z AtArgument.

(** ** The tables: text, kind of the token, state of the lexer behind it *)
Definition Row : Type := (string * Tok * N)%type.
Definition behind (pl : Place) : N := match pl with AtName => EXPR_ARG | _ => EXPR_BEG end.
Definition label_beg : N := (EXPR_BEG + EXPR_LABEL)%N.

(** The same at all places *)
Definition common_rows (pl : Place) : list Row :=
  [("**=", tOP_ASGN, EXPR_BEG); ("*=", tOP_ASGN, EXPR_BEG); ("&&=", tOP_ASGN, EXPR_BEG); ("&=", tOP_ASGN, EXPR_BEG);
   ("||=", tOP_ASGN, EXPR_BEG); ("|=", tOP_ASGN, EXPR_BEG); (">>=", tOP_ASGN, EXPR_BEG); ("^=", tOP_ASGN, EXPR_BEG);
   ("!=", tNEQ, behind pl); ("!~", tNMATCH, behind pl); ("!", tBANG, behind pl);
   ("===", tEQQ, behind pl); ("==", tEQ, behind pl); ("=~", tMATCH, behind pl); ("=>", tASSOC, behind pl); ("=", tEQL, behind pl);
   ("<=>", tCMP, behind pl); ("<=", tLEQ, behind pl); ("<", tLT, behind pl);
   (">=", tGEQ, behind pl); (">>", tRSHFT, behind pl); (">", tGT, behind pl);
   ("&&", tANDOP, EXPR_BEG); ("&.", tANDDOT, EXPR_DOT); (".", tDOT, EXPR_DOT);
   ("^", tCARET, behind pl); ("~", tTILDE, behind pl); (";", tSEMI, EXPR_BEG); (",", tCOMMA, label_beg)]%string.

Definition special_rows (pl : Place) : list Row :=
  match pl with
  | AtName =>
      [("**", tPOW, EXPR_ARG); ("*", tSTAR2, EXPR_ARG); ("&", tAMPER2, EXPR_ARG); ("|", tPIPE, EXPR_ARG); ("||", tOROP, EXPR_BEG);
       ("+", tPLUS, EXPR_ARG); ("-", tMINUS, EXPR_ARG); ("+@", tUPLUS, EXPR_ARG); ("-@", tUMINUS, EXPR_ARG);
       ("!@", tBANG, EXPR_ARG); ("~@", tTILDE, EXPR_ARG); ("..", tDOT2, EXPR_BEG);
       ("/", tDIVIDE, EXPR_ARG); ("/=", tOP_ASGN, EXPR_BEG); ("%", tPERCENT, EXPR_ARG); ("%=", tOP_ASGN, EXPR_BEG)]
  | AtValue =>
      [("**", tDSTAR, EXPR_BEG); ("*", tSTAR, EXPR_BEG); ("&", tAMPER, EXPR_BEG); ("|", tPIPE, label_beg);
       ("+", tUPLUS, EXPR_BEG); ("-", tUMINUS, EXPR_BEG); ("+=", tOP_ASGN, EXPR_BEG); ("-=", tOP_ASGN, EXPR_BEG);
       ("->", tLAMBDA, EXPR_ENDFN); ("..", tBDOT2, EXPR_BEG)]
  | AtOperator =>
      [("**", tPOW, EXPR_BEG); ("*", tSTAR2, EXPR_BEG); ("&", tAMPER2, EXPR_BEG); ("|", tPIPE, label_beg); ("||", tOROP, EXPR_BEG);
       ("+", tPLUS, EXPR_BEG); ("-", tMINUS, EXPR_BEG); ("+=", tOP_ASGN, EXPR_BEG); ("-=", tOP_ASGN, EXPR_BEG);
       ("->", tLAMBDA, EXPR_ENDFN); ("..", tDOT2, EXPR_BEG);
       ("/", tDIVIDE, EXPR_BEG); ("/=", tOP_ASGN, EXPR_BEG); ("%", tPERCENT, EXPR_BEG); ("%=", tOP_ASGN, EXPR_BEG)]
  | AtArgument =>
      [("**", tDSTAR, EXPR_BEG); ("*", tSTAR, EXPR_BEG); ("&", tAMPER, EXPR_BEG); ("|", tPIPE, label_beg); ("||", tOROP, EXPR_BEG);
       ("+", tUPLUS, EXPR_BEG); ("-", tUMINUS, EXPR_BEG); ("+=", tOP_ASGN, EXPR_BEG); ("-=", tOP_ASGN, EXPR_BEG);
       ("->", tLAMBDA, EXPR_ENDFN); ("..", tDOT2, EXPR_BEG); ("/=", tOP_ASGN, EXPR_BEG); ("%=", tOP_ASGN, EXPR_BEG)]
  end%string.
Definition rows (pl : Place) : list Row := common_rows pl ++ special_rows pl.

(** Texts that begin something else: an embedded document, a number, a heredoc or a shift, the three dots, the empty
    parameter list of a block, and [%s] behind [alias].  They have theorems of their own or are left out. *)
Definition decimals (prefix : string) : list string :=
  map (fun d => (prefix ++ d)%string) ["0"; "1"; "2"; "3"; "4"; "5"; "6"; "7"; "8"; "9"]%string.
Definition other_texts (pl : Place) : list string :=
  ["=begin"; "<<"; "..."]%string ++ decimals "." ++
  match pl with
  | AtName => ["%s"]%string
  | AtValue => ["||"]%string ++ decimals "+" ++ decimals "-"
  | AtArgument => decimals "+" ++ decimals "-"
  | AtOperator => []
  end.
Definition texts (pl : Place) : list string := map (fun r => fst (fst r)) (rows pl) ++ other_texts pl.

(** [w] is the longest text of the table at [q] *)
Definition longest (B : list N) (q : nat) (pl : Place) (w : string) : Prop :=
  text_at B q (bs w) /\ forall v, In v (texts pl) -> text_at B q (bs v) -> String.length v <= String.length w.

(** ** Warnings *)
(** What else an operator could be taken for, when it is set off in front but not behind: [a *b] *)
Definition other_reading (w : string) : option string :=
  match w with
  | "*" | "**" | "&" => Some "argument prefix"
  | "+" | "-" => Some "unary operator"
  | "/" => Some "regexp literal"
  | "%" => Some "string literal"
  | _ => None
  end%string.
(** The name of the operator in the warning.  The percent sign is doubled. *)
Definition name_in_warning (w : string) : string := if String.eqb w "%" then "%%" else w.

Definition prefix_warning (w : string) : option Msg :=
  match w with
  | "*" => Some StarInterpretedAsArgPrefix
  | "**" => Some DStarInterpretedAsArgPrefix
  | "&" => Some AmpersandInterpretedAsArgPrefix
  | "+" => Some (AmbiguousFirstArgument 43)
  | "-" => Some (AmbiguousFirstArgument 45)
  | _ => None
  end%string.

Inductive warned (B : list N) (st : N) (sp : bool) (q z : nat) (w : string) : Place -> list Diagnostic -> Prop :=
| wd_name : warned B st sp q z w AtName []
| wd_value : warned B st sp q z w AtValue []
| wd_both : forall syn, other_reading w = Some syn -> sp = true -> ~ spaced B z -> ~ in_state st b_endfn ->
    warned B st sp q z w AtOperator [mkDiag Warning (AmbiguousOperator (bs (name_in_warning w)) (bs syn)) (mkLoc q z)]
| wd_clear : other_reading w = None \/ sp = false \/ spaced B z \/ in_state st b_endfn ->
    warned B st sp q z w AtOperator []
| wd_prefix : forall m, prefix_warning w = Some m -> warned B st sp q z w AtArgument [mkDiag Warning m (mkLoc q z)]
| wd_no_prefix : prefix_warning w = None -> warned B st sp q z w AtArgument [].

(** ** The lexer behind an operator *)
(** A statement can begin behind a semicolon, and behind the less-than sign of a class definition *)
Definition statement_behind (st : N) (w : string) (cmd : bool) : Prop :=
  cmd = true <-> (w = ";" \/ ((w = "<" \/ w = "<=" \/ w = "<=>") /\ in_state st b_class))%string.

Record Passed (B : list N) (s s' : Lexer) (z : nat) (st : N) (cmd : bool) (ds : list Diagnostic) : Prop := mkPassed {
  pa_pos : pcur (buffer s') = z;
  pa_next : z < List.length B -> upcoming (buffer s') z;
  pa_term : strterm s' = None;
  pa_state : lex_state s' = st;
  pa_cmd : command_start s' = cmd;
  pa_diags : diagnostics s' = diagnostics s ++ ds;
  pa_comments : comments s' = comments s;
  pa_order : in_order (buffer s) -> in_order (buffer s');
  pa_nest : paren_nest s' = paren_nest s /\ brace_nest s' = brace_nest s /\ lpar_beg s' = lpar_beg s;
  pa_stacks : cond s' = cond s /\ cmdarg s' = cmdarg s;
  pa_scope : context s' = context s /\ static_env s' = static_env s
}.
