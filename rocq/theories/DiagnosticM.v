(** * Diagnostics: src/error/diagnostic.rs, src/error/level.rs and the messages used by the model *)
Require Import Verif.Base Verif.MaybeByteM Verif.InputM.

(** level.rs 4-9 *)
Inductive ErrorLevel : Type := Warning | Error.

(** The messages the modelled code emits (DiagnosticMessage, generated from codegen/ in the repository).
    Texts that Rust passes through [String::from_utf8_lossy] are the raw bytes here. *)
Inductive Msg : Type :=
(* lexer *)
| AmbiguousFirstArgument (operator : N)
| AmbiguousOperator (operator interpreted_as : list N)
| AmbiguousRegexp
| AmbiguousTernaryOperator (condition : list N)
| AmpersandInterpretedAsArgPrefix
| CvarWithoutId
| DStarInterpretedAsArgPrefix
| EmbeddedDocumentMeetsEof
| EncodingErrorUnknownName (name : list N)
| EncodingErrorInput (e : InputError)
| FractionAfterNumeric
| GvarWithoutId
| IncompleteCharacterSyntax
| InvalidChar (c : N)
| InvalidCharacterSyntax (suggestion : list N)
| InvalidCvarName (c : N)
| InvalidEscapeCharacter
| InvalidGvarName (c : N)
| InvalidHexEscape
| InvalidIvarName (c : N)
| InvalidMultibyteChar
| InvalidOctalDigit
| InvalidUnicodeCodepoint
| InvalidUnicodeEscape
| IvarWithoutId
| MultipleCodepointAtSingleChar
| NoDigitsAfterDot
| NumericLiteralWithoutDigits
| ParenthesesIterpretedAsArglist
| SlashRAtMiddleOfLine
| StarInterpretedAsArgPrefix
| TooLargeUnicodeCodepoint
| TrailingCharInNumber (c : N)
| TripleDotAtEol
| UnknownRegexOptions (options : list N)
| UnknownTypeOfPercentString
| UnterminatedHeredoc (heredoc_id : list N)
| UnterminatedHeredocId
| UnterminatedList
| UnterminatedQuotedString
| UnterminatedRegexp
| UnterminatedString
| UnterminatedUnicodeEscape
(* builder *)
| DuplicatedArgumentName
| DuplicateHashKey
| DuplicateVariableName
| DuplicateKeyName
| NthRefIsTooBig (nth_ref : list N)
| VoidValueExpression
| OrdinaryParamDefined
| NumparamUsed
| InvalidSymbol (symbol : list N)
| InvalidIdToGet (identifier : list N)
| CircularArgumentReference (arg_name : list N)
| DynamicConstantAssignment
| CantAssignToSelf
| CantAssignToNil
| CantAssignToTrue
| CantAssignToFalse
| CantAssignToFile
| CantAssignToLine
| CantAssignToEncoding
| CantSetVariable (var_name : list N)
| CantAssignToNumparam (numparam : list N)
| ReservedForNumparam (numparam : list N)
| ForwardArgAfterRestarg
| BlockAndBlockArgGiven
| BlockGivenToYield
| KeyMustBeValidAsLocalVariable
| SymbolLiteralWithInterpolation
| RegexError (error : list N).

(** diagnostic.rs 11-20 *)
Record Diagnostic : Type := mkDiag { dg_level : ErrorLevel; dg_message : Msg; dg_loc : Loc }.

(** ** Rendering *)

(** [Display] of an unsigned number: decimal digits *)
Fixpoint dec_digits (fuel : nat) (n : N) (acc : list N) : list N :=
  match fuel with
  | O => acc
  | S fuel =>
      let acc := (48 + n mod 10)%N :: acc in
      if (n <? 10)%N then acc else dec_digits fuel (n / 10)%N acc
  end.
Definition show_N (n : N) : list N := dec_digits (S (N.to_nat (N.log2 n))) n [].
Definition show_nat (n : nat) : list N := show_N (N.of_nat n).

(** level.rs 11-19 *)
Definition level_str (l : ErrorLevel) : list N :=
  match l with Warning => bs "warning" | Error => bs "error" end.

(** [str::repeat] *)
Definition str_repeat (c : N) (n : nat) : list N := List.repeat c n.

(** diagnostic.rs 35-66.  The final [trim()] (line 63) is not applied, messages are given as the rendered text
    [message] ([DiagnosticMessage::render] is not modelled), and [source] does no lossy conversion.
    [Loc::size] panics when [end < begin]. *)
Definition render (level : ErrorLevel) (message : list N) (loc : Loc) : M DecodedInput (option (list N)) :=
  e <- expand_to_line loc ;;
  match e with
  | None => ret None
  | Some (line_no, line_loc) =>
      input <- get ;;
      match loc_source line_loc input with
      | None => ret None
      | Some line =>
          match begin_line_col loc input with
          | None => ret None
          | Some (_, start_col) =>
              let prefix := d_name input ++ bs ":" ++ show_nat (line_no + 1) in
              size <- expect (loc_size loc) "attempt to subtract with overflow" ;;
              let tildes := if 0 <? size then str_repeat 126 (size - 1) else [] in
              let highlight := str_repeat 32 start_col ++ bs "^" ++ tildes in
              ret (Some (prefix ++ bs ":" ++ show_nat start_col ++ bs ": " ++ level_str level ++ bs ": "
                           ++ message ++ [10%N]
                           ++ prefix ++ bs ": " ++ line ++ [10%N]
                           ++ prefix ++ bs ": " ++ highlight))
          end
      end
  end.
