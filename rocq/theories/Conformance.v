(** * The repository's own test expectations, replayed on the model (tests, not proofs)

    src/tests/fixtures/lexer/manual/* (checked in the repository by src/tests/lexer/fixture.rs 89-133) and
    src/tests/fixtures/magic_comments.rb (src/tests/parser/mod.rs 35-73). *)
Require Import Verif.Base Verif.InputM Verif.TokensM Verif.LexerM Verif.LexMainM.

Definition test_env : Env := mkEnv 1000 None (fun _ => false).
Definition lex_of (input : list N) : option (list (Tok * list N * nat * nat)) :=
  match run_lexer input (bs "(test)") test_env with
  | Ok toks _ =>
      Some (map (fun t => (token_type t, token_value t, loc_begin (token_loc t), loc_end (token_loc t))) toks)
  | _ => None
  end.

Example test_string_pct_w_null :
  lex_of (bs "%w" ++ [0%N] ++ bs "abc" ++ [0%N]) =
  Some [(tQWORDS_BEG, bs "%w" ++ [0%N], 0, 3); (tSPACE, [], 3, 3); (tSTRING_CONTENT, bs "abc", 3, 6);
        (tSPACE, [], 6, 6); (tSTRING_END, [0%N], 6, 7)].
Proof. vm_compute. reflexivity. Qed.

Example test_string_single_escape_chars :
  lex_of (bs "'s\tri\ng'") =
  Some [(tSTRING_BEG, bs "'", 0, 1); (tSTRING_CONTENT, bs "s\tri\ng", 1, 9); (tSTRING_END, bs "'", 9, 10)].
Proof. vm_compute. reflexivity. Qed.

Example test_label_colon2_22 :
  lex_of (bs "{'a'::") =
  Some [(tLBRACE, bs "{", 0, 1); (tSTRING_BEG, bs "'", 1, 2); (tSTRING_CONTENT, bs "a", 2, 3);
        (tSTRING_END, bs "'", 3, 4); (tCOLON2, bs "::", 4, 6)].
Proof. vm_compute. reflexivity. Qed.

Example test_string_single :
  lex_of (bs "'string'") =
  Some [(tSTRING_BEG, bs "'", 0, 1); (tSTRING_CONTENT, bs "string", 1, 7); (tSTRING_END, bs "'", 7, 8)].
Proof. vm_compute. reflexivity. Qed.

Example test_string_pct_null :
  lex_of (bs "%" ++ [0%N] ++ bs "blah" ++ [0%N]) =
  Some [(tSTRING_BEG, bs "%" ++ [0%N], 0, 2); (tSTRING_CONTENT, bs "blah", 2, 6); (tSTRING_END, [0%N], 6, 7)].
Proof. vm_compute. reflexivity. Qed.

Example test_bug_expr_end_colon :
  lex_of (bs "'foo':'bar'") =
  Some [(tSTRING_BEG, bs "'", 0, 1); (tSTRING_CONTENT, bs "foo", 1, 4); (tSTRING_END, bs "'", 4, 5);
        (tCOLON, bs ":", 5, 6); (tSTRING_BEG, bs "'", 6, 7); (tSTRING_CONTENT, bs "bar", 7, 10);
        (tSTRING_END, bs "'", 10, 11)].
Proof. vm_compute. reflexivity. Qed.

Definition nl : list N := [10%N].
Definition magic_rb : list N :=
  bs "# encoding: utf-8" ++ nl ++ bs "# frozen_string_literal: true" ++ nl ++ bs "# coding: utf-8" ++ nl
  ++ bs "# shareable_constant_value: literal" ++ nl ++ bs "# warn_indent: true" ++ nl.
Example test_magic_comment :
  match run_lexer magic_rb [] test_env with
  | Ok _ s => Some (map (fun m => (mc_kind m, loc_begin (mc_key_l m), loc_end (mc_key_l m),
                                   loc_begin (mc_value_l m), loc_end (mc_value_l m))) (magic_comments s))
  | _ => None
  end =
  Some [(MC_Encoding, 2, 10, 12, 17); (MC_FrozenStringLiteral, 20, 41, 43, 47); (MC_Encoding, 50, 56, 58, 63);
        (MC_ShareableConstantValue, 66, 90, 92, 99); (MC_WarnIndent, 102, 113, 115, 119)].
Proof. vm_compute. reflexivity. Qed.
