C01 proved
  C01_line_table_partitions
note: for every byte string

C02 proved
  C02_line_col_for_pos C02_line_col_injective
note: exact value for every offset; injective

C03 proved
  C03_expand_to_line
note: for every byte string and Loc

C04 proved
  C04_source_slice C04_source_concat
note: the lossy UTF-8 conversion of Loc::source is outside the model

C05 proved
  C05_render_layout C05_render_none
note: text before the final trim(); messages are given as rendered text

C18 proved
  C18_decimal_literals C18_number_lines
note: every decimal literal, at every token request of every parser (arbitrary client), after any blanks; also for whole programs starting with a line of number literals. The literal must not be followed directly by a name character (that is another lexeme)

C19 proved
  C19_prefixed_literals C18_number_lines
note: hexadecimal, binary, 0d and octal literals incl. suffixes, same quantification as C18; the value is the literal text itself, which starts with 0

C21 proved
  C21_reserved_word_complete C21_reserved_table_unique C21_reserved_word_keywords
note: for every byte string; the keyword list is stated independently

C27 partial
  C27_stack_state_bounded C27_stack_state_lifo C27_stack_state_lifo_refuted
note: false beyond nesting depth 64 (refuted by a witness); exact characterisation for all histories and LIFO up to depth 64 proved

C28 proved
  C28_scoping C28_unextend_restores
note: for every history

C29 proved
  C29_numparam_restores C29_current_arg_restores C29_variables_restores C29_register_keeps_max C29_variables_declare C29_current_arg_top C29_context_flags
note: for every balanced history

C06 proved
  C06_lexing_never_panics
note: for every byte string, any loop bound, any upper-case oracle, no custom decoder

C07 proved
  C07_lexing_terminates
note: 9*length+21 iterations suffice for every loop and the result does not depend on the bound; at most 9*length+3 tokens

C08 partial
  C08_token_ranges_partial C08_token_ranges_refuted
note: false for unterminated heredocs (refuted by a witness); proved for every run that reports no unterminated heredoc

C10 proved
  C10_comments_real
note: for every run

C11 proved
  C11_magic_comments
note: for every run

C40 proved
  C40_diagnostics_renderable
note: rendered against the source as given; the lexer's own copy is emptied when an encoding is unknown, see C39

C09 proved
  C09_robust_against_parsers C09_records_sound
note: every finite sequence of parser actions (values that grammar rules compute are arbitrary); token requests stop after end of input

C41 proved
  C41_tokens_recorded
note: for every sequence of parser actions; record_tokens modelled in next_token

C24 partial
  C24_dedent_partial C24_dedent_refuted C24_dedent_short_refuted
note: false in general: the code compares the next tab stop with the tab width instead of the width to remove (refuted in both directions); proved for every line when the width is 8..15 and for every width when no tab is among the leading blanks; only blanks are ever removed

C30 partial
  C30_duplicate_arguments C30_duplicate_arguments_refuted
note: exact diagnostics proved for every parameter list whose names start with an ASCII character; a repeated non-ASCII name panics (byte slice inside a character), refuted by a witness

C31 partial
  C31_duplicate_hash_keys C31_duplicate_hash_keys_refuted
note: exact for every list in which no regexp key has options; with options the code compares locations too and never warns (refuted by a witness)

C32 proved
  C32_pattern_variables C32_pattern_keys
note: for every history of entering and leaving patterns and declaring names

C33 proved
  C33_regexp_options C33_order_and_repetition
note: ASCII option letters (the lexer passes only ASCII letters), source shorter than 2 GB

C34 partial
  C34_nth_ref C34_too_big_becomes_zero_refuted
note: everything but the clause that too big numbers become 0, which is false: the node keeps the digits (refuted by a witness)

C35 proved
  C35_trailing_hash C35_locations
note: for every argument list

C36 proved
  C36_void_value
note: for every expression tree

C37 proved
  C37_condition C37_expression C37_idempotent C37_nothing_left
note: for every expression tree; check_condition itself does not look below not (the builder applies it to the operand when it builds not)

C38 proved
  C38_join_least C38_collection C38_collection_encloses
note: for every list of nodes in source order

C42 proved
  C42_numbered_parameters
note: for every stack of scopes

C20 proved
  C20_reserved_words C20_names C20_method_names C20_word_lines
note: for every word (ASCII and non-ASCII letters, final ! or ? included), in every state a parser reaches, at the start of an expression, behind it, behind def and behind a dot; char::is_uppercase on non-ASCII characters is an arbitrary function

C46 proved
  C46_labels
note: for every word and every reached state in which a label is allowed

C12 proved
  C12_reading
  C12_same_characters
  C12_whole_source
  C12_unread
note: reading from any reached position delivers the rest of the source with CR LF as one line feed, then the end; the position-wise theorem assumes that lines are read in order (no heredoc is being read ahead)

C13 partial
  C13_same_characters C13_layout_partial C13_refuted
note: false as stated (a heredoc on the first line is not found behind a mark, witness in C13_refuted); proved that every source is read character for character behind the mark, and that programs of words, numbers and variables in any layout give the same tokens three bytes further

C14 proved
  C14_end_marker
  C14_program
note: for every reached state at the start of such a line and everything that follows the line; the program theorem is for sources that start with the marker

C45 proved
  C45_end_is_final
  C45_blanks_then_end
note: for every reached state with nothing left to read and any number of requests; a NUL, Ctrl-D or Ctrl-Z byte reports end of input too but is not the end of the file, so it is not covered

C43 proved
  C43_white_space
  C43_layout
  C43_layout_free
  C45_blanks_then_end
note: the first theorem is for every reached state and everything that can follow the white space; the layout theorems are for whole programs of words, numbers and variables; all token theorems (C18, C19, C20, C44, C46) allow any such white space in front of the token

C44 proved
  C44_global_variables
  C44_object_variables
note: for every name, digit-run, dash-character and punctuation variable, and every reached state

C39 partial
  C39_known_encodings C39_decoder_output C39_input_kept C39_failed_decoding_refuted
note: the first two parts are proved for every input, name and decoder; the part about failed decoding is false (witness in C39_failed_decoding_refuted); the source is kept in every state reached before the end of input

C15 proved
  C15_single_quotes
  C15_program
note: for every byte string without CR and every state a parser reaches in which the literal comes next (not followed by a colon, which makes it a label), and for the program that consists of the literal

C16 proved
  C16_byte_escapes
  C16_program
note: any mixture of escapes with one or two hexadecimal and one to three octal digits, in every reached state; the program theorem spells every list of bytes in hexadecimal and in octal

C17 proved
  C17_code_points
  C17_program
  C17_every_code_point
note: any sequence of four-digit escapes and braces with several code points and white space; also more than six digits

C22 proved
  C22_raw_heredoc
  C22_program
note: for <<'ID' and <<-'ID', every name without quote and line break, every list of lines without CR, also a last line without line feed, in every reached state in which a heredoc can start, for sources without byte order mark (C13 is false there); reading continues behind the opening and then behind the last line. The location of the content token runs on to the end of the last line, which the theorem states exactly

C23 partial
  C23_indentation_partial
  C23_refuted
  C23_text_raw
  fold_least
  least_unique
note: false for the interpolating forms: the width of a blank line that is not empty is added to the next line (C23_refuted). Proved for <<~'ID' with every list of lines without CR, and for <<~ID, <<~"ID" and the backquoted form when the text has no backslash and no interpolation and its blank lines are empty; missing: text with escapes or interpolation

C25 proved
  C25_brackets
  C25_program
note: for the four bracket pairs, every balanced text without backslash and CR, and every reached state in which a percent literal can start

C26 proved
  C26_words
  C26_program
note: for %w and %i, every delimiter that is not white space, every list of words and all white space without CR; the lexer also returns a (possibly empty) space token behind every word, which the theorem states exactly

C47 proved
  C47_heredoc_text
  C47_program
note: for <<ID, <<"ID", the backquoted form and these with a minus sign, every name, every list of lines without CR, backslash and interpolation; in every reached state in which a heredoc can start, for sources without byte order mark

C48 partial
  C48_nested
  C48_range
  C48_within
  C48_heredoc_parts
  C48_below
  C48_then_mark_refuted
  C48_numblock_without_body_refuted
note: proved for every modelled function of the builder with four documented exceptions: the mark that ends the head of a when or in clause without a body lies outside the range (C48_then_mark_refuted), heredocs record their contents elsewhere (C48_heredoc_parts), an else without rescue drops the delimiters of the statements before it, and a block with numbered parameters must have a body (C48_numblock_without_body_refuted). The order in which the rules of parse.y hand over the pieces is part of the specification (Call), as parse.y itself is not modelled

C49 partial
  C49_operators
  C49_signs
  C49_symbol_block_refuted
  C49_percent_name_refuted
  C49_bar_at_end_refuted
note: proved for all operators and punctuation of the tables of OpSpec at the four places, and by rules of their own for shifts, three dots, colons, the minus sign of a number, the first bar of an empty parameter list and the question mark of a conditional. False parts: foo &:bar is always warned about (C49_symbol_block_refuted), the warning about the percent sign names it %% (C49_percent_name_refuted), a second bar at the end of the source is lost (C49_bar_at_end_refuted). Missing: a sign in front of a place that is both of an operand and of an argument and set off only in front, and the states that no parser sets

C50 proved
  C50_brackets
  C50_nesting
note: C50_nesting is about sequences of brackets without white space, in a state that is not behind def or a dot

C51 proved
  C51_line_end
  C51_blank_lines
  C51_leading_dot
  C51_label_line_end
  C51_program
  C51_token_seen
note: comments that are magic comments are the subject of C59; the comments of this property have no colon or are shown to record nothing. The next line must be known to the reader as the next one of the file, so no heredoc body may be pending

C52 partial
  C52_call
  C52_tree
  C52_names
  C52_dedent
  C52_begin_keyword_refuted
  C52_begin_refuted
  C52_block_refuted
note: false in four cases, which the positive theorems leave out by a side condition: a parenthesized group directly inside begin and end, parentheses around a parenthesized left-hand side, a block given to return, break or next with several arguments, and else without rescue behind a parenthesized group. The pieces recorded on purpose twice or not at all are listed in KeepSpec

C53 proved
  C53_opening
  C53_list_opening
  C53_content
  C53_code
  C53_variable
  C53_space
  C53_end
  C53_label_end
  C53_list_end
note: text is any sequence of the pieces of StringSpec (control and meta escapes, nested, included); a carriage return inside the literal is not among them. The text and the end of regular expressions are C57; heredocs are C22, C23 and C47

C54 proved
  C54_call
  C54_no_silent_failure
  C54_history
  C54_read
note: EffectSpec.Public lists the functions; those of the builder that take no part in the state have type Node in the model. Formal parameters are declared by the grammar actions, which a Session may do at any point

C55 proved
  C55_call
  C55_tree
  C55_apart
note: the side conditions are those of C52 (what is lost without them is refuted there). The keyword of a condition may be if, unless, elsif or a modifier, so it is a sign; which branch is which is said by the roles

C56 partial
  C56_characters
  C56_code_points_partial
  C56_conditional
  C56_range_refuted
  C56_suggestion_refuted
note: false in two cases: the range of a literal with a code point starts at its digits (value and end are proved), and the warning about white space shows a number instead of a letter. Literals with a code point at the very end of the source and malformed literals are not covered

C57 partial
  C57_content
  C57_end
  C57_regexp
  C57_control_refuted
note: control and meta escapes of a value below 16 are refuted (a byte 0 is added); all others are proved. Text is any sequence of the pieces of RegexpSpec; malformed escapes and carriage returns inside the literal are not among them, and the closing delimiter is not a newline or a number sign

C58 proved
  C58_document
  C58_last_document
  C58_unclosed
  C58_no_document
  C58_marked_document
  C51_program
note: behind a byte order mark only documents that are closed and followed by something are covered (C58_marked_document); the next line must be known to the reader as the next one of the file, so no heredoc body may be pending. What follows the document must be white space or a token that does not depend on white space in front of it

C59 partial
  C59_magic_comment
  C59_magic_line_end
  C59_every_comment
  C59_last_comment
  C59_comment_ends_source_refuted
note: a key that is not UTF-8 is refuted (the comment is not recorded and the source ends without a diagnostic). Proved for the comments of MagicSpec: one key and value, any entries between two markers, and comments that only resemble these and record nothing; encodings known without a decoder, unknown keys in ASCII, no unclosed quotes. C59_every_comment needs no grammar: it holds for every comment in ASCII without double quotes that names no encoding
