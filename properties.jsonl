{"id": "C01", "title": "Line table partitions the source", "statement": "After DecodedInput::update_bytes(b), the `lines` of the input are consecutive, start at 0, end at b.len(), cover every byte exactly once; every line but the last ends with the only newline byte it contains and has ends_with_eof = false; the last line contains no newline and is the only one with ends_with_eof = true.", "quantifier": "every byte string given as input (any length, any bytes, valid UTF-8 or not)", "why_tests_cant": "There are infinitely many inputs; the claim is about the position of every newline in every input, including empty input and inputs with or without a final newline.", "anchors": ["src/source/decoded_input.rs: DecodedInput::update_bytes", "src/source/source_line.rs: SourceLine"]}
{"id": "C02", "title": "line_col_for_pos is the exact inverse of line start + column", "statement": "DecodedInput::line_col_for_pos(p) is Some exactly for p <= len; the returned line number equals the number of newline bytes before p, and the column is the distance from the last newline before p (or from 0); distinct offsets get distinct (line, column) pairs.", "quantifier": "every byte string given as input (any length, any bytes, valid UTF-8 or not), and every offset", "why_tests_cant": "Off-by-one errors hide at line ends, at end of file and on empty last lines; each offset of each input is a separate case.", "anchors": ["src/source/decoded_input.rs: DecodedInput::line_col_for_pos"]}
{"id": "C03", "title": "expand_to_line returns the whole line that contains begin", "statement": "For every Loc with begin <= len, Loc::expand_to_line returns the number of the line holding begin and a range that starts right after the previous newline (or at 0), ends right before the next newline (or at end of file), and contains no newline; for begin > len it returns None.", "quantifier": "every byte string given as input (any length, any bytes, valid UTF-8 or not), and every Loc", "why_tests_cant": "The boundary cases (position on the newline byte itself, at end of file, in an empty last line) exist for every input and cannot be enumerated.", "anchors": ["src/loc_ext.rs: LocExt::expand_to_line, LocExt::begin_line_col", "src/source/source_line.rs: SourceLine::line_end"]}
{"id": "C04", "title": "Loc::source returns exactly the bytes of the range", "statement": "Loc::source / substr_at succeed exactly when begin <= end <= len and return the slice of the source at that range; adjacent ranges concatenate.", "quantifier": "every byte string given as input (any length, any bytes, valid UTF-8 or not), and every pair of offsets", "why_tests_cant": "Must hold for every pair of offsets, including inverted and out-of-range ones.", "anchors": ["src/loc_ext.rs: LocExt::source", "src/source/decoded_input.rs: DecodedInput::substr_at"]}
{"id": "C05", "title": "Diagnostic rendering: caret layout", "statement": "Diagnostic::render returns Some exactly when loc.begin <= len (and does not panic when loc.begin <= loc.end); before trimming, the output is three lines 'F:L:C: level: msg', 'F:L: <whole source line>', 'F:L: <C spaces>^<size-1 tildes>' where L is 1 + the number of newlines before begin and C its column.", "quantifier": "every byte string given as input (any length, any bytes, valid UTF-8 or not), every file name, every Loc and message", "why_tests_cant": "Any input and location can be rendered; the layout is a function of all of them.", "anchors": ["src/error/diagnostic.rs: Diagnostic::render"]}
{"id": "C06", "title": "Lexing never panics", "statement": "For every input, Lexer::new(bytes, name, None) followed by tokenize_until_eof completes without any panic: no index out of bounds, no integer underflow, no failed unwrap/expect, no unreachable!().", "quantifier": "every byte string given as input (any length, any bytes, valid UTF-8 or not) shorter than 2^31 bytes; no custom decoder", "why_tests_cant": "A panic needs one specific byte sequence and one specific internal lexer state; the input space is infinite and fuzzing only samples it.", "anchors": ["src/lexer/main.rs: Lexer::tokenize_until_eof, Lexer::yylex, Lexer::parser_yylex", "src/lexer/*.rs", "src/source/buffer.rs"]}
{"id": "C07", "title": "Lexing terminates with linearly many tokens", "statement": "For every input, tokenize_until_eof terminates, and the number of tokens it returns is bounded by a linear function of the input length.", "quantifier": "every byte string given as input (any length, any bytes, valid UTF-8 or not); no custom decoder", "why_tests_cant": "Non-termination is not observable by a finite test; the lexer moves its cursor backwards (newline lookahead, heredoc restore), so progress is not syntactically obvious.", "anchors": ["src/lexer/main.rs: Lexer::tokenize_until_eof, Lexer::parser_yylex", "src/lexer/parse_heredoc.rs: Lexer::heredoc_restore", "src/source/buffer.rs: Buffer::eof_no_decrement"]}
{"id": "C08", "title": "Token ranges lie inside the source", "statement": "Every token returned by tokenize_until_eof has loc.begin <= loc.end <= input length.", "quantifier": "every byte string given as input (any length, any bytes, valid UTF-8 or not); no custom decoder", "why_tests_cant": "Users slice the source with token locations; one out-of-range location in one odd input makes Loc::source return None or an editor crash.", "anchors": ["src/lexer/main.rs: Lexer::yylex", "src/lexer/parse_heredoc.rs: Lexer::here_document, Lexer::here_document_error", "src/lexer/parse_string.rs: Lexer::parse_string"]}
{"id": "C09", "title": "Lexer is robust against every parser", "statement": "The lexer never panics when it is driven by a parser: for every interleaving of yylex calls with the state changes the grammar actions can make (lex_state, command_start, cond/cmdarg, paren/brace nesting, saved and restored string terminators, heredoc indentation, local scopes, context flags), no yylex call panics or loops.", "quantifier": "every input and every finite sequence of parser actions and token requests", "why_tests_cant": "The interleavings of parser actions and lexer steps are unbounded; tests only exercise the interleavings of the sample programs.", "anchors": ["src/parser/parse.y: all uses of yylexer", "src/lexer/main.rs: Lexer::yylex"]}
{"id": "C10", "title": "Recorded comments are real comments", "statement": "Every comment recorded while lexing lies inside the source, and is either an inline comment that starts with '#' and contains no newline except possibly as its last byte, or a document comment that starts with '=begin' at the beginning of a line and ends at the end of a line starting with '=end'; the kind is never Unknown.", "quantifier": "every byte string given as input (any length, any bytes, valid UTF-8 or not); no custom decoder", "why_tests_cant": "Comments can appear after any token, in any lexer state, in the look-ahead after a newline, and around heredocs.", "anchors": ["src/lexer/main.rs: Lexer::parser_yylex (comment and =begin branches)", "src/source/comment.rs: Comment::new"]}
{"id": "C11", "title": "Recorded magic comments point at a known key and at its value", "statement": "Every magic comment recorded has key_l and value_l inside the same comment line, key before value, and the key text (with '-' read as '_') is one of the five known names matching the kind.", "quantifier": "every byte string given as input (any length, any bytes, valid UTF-8 or not); no custom decoder", "why_tests_cant": "The magic comment scanner is a hand-written loop with several cursors; each comment line in each input is a separate case.", "anchors": ["src/lexer/parse_magic_comment.rs: Lexer::magic_comment"]}
{"id": "C12", "title": "CRLF line ends read as LF", "statement": "Reading a source in which every newline is written CR LF delivers to the lexer the same sequence of characters as the LF source, and un-reading a character then reading again delivers the same character.", "quantifier": "every byte string without CR bytes of its own, and every reading position", "why_tests_cant": "The equivalence must hold for each position in each file; lookahead and pushback interact with the collapsed CR LF pair.", "anchors": ["src/source/buffer.rs: Buffer::nextc, Buffer::parser_cr, Pushback for Buffer"]}
{"id": "C13", "title": "A UTF-8 byte order mark only shifts locations", "statement": "Lexing a source with a leading UTF-8 BOM gives the same token kinds and values as without it, with all locations shifted by 3.", "quantifier": "every byte string given as input (any length, any bytes, valid UTF-8 or not)", "why_tests_cant": "The BOM changes where the first line starts; every construct of the first line may depend on it.", "anchors": ["src/source/buffer.rs: Buffer::prepare", "src/lexer/parse_heredoc.rs: Lexer::heredoc_identifier, Lexer::heredoc_restore"]}
{"id": "C14", "title": "__END__ hides the rest of the file", "statement": "If a line consists of exactly __END__ (followed by LF, CR LF or end of file), lexing from the start of that line returns end of input and this does not depend on any byte after that line.", "quantifier": "every byte string following the __END__ line", "why_tests_cant": "The suffix is arbitrary.", "anchors": ["src/lexer/main.rs: Lexer::parser_yylex ('_' branch)", "src/source/buffer.rs: Buffer::is_whole_match"]}
{"id": "C15", "title": "Single-quoted string literals round-trip", "statement": "For every byte string s, lexing a single-quoted literal whose text is s with every backslash and quote escaped by a backslash returns string-begin, one content token whose value is s, string-end, and end of input (no content token if s is empty), with exact locations.", "quantifier": "every byte string s without CR", "why_tests_cant": "Content is arbitrary bytes of arbitrary length, including newlines, non-ASCII and invalid UTF-8.", "anchors": ["src/lexer/parse_string.rs: Lexer::parse_string, Lexer::tokadd_string", "src/lexer/main.rs: Lexer::parser_yylex"]}
{"id": "C16", "title": "Hex and octal escapes denote their byte", "statement": "In a double-quoted literal, a sequence of \\xHH (or \\OOO) escapes yields exactly the bytes with these values, for every sequence of bytes.", "quantifier": "every list of bytes", "why_tests_cant": "All byte values in all positions and all lengths.", "anchors": ["src/lexer/parse_string.rs: Lexer::read_escape, Lexer::scan_hex, Lexer::scan_oct, Lexer::tok_hex"]}
{"id": "C17", "title": "Unicode escapes denote the UTF-8 encoding of the code point", "statement": "In a double-quoted literal, \\uXXXX and \\u{X...} yield the UTF-8 encoding of the code point for every Unicode scalar value, and surrogates or values above 0x10FFFF are rejected with a diagnostic and add nothing.", "quantifier": "every code point and every spelling of it with 1 to 6 hex digits", "why_tests_cant": "All 0x110000 code points times their spellings; encode correctness is arithmetic.", "anchors": ["src/lexer/parse_string.rs: Lexer::tokadd_utf8, Lexer::tokadd_codepoint, Lexer::tokaddmbc"]}
{"id": "C18", "title": "Decimal number literals keep their text and extent", "statement": "A decimal integer literal (digits with single underscores between digits, not starting with 0) is one tINTEGER token whose value is its text and whose range is exactly its characters; with suffix r, i or ri it is tRATIONAL or tIMAGINARY; with a fraction and/or exponent it is tFLOAT.", "quantifier": "every digit string of any length", "why_tests_cant": "Digits are unbounded in length; underscores can occur at any position.", "anchors": ["src/lexer/parse_numeric.rs: Lexer::parse_numeric, Lexer::number_literal_suffix, Lexer::set_number_literal"]}
{"id": "C19", "title": "Prefixed number literals keep their text and extent", "statement": "Hexadecimal, binary, decimal-prefixed and octal literals with at least one digit are one tINTEGER token whose value is the literal's text normalised to a leading 0 and whose range is exactly its characters.", "quantifier": "every digit string of any length in each base", "why_tests_cant": "Unbounded digit strings in four bases.", "anchors": ["src/lexer/parse_numeric.rs: Lexer::parse_numeric, Lexer::parse_octal"]}
{"id": "C20", "title": "Identifiers, constants and reserved words", "statement": "At the start of an expression, a maximal run of identifier characters is one token covering exactly that run, with the run as value; it is a keyword token iff the run is one of the 41 reserved words, a constant iff it starts with an uppercase letter, and otherwise an identifier.", "quantifier": "every string of ASCII identifier characters that starts with a letter or underscore", "why_tests_cant": "Names are unbounded.", "anchors": ["src/lexer/parse_ident.rs: Lexer::parse_ident", "src/reserved_words/mod.rs: reserved_word"]}
{"id": "C21", "title": "reserved_word finds exactly the reserved words", "statement": "reserved_word(tok) returns the table entry whose name is tok if there is one, and None for every other byte string (the bucketed binary search misses nothing).", "quantifier": "every byte string", "why_tests_cant": "All byte strings of all lengths; a mis-sorted bucket makes single words unreachable.", "anchors": ["src/reserved_words/mod.rs: reserved_word", "codegen/rust/reserved_words.rs"]}
{"id": "C22", "title": "Raw heredocs return their body unchanged", "statement": "For every identifier and every list of body lines none of which is the terminator line, lexing <<'ID' with that body returns the body text unchanged as the content and the terminator as string-end, and continues after the <<'ID' on the first line.", "quantifier": "every identifier and every list of lines without CR", "why_tests_cant": "Bodies are unbounded; the terminator test runs on every line.", "anchors": ["src/lexer/parse_heredoc.rs: Lexer::heredoc_identifier, Lexer::here_document", "src/source/buffer.rs: Buffer::is_whole_match"]}
{"id": "C23", "title": "Squiggly heredoc indentation is the minimum over the lines", "statement": "The indentation removed from a squiggly heredoc is the minimum width of leading whitespace over its lines that contain a non-blank character (tab advances to the next multiple of 8).", "quantifier": "every list of body lines", "why_tests_cant": "The running minimum is updated character by character over unboundedly many lines.", "anchors": ["src/lexer/parse_heredoc.rs: Lexer::update_heredoc_indent"]}
{"id": "C24", "title": "Dedenting removes exactly the requested width of leading whitespace", "statement": "Removing width w from a heredoc line removes the longest prefix of blanks whose width is at most w, never a non-blank, and a tab only if the whole tab fits in w.", "quantifier": "every line and every width", "why_tests_cant": "Mixtures of tabs and spaces are unbounded and width arithmetic depends on the column.", "anchors": ["src/builder.rs: Builder::dedent_string"]}
{"id": "C25", "title": "Percent literals balance their delimiters", "statement": "For every text balanced with respect to the chosen bracket pair and without backslash, %q with that bracket pair returns exactly that text as content and ends at the matching closing bracket.", "quantifier": "every balanced text and each of the four bracket pairs", "why_tests_cant": "Nesting depth and length are unbounded.", "anchors": ["src/lexer/parse_percent.rs: Lexer::percent_quotation", "src/lexer/parse_string.rs: Lexer::tokadd_string"]}
{"id": "C26", "title": "Word lists split at white space", "statement": "%w[...] of any list of words separated by any white space returns exactly one content token per word, in order, with the words as values.", "quantifier": "every list of words (no white space, bracket or backslash inside) and every separator", "why_tests_cant": "Unbounded lists, arbitrary separators including newlines.", "anchors": ["src/lexer/parse_string.rs: Lexer::parse_string, Lexer::tokadd_string"]}
{"id": "C27", "title": "cond/cmdarg stacks are last-in first-out", "statement": "StackState behaves as a stack of booleans: after any sequence of pushes and pops, is_active is the last unpopped pushed bit (false if none).", "quantifier": "every sequence of push/pop operations", "why_tests_cant": "Operation sequences are unbounded; the implementation is a 64-bit word.", "anchors": ["src/stack_state.rs: StackState"]}
{"id": "C28", "title": "Local variable scoping", "statement": "StaticEnvironment: is_declared(x) holds iff x was declared in the current scope or, through scopes entered by extend_dynamic only, in an enclosing scope before the inner scope was entered; unextend restores exactly the visibility at the matching extend.", "quantifier": "every sequence of declare/extend_static/extend_dynamic/unextend operations and every name", "why_tests_cant": "Histories are unbounded.", "anchors": ["src/static_environment.rs: StaticEnvironment"]}
{"id": "C29", "title": "Numbered-parameter, current-argument and pattern-variable stacks and context flags", "statement": "MaxNumparamStack, CurrentArgStack and VariablesStack restore the enclosing entry on pop for every balanced history, register keeps the maximum, and the seven Context flags are independent: setting one changes that one only.", "quantifier": "every history of operations", "why_tests_cant": "Histories are unbounded; flag independence ranges over all flag words.", "anchors": ["src/max_numparam_stack.rs", "src/current_arg_stack.rs", "src/variables_stack.rs", "src/context.rs"]}
{"id": "C30", "title": "Duplicate argument names are reported", "statement": "For every parameter list of a method, block or lambda (nested destructuring included) a duplicated-argument error is reported iff two parameters collide, where names starting with '_' never collide and all other equal names do; the number of errors is the number of repeated occurrences.", "quantifier": "every parameter list", "why_tests_cant": "Lists and nesting are unbounded.", "anchors": ["src/builder.rs: Builder::check_duplicate_args, check_duplicate_arg, arg_name_collides"]}
{"id": "C31", "title": "Duplicate hash keys are warned about", "statement": "associate warns about a key iff an earlier key of the literal is an equal literal (same kind and same value), for every list of pairs.", "quantifier": "every list of hash elements", "why_tests_cant": "Lists are unbounded; the comparison is quadratic over all pairs.", "anchors": ["src/builder.rs: Builder::associate, keys_are_equal"]}
{"id": "C32", "title": "Duplicate pattern variables and keys are reported", "statement": "In one pattern, a duplicate variable (not starting with '_') or a duplicate key is reported iff it occurred before in the same pattern.", "quantifier": "every sequence of variable and key declarations in nested patterns", "why_tests_cant": "Unbounded sequences.", "anchors": ["src/builder.rs: Builder::check_duplicate_pattern_variable, check_duplicate_pattern_key", "src/variables_stack.rs"]}
{"id": "C33", "title": "Regexp options are canonical", "statement": "The options of a regexp literal are the sorted set of the option letters written: order and repetition in the source do not matter.", "quantifier": "every string of option letters", "why_tests_cant": "All orders and repetitions.", "anchors": ["src/builder.rs: Builder::regexp_options", "src/lexer/parse_string.rs: Lexer::regx_options"]}
{"id": "C34", "title": "Numbered references are range-checked", "statement": "$n is accepted silently iff its value is at most 2^30-1; larger numbers (of any length) are reported and become 0, and no number overflows or panics.", "quantifier": "every digit string", "why_tests_cant": "Unbounded digits; overflow.", "anchors": ["src/builder.rs: Builder::nth_ref, MAX_NTH_REF"]}
{"id": "C35", "title": "Braceless trailing hash arguments become keyword arguments", "statement": "rewriting call arguments changes only braceless hash nodes in last position (or before a block-pass) into kwargs nodes and keeps every other argument and every location.", "quantifier": "every argument list", "why_tests_cant": "Lists are unbounded.", "anchors": ["src/builder.rs: Builder::rewrite_hash_args_to_kwargs, is_kwargs"]}
{"id": "C36", "title": "void value expression check", "statement": "value_expr reports a void value exactly when every way of evaluating the expression ends in return/break/next/redo/retry (a terminal statement decides for sequences; both branches for conditionals; the left operand for and/or).", "quantifier": "every expression tree", "why_tests_cant": "Trees are unbounded in depth.", "anchors": ["src/builder.rs: Builder::void_value, value_expr"]}
{"id": "C37", "title": "Conditions are rewritten only in condition position and keep their location", "statement": "check_condition keeps the expression range, rewrites exactly flip-flops, regexp literals and and/or/not/parenthesised sub-conditions, and applying it to its own result changes nothing more.", "quantifier": "every expression tree", "why_tests_cant": "Trees are unbounded.", "anchors": ["src/builder.rs: Builder::check_condition, cond"]}
{"id": "C38", "title": "Node ranges enclose their children", "statement": "Joining locations yields the smallest range containing both; the location computed for a collection or a joined pair encloses the ranges of all its elements and delimiters.", "quantifier": "every list of nodes and every delimiter combination", "why_tests_cant": "Lists are unbounded.", "anchors": ["src/builder.rs: collection_map, collection_expr, join_exprs, join_maybe_locs", "src/loc_ext.rs (Loc::join)"]}
{"id": "C39", "title": "Input survives encoding handling", "statement": "With a magic encoding comment, UTF-8/ASCII-8BIT/BINARY in any letter case leaves the bytes unchanged; another encoding replaces them by the decoder's output; when decoding fails, the input returned to the user still lets the diagnostics be rendered.", "quantifier": "every input, encoding name and decoder", "why_tests_cant": "Encoding names, inputs and decoders are arbitrary.", "anchors": ["src/source/input.rs: Input::set_encoding", "src/source/decoder.rs: decode_input", "src/lexer/parse_magic_comment.rs: Lexer::magic_comment"]}
{"id": "C40", "title": "Lexer diagnostics can be rendered", "statement": "Every diagnostic emitted while lexing has loc.begin <= loc.end and loc.begin <= input length, so that Diagnostic::render returns Some and does not panic.", "quantifier": "every byte string given as input (any length, any bytes, valid UTF-8 or not); no custom decoder", "why_tests_cant": "Each of about forty diagnostics can be emitted in any state at any position, including at end of file.", "anchors": ["src/lexer/*.rs: yyerror0, yyerror1, warn, compile_error", "src/error/diagnostic.rs: Diagnostic::render"]}
{"id": "C41", "title": "Every token consumed is recorded", "statement": "ParserResult::tokens is the sequence of tokens the parser requested, in order, when record_tokens is set, and empty otherwise.", "quantifier": "every sequence of tokens delivered by the lexer", "why_tests_cant": "Token sequences are unbounded.", "anchors": ["src/parser/parse.y: Parser::next_token, Parser::do_parse"]}
{"id": "C42", "title": "Numbered parameters are allowed only where Ruby allows them", "statement": "_1.._9 is read as a numbered parameter only inside a block or lambda without ordinary parameters and is rejected when an outer block up to the nearest static scope already uses numbered parameters.", "quantifier": "every stack of enclosing scopes", "why_tests_cant": "Nesting depth is unbounded.", "anchors": ["src/builder.rs: Builder::try_declare_numparam", "src/max_numparam_stack.rs"]}
{"id": "C43", "title": "Line continuation and white space carry no tokens", "statement": "Any run of blanks, form feeds, vertical tabs, and backslash-newline pairs before a token (or before end of input) changes no token kind or value and only shifts locations, apart from the warnings and argument ambiguities that depend on a preceding blank.", "quantifier": "every run of white space of any length at the start of an input", "why_tests_cant": "Runs are unbounded and mix characters.", "anchors": ["src/lexer/main.rs: Lexer::parser_yylex (white space branches)"]}
{"id": "C44", "title": "Global, instance and class variable names", "statement": "For every identifier name, $name, @name and @@name are one token of the right kind covering exactly the sigil and the name, with that text as value.", "quantifier": "every identifier", "why_tests_cant": "Names are unbounded.", "anchors": ["src/lexer/parse_gvar.rs: Lexer::parse_gvar", "src/lexer/parse_atmark.rs: Lexer::parse_atmark"]}
{"id": "C45", "title": "End of input is final", "statement": "Once end of file has been reported outside a string, every further token request reports end of input again at the same place and changes nothing.", "quantifier": "every input and any number of further requests", "why_tests_cant": "Any number of requests.", "anchors": ["src/lexer/main.rs: Lexer::yylex", "src/source/buffer.rs: Buffer::nextc, Buffer::nextline"]}
{"id": "C46", "title": "Labels", "statement": "Where the lexer state allows a label, a word (reserved or not) followed by exactly one colon is a label token whose value is the word and whose extent is the word and the colon; the next token is read from behind the colon.", "quantifier": "every word, every state a parser reaches in which a label is allowed", "why_tests_cant": "Names are unbounded and the states depend on everything read before.", "anchors": ["src/lexer/parse_ident.rs: Lexer::parse_ident", "src/lexer/main.rs: Lexer::is_label_suffix"]}
{"id": "C47", "title": "Interpolating heredocs return plain text unchanged", "statement": "For a heredoc <<ID, <<-ID, <<\"ID\", <<-\"ID\" or with backquotes, whose text has no backslash and no interpolation, the content token is exactly the text between the opening line and the terminator line, at exactly its location, and lexing continues on the opening line behind the name.", "quantifier": "every name, every text, every state a parser reaches in which a heredoc can start", "why_tests_cant": "Names and texts are unbounded, and the reader jumps between lines depending on all of them.", "anchors": ["src/lexer/parse_heredoc.rs: Lexer::heredoc_identifier, Lexer::here_document", "src/lexer/parse_string.rs: Lexer::tokadd_string"]}
{"id": "C48", "title": "Syntax trees are nested", "statement": "Whatever sequence of builder calls makes a tree from tokens and nodes that stand in the source in the order of the grammar rules, in every node of the tree the ranges of its sub-nodes and of its own marks (keywords, operators, delimiters, names) follow each other without overlap, in source order, inside the range of the node; and the range of every node runs exactly from the first to the last thing it was made from.", "quantifier": "every function of the builder, every argument, every state of the builder, every tree of any depth", "why_tests_cant": "There are more than a hundred builder functions with optional parts, and trees are unbounded.", "anchors": ["src/builder.rs: all constructing functions", "src/builder.rs: collection_map, join_exprs, maybe_join", "src/loc.rs: Loc::join"]}
{"id": "C49", "title": "Operators and punctuation", "statement": "At every place the next operator is the longest one of the table of that place: behind an operand, in front of an operand, behind a name that may take arguments, or as a method name. The token has the kind that the table gives, its text as value and exactly its extent, the next token is read in the state of the table, and a warning is given exactly when the text could be read in another way at this place.", "quantifier": "every operator, every source, every white space in front of it, every state a parser reaches", "why_tests_cant": "The reading depends on the lexer state, on the white space around the operator and on the bytes behind it; the combinations with all sources are unbounded.", "anchors": ["src/lexer/main.rs: Lexer::parser_yylex", "src/lexer/parse_percent.rs: Lexer::parse_percent", "src/lexer/main.rs: Lexer::warn_balanced, Lexer::arg_ambiguous"]}
{"id": "C50", "title": "Brackets and their nesting", "statement": "Every bracket is one token of the kind that its place demands (expression, call, index, array, hash, block, lambda, end of interpolation) with its exact extent; an opening bracket enters one level in the depth counters and an inactive level in the cond and cmdarg stacks, a closing bracket leaves it. Behind a sequence of matching brackets the counters and the stacks are what they were before.", "quantifier": "every bracket in every state a parser reaches; every sequence of matching brackets, nested as deep as the stacks have room for", "why_tests_cant": "Sequences of brackets and their nesting are unbounded; only an induction over the nesting covers them.", "anchors": ["src/lexer/main.rs: Lexer::parser_yylex", "src/stack_state.rs: StackState"]}
{"id": "C51", "title": "Line ends, comments and empty lines", "statement": "A line end finishes the statement exactly where no operand is still to come: it is then one newline token at the last line terminator before the next line that is not a comment, and a new statement begins; where an operand is to come, behind a label outside a parameter list, and in front of a line that starts with a dot or &. it is no token. Behind a label in a parameter list without parentheses it always is one. Comments and empty lines change no token; every comment is recorded with its exact extent. A program made of lines of items, comments, embedded documents and empty lines lexes into exactly its items and one newline per line with items.", "quantifier": "every state a parser reaches; every program of lines, of any length, with LF or CR LF", "why_tests_cant": "The number of comment lines and empty lines between two tokens is unbounded and the loop that looks past them jumps back in the source; only an induction over the lines covers it.", "anchors": ["src/lexer/main.rs: Lexer::parser_yylex", "src/lexer/parse_magic_comment.rs", "src/lexer/buffer.rs: Buffer::eof_no_decrement"]}
{"id": "C52", "title": "The builder records everything it is given, once", "statement": "Every node the builder makes contains each name with the place of its token, each operator, keyword and delimiter mark and each literal text it was given, and all that its operands contain, each exactly once and nothing else: the collection of the pieces in the tree is a permutation of the pieces handed over in all the calls that made it. Removing indentation from a heredoc changes nothing but its texts.", "quantifier": "every builder function, every token, every list of operands of any length and depth, and every tree made by any sequence of builder calls", "why_tests_cant": "Operand lists and trees are unbounded, and a piece that is dropped or doubled in one of more than a hundred builder functions shows only for the operand shape that takes that branch.", "anchors": ["src/builder.rs: Builder::call_method", "src/builder.rs: Builder::condition", "src/builder.rs: Builder::begin", "src/builder.rs: Builder::begin_keyword", "src/builder.rs: Builder::block", "src/builder.rs: Builder::assignable"]}
{"id": "C53", "title": "The tokens of a literal with interpolation", "statement": "Wherever a string, command, symbol, word list or percent literal starts, its opening is one token of the right kind, and it fixes whether escapes are interpreted, which brackets nest, and whether the literal may end as a label. Inside, in any state that a parser reaches (also after it set the literal aside to read embedded code and put it back), the next token is what the text says: the text up to the closing delimiter, to white space in a list, or to a number sign before $, @ or {, with escapes replaced; the opening of embedded code; the number sign before a variable name (and a number sign before $ or @ without a variable name is text, not an interpolation); white space between words; the end, or the end with a colon where a label is possible. Positions are exact and nothing else of the state changes.", "quantifier": "every source, every state that any parser reaches on it, every kind of literal, every pair of delimiters, every text", "why_tests_cant": "The literals nest through embedded code without bound, and the outcome depends on the bytes up to three places behind a number sign, on the kind of literal, its delimiters and the open brackets.", "anchors": ["src/lexer/parse_string.rs: Lexer::parse_string", "src/lexer/parse_string.rs: Lexer::peek_variable_name", "src/lexer/parse_string.rs: Lexer::string_term", "src/lexer/parse_percent.rs: Lexer::parse_percent", "src/lexer/main.rs: Lexer::parser_yylex"]}
{"id": "C54", "title": "Effects and failures of the builder, and what a name refers to", "statement": "A call of the builder declares exactly the variables that its node introduces (by assignment, in a pattern, by a named group of a regular expression, or by reading a numbered parameter), in the innermost scope; it leaves the context and every stack that is not its business as they were; it only adds diagnostics; and if it fails it has reported an error. Hence after any run of a parser, with any calls and any scopes entered and left, a name that is read becomes a local variable exactly if it is visible by the scope rules, or a numbered parameter in a block, and otherwise a method call.", "quantifier": "every function of the builder that has access to shared state, every argument and state; every sequence of calls and scope changes", "why_tests_cant": "It is a frame condition over about seventy functions and all their error paths, and scoping depends on unbounded histories.", "anchors": ["src/builder.rs: Builder::accessible", "src/builder.rs: Builder::assignable", "src/builder.rs: Builder::match_var", "src/builder.rs: Builder::match_op", "src/static_environment.rs: StaticEnvironment"]}
{"id": "C55", "title": "The tree reads back as its tokens", "statement": "Reading a syntax tree back in the concrete syntax of Ruby (kind words such as while, until, &&=, break, names, delimiters and operands in source order and in their roles) gives exactly the text of the builder calls that made it: every function returns the kind of node it is called for, puts every operand in its role and order, and no two texts give the same tree.", "quantifier": "every function of the builder that makes a node, with arbitrary arguments and states; every tree made by any nesting of such calls", "why_tests_cant": "About 130 functions with optional operands and special cases by node kind; a swapped pair of operands or a wrong kind shows only for the combination that takes that branch.", "anchors": ["src/builder.rs: Builder::loop_mod", "src/builder.rs: Builder::op_assign", "src/builder.rs: Builder::block", "src/builder.rs: Builder::call_method", "src/builder.rs: Builder::begin_body", "src/builder.rs: Builder::check_condition"]}
{"id": "C56", "title": "Character literals", "statement": "Where an expression can start, a question mark with one character behind it (a byte other than white space, a wide character, or any escape that stands for a byte, a character or a code point) is one character token that covers exactly that text and whose value is exactly the character; it reports nothing and leaves the lexer at the end of an expression. A question mark followed by the beginning of a longer name or by white space is the operator of a conditional instead, with a warning that names what could have been meant.", "quantifier": "every program text, every lexer state that a parser can reach outside of literals, every form of character", "why_tests_cant": "The forms (nested control and meta escapes, octal and hexadecimal digits up to their limits, wide characters, what follows) times the lexer states are unbounded; the wrong range of code point literals shows only when ranges are compared.", "anchors": ["src/lexer/parse_qmark.rs: Lexer::parse_qmark", "src/lexer/parse_qmark.rs: Lexer::parse_qmark_ternary", "src/lexer/parse_string.rs: Lexer::tokadd_utf8", "src/lexer/parse_string.rs: Lexer::read_escape"]}
{"id": "C57", "title": "The tokens of regular expressions", "statement": "Inside a regular expression, in any state that a parser reaches (also after embedded code), the text up to the closing delimiter or to an interpolation is one token. Escapes are kept as they are written, because they belong to the language of regular expressions, except that: a backslash before the closing delimiter is dropped (unless the delimiter is a special character there), a backslash before a newline disappears with it, a control or meta escape becomes a byte with two hexadecimal digits, and code points between braces are separated by one white space. Brackets nest. The end is one token of the closing delimiter and all letters behind it; its value holds the known options in their order, and the unknown ones are reported in one error over the whole token. Positions are exact, nothing else of the state changes, and nothing else is reported.", "quantifier": "every program text, every lexer state that a parser can reach inside a regular expression, every delimiter, every sequence of text and escapes, every sequence of option letters", "why_tests_cant": "The sequences of escapes, nesting and options times the delimiters and states are unbounded; the byte 0 that small control escapes leave in the text is invisible when it is printed.", "anchors": ["src/lexer/parse_string.rs: Lexer::tokadd_string", "src/lexer/parse_string.rs: Lexer::tokadd_escape", "src/lexer/parse_string.rs: Lexer::simple_re_meta", "src/lexer/parse_string.rs: Lexer::regx_options", "src/lexer/parse_string.rs: Lexer::string_term", "src/lexer/parse_string.rs: Lexer::tokadd_utf8"]}
{"id": "C58", "title": "Embedded documents", "statement": "At the start of a line =begin, followed by the end of a word, opens a document that ends with the first later line that starts with =end followed by the end of a word. The document is no token and changes none, whatever the lexer expects at that point; it is recorded as one document comment from the = of =begin to the end of the =end line. At the end of the source the last line feed may be missing. A document that no line closes gives exactly one error, which covers =begin, and ends the source.", "quantifier": "every state a parser reaches; every document of any number of lines of any content, with LF or CR LF", "why_tests_cant": "The number and content of the lines is unbounded, lines that only resemble the end marker must not close the document, and the lexer may stand in any state.", "anchors": ["src/lexer/main.rs: Lexer::parser_yylex", "src/lexer/buffer.rs: Buffer::is_word_match", "src/source/comment.rs: Comment::new"]}
{"id": "C59", "title": "Magic comments are recorded completely", "statement": "A comment of the form key: value, and every key: value between two -*- markers, is recorded once per known key (coding, encoding, frozen_string_literal, shareable_constant_value, warn_indent, with dashes allowed for underscores), in the order of the text, with the kind that belongs to the key and the exact places of the key and of the value without its quotes. Unknown keys record nothing. The comment itself is recorded once and changes no token.", "quantifier": "every state a parser reaches outside a literal; every comment text of the grammar of MagicSpec of any length, with LF or CR LF", "why_tests_cant": "The number of entries, the white space between them and the text around the markers are unbounded, and the marker search jumps over several bytes at a time.", "anchors": ["src/lexer/parse_magic_comment.rs: Lexer::magic_comment", "src/lexer/parse_magic_comment.rs: Lexer::magic_comment_marker", "src/lexer/main.rs: Lexer::parser_yylex"]}
