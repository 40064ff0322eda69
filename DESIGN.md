# Design of the formal model of lib-ruby-parser

## 1. What is modelled, and how

The model is written in Gallina as total computable functions that follow the Rust code function by
function; every definition cites the Rust file and lines it models.

* **Bytes** are `N`; source text is `list N`; offsets, line numbers and lengths (`usize`) are `nat`.
  Every `usize` subtraction that can underflow is a *checked* subtraction whose failure is the explicit
  error value `Panic` (that is what a debug build does; proving that it never happens covers release
  builds too). Additions on offsets are not wrapped (they are bounded by input length + a constant).
  `i32` counters (`paren_nest`, `brace_nest`, `heredoc_indent`, ...) are `Z`, unbounded: they would need an
  input of more than 2^31 bytes to overflow. Bit sets (`LexState`, string functions, `Context`) are `N` with
  `N.land`/`N.lor`. `StackState` is `N` with explicit truncation to 64 bits, because there the wrap-around
  is what the property is about. `scan_hex` wraps explicitly at 64 bits.
* **Panics** (`panic!`, `unwrap`, `expect`, `unreachable!`, index out of range, subtraction underflow) are
  `Panic msg`. Nothing is silently totalised.
* **State**: `&mut self` methods of `Buffer` and `Lexer` are functions in a state monad
  `M A = Env -> S -> res A S` with `res = Ok a s | Panic msg | OutOfFuel`.
  `Env` is the immutable environment of a run: the loop bound `fuel`, the user's decoder (an arbitrary
  function), and `char::is_uppercase` for non-ASCII characters (an arbitrary function).
* **Loops** are one combinator `loop body init` that runs at most `fuel` iterations and returns `OutOfFuel`
  otherwise. The termination theorems state that `OutOfFuel` is impossible once fuel >= input length + constant;
  functional theorems are stated for every such fuel.
* **Parser**: the LALR automaton (generated by bison, not in the repository) is not modelled. It is modelled
  as an arbitrary client of the lexer that may perform, in any order, any of the state changes which grammar
  actions in `parse.y` perform, and request tokens.
* **Builder**: every function of `builder.rs` is modelled. The node types live in an external crate
  (`lib_ruby_parser_ast`), so `NodeM.v` has one constructor per node that `builder.rs` builds, with exactly the
  fields that `builder.rs` sets. `Box<Node>` is `Node`, `Option<Box<Node>>` is `option Node`.
  The builder's shared mutable parts (`Rc<RefCell<..>>` of scopes, stacks, context, diagnostics) are one state
  record threaded by a state monad. `Result<_, ()>` is `option` inside the monad.
  `char::is_lowercase`/`is_alphanumeric` on non-ASCII characters and the regexp engine of the `onig` feature are
  arbitrary functions (the engine may be absent, as in the default build).

Layers (files in `rocq/theories`):

| file | Rust source |
|---|---|
| `Base.v` | monad, loop combinator, byte literals (no Rust counterpart) |
| `MaybeByteM.v`, `Utf8M.v` | `maybe_byte.rs`, the parts of `std::str::from_utf8`, `char::from_u32`, UTF-8 encoding used |
| `InputM.v` | `source/decoded_input.rs`, `source/input.rs`, `source/source_line.rs`, `source/decoder.rs`, `loc_ext.rs`, `source/comment.rs` |
| `DiagnosticM.v` | `error/diagnostic.rs` (render) and the messages the lexer emits |
| `LexStateM.v`, `StackStateM.v`, `ScopesM.v` | `lex_state.rs`, `stack_state.rs`, `static_environment.rs`, `variables_stack.rs`, `current_arg_stack.rs`, `max_numparam_stack.rs`, `context.rs` |
| `TokensM.v`, `ReservedM.v` | token kinds of `parse.y`, `reserved_words/` |
| `BufferM.v` | `source/buffer.rs` |
| `LexerM.v` | lexer state, `lexer/tokadd.rs`, `lexer/yylval.rs`, helpers of `lexer/main.rs` |
| `LexNumericM.v` ... `LexMainM.v` | `lexer/parse_*.rs`, `lexer/main.rs` |
| `ParserClientM.v` | the lexer-visible effects of grammar actions in `parser/parse.y` |
| `NodeM.v` | the AST nodes as `builder.rs` builds them |
| `BuilderM.v`, `BuilderNodesM.v` | `builder.rs`: helpers and checks, then the functions that build nodes |
| `*Spec.v` | independent specifications (no model helper used) |
| `*Proofs.v` | lemmas and proofs |
| `Prop_*.v` | property theorems, `Print Assumptions`, and a concrete example per theorem |

## 2. Plan per property

| id | model | proof |
|---|---|---|
| C01 | `update_bytes` | induction over the bytes with the loop's accumulator generalised; spec: split at newlines |
| C02 | `line_col_for_pos` | induction over the line table, spec: count newlines in the prefix |
| C03 | `expand_to_line` | from C01/C02 |
| C04 | `substr_at` | list lemmas about firstn/skipn |
| C05 | `render` on strings as byte lists, trim not applied (the property speaks of the text before trimming) | from C02/C03 |
| C06 | whole lexer | state invariant (cursor inside the current line, line indices valid, heredoc records valid), one weakest-precondition lemma per function |
| C07 | whole lexer | the same lemmas carry a measure (bytes still to be read, counting the saved line and the rest of the heredoc line) that every token other than end of input decreases |
| C08 | whole lexer | invariant on recorded token ranges. Expected false for unterminated heredocs: refuted by a witness, then proved for runs without that diagnostic |
| C09 | `ParserClientM` | invariant of C06 is preserved by each parser action; induction over the action sequence |
| C10 | whole lexer | invariant over the comments list |
| C11 | `magic_comment` | invariant over the magic comment list |
| C12 | `nextc`/`pushback` | induction over the bytes left to read, from any reached state; both sources deliver the same characters (`Prop_Crlf`) |
| C13 | whole lexer | expected false (heredoc on the first line); refuted by witness; reading behind the mark and programs of words, numbers and variables proved (`Prop_Bom`) |
| C14 | `parser_yylex`, `is_whole_match` | exact execution from any reached state at a line start (`Prop_End`) |
| C15 | `parse_string`, `tokadd_string` | a grammar of string bodies (`StringSpec`: characters, brackets, escapes, and what each stands for); the lexer's loop reads any such body (`StrRead`, `StrStep`), from any state a parser reaches (`StrOpen`, `Prop_String`); C15 is the body in which quotes and backslashes are escaped. (A backslash before a non-ASCII byte is never produced by escaping.) |
| C16, C17 | `read_escape`, `tokadd_utf8`, `scan_hex` | the same, for bodies of escapes; arithmetic of `scan_hex`, UTF-8 encoding (`StrNum`) |
| C18, C19 | numbers, `yylex` | exact execution of the reader (`ReadSpec`, `YylexSpec`), induction over digits; for any state a parser reaches (`Reach`), and for whole programs |
| C20, C46 | identifiers, reserved words, labels | induction over the characters of a word (`IdentSpec`, `IdentRead`, `IdentStep`), table lookup; for any state a parser reaches, and for whole programs |
| C21 | `reserved_word` | bucketed binary search agrees with linear search, decided on the finite table and lifted to all strings |
| C22, C47 | `heredoc_identifier`, `here_document` | the opening (`HereOpen`), then induction over the lines (`HereStep`, `HereText`, `HereBody`), against a specification of its own (`HereSpec`); from any reached state (`Prop_Heredoc`) |
| C23 | `update_heredoc_indent` | the same induction carries the indentation; keeping the smaller width line by line gives the least width (`fold_least`). False of the interpolating forms when a blank line is not empty (`C23_refuted`) |
| C24 | `dedent_string` | expected false for tabs (compares with the constant tab width); refuted, proved for the cases where it holds |
| C25, C26 | `parse_percent`, `parse_string` | the same: balanced text is a body at every nesting depth; words and white space alternate (`word_items`) |
| C27 | `StackState` | refinement to `list bool` up to depth 64; refuted beyond |
| C28, C29 | `ScopesM` | induction over histories |
| C30-C38, C42 | builder | structural induction over lists/trees |
| C39 | `set_encoding` | case analysis; last clause false: refuted by a whole run (`Prop_Encoding`) |
| C40 | whole lexer | invariant over the diagnostics list |
| C41 | `next_token` | induction over the request sequence |
| C43 | `parser_yylex` | induction over the run of white space, from any reached state; whole programs in any layout (`YylexSpec`, `Prop_White`) |
| C44 | global, instance, class variables, match references | induction over the name (`Prop_Var`), for any state a parser reaches |
| C45 | `nextc`, `parser_yylex` | invariant of the end-of-file state, induction over requests (`Prop_End`) |
| C48 | all constructing functions of `builder.rs` | `NestSpec`: for each node type the order of its pieces, for each builder function the order in which the grammar hands its arguments over; one lemma per function (`NestText`, `NestCalls`, `NestCtl`, `NestBody`, `NestAll`), then induction over the tree (`Prop_Nest`). Exceptions proved in section 6 |
| C49 | `lex_star`, `lex_bang`, `lex_eq`, `lex_lt`, `lex_gt`, `lex_amp`, `lex_pipe`, `lex_plus`, `lex_minus`, `lex_dot`, `lex_colon`, `lex_slash`, `lex_caret`, `lex_semi`, `lex_comma`, `lex_tilde`, `parse_percent`, `parse_qmark`, `warn_balanced`, `arg_ambiguous` | `OpSpec`: tables of texts per place and the longest match; every row run symbolically over an arbitrary source and state (`OpStep`, `OpRows`, `OpTable`, one file per place), signs with rules of their own in `OpMore`; `Prop_Op` lifts them to token requests. Three false parts in section 6 |
| C50 | `lex_lparen`, `lex_lbrack`, `lex_lcurly`, `lex_close`, `lex_rcurly`, `ss_push`, `ss_pop` | `BracketSpec`: kind, state and nesting per place; `BracketStep` runs each; `Prop_Bracket` lifts them and does the induction over matching brackets |
| C51 | `lex_newline`, `lex_newline_loop`, `lex_comment`, `lex_dot`, `lex_amp`, `eof_no_decrement`, `b_nextc`, `comment_at_top`, `magic_comment` | `LineSpec`: terminators, comments (without a colon, or with one if `MagicSpec` says that they record nothing), gaps, which states count a line end; `LineStep` runs one line end and the look at the next line, `LineRun` does the inductions over comment lines and empty lines, `LineAgree` compares a request before skipped lines with one behind them; `Blind` proves by a relational argument over the whole lexer that the flag `token_seen` has no influence |
| C52 | every node function of `BuilderNodesM` | `KeepSpec`: the pieces of a node (`items`: marks with their place, names with their place, texts) and, per builder function, the pieces and operands it is given (`Given`); `Collected` says what all calls that made a tree were given. `KeepFacts`, `KeepCalls`: one lemma per function, comparing how often each piece occurs; `C52_tree` is the induction over the calls. Counter-examples to what the side conditions exclude: `C52_begin_keyword_refuted`, `C52_begin_refuted`, `C52_block_refuted`. |
| C53 | `parse_string`, `parse_string_content`, `peek_variable_name`, `string_term`, `lex_quote`, `lex_backtick`, `lex_colon`, `lex_slash`, `parse_percent` | `StringSpec`: `opens` (all openings with the kind of literal they start), `variable_at`, `content`, `text_ends`. One theorem per token. They hold in any reached state `Inside` a literal, so they chain (each ends in such a state again) and go on after embedded code (`C53_after_code`). Proofs in `StrMore` (look ahead, content, openings) and `StrOpens` |
| C54 | all of `builder.rs` that reads or changes shared state | `EffectSpec`: `Public` gives for each function the variables it declares (read off its node), the stacks it may change and when it fails; `Session` is a run of any parser. `C54_call` by a small calculus (`calm`, `does`) of computations that only report; `C54_read` combines it with C28 |
| C55 | every node function of `BuilderNodesM` | `SyntaxSpec`: `reading` writes a tree as a sequence of words, signs, names, texts and tags in source order; `Spells` gives, per builder function, the sequence it is called for; `Written` the text of all calls that made a tree. `SyntaxFacts`: one lemma per function (the sequence is compared exactly, not up to order as in C52); `C55_tree` is the induction over the calls, `C55_apart` its consequence that a tree determines its text |
| C56 | `parse_qmark`, `qmark_warn_ternary`, `read_escape`, `tokadd_utf8` | `CharSpec`: `character` (the texts of a character and what they denote, built on the escapes of `StringSpec`), `code_escape`, `conditional` (texts that start no character, and the warning). `Prop_Char`: runs of `parse_qmark` for each form, on the reading lemmas of `StrRead` and `IdentRead`; the token and the frame (`Passed`) at every reachable state. Range of code point literals and text of one warning refuted |
| C57 | `tokadd_string`, `tokadd_string_escape`, `tokadd_string_other`, `tokadd_escape`, `simple_re_meta`, `tokadd_utf8` (regexp form), `regx_options`, `string_term` | `RegexpSpec`: `re_piece` (the pieces of the text and what the token holds of each), `re_body`, `re_content`, `known_options`, `options_report`; it shares only the escapes with a value with `StringSpec`. Proofs in `RegexpRead` (one run of the loop per piece, then sequences) and `RegexpStep` (the content token, the letters behind the delimiter). `C57_regexp` chains opening, text and end. Control escapes of small values refuted |
| C58 | `lex_eq`, `lex_embdoc`, `is_word_match`, `was_bol`, `goto_eol`, `comment_new` | `LineSpec`: lines, documents, unclosed documents, independent of the reader; `DocStep` reads the first byte of each line, decides the end marker and does the induction over the lines; `Prop_Doc` gives the request in any state, at the end of the source and without an end; documents are also part of the gaps of `C51_program`. `DocNot` proves the other side: `=begin` inside a line, or with more letters, is the sign of an assignment in every state (`C58_no_document`). `DocMark` covers a document directly behind a byte order mark (`C58_marked_document`). For `C58_no_document` the line start needs the invariant that the reader counts columns from the start of the line or from behind a byte order mark |
| C59 | `magic_comment`, `magic_comment_marker`, `mc_*`, `mc_register`, `lex_comment` | `MagicSpec`: keys, values, entries and markers, by the text only; `MagicRun` runs the scans, the search for the marker (which jumps by up to four bytes) and the induction over the entries, `MagicStep` the line that holds the comment; `Prop_Magic` gives the request where a line end is skipped and where it is a token (`C59_magic_comment`, `C59_magic_line_end`). Comments that are not of the form (`prose`, a marker that is not closed) record nothing. `MagicCover` shows that the grammar misses no comment in ASCII without double quotes that names no encoding; with `C59_every_comment` each of them has exactly one meaning and it is the one recorded. Not covered: quotes that are not closed, encodings that need a decoder, unknown keys beyond ASCII, a comment without a terminator that ends the source behind a statement (`MagicEnd` has the case where no statement has begun, `C59_last_comment`). Refuted for keys that are not UTF-8 (`C59_comment_ends_source_refuted`) |

Properties that turn out false of the faithful model get a theorem `..._refuted` with a concrete witness and,
where possible, a positive theorem with the extra hypothesis that makes it true. Theorems that prove less than
the property carry the suffix `_partial`.

### Wrong programs

`seeded/LOG.jsonl` has one line per edit of the model. `first_failing_proofs` are the proofs that Coq rejected. `failed` are the
theorems of the claims that depend on them; the list was computed from the names in the proof texts. In lines without the field
`checked` it goes by the bare name, so it may hold theorems that use another lemma of the same name. In lines with the field
`checked` it follows the imports, and only the files listed there were compiled against the edit; the list of dependent theorems
is that of the version that was committed with the line. An empty `failed` is an edit that
no checked file noticed: such lines name a gap of the theorems, unless `tightened` names the theorem that closes it.
A proof that compares a definition with a copy of its text can reject an edit that leaves the statement true; the edit of
`here_document_raw` is such a line. No theorem gives the text of heredoc lines that hold a carriage return (C22 leaves them out).

## 3. Trusted base

* Coq 8.16.1's kernel (and `vm_compute` for concrete examples and refutation witnesses).
* What `Print Assumptions` lists for each property theorem: intended to be "Closed under the global context"
  for all of them (recorded in section 5).
* That the Gallina definitions are a faithful reading of the Rust text. The code was not run.
* `std` functions modelled by their documented behaviour: `str::from_utf8`, `char::from_u32`, UTF-8 encoding,
  `u8::is_ascii_*`, `str::to_uppercase` (exact for the comparison with the three built-in encoding names),
  `Vec`, slices, `BTreeSet`, `format!`.
* Oracles: `char::is_uppercase` on non-ASCII characters and the user's decoder are arbitrary functions.

## 4. What is not modelled

* The LALR parser tables, the grammar's control flow, and the semantic values it computes.
* `String::from_utf8_lossy` inside messages (messages carry the raw bytes).
* Debug printing, the token pool allocator, `Rc`/`RefCell` sharing (values are threaded explicitly).
* Inputs of 2^31 bytes or more, memory exhaustion, and stack overflow of the (recursive) `read_escape`
  (its recursion depth is bounded by 3 by its flags, which is proved by giving it fuel 3).
* The `onig` regexp engine itself (an arbitrary function in the model).
* Local variable names coming from non-UTF-8 input are compared as bytes.

## 5. Assumptions reported by `Print Assumptions`

Every property theorem of the files `Prop_*.v` is followed by `Print Assumptions`; all of them print
"Closed under the global context": no axiom is used, not even one of the standard library.

## 6. Properties found false, and other findings

* C08: an unterminated heredoc gives a string-end token whose range is inverted (`<<A\nfoo`).
* C13: `\xEF\xBB\xBF<<A\nfoo\nA\n`: the byte order mark moves the start of the first line, so the heredoc identifier is
  looked up 3 bytes off and the heredoc is reported as unterminated.
* C23: `update_heredoc_indent` does not forget the width of a line at its line feed if the line is blank, so in `<<~A` the
  blanks of a blank line are added to the width of the next line: `<<~A\n    \n  x\n    y\nA\n` removes 4 columns, not 2.
* C24: `dedent_string` compares the next tab stop with the constant tab width instead of the width to remove.
* C27: `StackState` loses bits beyond depth 64.
* C30: `arg_name_collides` slices `&this_name[0..1]`, which panics when a repeated name starts with a non-ASCII
  character: `def f(é, é); end`.
* C31: the options of regexp keys are compared with derived equality, which includes locations, so
  `{ /a/i => 1, /a/i => 2 }` gives no warning.
* C39: `set_encoding` takes the bytes before decoding; when decoding fails they are not put back while the line table
  stays, so the encoding error cannot be rendered on the returned input.
* C22: the range of the content of `<<'ID'` runs on to the end of the terminator line and so overlaps the string-end token;
  the string-end token drops leading blanks of the terminator line but keeps a leading tab.
* C52: `begin_keyword` drops the parentheses of `begin (1) end` (builder.rs 3139-3147 takes the statements out of every
  group); `begin` overwrites the delimiters of a nested left-hand side (`((a, b)) = 1`); `block` on `return f, g` keeps the
  first argument only (2117); `begin_body` with `else` but without `rescue` drops the delimiters of a parenthesized group.
  By design the comma at the end of an array pattern and the stars of `**nil` are not recorded, a key without a value
  records its name twice, `::A` records the colons twice.
* C59: a comment `key: value` with more than seven bytes behind the `#` (terminator included) whose key is not UTF-8 makes `magic_comment` return `Err`, and
  `parser_yylex` then returns the end of input: the rest of the file is dropped, the comment is not recorded and there is no
  diagnostic (`C59_comment_ends_source_refuted`; the witness has the byte 233 as its key).
* C51: `token_seen` is set but influences nothing (`C51_token_seen`), unlike in MRI where it decides whether a magic comment
  comes too late. The newline token lies at the terminator of the last comment line that directly follows the statement, not
  at the end of the statement's own line. At the end of a source without a final line feed the token covers the last byte
  of the comment (`a # c`), or a trailing blank. Behind a label in a parameter list without parentheses (`def f a: # c`) the newline token
  covers the `#` of the comment, not the terminator (`C51_label_line_end`).
* C49, further observations: the warning about an ambiguous first argument for `foo +` at the end of the source has an empty
  range; `::` set off only in front of it after a name that may take arguments is the prefix form even if white space follows.
* C49: `foo &:bar` is always warned about, although main.rs 594-612 means to leave out a symbol: its test for the end of
  input is inverted, and the whole condition is always true (`C49_symbol_block_refuted`). The warning about `1 %x` names
  the operator `%%` (parse_percent.rs 148, `C49_percent_name_refuted`). In `a {||` at the end of the source the second bar
  is pushed back but never read, as the end of input has already been seen (`C49_bar_at_end_refuted`).
* C48: `when_` and `in_pattern` leave the mark of `then` outside the range when there is no body; `block` gives a
  numbered-parameter block without body a `nil` at 0..0 (unreachable through the grammar); `begin_body` with `else` but no
  `rescue` discards the delimiters of a group before it; the `else_l` of an `if` with `elsif` is the keyword of the nested `if`.
* C56: a character literal with a code point has a range that starts at its digits: `?\u{41}` at 4 gives 8..11 instead of 4..11, as
  `tokadd_codepoint` moves the start of the token (parse_string.rs 457; harmless inside strings, `C56_range_refuted`). The warning about
  `? ` suggests `?\115` instead of `?\s`: the byte is formatted as a number (`C56_suggestion_refuted`).
* C57: in a regular expression `\c`, `\C-` and `\M-` escapes are rewritten as a byte in hexadecimal by formatting into four zeroed bytes with
  `{:X}` (parse_string.rs 319-333): a value below 16 has one digit, and the fourth byte stays 0, so the text of `/\C-a/` is `\x1` and a byte 0
  (`C57_control_refuted`; MRI writes two digits).
* C34: a too big `$n` is reported but keeps its digits.
