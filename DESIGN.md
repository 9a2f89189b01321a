# A Rocq model of kodaimura/ddlparse

ddlparse turns `CREATE TABLE` statements of SQLite, PostgreSQL and MySQL into Go structs.
`/verif/rocq` contains a model of the whole library in Rocq/Coq 8.16.1 and proofs of
the properties listed in `/verif/properties.jsonl`, for all inputs. `/verif/MANIFEST.json` maps each
property to its theorems. The Go code was only read; nothing of it was built or run.

## What is modelled

The library is small, so it is modelled completely, function by function. Every definition
of the model names the Go file and lines it stands for.

| Go | Coq file | how |
|----|----------|-----|
| `string`, `[]rune(s)`, `string(r)`, `strings.ToUpper/ToLower`, `token[0:1]`, `token[1:len-1]`, `common.Contains`, `matchToken`, the name pattern | `GoStr.v` | a Go string is a Coq `string` (bytes); a rune is an `N`; UTF-8 decoding as in the Go runtime (a bad byte becomes U+FFFD); slices that would panic return `None` |
| `strings.ToUpper` of any token, `unicode.ToUpper` | `Unicode.v` | `go_upper`: rune by rune, with the simple upper case mapping of Unicode 15.0 (the version in Go 1.21 and later) as a table of 199 ranges; a bad byte becomes U+FFFD. The table was made from the Unicode data of another program (perl's Unicode::UCD) and is part of what is trusted |
| `strconv.Atoi`, `strconv.ParseFloat`, `common.IsPositiveIntegerToken`, `common.IsNumericToken` | `GoNum.v` | syntax, range check, and rounding to float64, on exact integers |
| `internal/types`, `common/constants.go`, `common/errors.go` | `Types.v` | records; nil and empty slices are distinguished where Go can produce both |
| `ValidateError.Error` | `ErrorText.v` | `fmt.Sprintf` with `%s` and `%d` |
| reserved words | `Words.v` | lists copied from the Go files (with their typing error `INFILEx`) |
| `internal/lexer` | `Lexer.v` | state-passing functions, loops on fuel |
| `internal/validator` | `VBase.v`, `VSqlite.v`, `VPostgres.v`, `VMysql.v` | each Go method is a program in a small free monad (look at the token, next, set, error, panic), executed by `run` on the state of `type validator struct` |
| `internal/converter` | `Converter.v` | state-passing functions with fuel |
| JSON tags of `internal/types`, `encoding/json.Marshal` | `Json.v` | strings with Marshal's escapes, nil slices as null; the text of a finite float64 is any number of JSON (RFC 8259) that `ParseFloat` reads as that number (`strconv.AppendFloat` is not modelled further); NaN and infinities have no text |
| `ddlparse.go` | `Parse.v` | `Parse`, `ParseSQLite`, `ParsePostgreSQL`, `ParseMySQL`, `ParseForce` |

A run-time panic is an explicit outcome. A Go call that does not return (endless loop or
unbounded recursion) is "out of fuel for every amount of fuel" (`diverges` in `Spec.v`); results do not depend
on the fuel once it suffices (`Fuel.v`), and `Decide.v` gives a bound that is linear in the text.

`RepoTests.v` replays the expectations of the repository's own Go tests on the model, as evaluated
examples. It is generated from the test files and is a check on the reading of the Go code.

### Simplifications

* `tokens`, `size` and `i` of lexer, validator and converter are represented by what is left to read; the
  index only moves forward.
* Go's `int` has 64 bits.
* A finite float64 is a sign, a significand and an exponent; each value has one such representation (zero is 0 * 2^0,
  with a sign).
* `to_upper` and `to_lower` (`GoStr.v`) change ASCII letters only. They stand for `strings.ToUpper/ToLower` of constant
  keywords, of names that have matched an ASCII pattern, and of tokens that have matched an ASCII keyword, where the
  result is the same. For the other calls (`converter.go:219,226,356-363`, the token in the place of a type name and a
  default value compared with NULL, TRUE and FALSE) see `Unicode.v`.

### Not modelled

Memory and stack limits (an unbounded recursion is an endless run in the model and a stack
overflow, fatal error, in Go), time, concurrency (`Parse` keeps no state between calls).

How the transcription was checked. The library's own tests are evaluated on the model (`RepoTests.v`).
`tools/compare_model.py` compares the sequence of string literals, calls and flags of all 158 validator methods
with the definitions of the same names, and the lists of words, as texts; the few intended differences are named in
the script. The lexer and the converter were compared by reading. None of this is a proof: that the model says what the
Go code does remains part of the trusted base.

## Specification

The properties are stated with the files below, which do not use the code of the model. (The grammars share with it
what a token is: `matches`, the reserved words, and the tests for literals.)

| file | contents |
|------|----------|
| `Spec.v` | what a call does: `returns`, `panics`, `diverges`, `accepted`, `rejected`, `says` (the text is a script with this meaning), `same_result`, `alike` |
| `Text.v`, `Closed.v` | runs of characters, line numbers, closing brackets |
| `Grammar.v` | a language of grammars; `lang g l next out v`: the tokens `l`, followed by `next`, are a sentence of `g` with the value `v` |
| `GSqlite.v`, `GPostgres.v`, `GMysql.v` | the grammars, written from the README; the head of each file lists the differences from the README |
| `Ast.v` | abstract syntax of scripts and the tables they stand for (`tables_of`) |
| `Safe.v` | `safe`: scripts without the constructs that the converter gets wrong |
| `Seen.v` | `seen`: a script as the converter sees it; `readable`: scripts that it reads apart from that; `ordinary` |
| `Layout.v` | texts as lexemes with white space and comments between them; quoted text |
| `Names.v`, `Sources.v`, `Unquote.v` | legal names, where reported strings come from, removal of quotes |
| `Parts.v`, `Numbers.v`, `Floats.v`, `GoFloats.v`, `Values.v` | parts of a statement, numerals, nearest float64 (over the rationals), Go's spellings of numbers, values of DEFAULT |
| `Recase.v` | which tokens of a script are keywords of the grammar; change of their letter case |
| `Cased.v` | words in another letter case; tables that are the same up to letter case |
| `Columns.v`, `NotNull.v`, `Exclude.v` | the tokens of the column definitions of a script; where NOT NULL stands in them; EXCLUDE elements |
| `Print.v` | a text for given tables, and the tables for which there is one |
| `Lexical.v` | how every text is divided into tokens: rules for words, quoted text, comments and errors |
| `DocWords.v` | the reserved words of the dialects according to their documentation; where the library's lists differ |
| `Readme.v`, `ReadmeSqlite.v`, `ReadmePostgres.v`, `ReadmeMysql.v` | the grammars as README.md gives them (`statement false`) and with the changes that the library needs (`statement true`) |
| `TypeNames.v`, `Flags.v` | the types of the dialects, keywords of SQL; where PRIMARY KEY, UNIQUE and AUTO_INCREMENT stand in a column |
| `Portable.v` | a grammar of what the dialects have in common |
| `Order.v` | constraints of a column and elements of a table whose order is changed |
| `Clauses.v` | clauses of constraints that are accepted and not reported |
| `Header.v` | CREATE TABLE with and without IF NOT EXISTS |
| `Sum.v` | a table with the elements of two tables |
| `Listed.v` | column lists of constraints; expressions that can be written without space |
| `Size.v` | the strings of a result and their length together, texts without characters that have a longer upper case (C65) |
| `Inside.v` | where in a text an error is (C66) |
| `Lines.v` | texts in which every line break is counted (C69) |
| `Upper.v` | texts in upper case (C70) |
| `Literal.v` | strings, texts that differ in strings only, and what may differ in the tables (C71) |
| `Number.v` | numbers, texts that differ in numbers only, and what may differ in the tables (C72) |

## Proofs

| file | contents |
|------|----------|
| `Exec.v` | execution of validator programs on tokens without line breaks, and its relation to `run` |
| `GrammarFacts.v` | the parser of a grammar as a validator program; soundness and completeness under one token of lookahead |
| `Equiv.v`, `ESqlite.v`, `EPostgres.v`, `EMysql.v`, `Accept.v` | each validator is equivalent to the parser of its grammar |
| `Emit.v`, `Derive.v`, `DSqlite.v`, `DPostgres.v`, `DMysql.v` | which tokens the validator passes on |
| `Conv.v` | the converter on those tokens gives `tables_of` of `seen` |
| `Skipped.v`, `SkippedFacts.v` | CREATE VIEW and other statements that are skipped |
| `Extend.v` | texts that are continued: decoding, lexer, validator, converter |
| `ErrorTextFacts.v` | the message determines the error |
| `Odd.v`, `Exact.v`, `Reported.v` | if a script is not `safe`, the converter does not give its tables |
| `Read.v`, `MarkRead.v` | readers for the grammars: the grammars are unambiguous; used to work out examples |
| `Scan.v`, `Utf8.v`, `Tokens.v`, `Enclosed.v`, `Origin.v` | the lexer as an automaton; what its tokens look like and where they come from |
| `Pipe.v`, `Meaning.v`, `Fuel.v`, `Decide.v`, `Total.v`, `NoPanic.v`, `Force.v`, `ForceFacts.v`, `ParseFacts.v` | the three stages together; fuel; termination; panics |
| `Local.v`, `Compose.v`, `Viable.v`, `ErrorAt.v`, `Stops.v`, `Follow.v` | texts one after the other; where errors are |
| `LayoutFacts.v`, `Quoted.v`, `NamesFacts.v`, `SourcesFacts.v`, `Unknown.v`, `PartsFacts.v`, `NumbersFacts.v`, `FloatsFacts.v`, `GoFloatsFacts.v`, `GoFloatsRead.v`, `ValuesFacts.v`, `RecaseFacts.v`, `Respell.v`, `CasedConvert.v`, `ColumnsFacts.v`, `NotNullFacts.v`, `ExcludeFacts.v`, `ListedFacts.v` | facts about the specification files of the same name |
| `Build.v`, `PrintText.v`, `PrintFloat.v`, `PrintItems.v`, `PrintTypes.v`, `PrintColumn.v`, `PrintFacts.v` | the text of `Print.v` is a script that stands for the tables |
| `Witness.v` | tactics for concrete cases |
| `LexicalFacts.v` | the lexer follows the rules of Lexical.v for all texts |
| `DocFacts.v` | which words are legal as names; what is not is rejected |
| `ReadmeFacts.v`, `ReadmeSqliteFacts.v`, `ReadmePostgresFacts.v`, `ReadmeMysqlFacts.v`, `ReadmeNarrow.v` | the changed grammars of the README are part of the grammars of the validators and of the README |
| `JsonFacts.v`, `JsonResult.v` | the JSON text determines the tables; which results have one; reported strings are valid UTF-8 |
| `JsonPlain.v` | the characters of the JSON text (C77) |
| `JsonGrammar.v`, `JsonShape.v` | the grammar of JSON; the JSON text follows it (C78) |
| `JsonPaths.v`, `JsonPathsFacts.v` | where the values stand in the JSON text, by the names of the README; they stand there (C79) |
| `Decodes.v`, `DecodesFacts.v` | how bytes are read as characters; the model reads them so (C80) |
| `Shift.v` | line breaks before a text (C81) |
| `OneLine.v`, `OneLineFacts.v` | the strings in a table; they and the messages of errors have no line breaks (C82) |
| `Named.v` | names are empty only where an empty quotation is written, and types never (C83) |
| `Lengths.v` | the numbers of the reported types (C84) |
| `Bracketed.v` | the brackets of reported expressions (C85) |
| `ExprClosed.v` | the closing bracket of reported expressions in all texts (C85) |
| `Keys.v`, `KeysSqlite.v`, `KeysPostgres.v`, `KeysMysql.v`, `KeysFacts.v` | the columns of reported keys (C86) |
| `OrderFacts.v`, `OrderResult.v` | which words can follow a constraint of a column; the order of constraints and of elements |
| `ClausesFacts.v` | clauses that are not reported can be inserted |
| `HeaderFacts.v` | the words TEMP and IF NOT EXISTS |
| `SumFacts.v` | tables as sums of their elements |
| `BracketsFacts.v` | the number of brackets in the sentences of a grammar |
| `UnicodeFacts.v`, `UnicodeCase.v`, `UpperFacts.v` | `go_upper`: ASCII text, one character, texts that differ in the case of ASCII letters |
| `SizeFacts.v`, `SizeRead.v` | the length of text, tokens, tokens handed on and result (C65) |
| `Place.v` | places in a text where a token begins and ends (C74) |
| `PlaceFacts.v` | another token in such a place |
| `CutFacts.v` | cutting texts after semicolons, statements in any order (C75) |
| `CutError.v` | the statements before an error (C76) |
| `InsideFacts.v` | the places and lines of tokens and errors in the text (C66) |
| `StepsFacts.v` | a linear bound for the fuel of a call that returns (C67) |
| `CompleteFacts.v` | a text for the tokens that complete a script (C68) |
| `LineFacts.v` | when the line of an error is exact (C69) |
| `Hang.v`, `HangFacts.v` | which brackets are never closed; the syntax check runs forever exactly for these, and a text is rejected exactly if it is neither these nor a script |
| `Resp.v`, `RespText.v`, `Rename.v`, `RenameTokens.v`, `RenameVerdict.v`, `RenameFacts.v`, `RenameConvert.v` | validators under replacement of tokens by tokens of the same kind; names and vocabulary; what replacing names does to acceptance, errors and tables |
| `LiteralFacts.v`, `LiteralConvert.v`, `LiteralRead.v`, `LiteralText.v` | the same for strings |
| `NumberFacts.v`, `NumberConvert.v`, `NumberRead.v`, `NumberText.v` | the same for numbers |
| `TypeFacts.v`, `FlagsFacts.v` | types, keywords and the three flags of columns |
| `PortableFacts.v`, `PortableMysql.v`, `Alike.v` | the grammar of `Portable.v` is part of the grammars of the dialects; the same statements stand for the same tables |
| `Properties*.v`, `Refuted.v` | the claims: statement, proof by reference, `Print Assumptions`, and examples that meet the hypotheses |

A theorem whose name ends in `_partial` leaves out part of its property, and the note in
`MANIFEST.json` says what. A theorem whose name ends in `_refuted` shows that the property, as stated for all
inputs, is false of the code; its witness is evaluated by the kernel.

## Trusted base

* The Coq 8.16.1 kernel, including its evaluation by `vm_compute`.
* The reading of the Go source and of the Go language and library functions named above, and the table of upper case
  letters in `Unicode.v`.
* No axioms. `Print Assumptions` says "Closed under the global context" for each of the
  theorems below. (The listing of `coqchk -o` names the parameters
  `Coq.ssr.ssrunder.Under_rel.*` of the standard library, because the tactics of `Lia`/`Lqa` and their
  dependencies load that file; no theorem depends on them.)
* No own functors, module types, plugins, `Admitted`, or switched-off checks.

Theorems, all closed under the global context:

* `Properties.v`: `C01_no_panic`, `C01_no_panic_force`, `C02_refuted`, `C02_closed_readable_partial`, `C02_decidable`, `C03_error_or_tables`, `C04_first_accepting`, `C05_refuted`, `C12_sqlite_grammar`, `C13_postgres_grammar`, `C14_mysql_grammar`, `C15_sqlite_tables_partial`, `C15_sqlite_tables_only_partial`, `C15_refuted`, `C16_postgres_tables_partial`, `C16_postgres_tables_only_partial`, `C16_refuted`, `C17_mysql_tables_partial`, `C17_mysql_tables_only_partial`, `C17_refuted`, `C18_one_table_each_partial`, `C18_refuted`, `C19_compose`, `C19_compose_rejected`, `C20_located_partial`, `C20_first_bad_token_partial`, `C20_stays_partial`.
* `PropertiesBracketed.v`: `C85_refuted`, `C85_columns_partial`, `C85_tables_partial`, `C85_closed_partial`.
* `PropertiesBrackets.v`: `C64_tables`, `C64_unmatched`, `C64_refuted`.
* `PropertiesCase.v`: `C10_keywords`, `C10_script_partial`, `C10_tables_partial`, `C10_refuted`, `C10_any_script`, `C10_any_tables`, `C10_any_rejected`, `C10_any_diverges`.
* `PropertiesClauses.v`: `C61_column_clause_partial`, `C61_element_clause`, `C61_constraint_partial`, `C61_refuted`.
* `PropertiesColumns.v`: `C29_partial`, `C29_texts`, `C33_partial`.
* `PropertiesComplete.v`: `C68_complete_partial`, `C68_incomplete`, `C68_refuted`.
* `PropertiesConsistent.v`: `C73_any_names`, `C73_refuted`.
* `PropertiesCut.v`: `C75_cut`, `C75_pieces`, `C75_tables_partial`, `C75_order`, `C75_order_partial`, `C75_refuted`, `C76_before_partial`, `C76_refuted`.
* `PropertiesDecodes.v`: `C80_once`, `C80_read`, `C80_valid`, `C80_same`, `C80_repaired`, `C04_named`.
* `PropertiesExact.v`: `C15_sqlite_exact`, `C16_postgres_exact`, `C17_mysql_exact_partial`, `C15_C16_C17_seen`, `C15_C16_C17_safe_seen`, `C26_never_partial`, `C27_never_partial`, `C33_never`.
* `PropertiesForce.v`: `C52_accepts_partial`, `C52_forever`, `C52_refuted`.
* `PropertiesHang.v`: `C02_open_bracket`, `C02_diverges`, `C02_exact_partial`, `C12_C13_C14_rejected`.
* `PropertiesHeader.v`: `C62_temporary`, `C62_rejected`, `C62_if_not_exists_partial`, `C62_refuted`.
* `PropertiesInside.v`: `C66_place`, `C66_line`.
* `PropertiesJson.v`: `C56_tables`, `C56_near`, `C56_force`, `C57_exactly_partial`, `C57_words_partial`, `C57_refuted`, `C58_injective`, `C77_plain`, `C78_grammar`, `C79_paths`.
* `PropertiesKeys.v`: `C86_refuted`, `C86_refuted_postgres`, `C86_keys_partial`, `C86_foreign_partial`.
* `PropertiesLengths.v`: `C84_refuted`, `C84_sensible_partial`, `C84_int64`.
* `PropertiesLex.v`: `C06_layout`, `C06_tokens`, `C07_line_comment_partial`, `C07_sharp_comment`, `C07_at_end_partial`, `C07_sharp_at_end`, `C07_refuted`, `C08_block_comment_partial`, `C08_one_line_partial`, `C08_refuted`, `C09_one_token_partial`, `C09_reported_partial`, `C09_refuted`, `C31_open_quote`, `C31_open_quote_line`, `C31_open_comment_partial`, `C31_refuted`, `C32_bad_character`, `C32_stray_end_partial`, `C32_refuted`.
* `PropertiesLexical.v`: `C51_tokens`, `C51_texts`, `C51_errors`, `C51_rejected`, `C51_unique`, `C51_scripts`.
* `PropertiesLine.v`: `C69_exact_partial`, `C69_late`, `C69_refuted`.
* `PropertiesLiteral.v`: `C71_scripts`, `C71_rejected`, `C71_diverges`, `C71_tables`, `C71_names_partial`, `C71_text_partial`, `C71_marks_partial`, `C71_refuted`.
* `PropertiesMore.v`: `C39_message`, `C39_tells`, `C40_skipped`, `C40_found`, `C41_continued`, `C42_blank`.
* `PropertiesNamed.v`: `C83_refuted`, `C83_refuted_column`, `C83_refuted_columns`, `C83_named_partial`, `C83_types`, `C83_columns_partial`.
* `PropertiesNames.v`: `C11_legal_names_partial`, `C11_refuted`, `C24_accepts`, `C24_rejects`, `C24_diverges`, `C24_tables`, `C34_sources_partial`, `C34_refuted`.
* `PropertiesNumber.v`: `C72_scripts`, `C72_rejected`, `C72_diverges`, `C72_tables`, `C72_names_partial`, `C72_text_partial`, `C72_kinds`, `C72_refuted`.
* `PropertiesOneLine.v`: `C82_tables`, `C82_force`, `C82_near`, `C82_message`.
* `PropertiesOrder.v`: `C59_follow`, `C59_order_partial`, `C59_refuted`, `C60_order_partial`, `C60_refuted`.
* `PropertiesParts.v`: `C21_once`, `C21_at`, `C21_kinds`, `C22_reported_partial`, `C22_squeeze`, `C22_rejected`, `C22_number`, `C22_kinds`, `C22_refuted`, `C23_reported_partial`, `C23_first_rejected`, `C23_second_rejected`, `C23_refuted`, `C30_options`, `C30_parts`.
* `PropertiesPlace.v`: `C74_token`, `C74_name`, `C74_number`, `C74_string`, `C74_case`.
* `PropertiesPortable.v`: `C44_portable`, `C44_force`, `C44_tokens`, `C45_same_statements_partial`, `C45_refuted`.
* `PropertiesPrint.v`: `C43_round_trip`, `C43_injective`.
* `PropertiesReadme.v`: `C53_accepted_partial`, `C53_within`, `C53_refuted`, `C54_accepted_partial`, `C54_within`, `C54_refuted`, `C55_accepted_partial`, `C55_within`, `C55_refuted`, `C55_forever_refuted`, `C55_equals_refuted`.
* `PropertiesRename.v`: `C48_scripts`, `C48_rejected`, `C48_diverges`, `C48_tables`, `C48_types_partial`, `C49_tables`, `C49_types_partial`, `C49_rejected`, `C49_refuted`.
* `PropertiesShift.v`: `C81_shift_partial`, `C81_counted_partial`, `C81_lexical_partial`, `C81_uncounted`, `C81_refuted`.
* `PropertiesSize.v`: `C65_text_partial`, `C65_mysql_partial`, `C65_any_partial`, `C65_any_mysql_partial`, `C65_bytes_partial`, `C65_mysql_bytes_partial`, `C65_readable_partial`, `C65_readable_bytes_partial`, `C65_mysql_refuted`, `C65_upper_refuted`, `C65_bytes_refuted`.
* `PropertiesSteps.v`: `C67_returns`, `C67_forever`, `C67_force`, `C67_bytes`.
* `PropertiesSum.v`: `C63_sum_partial`, `C63_alone_partial`, `C63_refuted`.
* `PropertiesTokens.v`: `C25_rejected`, `C35_partial`, `C36_partial`, `C37_C38_after_default`, `C37_rejected`, `C37_two_tokens`, `C38_rejected`, `C38_three_tokens`.
* `PropertiesTypes.v`: `C11_keywords`, `C11_keyword_table`, `C11_keyword_column`, `C46_reported_partial`, `C46_refuted`, `C46_unknown`, `C46_listed`, `C47_partial`, `C47_refuted`.
* `PropertiesUpper.v`: `C70_types`, `C70_upper`, `C70_letters`.
* `PropertiesWords.v`: `C50_names`, `C50_table`, `C50_column`, `C50_refuted`.
* `Refuted.v`: `C20_refuted`, `C25_refuted`, `C26_refuted`, `C27_refuted`, `C28_refuted`, `C29_refuted`, `C33_refuted`, `C35_refuted`, `C36_refuted`, `C37_refuted`, `C38_refuted`.

## Findings

Things that the proofs showed about the code. Most have a witness in a `_refuted` theorem.

Termination
* An opening bracket in an expression that is never closed: `validateBracketsAux` recurses forever (C02).
* The converter's loop over table elements does not stop at the end of the tokens. A
  schema-qualified REFERENCES and a MySQL INDEX element lead there (C02, C26, C27).

Wrong tables
* A MySQL INDEX, KEY, FULLTEXT or SPATIAL element ends the table early, because `validateIndexKeys` passes on its ")"
  always; the elements after it are read as another table (C17, C18, C22, C23, C27).
* A PostgreSQL EXCLUDE constraint without a name, as the first of several elements, gives a column named "," (C33).
* Schema-qualified REFERENCES: the name after the "." is read as the next column (C26).
* MySQL `CHECK (...) NOT NULL` loses the NOT NULL (C29).
* Column lists of constraints keep the quotes of their names (C36).
* Expressions are concatenated without spaces, and ",," collapses to "," (C35).
* A column constraint named AUTO_INCREMENT or AUTOINCREMENT is taken as the constraint itself (C15).
* DOUBLE PRECISION is reported as DOUBLE.
* The default values CURRENT_DATE and 'CURRENT_DATE' cannot be told apart; nan and inf are numbers, for which
  `json.Marshal` of the result returns an error (C57).
* COLLATE nocase and DEFAULT current_date are reported in the case in which they were written (C10).

Wrong verdicts
* ParseForce returns no error if all dialects reject the text: `err` is shadowed (C05).
* ParseForce runs forever on a MySQL script with brackets in a # comment: SQLite is tried first (C52).
* A lexical error later in the text hides a syntax error; the line of an error is one too small when the
  text begins with a line break (C20).
* "\r" is not white space, so texts with CRLF line ends are rejected (C28).
* "." is a symbol of its own, so 1.5 is not a number (C38).
* '' inside a string gives two tokens (C37). Other quotation marks inside quoted text nest, and line breaks
  are dropped (C09).
* After a comment, the next character is not looked at for a comment mark; in a block comment the character after "*" or "/"
  is skipped, so `/***/` does not end (C07, C08).
* Keywords are recognised in all-upper and all-lower case only.
* Described in the README but rejected (C53, C54, C55): CONSTRAINT name before the second constraint of a column; a kind of constraint
  twice; SQLite WITHOUT ROWID STRICT, MATCH name, REFERENCES .. NOT NULL; PostgreSQL AS (expr); MySQL CHECK (..) NO INHERIT,
  UNIQUE USING BTREE (..), the collation binary, and ENGINE=InnoDB without blanks (= is not a symbol of its own).
* The last ";" is required (C25); further differences from the README are listed in the heads of `GSqlite.v`, `GPostgres.v`
  and `GMysql.v`.
* An unknown `Rdbms` is validated as SQLite, but names and strings keep their quotes (C24).

## Mutation testing

`/verif/seeded/LOG.jsonl` has one line for each wrong program tried: a definition of the model was changed
in a copy outside `/verif`, the copy was built, and failing proofs were noted and replaced by `Admitted` until
everything was built. `failed` lists the lemmas and theorems whose proofs broke,
`affected` the property theorems whose proofs depend on them (not all of these need be false of the wrong program),
`tightened` what was strengthened as a result. A wrong program that treats every text like the model has the result `equivalent`.
