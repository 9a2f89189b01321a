{
 "claims": [
  {
   "property": "C01",
   "status": "proved",
   "theorems": [
    "C01_no_panic",
    "C01_no_panic_force"
   ],
   "note": ""
  },
  {
   "property": "C02",
   "status": "partial",
   "theorems": [
    "C02_refuted",
    "C02_closed_readable_partial",
    "C02_decidable",
    "C02_open_bracket",
    "C02_diverges",
    "C02_exact_partial"
   ],
   "note": "REFUTED (the property is false of the code): an unclosed '(' in an expression, a schema-qualified REFERENCES or a MySQL INDEX make Parse run forever. True part: texts in which every '(' is closed and whose statements are `readable` (no schema-qualified reference, no INDEX element, no unnamed EXCLUDE as first of several elements) return; and it is decidable which texts return. Exactly: a text without a schema-qualified reference, INDEX element or unnamed first EXCLUDE runs forever if and only if, where anything in brackets may follow, a bracket is opened that is never closed (`hangs`, Hang.v)."
  },
  {
   "property": "C03",
   "status": "proved",
   "theorems": [
    "C03_error_or_tables"
   ],
   "note": ""
  },
  {
   "property": "C04",
   "status": "proved",
   "theorems": [
    "C04_first_accepting",
    "C04_named"
   ],
   "note": ""
  },
  {
   "property": "C05",
   "status": "proved",
   "theorems": [
    "C05_refuted"
   ],
   "note": "REFUTED (the property is false of the code): ParseForce returns a nil error when every dialect rejects; witness DROP TABLE t;"
  },
  {
   "property": "C06",
   "status": "proved",
   "theorems": [
    "C06_layout",
    "C06_tokens"
   ],
   "note": "Texts are lists of items (Layout.v): words, symbols, quoted text, spaces, tabs, line breaks and comments; two layouts of the same lexemes give the same tables, or an error near the same token, or neither returns."
  },
  {
   "property": "C07",
   "status": "partial",
   "theorems": [
    "C07_line_comment_partial",
    "C07_sharp_comment",
    "C07_at_end_partial",
    "C07_sharp_at_end",
    "C07_refuted"
   ],
   "note": "REFUTED (the property is false of the code): after a '--' comment a comment mark at the start of the next line is not recognised. True part: same result (with line numbers) where the comment and its neighbours are separated; '#' comments have no restriction."
  },
  {
   "property": "C08",
   "status": "partial",
   "theorems": [
    "C08_block_comment_partial",
    "C08_one_line_partial",
    "C08_refuted"
   ],
   "note": "REFUTED (the property is false of the code): in a comment the character after '*' or '/' is skipped, so /***/ does not end, and a comment right after a comment is not recognised. True part: same result for the other comment texts."
  },
  {
   "property": "C09",
   "status": "partial",
   "theorems": [
    "C09_one_token_partial",
    "C09_reported_partial",
    "C09_refuted"
   ],
   "note": "REFUTED (the property is false of the code): other quotation marks inside quoted text nest, and line breaks in it are dropped. True part: contents without quotation marks and line breaks."
  },
  {
   "property": "C10",
   "status": "partial",
   "theorems": [
    "C10_keywords",
    "C10_script_partial",
    "C10_tables_partial",
    "C10_any_script",
    "C10_any_tables",
    "C10_any_rejected",
    "C10_any_diverges",
    "C10_refuted"
   ],
   "note": "REFUTED (the property is false of the code): COLLATE nocase (SQLite) and DEFAULT current_date are reported in the case in which they were written. True part: for every script, all other keywords of the grammar (including TRUE, FALSE, NULL) may change case without changing the statements' tables, and for `readable` scripts Parse returns the same tables; for every text, script or not, all words (keywords, types and names) may be written in the other case: it stays a script or not, it is rejected at the same token and line, it makes the call run forever or not, and its tables are the same up to letter case, with the same types."
  },
  {
   "property": "C11",
   "status": "partial",
   "theorems": [
    "C11_legal_names_partial",
    "C11_keywords",
    "C11_keyword_table",
    "C11_keyword_column",
    "C11_refuted"
   ],
   "note": "REFUTED (the property is false of the code): an INDEX element makes MySQL return a table named by a reserved word, an unnamed EXCLUDE first makes PostgreSQL return a column named ','. Proved for `readable` scripts (quoted identifiers end with their quotation mark, others match the pattern and are not reserved). For all texts: the common keywords listed in TypeNames.v, in any case, are rejected as names of tables and columns, at that word."
  },
  {
   "property": "C12",
   "status": "proved",
   "theorems": [
    "C12_sqlite_grammar",
    "C12_C13_C14_rejected"
   ],
   "note": ""
  },
  {
   "property": "C13",
   "status": "proved",
   "theorems": [
    "C13_postgres_grammar",
    "C12_C13_C14_rejected"
   ],
   "note": ""
  },
  {
   "property": "C14",
   "status": "proved",
   "theorems": [
    "C14_mysql_grammar",
    "C12_C13_C14_rejected"
   ],
   "note": ""
  },
  {
   "property": "C15",
   "status": "partial",
   "theorems": [
    "C15_sqlite_tables_partial",
    "C15_sqlite_tables_only_partial",
    "C15_refuted",
    "C15_sqlite_exact",
    "C15_C16_C17_seen",
    "C15_C16_C17_safe_seen"
   ],
   "note": "REFUTED (the property is false of the code): schema-qualified references, a constraint named AUTO_INCREMENT and ',,' in expressions. Proved for all scripts outside these (predicate `safe`), and false for every script that is not `safe` (C15_sqlite_exact). C15_C16_C17_seen says what is reported instead, except for schema-qualified references."
  },
  {
   "property": "C16",
   "status": "partial",
   "theorems": [
    "C16_postgres_tables_partial",
    "C16_postgres_tables_only_partial",
    "C16_refuted",
    "C16_postgres_exact",
    "C15_C16_C17_seen",
    "C15_C16_C17_safe_seen"
   ],
   "note": "REFUTED (the property is false of the code): as for SQLite, and an unnamed EXCLUDE as first of several elements. Proved for all scripts outside these (predicate `safe`), and false for every script that is not `safe` (C16_postgres_exact)."
  },
  {
   "property": "C17",
   "status": "partial",
   "theorems": [
    "C17_mysql_tables_partial",
    "C17_mysql_tables_only_partial",
    "C17_refuted",
    "C17_mysql_exact_partial",
    "C15_C16_C17_seen",
    "C15_C16_C17_safe_seen"
   ],
   "note": "REFUTED (the property is false of the code): as for SQLite, and INDEX/KEY/FULLTEXT/SPATIAL elements. Proved for all scripts outside these (predicate `safe`), and false for every script that is not `safe` (C17_mysql_exact_partial; open only for scripts with INDEX elements and a table that is not `ordinary`, that is without columns or with ',' or ')' as a name)."
  },
  {
   "property": "C18",
   "status": "partial",
   "theorems": [
    "C18_one_table_each_partial",
    "C18_refuted"
   ],
   "note": "REFUTED (the property is false of the code): an INDEX element makes MySQL return an extra table. Proved for `readable` scripts."
  },
  {
   "property": "C19",
   "status": "proved",
   "theorems": [
    "C19_compose",
    "C19_compose_rejected"
   ],
   "note": ""
  },
  {
   "property": "C20",
   "status": "partial",
   "theorems": [
    "C20_refuted",
    "C20_located_partial",
    "C20_first_bad_token_partial",
    "C20_stays_partial"
   ],
   "note": "REFUTED (the property is false of the code): the whole text is lexed first, so a lexical error further on replaces the syntax error; the line is off by one when the text starts with a line break. True part (texts without lexical errors): the error names the first token after which no continuation is a script, its line is the number of line breaks before it plus one (a line break at the very start is not counted), and the verdict depends on the tokens up to it only."
  },
  {
   "property": "C21",
   "status": "proved",
   "theorems": [
    "C21_once",
    "C21_at",
    "C21_kinds"
   ],
   "note": "For every column with a correct beginning (any number of constraints, any kind repeated, anything after it). The error is at the word with which the repetition begins."
  },
  {
   "property": "C22",
   "status": "partial",
   "theorems": [
    "C22_reported_partial",
    "C22_squeeze",
    "C22_rejected",
    "C22_number",
    "C22_kinds",
    "C22_refuted"
   ],
   "note": "REFUTED (the property is false of the code): after a MySQL INDEX element the rest of the table is read as another table and a DEFAULT clause may be lost. Proved for `readable` scripts: numbers in every spelling of Go (decimal, hexadecimal, underscores, inf, nan) give the nearest float64, ties to even, with an independent definition over the rationals (numbers with exponents of 100000 and more only if they have at most 2000 characters); strings, NULL, TRUE, FALSE, CURRENT_..., expressions as stated. For all texts: a token after DEFAULT that is not a literal, for example a number too large for float64, is rejected there."
  },
  {
   "property": "C23",
   "status": "partial",
   "theorems": [
    "C23_reported_partial",
    "C23_first_rejected",
    "C23_second_rejected",
    "C23_refuted"
   ],
   "note": "REFUTED (the property is false of the code): after a MySQL INDEX element the rest of the table is read as another table. Proved for `readable` scripts: the numbers are reported; and for all texts: a number that is not a positive 64-bit integer is rejected at that number."
  },
  {
   "property": "C24",
   "status": "proved",
   "theorems": [
    "C24_accepts",
    "C24_rejects",
    "C24_diverges",
    "C24_tables"
   ],
   "note": "Same errors and same divergence; the tables differ from SQLite's in the quotes kept."
  },
  {
   "property": "C25",
   "status": "proved",
   "theorems": [
    "C25_refuted",
    "C25_rejected"
   ],
   "note": "REFUTED (the property is false of the code): the final ';' is required. C25_rejected: every script of every dialect without its last ';' is rejected at <EOF>."
  },
  {
   "property": "C26",
   "status": "proved",
   "theorems": [
    "C26_refuted",
    "C26_never_partial"
   ],
   "note": "REFUTED (the property is false of the code): the table after the '.' becomes a column, or Parse does not return. C26_never_partial: no script with a schema-qualified reference is reported faithfully (open only for MySQL scripts with INDEX elements and a table that is not `ordinary`)."
  },
  {
   "property": "C27",
   "status": "proved",
   "theorems": [
    "C27_refuted",
    "C27_never_partial"
   ],
   "note": "REFUTED (the property is false of the code): an INDEX element ends the table early, or Parse does not return. C27_never_partial: no `ordinary` script with an INDEX element is reported faithfully."
  },
  {
   "property": "C28",
   "status": "proved",
   "theorems": [
    "C28_refuted"
   ],
   "note": "REFUTED (the property is false of the code): a carriage return is part of a word."
  },
  {
   "property": "C29",
   "status": "partial",
   "theorems": [
    "C29_partial",
    "C29_texts",
    "C29_refuted"
   ],
   "note": "REFUTED (the property is false of the code): in MySQL the NOT after CHECK (..) is consumed without effect. True part: exactly the other NOT NULL outside brackets are reported (C29_partial, `readable` scripts)."
  },
  {
   "property": "C30",
   "status": "proved",
   "theorems": [
    "C30_options",
    "C30_parts"
   ],
   "note": "Whatever the options, the result (tables, error or endless loop) is the same; every CREATE TABLE statement of every script has the parts the theorem speaks of."
  },
  {
   "property": "C31",
   "status": "partial",
   "theorems": [
    "C31_open_quote",
    "C31_open_quote_line",
    "C31_open_comment_partial",
    "C31_refuted"
   ],
   "note": "REFUTED (the property is false of the code): a comment that begins right after another comment is not recognised, so it may stay open. True part: all open quotes, and all open comments that do not follow a comment or one of - / * directly."
  },
  {
   "property": "C32",
   "status": "partial",
   "theorems": [
    "C32_bad_character",
    "C32_stray_end_partial",
    "C32_refuted"
   ],
   "note": "REFUTED (the property is false of the code): '*/' right after a comment is taken as an operator. True part: full-width spaces and back quotes always; '*/' elsewhere."
  },
  {
   "property": "C33",
   "status": "partial",
   "theorems": [
    "C33_partial",
    "C33_never",
    "C33_refuted"
   ],
   "note": "REFUTED (the property is false of the code): an unnamed EXCLUDE as first of several elements leaves a column named ','. True part: every other EXCLUDE leaves the result unchanged; and with an unnamed EXCLUDE as first of several elements the tables are never right (C33_never)."
  },
  {
   "property": "C34",
   "status": "partial",
   "theorems": [
    "C34_sources_partial",
    "C34_refuted"
   ],
   "note": "REFUTED (the property is false of the code): MySQL puts PRIMARY in front of a lone KEY, and after an INDEX element it is read as a type. True for all accepted texts: the strings come from the tokens and the words CREATE (all dialects), PRIMARY and KEY (MySQL) that the validator puts in; no <EOF>."
  },
  {
   "property": "C35",
   "status": "partial",
   "theorems": [
    "C35_partial",
    "C35_refuted"
   ],
   "note": "REFUTED (the property is false of the code): expressions are concatenated without spaces. True part: two texts with the same result have the same CHECK and DEFAULT expressions, where of two neighbouring tokens one is a symbol or quoted (`safe` scripts)."
  },
  {
   "property": "C36",
   "status": "partial",
   "theorems": [
    "C36_partial",
    "C36_refuted"
   ],
   "note": "REFUTED (the property is false of the code): columns listed in constraints keep their quotes. True part (`readable` scripts): listed columns are reported as they are written, so they are spelled like Column.Name exactly if they have no quotation marks."
  },
  {
   "property": "C37",
   "status": "proved",
   "theorems": [
    "C37_refuted",
    "C37_rejected",
    "C37_two_tokens",
    "C37_C38_after_default"
   ],
   "note": "REFUTED (the property is false of the code): 'it''s' is read as two strings and rejected. C37_rejected: so is every DEFAULT clause with two strings in a row, at the second one."
  },
  {
   "property": "C38",
   "status": "proved",
   "theorems": [
    "C38_refuted",
    "C38_rejected",
    "C38_three_tokens",
    "C37_C38_after_default"
   ],
   "note": "REFUTED (the property is false of the code): '.' is a symbol of its own, so 1.5 is rejected. C38_rejected: so is every DEFAULT clause with a literal and a point after it, at the point."
  },
  {
   "property": "C39",
   "status": "proved",
   "theorems": [
    "C39_message",
    "C39_tells"
   ],
   "note": ""
  },
  {
   "property": "C40",
   "status": "proved",
   "theorems": [
    "C40_skipped",
    "C40_found"
   ],
   "note": "For every script before the skipped statement and every token list after it, correct or not."
  },
  {
   "property": "C41",
   "status": "proved",
   "theorems": [
    "C41_continued"
   ],
   "note": ""
  },
  {
   "property": "C42",
   "status": "proved",
   "theorems": [
    "C42_blank"
   ],
   "note": "For all layouts without lexemes (Layout.v): spaces, tabs, line breaks, comments as described in C07 and C08."
  },
  {
   "property": "C43",
   "status": "proved",
   "theorems": [
    "C43_round_trip",
    "C43_injective"
   ],
   "note": "The text is defined in Print.v, which does not use the model; the tables for which it is possible are described there by table_ok. Expressions are given in the form in which they are reported (without blanks)."
  },
  {
   "property": "C44",
   "status": "proved",
   "theorems": [
    "C44_portable",
    "C44_force",
    "C44_tokens"
   ],
   "note": "The common grammar is defined in Portable.v. It leaves out NOT directly after CHECK (..), see C45, and after REFERENCES .. (where SQLite expects NOT DEFERRABLE)."
  },
  {
   "property": "C45",
   "status": "partial",
   "theorems": [
    "C45_same_statements_partial",
    "C45_refuted"
   ],
   "note": "REFUTED (the property is false of the code): CHECK (..) NOT NULL is reported as NotNull by SQLite and PostgreSQL but not by MySQL. True part: if two dialects find the same statements in the text (the same words in the same roles) and these are `readable`, the tables are the same, with quotation marks, literals and collations treated alike."
  },
  {
   "property": "C46",
   "status": "partial",
   "theorems": [
    "C46_reported_partial",
    "C46_unknown",
    "C46_listed",
    "C46_refuted"
   ],
   "note": "REFUTED (the property is false of the code): after an unnamed EXCLUDE at the beginning of a PostgreSQL table, other words are reported as types. Missing: the names reported for scripts that are not `readable` (see C03: INDEX in MySQL, unnamed EXCLUDE first in PostgreSQL). That other words are rejected is proved for all texts, and each listed type is accepted. The lists are in TypeNames.v, independent of those of the model."
  },
  {
   "property": "C47",
   "status": "partial",
   "theorems": [
    "C47_partial",
    "C47_refuted"
   ],
   "note": "REFUTED (the property is false of the code): a constraint named AUTO_INCREMENT is taken for the word. Proved for `readable` scripts: the flags are set exactly if the words stand outside of brackets, or, for IsAutoincrement, are the name of a constraint."
  },
  {
   "property": "C48",
   "status": "proved",
   "theorems": [
    "C48_scripts",
    "C48_rejected",
    "C48_diverges",
    "C48_tables",
    "C48_types_partial"
   ],
   "note": "The words of the grammars are listed in Rename.v (vocabulary); names among them are not covered. In scripts that are not `readable`, a name may be reported as a type (see C46); C48_tables allows for that, C48_types_partial excludes it for `readable` scripts."
  },
  {
   "property": "C49",
   "status": "partial",
   "theorems": [
    "C49_tables",
    "C49_types_partial",
    "C49_rejected",
    "C49_refuted"
   ],
   "note": "REFUTED (the property is false of the code): column lists and expressions are reported with the quotation marks (see C36). Proved for all texts: all else is reported alike; for types see C48."
  },
  {
   "property": "C50",
   "status": "partial",
   "theorems": [
    "C50_names",
    "C50_table",
    "C50_column",
    "C50_refuted"
   ],
   "note": "REFUTED (the property is false of the code): INFILE (listed as INFILEx) and INTERSECT in MySQL, five words of PostgreSQL and eleven newer keywords of SQLite are accepted as names; in PostgreSQL, many words that are not reserved (data, count, path, ...) are rejected. C50_names says exactly which words are legal (the lists are in DocWords.v, those of the documentation and the exceptions); C50_table and C50_column: in all texts, whatever is not legal is rejected there."
  },
  {
   "property": "C51",
   "status": "proved",
   "theorems": [
    "C51_tokens",
    "C51_texts",
    "C51_errors",
    "C51_rejected",
    "C51_unique",
    "C51_scripts"
   ],
   "note": "The rules are the inductive relation `reads` in Lexical.v, which does not refer to the model of the lexer; they determine one result for each text (C51_unique)."
  },
  {
   "property": "C52",
   "status": "partial",
   "theorems": [
    "C52_accepts_partial",
    "C52_forever",
    "C52_refuted"
   ],
   "note": "REFUTED (the property is false of the code): a comment of MySQL that begins with # and has brackets makes ParseForce run forever, because it is no comment in SQLite, which is tried first. True part: texts that make Parse run forever in none of the dialects. C52_forever says exactly when ParseForce runs forever."
  },
  {
   "property": "C53",
   "status": "partial",
   "theorems": [
    "C53_accepted_partial",
    "C53_within",
    "C53_refuted"
   ],
   "note": "REFUTED (the property is false of the code): without the semicolon, with MATCH name, WITHOUT ROWID STRICT, NOT NULL directly after REFERENCES, a kind of constraint twice in a column, or CONSTRAINT name before later constraints of a column, texts are rejected. Proved: all scripts of README statements with these changes (`statement true` in ReadmeSqlite.v, part of `statement false`, the README) are accepted."
  },
  {
   "property": "C54",
   "status": "partial",
   "theorems": [
    "C54_accepted_partial",
    "C54_within",
    "C54_refuted"
   ],
   "note": "REFUTED (the property is false of the code): with AS (expr), a kind of constraint twice in a column (NULL NOT NULL too), CONSTRAINT name before later constraints of a column, or a table named if, texts are rejected. Proved: all scripts of README statements with these changes (`statement true` in ReadmePostgres.v, part of `statement false`, the README) are accepted."
  },
  {
   "property": "C55",
   "status": "partial",
   "theorems": [
    "C55_accepted_partial",
    "C55_within",
    "C55_refuted",
    "C55_forever_refuted",
    "C55_equals_refuted"
   ],
   "note": "REFUTED (the property is false of the code): with CHECK (..) NO INHERIT, UNIQUE USING without index name, the character set or collation binary, a kind of constraint twice in a column, or a constraint name after the first constraint of a column, texts are rejected; with INDEX, KEY, FULLTEXT, SPATIAL the call runs forever; ENGINE=InnoDB is rejected, ENGINE = InnoDB is not. Proved: all scripts of README statements with these changes (`statement true` in ReadmeMysql.v, part of `statement false`, the README; = is a token of its own) are accepted."
  },
  {
   "property": "C56",
   "status": "proved",
   "theorems": [
    "C56_tables",
    "C56_near",
    "C56_force"
   ],
   "note": ""
  },
  {
   "property": "C57",
   "status": "partial",
   "theorems": [
    "C57_exactly_partial",
    "C57_words_partial",
    "C57_refuted"
   ],
   "note": "REFUTED (the property is false of the code): DEFAULT nan, inf or infinity is accepted as a number in all dialects, and json.Marshal of a NaN or infinity is an error. Proved for all accepted texts: Marshal succeeds exactly if no default value is such a number; and it succeeds if these words are not among the tokens. The text of a finite float64 is modelled as any text of number characters that ParseFloat reads as that number (Json.v)."
  },
  {
   "property": "C58",
   "status": "proved",
   "theorems": [
    "C58_injective"
   ],
   "note": "With the model of encoding/json in Json.v; the text of a finite float64 is any text of number characters that ParseFloat reads as that number."
  },
  {
   "property": "C59",
   "status": "partial",
   "theorems": [
    "C59_order_partial",
    "C59_follow",
    "C59_refuted"
   ],
   "note": "REFUTED (the property is false of the code): SQLite rejects NOT NULL after REFERENCES ..; in MySQL, NOT NULL after CHECK (..) is not reported (nor rejected), and UNIQUE followed by KEY is one constraint, UNIQUE KEY, as in MySQL itself. C59_follow says exactly which words cannot follow a constraint. True part: in `readable` scripts, any order without such a word after a constraint gives the same tables."
  },
  {
   "property": "C60",
   "status": "partial",
   "theorems": [
    "C60_order_partial",
    "C60_refuted"
   ],
   "note": "REFUTED (the property is false of the code): if an unnamed EXCLUDE comes first in a PostgreSQL table, the comma after it is reported as a column. True part: `readable` scripts, if no such EXCLUDE comes first and there is no MySQL INDEX element (with which the call runs forever or reports something else, see C03)."
  },
  {
   "property": "C61",
   "status": "partial",
   "theorems": [
    "C61_column_clause_partial",
    "C61_element_clause",
    "C61_constraint_partial",
    "C61_refuted"
   ],
   "note": "REFUTED (the property is false of the code): in MySQL, NOT NULL after CHECK (..) is not reported, and after CHECK (..) ENFORCED it is. True part: the clauses listed in Clauses.v; in the constraints of a column, if with and without the clause no word follows a constraint that cannot (C59_follow) and no constraint is written twice."
  },
  {
   "property": "C62",
   "status": "partial",
   "theorems": [
    "C62_temporary",
    "C62_rejected",
    "C62_if_not_exists_partial",
    "C62_refuted"
   ],
   "note": "REFUTED (the property is false of the code): after a table with a schema-qualified reference, the next CREATE TABLE is read as columns of that table, so that IF NOT EXISTS changes these columns. True parts: TEMP and TEMPORARY for all texts; acceptance and the token of the error for all texts; the tables for `readable` scripts."
  },
  {
   "property": "C63",
   "status": "partial",
   "theorems": [
    "C63_sum_partial",
    "C63_alone_partial",
    "C63_refuted"
   ],
   "note": "REFUTED (the property is false of the code): an unnamed EXCLUDE as first of several elements (PostgreSQL) makes the comma after it a column. True part: `readable` scripts."
  },
  {
   "property": "C64",
   "status": "partial",
   "theorems": [
    "C64_tables",
    "C64_unmatched",
    "C64_refuted"
   ],
   "note": "REFUTED (the property is false of the code): in the CREATE statements that are skipped (CREATE VIEW ..), brackets are not checked. Proved for all texts: the brackets of every CREATE TABLE of an accepted text are matched, and a text is not accepted if those of a CREATE TABLE are not matched up to any semicolon."
  },
  {
   "property": "C65",
   "status": "partial",
   "theorems": [
    "C65_text_partial",
    "C65_mysql_partial",
    "C65_any_partial",
    "C65_any_mysql_partial",
    "C65_bytes_partial",
    "C65_mysql_bytes_partial",
    "C65_readable_partial",
    "C65_readable_bytes_partial",
    "C65_mysql_refuted",
    "C65_upper_refuted",
    "C65_bytes_refuted"
   ],
   "note": "REFUTED (the property is false of the code): for MySQL the converter can take the word PRIMARY, which the validator puts in before KEY, for part of a CHECK expression once it has lost its place after an INDEX, so that the result is longer than the text; after an EXCLUDE at the beginning of a PostgreSQL table it can report a name as a type, in upper case, which can be longer than the name; and a byte that is no UTF-8 is reported as the three bytes of U+FFFD. Proved: the bound for SQLite and PostgreSQL and UTF-8 texts without characters that have a longer upper case; with a factor 10/3 for MySQL; with a further factor 3/2 for all UTF-8 texts; with a factor 3, or 10 for MySQL, for arbitrary bytes; and the plain bound for `readable` scripts in all dialects and for all characters (a factor 3 for arbitrary bytes). Missing: the sharp factor for the others."
  },
  {
   "property": "C66",
   "status": "proved",
   "theorems": [
    "C66_place",
    "C66_line"
   ],
   "note": "For all texts, lexical errors included. The line can be smaller than that of the error (C66_before; see C20, C32)."
  },
  {
   "property": "C67",
   "status": "proved",
   "theorems": [
    "C67_returns",
    "C67_forever",
    "C67_force",
    "C67_bytes"
   ],
   "note": "The fuel of the model bounds the passes through a loop and the depth of nested calls; it is no bound on the work of all passes together. See C02 for texts for which a call does not return."
  },
  {
   "property": "C68",
   "status": "partial",
   "theorems": [
    "C68_complete_partial",
    "C68_incomplete",
    "C68_refuted"
   ],
   "note": "REFUTED (the property is false of the code): <EOF> can also be a word of the text, which is then rejected as Near '<EOF>' wherever it stands. Proved: for all texts without that word; and for all texts, one that can be completed is rejected, if it is, at <EOF>."
  },
  {
   "property": "C69",
   "status": "partial",
   "theorems": [
    "C69_exact_partial",
    "C69_late",
    "C69_refuted"
   ],
   "note": "REFUTED (the property is false of the code): a line break at the beginning of the text (also one that ends a comment there), one directly after a star or slash in a comment, and one directly after an inner quotation mark of another kind in a quoted text are not counted. Proved: for texts that begin with a letter and have no such line breaks (`calm` in Lines.v) the line is exact, lexical errors included; for those that begin with line breaks and are otherwise so, the line of a syntax error is one too small."
  },
  {
   "property": "C70",
   "status": "proved",
   "theorems": [
    "C70_types",
    "C70_upper",
    "C70_letters"
   ],
   "note": "With the upper case of Unicode 15.0 (Unicode.v)."
  },
  {
   "property": "C71",
   "status": "partial",
   "theorems": [
    "C71_scripts",
    "C71_rejected",
    "C71_diverges",
    "C71_tables",
    "C71_names_partial",
    "C71_text_partial",
    "C71_marks_partial",
    "C71_refuted"
   ],
   "note": "REFUTED (the property is false of the code): after a schema-qualified reference the converter takes the strings of a CHECK for names and types of columns. Proved for all texts: acceptance, the place of the error and whether the call returns do not depend on what strings say, and the tables are the same but for these strings wherever they are reported. For `readable` scripts these are default values and expressions only. C71_text_partial: texts that differ between the marks of a string only, wherever it begins, are such texts (contents without line breaks and quotation marks: others are read differently, see C09)."
  },
  {
   "property": "C72",
   "status": "partial",
   "theorems": [
    "C72_scripts",
    "C72_rejected",
    "C72_diverges",
    "C72_tables",
    "C72_names_partial",
    "C72_text_partial",
    "C72_kinds",
    "C72_refuted"
   ],
   "note": "REFUTED (the property is false of the code): after a schema-qualified reference the converter takes the numbers of a CHECK for names and types of columns. C72_kinds: numbers of different kinds are told apart (a length must be positive; MySQL expects 0 or 1 in some table options). Proved for all texts, for numbers of the same kind: acceptance, the place of the error and whether the call returns do not depend on which numbers stand in the text, and the tables are the same but for these numbers wherever they are reported. For `readable` scripts these are default values, expressions and the digits of types only. C72_text_partial: laid out texts (Layout.v) that differ in a number are such texts."
  },
  {
   "property": "C73",
   "status": "proved",
   "theorems": [
    "C73_any_names",
    "C73_refuted"
   ],
   "note": "REFUTED (the property is false of the code): one accepted text in each dialect breaks all of it. C73_any_names: nothing of it is ever checked; any names that can be written, whichever of them are the same, are the names of an accepted text."
  },
  {
   "property": "C74",
   "status": "proved",
   "theorems": [
    "C74_token",
    "C74_name",
    "C74_number",
    "C74_string",
    "C74_case"
   ],
   "note": "For all texts. That a token begins at a place means that the letters x and y there are tokens of their own; that it ends, that no character follows that can be part of a word (Place.v). The tables are related as in C48, C72, C71 and C10."
  },
  {
   "property": "C75",
   "status": "partial",
   "theorems": [
    "C75_cut",
    "C75_pieces",
    "C75_tables_partial",
    "C75_order",
    "C75_order_partial",
    "C75_refuted"
   ],
   "note": "REFUTED (the property is false of the code): a table with a schema-qualified reference takes the next statement for its columns; without it, the call runs forever. Proved for all texts: a script consists of scripts of one statement each, and accepted texts may be joined in any order. For `readable` scripts the pieces are accepted and the tables are theirs."
  },
  {
   "property": "C76",
   "status": "partial",
   "theorems": [
    "C76_before_partial",
    "C76_refuted"
   ],
   "note": "REFUTED (the property is false of the code): the whole text is divided into tokens first, so that a quotation mark without end in a later statement is reported instead. Proved: for all texts that can be divided into tokens. For the line, the statement holds for texts that are `calm` (Lines.v); in others some line breaks are not counted (C69), and the line lies between that in the rest and that plus the line breaks before it plus one."
  },
  {
   "property": "C77",
   "status": "proved",
   "theorems": [
    "C77_plain"
   ],
   "note": "For json.Marshal, which escapes these characters (Json.v). See C57 for the tables that cannot be written as JSON."
  },
  {
   "property": "C78",
   "status": "proved",
   "theorems": [
    "C78_grammar"
   ],
   "note": "For json.Marshal as in Json.v, where the form of the text of a float64 is taken from the documentation of strconv.AppendFloat and not modelled. See C57 for the tables that cannot be written as JSON."
  },
  {
   "property": "C79",
   "status": "proved",
   "theorems": [
    "C79_paths"
   ],
   "note": "The members are listed in JsonPaths.v. `write` is the text of a value as json.Marshal writes it, and `good` the values with strings in UTF-8 and numbers of JSON. See C57 for the tables that cannot be written as JSON."
  },
  {
   "property": "C80",
   "status": "proved",
   "theorems": [
    "C80_once",
    "C80_read",
    "C80_valid",
    "C80_same",
    "C80_repaired"
   ],
   "note": "Decodes.v is the description; runes_of (GoStr.v) is the model of Go's conversion []rune(s)."
  },
  {
   "property": "C81",
   "status": "partial",
   "theorems": [
    "C81_shift_partial",
    "C81_counted_partial",
    "C81_lexical_partial",
    "C81_uncounted",
    "C81_refuted"
   ],
   "note": "REFUTED (the property is false of the code): a line break at the very start is not counted. Proved: for all rejected texts the line is greater by the number of line breaks or by one less; it is exact before texts that begin with a line break and those that cannot be divided into tokens, and one less before all others that begin with a letter."
  },
  {
   "property": "C82",
   "status": "proved",
   "theorems": [
    "C82_tables",
    "C82_force",
    "C82_near",
    "C82_message"
   ],
   "note": "For all texts. Other control characters, such as a carriage return, are reported as they are (C28)."
  },
  {
   "property": "C83",
   "status": "partial",
   "theorems": [
    "C83_named_partial",
    "C83_types",
    "C83_columns_partial",
    "C83_refuted",
    "C83_refuted_column",
    "C83_refuted_columns"
   ],
   "note": "REFUTED (the property is false of the code): an empty quotation is a name of a table or column, and a table may have constraints only. Proved for all accepted texts: names are not empty if there is no empty quotation (double or back quotes) among the tokens, and types are never empty. For `readable` scripts a table has columns if columns are written in its statement."
  },
  {
   "property": "C84",
   "status": "partial",
   "theorems": [
    "C84_sensible_partial",
    "C84_int64",
    "C84_refuted"
   ],
   "note": "REFUTED (the property is false of the code): after a schema-qualified reference the converter takes CHECK (-5) for a type of length -5. Proved: for `readable` scripts; for all accepted texts the numbers lie between -2^63 and 2^63-1."
  },
  {
   "property": "C85",
   "status": "partial",
   "theorems": [
    "C85_columns_partial",
    "C85_tables_partial",
    "C85_closed_partial",
    "C85_refuted"
   ],
   "note": "REFUTED (the property is false of the code): after a schema-qualified reference the converter takes words of an expression for constraints and reports the expression 3). True part: `readable` scripts; in all texts the expression of a table CHECK ends with a closing bracket, and that of a column is empty or ends with one."
  },
  {
   "property": "C86",
   "status": "partial",
   "theorems": [
    "C86_keys_partial",
    "C86_foreign_partial",
    "C86_refuted",
    "C86_refuted_postgres"
   ],
   "note": "REFUTED (the property is false of the code): MySQL: UNIQUE ((a + 1)) is reported as a unique constraint without columns; PostgreSQL: words of an expression after a schema-qualified reference are taken for a key. True part: `readable` scripts in all dialects but MySQL; in MySQL, the columns of foreign keys and the references of columns. Missing: MySQL keys whose parts are not all expressions."
  }
 ]
}