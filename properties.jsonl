{"id": "C01", "title": "Parse never panics", "statement": "For every input text and every Rdbms value, Parse (and ParseSQLite, ParsePostgreSQL, ParseMySQL) never stops with a Go run-time panic such as a slice or index out of range.", "quantifier": "every byte string (valid UTF-8 or not), every Rdbms value including unknown ones", "why_tests_cant": "the slicing token[0:1] and token[1:len-1] is safe only because of an invariant about every token any input can produce", "anchors": ["ddlparse.go: Parse", "internal/converter/converter.go: isIdentifier, isStringValue, convertName, convertLiteralValue", "internal/validator/*.go: isIdentifier, isStringValue, isValidName"]}
{"id": "C02", "title": "Parse always returns", "statement": "For every input text and every dialect, Parse returns (with tables or an error) after finitely many steps.", "quantifier": "every input text, every dialect", "why_tests_cant": "non-termination can only be excluded, or its exact cause stated, by an argument over all inputs", "anchors": ["ddlparse.go: Parse", "internal/validator/validator.go: validateBracketsAux", "internal/converter/converter.go: convertTableDefinition, convertExprAux, convertCommaSeparatedColumnNames", "internal/lexer/lexer.go: lex, skipMultiLineComment, lexStringDoubleQuote, lexStringSingleQuote, lexStringBackQuote"]}
{"id": "C03", "title": "Errors and tables exclude each other", "statement": "Whenever Parse returns an error the table list is empty and the error is a ValidateError; whenever it returns tables the error is nil. The Line of the error is at least 1 and at most the number of lines of the input, and Near is either <EOF> or text taken from the input.", "quantifier": "every input text, every dialect", "why_tests_cant": "a bound on the reported position of every failing input", "anchors": ["ddlparse.go: Parse", "internal/common/errors.go: ValidateError", "internal/lexer/lexer.go: lexError", "internal/validator/validator.go: syntaxError"]}
{"id": "C04", "title": "ParseForce tries SQLite, PostgreSQL, MySQL in that order", "statement": "If ParseForce returns tables obtained from a dialect, they are exactly what Parse returns for the first dialect, in the order SQLite, PostgreSQL, MySQL, that accepts the text.", "quantifier": "every input text", "why_tests_cant": "relates four entry points on all inputs", "anchors": ["ddlparse.go: ParseForce"]}
{"id": "C05", "title": "ParseForce reports failure", "statement": "If every dialect rejects the text, ParseForce returns a non-nil error.", "quantifier": "every input text", "why_tests_cant": "must hold for every rejected text", "anchors": ["ddlparse.go: ParseForce"]}
{"id": "C06", "title": "Layout is irrelevant", "statement": "Two texts that consist of the same words and symbols separated by arbitrary (possibly different) amounts of spaces, tabs and line breaks give the same tables, or are both rejected near the same token.", "quantifier": "every sequence of words, every two layouts of it, every dialect", "why_tests_cant": "infinitely many layouts of infinitely many statements", "anchors": ["internal/lexer/lexer.go: lex, lexSpace, lexEOL, lexSymbol", "internal/validator/validator.go: init, next"]}
{"id": "C07", "title": "Line comments are ignored", "statement": "Putting a '--' comment (and in MySQL a '#' comment) before any line break does not change the result of Parse.", "quantifier": "every text, every comment body, every insertion point outside quotes and comments", "why_tests_cant": "infinitely many texts, comment bodies and positions", "anchors": ["internal/lexer/lexer.go: lexHyphen, lexSharp, skipComment"]}
{"id": "C08", "title": "Block comments are ignored", "statement": "Putting a /* ... */ comment between two words does not change the result of Parse.", "quantifier": "every text, every comment body, every insertion point outside quotes and comments", "why_tests_cant": "infinitely many texts, comment bodies and positions", "anchors": ["internal/lexer/lexer.go: lexSlash, skipMultiLineComment"]}
{"id": "C09", "title": "Quoted text is taken verbatim", "statement": "Text between matching quotes is one token and is taken literally, whatever spaces, symbols, comment markers or non-ASCII characters it contains; a quoted name is reported without its quotes and otherwise unchanged.", "quantifier": "every quoted content, every dialect", "why_tests_cant": "every content", "anchors": ["internal/lexer/lexer.go: lexStringDoubleQuote, lexStringSingleQuote, lexStringBackQuote", "internal/converter/converter.go: convertName, convertLiteralValue"]}
{"id": "C10", "title": "Keywords may be upper or lower case", "statement": "Changing any keyword of a statement from upper to lower case (or back) does not change whether it is accepted nor the resulting tables.", "quantifier": "every statement, every choice of case per keyword", "why_tests_cant": "exponentially many spellings of every statement", "anchors": ["internal/validator/validator.go: matchToken", "internal/converter/converter.go: matchToken"]}
{"id": "C11", "title": "Only legal names are accepted", "statement": "Every schema, table, column and constraint name in the result was, in the source, either a quoted identifier of the dialect or matches [a-zA-Z_][a-zA-Z0-9_]* and is not a reserved word of the dialect in any letter case.", "quantifier": "every accepted text", "why_tests_cant": "holds for every name in every accepted text", "anchors": ["internal/validator/*.go: isValidName, validateName, ReservedWords_*"]}
{"id": "C12", "title": "SQLite: exactly the grammar is accepted", "statement": "A token sequence passes the SQLite syntax check if and only if it is a sequence of statements of the SQLite grammar (CREATE TABLE statements as documented in README.md, and skipped CREATE statements), each ended by ';'.", "quantifier": "every token sequence the lexer can produce", "why_tests_cant": "an if-and-only-if over an infinite language", "anchors": ["internal/validator/validator_sqlite.go: Validate and everything it calls", "README.md"]}
{"id": "C13", "title": "PostgreSQL: exactly the grammar is accepted", "statement": "A token sequence passes the PostgreSQL syntax check if and only if it is a sequence of statements of the PostgreSQL grammar (CREATE TABLE statements as documented in README.md, and skipped CREATE statements), each ended by ';'.", "quantifier": "every token sequence the lexer can produce", "why_tests_cant": "an if-and-only-if over an infinite language", "anchors": ["internal/validator/validator_postgresql.go: Validate and everything it calls", "README.md"]}
{"id": "C14", "title": "MySQL: exactly the grammar is accepted", "statement": "A token sequence passes the MySQL syntax check if and only if it is a sequence of statements of the MySQL grammar (CREATE TABLE statements as documented in README.md, and skipped CREATE statements), each ended by ';'.", "quantifier": "every token sequence the lexer can produce", "why_tests_cant": "an if-and-only-if over an infinite language", "anchors": ["internal/validator/validator_mysql.go: Validate and everything it calls", "README.md"]}
{"id": "C15", "title": "SQLite: the tables say what the DDL says", "statement": "For every script of SQLite CREATE TABLE statements Parse returns, for each statement in order, the Table with exactly the described schema, name, IF NOT EXISTS flag, columns (name, type, digits, flags, default, check, collate, reference) in order and table constraints in order, and nothing else.", "quantifier": "every SQLite script of the documented grammar, any number and size of statements", "why_tests_cant": "functional correctness over all statements, not a sample", "anchors": ["ddlparse.go: Parse", "internal/validator/validator_sqlite.go", "internal/converter/converter.go"]}
{"id": "C16", "title": "PostgreSQL: the tables say what the DDL says", "statement": "For every script of PostgreSQL CREATE TABLE statements Parse returns, for each statement in order, the Table with exactly the described schema, name, IF NOT EXISTS flag, columns (name, type, digits, flags, default, check, collate, reference) in order and table constraints in order, and nothing else.", "quantifier": "every PostgreSQL script of the documented grammar, any number and size of statements", "why_tests_cant": "functional correctness over all statements, not a sample", "anchors": ["ddlparse.go: Parse", "internal/validator/validator_postgresql.go", "internal/converter/converter.go"]}
{"id": "C17", "title": "MySQL: the tables say what the DDL says", "statement": "For every script of MySQL CREATE TABLE statements Parse returns, for each statement in order, the Table with exactly the described schema, name, IF NOT EXISTS flag, columns (name, type, digits, flags, default, check, collate, reference) in order and table constraints in order, and nothing else.", "quantifier": "every MySQL script of the documented grammar, any number and size of statements", "why_tests_cant": "functional correctness over all statements, not a sample", "anchors": ["ddlparse.go: Parse", "internal/validator/validator_mysql.go", "internal/converter/converter.go"]}
{"id": "C18", "title": "One table per CREATE TABLE", "statement": "The number of tables returned equals the number of CREATE TABLE statements in the text; other CREATE statements (view, index, trigger with BEGIN ... END, ...) contribute nothing and do not disturb their neighbours.", "quantifier": "every accepted script", "why_tests_cant": "any number and interleaving of statements", "anchors": ["internal/validator/*.go: validateDdl, validateCreateOther", "internal/converter/converter.go: convert, convertTable"]}
{"id": "C19", "title": "Scripts compose", "statement": "If Parse accepts s1 with tables t1 and s2 with tables t2 then it accepts s1 followed by a blank line and s2, with tables t1 followed by t2; and a suffix that is rejected makes the whole text rejected.", "quantifier": "every pair of texts, every dialect", "why_tests_cant": "all pairs of texts", "anchors": ["ddlparse.go: Parse", "internal/validator/*.go: validate", "internal/converter/converter.go: convert"]}
{"id": "C20", "title": "A syntax error is located at the first offending token", "statement": "When the syntax check fails, Near is the token where it failed and Line is the line that token is on; the verdict depends only on the text up to and including that token.", "quantifier": "every rejected text, every continuation of it", "why_tests_cant": "every continuation of every rejected prefix", "anchors": ["internal/validator/validator.go: next, syntaxError, init"]}
{"id": "C21", "title": "A column constraint may be given only once", "statement": "A column that repeats a constraint keyword (also NULL together with NOT NULL in PostgreSQL and MySQL) is rejected.", "quantifier": "every column definition", "why_tests_cant": "any number of constraints in any order", "anchors": ["internal/validator/*.go: validateColumnConstraintsAux"]}
{"id": "C22", "title": "DEFAULT values are converted by kind", "statement": "DEFAULT number gives that number as float64, DEFAULT 'text' the text without quotes, TRUE/FALSE the booleans, NULL nil, the CURRENT_ keywords themselves, and DEFAULT (expr) the text of the bracketed expression.", "quantifier": "every literal, every dialect", "why_tests_cant": "every literal", "anchors": ["internal/converter/converter.go: convertDefaultValue, convertLiteralValue", "internal/common/utils.go: IsNumericToken"]}
{"id": "C23", "title": "Type digits are reported", "statement": "DigitN and DigitM of a column equal the numbers written in brackets after its type and are 0 when absent; numbers that are not positive 64-bit integers are rejected.", "quantifier": "every type and every number", "why_tests_cant": "every number including overflow", "anchors": ["internal/validator/validator_mysql.go: validateTypeDigitN, validateTypeDigitPS", "internal/validator/validator_postgresql.go: validateTypeDigitN", "internal/converter/converter.go: convertTypeDigit", "internal/common/utils.go: IsPositiveIntegerToken"]}
{"id": "C24", "title": "An unknown dialect is accepted like SQLite", "statement": "Parse with an Rdbms value other than the three constants accepts and rejects exactly the texts SQLite does.", "quantifier": "every text, every other Rdbms value", "why_tests_cant": "all texts", "anchors": ["internal/validator/validator.go: NewValidator", "internal/converter/converter.go: isIdentifier, isStringValue"]}
{"id": "C25", "title": "The final semicolon is optional (SQLite, README)", "statement": "README writes the SQLite statement as CREATE TABLE ... [;]: a script whose last ';' is left out gives the same tables.", "quantifier": "every SQLite script", "why_tests_cant": "every script", "anchors": ["README.md: SQLite", "internal/validator/validator_sqlite.go: validateCreateTable"]}
{"id": "C26", "title": "A reference may name a schema-qualified table", "statement": "REFERENCES schema.table (col), accepted by the syntax check, is reported as a reference of the column and leaves the other columns unaffected.", "quantifier": "every accepted statement with such a reference", "why_tests_cant": "every statement", "anchors": ["internal/validator/*.go: validateConstraintReferences, validateTableName", "internal/converter/converter.go: convertReference"]}
{"id": "C27", "title": "MySQL index definitions leave the table unaffected", "statement": "Adding an INDEX / KEY / FULLTEXT / SPATIAL element to an accepted MySQL CREATE TABLE leaves the returned tables unchanged.", "quantifier": "every accepted MySQL statement and index definition", "why_tests_cant": "every statement", "anchors": ["internal/validator/validator_mysql.go: validateIndexKeys, validateTableConstraintIndex", "internal/converter/converter.go: convertTableDefinition"]}
{"id": "C28", "title": "Line endings do not matter", "statement": "Replacing LF line endings by CRLF does not change the result of Parse.", "quantifier": "every text", "why_tests_cant": "every text", "anchors": ["internal/lexer/lexer.go: lex"]}
{"id": "C29", "title": "NOT NULL is reported wherever it is written", "statement": "For every accepted column definition IsNotNull is true if and only if the words NOT NULL occur among its constraints (outside brackets).", "quantifier": "every accepted column definition, every dialect, every order of constraints", "why_tests_cant": "every order of constraints", "anchors": ["internal/validator/validator_mysql.go: validateConstraintCheck", "internal/validator/validator_sqlite.go: validateConstraintReferencesAux", "internal/converter/converter.go: convertConstraintAux"]}
{"id": "C30", "title": "Table options do not affect the result", "statement": "Adding or changing the table options after the closing bracket of an accepted CREATE TABLE does not change the returned tables.", "quantifier": "every accepted statement and every list of options", "why_tests_cant": "every option list", "anchors": ["internal/validator/*.go: validateTableOptions"]}
{"id": "C31", "title": "Unterminated quotes and comments are errors", "statement": "A text that ends inside a quoted text or a block comment is rejected with Near = <EOF>.", "quantifier": "every text", "why_tests_cant": "every text", "anchors": ["internal/lexer/lexer.go: lexStringDoubleQuote, lexStringSingleQuote, lexStringBackQuote, skipMultiLineComment"]}
{"id": "C32", "title": "Illegal characters are rejected at their line", "statement": "A full-width space outside quotes and comments is rejected in every dialect, a back quote outside quotes and comments is rejected in PostgreSQL, and a stray '*/' is rejected; the error names that character and its line.", "quantifier": "every text", "why_tests_cant": "every text and position", "anchors": ["internal/lexer/lexer.go: lex, lexBackQuote, lexAsterisk"]}
{"id": "C33", "title": "PostgreSQL EXCLUDE leaves the table unaffected", "statement": "Adding an EXCLUDE element anywhere among the elements of an accepted PostgreSQL CREATE TABLE leaves the returned tables unchanged.", "quantifier": "every accepted PostgreSQL statement, every position of the element", "why_tests_cant": "every statement and position", "anchors": ["internal/validator/validator_postgresql.go: validateTableConstraintExclude", "internal/converter/converter.go: next, convertTableDefinition"]}
{"id": "C34", "title": "The result contains nothing that is not in the text", "statement": "Every string in the returned tables is taken from the tokens of the text (a token, a token without its quotes, an upper-cased type name, or a concatenation of consecutive tokens); no <EOF> marker or other invented text appears.", "quantifier": "every accepted text", "why_tests_cant": "every string of every result", "anchors": ["internal/converter/converter.go: next, token"]}
{"id": "C35", "title": "Check and default expressions keep their meaning", "statement": "Two CHECK (or DEFAULT) expressions that differ as token sequences are reported as different strings.", "quantifier": "every two expressions", "why_tests_cant": "every pair of expressions", "anchors": ["internal/converter/converter.go: convertExpr, convertExprAux, next"]}
{"id": "C36", "title": "Key columns are named like the columns they refer to", "statement": "A column listed in PRIMARY KEY, UNIQUE, FOREIGN KEY or REFERENCES is reported with the same spelling rule as Column.Name (quotes removed), so that it can be matched against the columns.", "quantifier": "every accepted statement", "why_tests_cant": "every statement", "anchors": ["internal/converter/converter.go: convertCommaSeparatedColumnNames, convertName"]}
{"id": "C37", "title": "A doubled quote inside a string stands for one quote", "statement": "The SQL spelling 'it''s' of a string literal is accepted as a DEFAULT and reported as it's.", "quantifier": "every string literal", "why_tests_cant": "every literal", "anchors": ["internal/lexer/lexer.go: lexStringSingleQuote"]}
{"id": "C38", "title": "Decimal numbers are accepted as DEFAULT", "statement": "DEFAULT d.d with digits on both sides of the point is accepted and reported as that number.", "quantifier": "every decimal number", "why_tests_cant": "every number", "anchors": ["internal/lexer/lexer.go: lexSymbol", "internal/validator/*.go: validateLiteralValue"]}
{"id": "C39", "title": "The error message tells where the error is", "statement": "ValidateError.Error() is: ValidateError: Syntax error: near '<Near>' at line <Line>. with Line in decimal; two errors that differ in Line or Near have different messages, whatever characters Near contains.", "quantifier": "every Line and every Near (any byte string)", "why_tests_cant": "Near may itself contain text like ' at line 3., so injectivity needs an argument over all strings", "anchors": ["internal/common/errors.go: ValidateError.Error"]}
{"id": "C40", "title": "Other CREATE statements are skipped", "statement": "Putting a CREATE VIEW / INDEX / TRIGGER / ... statement (with any contents without ';' outside BEGIN ... END) between, before or after other statements changes neither the tables nor, apart from its line number, the error.", "quantifier": "every script before it, every text after it (correct or not), every contents, every dialect", "why_tests_cant": "infinitely many contents and neighbours", "anchors": ["internal/validator/*.go: validateCreateOther", "internal/validator/validator.go: validateBracketsAux"]}
{"id": "C41", "title": "Continuing an accepted text only adds tables", "statement": "If a text is accepted and a text that begins with it is accepted as well, the tables of the longer text begin with those of the shorter one.", "quantifier": "every two texts (any bytes), every dialect", "why_tests_cant": "the boundary may fall inside a comment or inside a UTF-8 sequence", "anchors": ["ddlparse.go: Parse", "internal/lexer/lexer.go: lex", "internal/converter/converter.go: convert"]}
{"id": "C42", "title": "A text without statements has no tables", "statement": "A text that consists of white space and comments only is accepted and gives no tables.", "quantifier": "every sequence of spaces, tabs, line breaks and comments, every dialect", "why_tests_cant": "infinitely many texts", "anchors": ["ddlparse.go: Parse", "internal/lexer/lexer.go: lex, skipComment, skipMultiLineComment"]}
{"id": "C43", "title": "Written tables are read back", "statement": "Writing tables as CREATE TABLE statements (quoted names, upper case keywords, blanks between all parts, NOT NULL before PRIMARY KEY, UNIQUE, DEFAULT, CHECK, COLLATE, REFERENCES; table constraints after the columns; float64 defaults in exact decimal form) and parsing the text gives exactly these tables; hence different tables have different texts.", "quantifier": "every list of tables of any length whose names can be quoted (UTF-8 without quotation marks and line breaks), whose column lists hold names of the dialect, whose types are types of the dialect with sizes that fit in 64 bits, whose expressions are balanced brackets, and every float64 default, subnormal or huge", "why_tests_cant": "infinitely many tables; all combinations of clauses; every float64", "anchors": ["ddlparse.go: Parse", "internal/validator/*.go: validateCreateTable", "internal/converter/converter.go: convertTable, convertLiteralValue"]}
{"id": "C44", "title": "Portable scripts are read alike by all dialects", "statement": "A script that uses only what SQLite, PostgreSQL and MySQL have in common (types TEXT, NUMERIC, INTEGER, REAL; PRIMARY KEY, NOT NULL, UNIQUE, CHECK, DEFAULT, REFERENCES and the four table constraints; names and literals that are legal in all of them) is accepted by all three, with the same tables, and ParseForce returns these tables; the same for PostgreSQL and MySQL with more types. A text without number signs and back quotes has the same tokens in all dialects.", "quantifier": "every script of the common grammar, of any length and nesting", "why_tests_cant": "infinitely many scripts; three validators with different optional clauses at every point", "anchors": ["ddlparse.go: Parse", "internal/validator/validator_sqlite.go", "internal/validator/validator_postgresql.go", "internal/validator/validator_mysql.go", "internal/lexer/lexer.go: lexBackQuote, lexSharp", "internal/converter/converter.go"]}
{"id": "C45", "title": "Dialects that accept the same text agree on it", "statement": "If two dialects accept the same text, they return the same tables.", "quantifier": "every text, every two of the three dialects", "why_tests_cant": "infinitely many texts", "anchors": ["ddlparse.go: Parse", "internal/validator/validator_mysql.go: validateConstraintCheck"]}
{"id": "C46", "title": "Types of columns are those listed for the dialect and are reported in upper case", "statement": "Every type of the dialect, in upper or lower case, is accepted as the type of a column and reported in upper case (PostgreSQL: BIT VARYING as VARBIT, CHARACTER VARYING as VARCHAR); any other word after the name of a column, a type in mixed case among them, is a syntax error at that word.", "quantifier": "every script before, every name, every word, every continuation, every dialect", "why_tests_cant": "infinitely many words that are no types, in infinitely many surroundings", "anchors": ["internal/validator/*.go: validateColumnType", "internal/validator/validator_postgresql.go: DataType_PostgreSQL", "internal/validator/validator_mysql.go: DataType_MySQL", "internal/converter/converter.go: convertDateType"]}
{"id": "C47", "title": "PRIMARY KEY, UNIQUE and AUTO_INCREMENT are reported exactly for the columns that have them", "statement": "A column is reported as IsPrimaryKey (IsUnique, IsAutoincrement) exactly if its definition has PRIMARY KEY or, in MySQL, KEY (UNIQUE; AUTOINCREMENT or AUTO_INCREMENT) outside of brackets; words inside of CHECK and DEFAULT expressions do not count.", "quantifier": "every script, with any number of tables and columns, every dialect", "why_tests_cant": "every combination and order of constraints with arbitrary expressions", "anchors": ["internal/converter/converter.go: convertConstraint, convertConstraintAux", "internal/validator/*.go: validateColumnConstraint", "internal/validator/validator_mysql.go: validateConstraintPrimaryKey, validateConstraintAutoincrement"]}
{"id": "C48", "title": "Names have no meaning", "statement": "Replacing names that are no words of the dialect's grammar by other such names, quoted or not, each occurrence on its own, changes neither whether a text is accepted nor where its error is, and the tables differ only in these names; in particular nothing is required of the names (columns may have the same name, keys may name columns that do not exist; README: semantic errors are not detected).", "quantifier": "every text (correct or not), every dialect, all replacements", "why_tests_cant": "infinitely many names in infinitely many texts", "anchors": ["ddlparse.go: Parse", "internal/validator/*.go: validateName, isValidName", "internal/validator/*.go", "internal/converter/converter.go", "README.md"]}
{"id": "C49", "title": "Names may be quoted or not", "statement": "Writing a name that is no word of the dialect's grammar with other quotation marks or without changes neither whether a text is accepted nor what is reported.", "quantifier": "every text, every dialect, every set of occurrences of names", "why_tests_cant": "infinitely many texts and names", "anchors": ["ddlparse.go: Parse", "internal/validator/*.go: validateName, isValidName", "internal/converter/converter.go: convertName, convertCommaSeparatedColumnNames"]}
{"id": "C50", "title": "Reserved words are not names", "statement": "A word (letters, digits, underscores) may be used as a name without quotation marks exactly if it is not a reserved word of the dialect according to the dialect's documentation, in any mixture of upper and lower case; otherwise the text is rejected at this word.", "quantifier": "every word, every dialect; every text that contains it as the name of a table or column", "why_tests_cant": "infinitely many words and texts", "anchors": ["internal/validator/validator_sqlite.go: isValidName, ReservedWords_SQLite", "internal/validator/validator_postgresql.go: isValidName, ReservedWords_PostgreSQL", "internal/validator/validator_mysql.go: isValidName, ReservedWords_MySQL"]}
{"id": "C51", "title": "Every text is divided into tokens as described", "statement": "Comments are removed and a text is divided into words, symbols, quoted text and line breaks; the lexical errors are quoted text and block comments that do not end, */ outside of comments, full-width spaces and, in PostgreSQL, back quotes. The division of every text and the place of the error are exactly those of the rules in Lexical.v, which say where comments are not recognised and which characters of quoted text are left out.", "quantifier": "every text (any bytes), every dialect", "why_tests_cant": "infinitely many texts; the rules interact at every boundary between tokens", "anchors": ["internal/lexer/lexer.go", "internal/common/errors.go"]}
{"id": "C52", "title": "ParseForce accepts what one of the dialects accepts", "statement": "If Parse accepts a text in one of the dialects SQLite, PostgreSQL and MySQL, ParseForce returns tables for it, and these are the tables of a dialect that accepts it.", "quantifier": "every text", "why_tests_cant": "four entry points on all texts, including those for which one of them does not return", "anchors": ["ddlparse.go: ParseForce, Parse"]}
{"id": "C53", "title": "What the README describes for SQLite is accepted", "statement": "Every sequence of CREATE TABLE statements of the grammar that README.md gives for SQLite (types, names and literals as in C13, C46 and C50) is accepted, with one table for each statement.", "quantifier": "every text whose tokens are such statements", "why_tests_cant": "infinitely many statements; optional parts combine freely", "anchors": ["README.md:113-152", "internal/validator/validator_sqlite.go", "internal/validator/validator_sqlite.go: validateColumnConstraint, validateTableConstraint", "internal/converter/converter.go"]}
{"id": "C54", "title": "What the README describes for PostgreSQL is accepted", "statement": "Every sequence of CREATE TABLE statements of the grammar that README.md gives for PostgreSQL (types, names and literals as in C13, C46 and C50) is accepted, with one table for each statement.", "quantifier": "every text whose tokens are such statements", "why_tests_cant": "infinitely many statements; optional parts combine freely", "anchors": ["README.md:153-199", "internal/validator/validator_postgresql.go", "internal/validator/validator_postgresql.go: validateColumnConstraint, validateTableConstraint", "internal/converter/converter.go"]}
{"id": "C55", "title": "What the README describes for MySQL is accepted", "statement": "Every sequence of CREATE TABLE statements of the grammar that README.md gives for MySQL (types, names and literals as in C13, C46 and C50) is accepted, with one table for each statement.", "quantifier": "every text whose tokens are such statements", "why_tests_cant": "infinitely many statements; optional parts combine freely", "anchors": ["README.md:201-273", "internal/validator/validator_mysql.go", "internal/validator/validator_mysql.go: validateColumnConstraint, validateTableConstraint", "internal/converter/converter.go"]}
{"id": "C56", "title": "What is reported is valid UTF-8", "statement": "All strings of the tables that Parse and ParseForce return (names, types, default values, expressions, column lists) and the text Near of a ValidateError are valid UTF-8, even if the given text is not.", "quantifier": "every text (any bytes), every dialect", "why_tests_cant": "texts are arbitrary byte strings; quotation marks are cut off by byte positions and words are changed byte by byte", "anchors": ["internal/lexer/lexer.go: Lex", "internal/converter/converter.go", "internal/common/errors.go"]}
{"id": "C57", "title": "The result can be written as JSON", "statement": "The types have JSON tags: for every accepted text, json.Marshal of the tables succeeds.", "quantifier": "every text, every dialect", "why_tests_cant": "infinitely many texts; the default values are of type interface{}", "anchors": ["internal/types/types.go:4-67", "internal/converter/converter.go: convertLiteralValue"]}
{"id": "C58", "title": "The JSON text of the result determines the tables", "statement": "Two accepted texts whose tables have the same JSON text have the same tables: types of default values (string, number, boolean, none), nil and empty lists, and all strings can be told apart.", "quantifier": "every pair of texts and dialects for which there is a JSON text", "why_tests_cant": "all pairs of texts; strings are escaped and concatenated", "anchors": ["internal/types/types.go:4-67", "internal/converter/converter.go"]}
{"id": "C59", "title": "The order of the constraints of a column does not matter", "statement": "If the constraints of a column (NOT NULL, UNIQUE, DEFAULT .., CHECK .., REFERENCES .., PRIMARY KEY, ..) are written in another order, the text is accepted as before and the tables are the same.", "quantifier": "every accepted text, every column, every permutation of its constraints, every dialect", "why_tests_cant": "all permutations of all lists of constraints; clauses at the end of a constraint can swallow the beginning of the next", "anchors": ["internal/validator/validator_sqlite.go: validateColumnConstraintsAux", "internal/validator/validator_postgresql.go: validateColumnConstraintsAux", "internal/validator/validator_mysql.go: validateColumnConstraintsAux, validateConstraintCheck", "internal/converter/converter.go: convertConstraintAux"]}
{"id": "C60", "title": "The table constraints may stand anywhere among the columns", "statement": "If the elements of a table (columns and constraints) are written in another order, in which the columns, the PRIMARY KEY, the UNIQUE, the CHECK and the FOREIGN KEY constraints are each in the same order as before, the text is accepted as before and the tables are the same.", "quantifier": "every accepted text, every such order, every dialect", "why_tests_cant": "all interleavings of all lists of elements", "anchors": ["internal/converter/converter.go: convertTableDefinition, convertColumnDefinition", "internal/validator: validateTableDefinition"]}
{"id": "C61", "title": "Clauses that are not part of the result do not influence it", "statement": "Inserting or removing a clause that the result has no field for (ON DELETE .., ON CONFLICT .., INCLUDE (..), NO INHERIT, [NOT] ENFORCED, index names, types and options, WITH TIME ZONE, NULL, GENERATED .., COMMENT .., ..) does not change whether the text is accepted, nor the tables.", "quantifier": "every text, every such clause of every constraint, every dialect", "why_tests_cant": "all clauses of all constraints in all positions; a clause can hide or reveal what follows it", "anchors": ["internal/validator/validator_sqlite.go: validateConflictClause, validateTableConstraintForeignKey", "internal/validator/validator_postgresql.go: validateIndexParameters, validateColumnConstraintsAux", "internal/validator/validator_mysql.go: validateIndexOption, validateConstraintCheck", "internal/converter/converter.go: convertConstraintAux"]}
{"id": "C62", "title": "TEMP and IF NOT EXISTS change nothing but a flag", "statement": "Writing TEMP or TEMPORARY after CREATE (SQLite) does not change the result for any text. Writing IF NOT EXISTS after CREATE TABLE does not change whether the text is accepted, nor the token at which it is rejected, and the tables are the same except that IfNotExists of that table is set.", "quantifier": "every text with a CREATE TABLE after any complete statements, whatever follows, every dialect", "why_tests_cant": "arbitrary continuations of the text, including those that are rejected", "anchors": ["internal/validator/validator_sqlite.go: validateDdl, validateIfNotExists", "internal/validator/validator_postgresql.go: validateIfNotExists", "internal/validator/validator_mysql.go: validateIfNotExists", "internal/converter/converter.go: convertTable"]}
{"id": "C63", "title": "A table is the sum of its elements", "statement": "A table with the elements (columns and constraints) of two tables one after the other has the columns and the constraints of the first followed by those of the second. The same elements have the same columns and constraints in every table of every text.", "quantifier": "every accepted text, every division of the elements of a table, every dialect", "why_tests_cant": "all lists of elements, all surrounding texts", "anchors": ["internal/converter/converter.go: convertTableDefinition, convertColumnDefinition, convertTableConstraint"]}
{"id": "C64", "title": "Brackets are matched in accepted texts", "statement": "In an accepted text the brackets outside of quotes and comments are matched.", "quantifier": "every accepted text, every dialect", "why_tests_cant": "all texts; brackets are checked at many places of the validators", "anchors": ["internal/validator/validator.go: validateBrackets", "internal/validator: validateCreateTable, validateCreateOther"]}
{"id": "C65", "title": "The result is no longer than the text", "statement": "The strings in the reported tables (schema, table, column, constraint and type names, default and CHECK texts, collations, referenced tables and columns) are together no longer, in bytes, than the text.", "quantifier": "every accepted text, every dialect", "why_tests_cant": "a bound for every text; whether output can outgrow input is a matter of the worst text", "anchors": ["internal/validator/validator_mysql.go: validateConstraintPrimaryKey", "internal/lexer/lexer.go: []rune(ddl)", "internal/converter/converter.go"]}
{"id": "C66", "title": "An error lies in the text", "statement": "When a text is rejected, Near is a piece of the text (quoted text without line breaks and the characters left out in it) or '<EOF>' for its end, and Line is at least 1 and at most the line on which that piece ends.", "quantifier": "every rejected text, every dialect", "why_tests_cant": "every rejected text; line counters of the lexer and the validator are advanced in a dozen places", "anchors": ["internal/lexer/lexer.go: lexError, lexEOL, skipComment, skipMultiLineComment, lexString*", "internal/validator/validator.go: init, next, syntaxError"]}
{"id": "C67", "title": "A call returns within a number of passes proportional to the text, or never", "statement": "If a call returns at all, then no loop in it is passed more than 4n + 9 times and no call in it is nested deeper than that, where n is the number of characters of the text. So a call that exceeds this never returns.", "quantifier": "every text (any bytes), every dialect, and ParseForce", "why_tests_cant": "the worst case over all texts; deep recursion and repeated scanning show only in texts made for the purpose", "anchors": ["internal/lexer/lexer.go", "internal/validator/validator.go", "internal/converter/converter.go: convert, convertConstraintAux, convertExprAux, convertCommaSeparatedColumnNames", "ddlparse.go: Parse, ParseForce"]}
{"id": "C68", "title": "An error at the end of the text means that the text is incomplete", "statement": "If a text that can be divided into tokens is rejected, Near is '<EOF>' exactly if something can be added after a blank line so that the text is a script of the dialect.", "quantifier": "every rejected text that can be divided into tokens, every continuation, every dialect", "why_tests_cant": "all continuations of a text; that there is one has to be shown for every place where a text can break off", "anchors": ["internal/validator/validator.go: token, isOutOfRange, syntaxError", "internal/common/constants.go: EOF", "internal/common/errors.go: NewValidateError", "internal/validator/validator_sqlite.go", "internal/validator/validator_postgresql.go", "internal/validator/validator_mysql.go"]}
{"id": "C69", "title": "The line of an error is the line on which what it names ends", "statement": "When a text is rejected, Line is one more than the number of line breaks in the text up to the end of the piece of text named by Near (up to the end of the text for '<EOF>').", "quantifier": "every rejected text, every dialect", "why_tests_cant": "every rejected text; line breaks are counted separately in words, quoted texts of each kind, three kinds of comments and in the validator", "anchors": ["internal/lexer/lexer.go: lexEOL, skipComment, skipMultiLineComment, lexString*", "internal/validator/validator.go: init, next"]}
{"id": "C70", "title": "Types are reported in upper case", "statement": "Whatever the case of the text, the name of the type of every reported column is in upper case: each of its characters is its own upper case, so that types can be compared with strings such as INTEGER.", "quantifier": "every accepted text, every column, every dialect", "why_tests_cant": "every text, including names with letters outside ASCII that the converter takes for types, and every letter that has an upper case in Unicode", "anchors": ["internal/converter/converter.go: convertDateType (219-237)"]}
{"id": "C71", "title": "What stands in a string has no influence on anything else", "statement": "Replacing what stands between the quotation marks of strings by anything else changes neither whether the text is accepted, nor where an error is reported, nor whether the call returns, nor anything in the tables but the default values and expressions in which these strings occur.", "quantifier": "every text, every replacement of strings by strings, every dialect", "why_tests_cant": "every text and every content of strings, such as keywords, brackets, comment signs or statements in them; no list of such contents is complete", "anchors": ["internal/lexer/lexer.go: lexString*", "internal/validator/validator_sqlite.go: isStringValue, isValidName, validateName, validateLiteralValue (and in the other dialects)", "internal/converter/converter.go: convertDefaultValue, convertLiteralValue, convertExpr, convertName"]}
{"id": "C72", "title": "Numbers have no influence on anything else", "statement": "Replacing numbers by other numbers, positive integers by positive integers and (in MySQL) anything but the literal 0 and 1, changes neither whether the text is accepted, nor where an error is reported, nor whether the call returns, nor anything in the tables but the digits of types and the default values and expressions in which these numbers occur.", "quantifier": "every text, every replacement of numbers by numbers of the same kind, every dialect", "why_tests_cant": "every text and every number strconv can read, of any length, sign, base or exponent", "anchors": ["internal/common/utils.go: IsNumericToken, IsPositiveIntegerToken", "internal/validator/validator_sqlite.go: validateLiteralValue (and in the other dialects)", "internal/validator/validator_mysql.go: validateTypeDigit*", "internal/converter/converter.go: convertDefaultValue, convertLiteralValue, convertExpr, convertTypeDigit"]}
{"id": "C73", "title": "The names in the reported tables agree with each other", "statement": "In the tables reported for an accepted text, no two tables and no two columns of a table have the same name, keys are made of columns of the table and name none twice, there is at most one primary key, and a foreign key has as many columns as it refers to.", "quantifier": "every accepted text, every dialect", "why_tests_cant": "tests show that given mistakes are or are not noticed; that no combination of names whatsoever is noticed is a statement about all tables", "anchors": ["internal/validator/validator_sqlite.go: validateTableDefinition (and in the other dialects)", "internal/converter/converter.go: convertTableDefinition, convertColumnDefinition, convertTableConstraint", "internal/types/types.go"]}
{"id": "C74", "title": "Replacing a token changes this token only", "statement": "If a word or a quoted text (without line breaks and other quotation marks) that stands as a token of its own is replaced by another one, all other tokens stay as they are, or the text has the same lexical error as before. So a name for a name, a number for a number of the same kind, a string for a string, or a word in another letter case changes the answer in this place only: not whether the text is accepted, not the line of the error, not whether the call returns, nor anything in the tables but what is made of this token.", "quantifier": "every text, every place in it where a token begins and ends, every replacement, every dialect", "why_tests_cant": "all texts and all places; tests fix the rest of the text", "anchors": ["internal/lexer/lexer.go: lex, lexString*, skipComment, skipMultiLineComment", "internal/validator/validator.go", "internal/converter/converter.go"]}
{"id": "C75", "title": "A script can be cut after any statement, and its statements may be put in any order", "statement": "An accepted text consists of one piece for each statement. Each piece is accepted by itself, the tables of the text are those of the pieces, and the pieces in any other order, with blank lines between them, are accepted with the tables in that order.", "quantifier": "every accepted text (any bytes), every place between two statements, every order, every dialect", "why_tests_cant": "all texts and all permutations; semicolons in strings, comments, brackets and BEGIN .. END blocks do not end statements", "anchors": ["internal/lexer/lexer.go: lex", "internal/validator/validator_sqlite.go: Validate, validateCreateTable (and in the other dialects)", "internal/converter/converter.go: convert, convertTable"]}
{"id": "C76", "title": "The error of a text is that of its first wrong statement", "statement": "A rejected text consists of a script, which may be empty, and a rest that does not begin with a statement; the rest alone is rejected at the same token, and the line of the error is that in the rest plus the line breaks before it (give or take one).", "quantifier": "every rejected text, every dialect", "why_tests_cant": "all texts; the statements before the error can be of any number and kind", "anchors": ["internal/validator/validator.go: token, next, syntaxError", "internal/validator/validator_sqlite.go: Validate, validateCreateTable (and in the other dialects)", "internal/lexer/lexer.go: lex"]}
{"id": "C77", "title": "The JSON text of the result can stand in a line of a script element", "statement": "If the tables of an accepted text can be written as JSON, the JSON text is UTF-8 without control characters, line breaks, < > & and the line separators of JavaScript, whatever stands in names, strings and expressions.", "quantifier": "every accepted text (any bytes), every dialect", "why_tests_cant": "all contents of names, strings and expressions", "anchors": ["internal/types/types.go: json tags", "go.mod: go 1.22 (encoding/json)"]}
{"id": "C78", "title": "The JSON text of the result is JSON", "statement": "If the tables of an accepted text can be written as JSON, the JSON text follows the grammar of RFC 8259: strings are closed and escaped, numbers are numbers of JSON, brackets and commas are in place, whatever stands in names, strings, numbers and expressions.", "quantifier": "every accepted text (any bytes), every dialect", "why_tests_cant": "all contents of names, strings, numbers and expressions", "anchors": ["internal/types/types.go: json tags", "go.mod: go 1.22 (encoding/json)"]}
{"id": "C79", "title": "The JSON text of the result has the members that the README names", "statement": "If the tables of an accepted text can be written as JSON, the JSON text is that of exactly one value: the array of the tables, each an object with the members schema, name, if_not_exists, columns, constraints, and so on as in the README, in this order and without others; each value is that of the field of the table, and an empty list of columns or constraints is null.", "quantifier": "every accepted text, every dialect, every table, column and constraint", "why_tests_cant": "all tables; the library has no test of the JSON text", "anchors": ["internal/types/types.go: json tags", "README.md: type Table", "go.mod: go 1.22 (encoding/json)"]}
{"id": "C80", "title": "A text is read as UTF-8", "statement": "Every sequence of bytes is read as one sequence of characters: a character of UTF-8 as that, and each byte with which no character begins (overlong forms, surrogates, characters cut off) as U+FFFD. The answer depends on these characters only, so that it is the same with U+FFFD in place of such bytes.", "quantifier": "every sequence of bytes, every dialect", "why_tests_cant": "all sequences of bytes; the tests have texts in UTF-8 only", "anchors": ["internal/lexer/lexer.go: init ([]rune(ddl)), char (string(rune))"]}
{"id": "C81", "title": "Line breaks before a text move its error down by as many lines", "statement": "If a text is rejected, it is rejected at the same token when line breaks are put before it, and the line is greater by their number.", "quantifier": "every rejected text, every number of line breaks, every dialect", "why_tests_cant": "all texts and numbers; no test of the library has an error after a line break at the start", "anchors": ["internal/validator/validator.go: init, next, syntaxError", "internal/lexer/lexer.go: lexEOL"]}
{"id": "C82", "title": "Reported strings and error messages are single lines", "statement": "No string in the tables of an accepted text contains a line feed, and neither does Near nor the message of the error of a rejected text, wherever there are line feeds in the text.", "quantifier": "every text (any bytes), every dialect, every string in every table", "why_tests_cant": "all texts; line feeds can stand in quoted names, strings and expressions, and inside quoted text within quoted text", "anchors": ["internal/lexer/lexer.go: lexStringDoubleQuote, lexStringSingleQuote, lexStringBackQuote, lexEOL", "internal/converter/converter.go", "internal/common/errors.go: Error"]}
{"id": "C83", "title": "Reported tables and columns have names, and tables have columns", "statement": "Every reported table has a name that is not empty and at least one column, and every reported column has a name and a type that are not empty.", "quantifier": "every accepted text, every dialect, every reported table and column", "why_tests_cant": "all accepted texts; no test of the library has an empty quotation for a name or a table of constraints only", "anchors": ["internal/converter/converter.go: convertTable, convertName, convertTableDefinition, convertColumnDefinition", "internal/validator/validator_sqlite.go, validator_postgresql.go, validator_mysql.go: isValidName, validateColumnDefinitions", "internal/lexer/lexer.go: lexStringDoubleQuote, lexStringBackQuote"]}
{"id": "C84", "title": "The numbers of a reported type are lengths", "statement": "For every reported column DigitN and DigitM are both 0, or DigitN is positive and DigitM is not negative, and both are less than 2^63.", "quantifier": "every accepted text, every dialect, every reported column", "why_tests_cant": "all accepted texts; no test of the library has a negative number in a CHECK after a schema-qualified reference", "anchors": ["internal/converter/converter.go: convertTypeDigit, convertReference", "internal/common/utils.go: IsPositiveIntegerToken", "internal/validator/validator_mysql.go: validateTypeDigitN, validateTypeDigitPS"]}
{"id": "C85", "title": "Reported CHECK expressions stand in brackets", "statement": "The expression reported for a CHECK, of a column or of a table, begins with an opening bracket and ends with a closing one, and a column without CHECK has an empty expression.", "quantifier": "every accepted text, every dialect, every reported column and table constraint", "why_tests_cant": "all accepted texts; expressions are arbitrary sequences of tokens with matching brackets", "anchors": ["internal/converter/converter.go: convertExpr, convertExprAux, convertConstraintAux, convertTableConstraint, convertReference"]}
{"id": "C86", "title": "Reported keys have columns", "statement": "Every reported primary key, unique constraint and foreign key has at least one column, and the list of columns of a reported reference is missing or not empty.", "quantifier": "every accepted text, every dialect, every reported constraint", "why_tests_cant": "all accepted texts; no test of the library has a MySQL key of expressions only", "anchors": ["internal/converter/converter.go: convertTableConstraint, convertCommaSeparatedColumnNames, convertReference", "internal/validator/validator_mysql.go: validateIndexKeys, validateIndexKeysAux"]}
