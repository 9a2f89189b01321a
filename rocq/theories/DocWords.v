(** The reserved words of the dialects, according to their documentation, and where the library differs.

    SQLite: "SQLite Keywords" (sqlite.org/lang_keywords.html).  PostgreSQL: "SQL Key Words", the words marked as reserved,
    including those that can be function or type names (version 16).  MySQL: "Keywords and Reserved Words", the words marked (R)
    (version 8.0). *)
From Coq Require Import String List.
From Verif Require Import GoStr Types Names.
Import ListNotations.
Open Scope string_scope.

Definition documented (d : rdbms) : list string :=
  match d with
  | PostgreSQL =>
    ["ALL"; "ANALYSE"; "ANALYZE"; "AND"; "ANY"; "ARRAY"; "AS"; "ASC"; "ASYMMETRIC"; "AUTHORIZATION"; "BINARY"; "BOTH"; "CASE"; "CAST"; "CHECK";
     "COLLATE"; "COLLATION"; "COLUMN"; "CONCURRENTLY"; "CONSTRAINT"; "CREATE"; "CROSS"; "CURRENT_CATALOG"; "CURRENT_DATE"; "CURRENT_ROLE";
     "CURRENT_SCHEMA"; "CURRENT_TIME"; "CURRENT_TIMESTAMP"; "CURRENT_USER"; "DEFAULT"; "DEFERRABLE"; "DESC"; "DISTINCT"; "DO"; "ELSE";
     "END"; "EXCEPT"; "FALSE"; "FETCH"; "FOR"; "FOREIGN"; "FREEZE"; "FROM"; "FULL"; "GRANT"; "GROUP"; "HAVING"; "ILIKE"; "IN"; "INITIALLY";
     "INNER"; "INTERSECT"; "INTO"; "IS"; "ISNULL"; "JOIN"; "LATERAL"; "LEADING"; "LEFT"; "LIKE"; "LIMIT"; "LOCALTIME"; "LOCALTIMESTAMP";
     "NATURAL"; "NOT"; "NOTNULL"; "NULL"; "OFFSET"; "ON"; "ONLY"; "OR"; "ORDER"; "OUTER"; "OVERLAPS"; "PLACING"; "PRIMARY"; "REFERENCES";
     "RETURNING"; "RIGHT"; "SELECT"; "SESSION_USER"; "SIMILAR"; "SOME"; "SYMMETRIC"; "SYSTEM_USER"; "TABLE"; "TABLESAMPLE"; "THEN"; "TO";
     "TRAILING"; "TRUE"; "UNION"; "UNIQUE"; "USER"; "USING"; "VARIADIC"; "VERBOSE"; "WHEN"; "WHERE"; "WINDOW"; "WITH"]
  | MySQL =>
    ["ACCESSIBLE"; "ADD"; "ALL"; "ALTER"; "ANALYZE"; "AND"; "AS"; "ASC"; "ASENSITIVE"; "BEFORE"; "BETWEEN"; "BIGINT"; "BINARY"; "BLOB"; "BOTH";
     "BY"; "CALL"; "CASCADE"; "CASE"; "CHANGE"; "CHAR"; "CHARACTER"; "CHECK"; "COLLATE"; "COLUMN"; "CONDITION"; "CONSTRAINT"; "CONTINUE";
     "CONVERT"; "CREATE"; "CROSS"; "CUBE"; "CUME_DIST"; "CURRENT_DATE"; "CURRENT_TIME"; "CURRENT_TIMESTAMP"; "CURRENT_USER"; "CURSOR";
     "DATABASE"; "DATABASES"; "DAY_HOUR"; "DAY_MICROSECOND"; "DAY_MINUTE"; "DAY_SECOND"; "DEC"; "DECIMAL"; "DECLARE"; "DEFAULT"; "DELAYED";
     "DELETE"; "DENSE_RANK"; "DESC"; "DESCRIBE"; "DETERMINISTIC"; "DISTINCT"; "DISTINCTROW"; "DIV"; "DOUBLE"; "DROP"; "DUAL"; "EACH";
     "ELSE"; "ELSEIF"; "EMPTY"; "ENCLOSED"; "ESCAPED"; "EXCEPT"; "EXISTS"; "EXIT"; "EXPLAIN"; "FALSE"; "FETCH"; "FIRST_VALUE"; "FLOAT";
     "FLOAT4"; "FLOAT8"; "FOR"; "FORCE"; "FOREIGN"; "FROM"; "FULLTEXT"; "FUNCTION"; "GENERATED"; "GET"; "GRANT"; "GROUP"; "GROUPING";
     "GROUPS"; "HAVING"; "HIGH_PRIORITY"; "HOUR_MICROSECOND"; "HOUR_MINUTE"; "HOUR_SECOND"; "IF"; "IGNORE"; "IN"; "INDEX"; "INFILE";
     "INNER"; "INOUT"; "INSENSITIVE"; "INSERT"; "INT"; "INT1"; "INT2"; "INT3"; "INT4"; "INT8"; "INTEGER"; "INTERSECT"; "INTERVAL"; "INTO";
     "IO_AFTER_GTIDS"; "IO_BEFORE_GTIDS"; "IS"; "ITERATE"; "JOIN"; "JSON_TABLE"; "KEY"; "KEYS"; "KILL"; "LAG"; "LAST_VALUE"; "LATERAL";
     "LEAD"; "LEADING"; "LEAVE"; "LEFT"; "LIKE"; "LIMIT"; "LINEAR"; "LINES"; "LOAD"; "LOCALTIME"; "LOCALTIMESTAMP"; "LOCK"; "LONG";
     "LONGBLOB"; "LONGTEXT"; "LOOP"; "LOW_PRIORITY"; "MASTER_BIND"; "MASTER_SSL_VERIFY_SERVER_CERT"; "MATCH"; "MAXVALUE"; "MEDIUMBLOB";
     "MEDIUMINT"; "MEDIUMTEXT"; "MIDDLEINT"; "MINUTE_MICROSECOND"; "MINUTE_SECOND"; "MOD"; "MODIFIES"; "NATURAL"; "NOT";
     "NO_WRITE_TO_BINLOG"; "NTH_VALUE"; "NTILE"; "NULL"; "NUMERIC"; "OF"; "ON"; "OPTIMIZE"; "OPTIMIZER_COSTS"; "OPTION"; "OPTIONALLY"; "OR";
     "ORDER"; "OUT"; "OUTER"; "OUTFILE"; "OVER"; "PARTITION"; "PERCENT_RANK"; "PRECISION"; "PRIMARY"; "PROCEDURE"; "PURGE"; "RANGE"; "RANK";
     "READ"; "READS"; "READ_WRITE"; "REAL"; "RECURSIVE"; "REFERENCES"; "REGEXP"; "RELEASE"; "RENAME"; "REPEAT"; "REPLACE"; "REQUIRE";
     "RESIGNAL"; "RESTRICT"; "RETURN"; "REVOKE"; "RIGHT"; "RLIKE"; "ROW"; "ROWS"; "ROW_NUMBER"; "SCHEMA"; "SCHEMAS"; "SECOND_MICROSECOND";
     "SELECT"; "SENSITIVE"; "SEPARATOR"; "SET"; "SHOW"; "SIGNAL"; "SMALLINT"; "SPATIAL"; "SPECIFIC"; "SQL"; "SQLEXCEPTION"; "SQLSTATE";
     "SQLWARNING"; "SQL_BIG_RESULT"; "SQL_CALC_FOUND_ROWS"; "SQL_SMALL_RESULT"; "SSL"; "STARTING"; "STORED"; "STRAIGHT_JOIN"; "SYSTEM";
     "TABLE"; "TERMINATED"; "THEN"; "TINYBLOB"; "TINYINT"; "TINYTEXT"; "TO"; "TRAILING"; "TRIGGER"; "TRUE"; "UNDO"; "UNION"; "UNIQUE";
     "UNLOCK"; "UNSIGNED"; "UPDATE"; "USAGE"; "USE"; "USING"; "UTC_DATE"; "UTC_TIME"; "UTC_TIMESTAMP"; "VALUES"; "VARBINARY"; "VARCHAR";
     "VARCHARACTER"; "VARYING"; "VIRTUAL"; "WHEN"; "WHERE"; "WHILE"; "WINDOW"; "WITH"; "WRITE"; "XOR"; "YEAR_MONTH"; "ZEROFILL"]
  | _ =>
    ["ABORT"; "ACTION"; "ADD"; "AFTER"; "ALL"; "ALTER"; "ALWAYS"; "ANALYZE"; "AND"; "AS"; "ASC"; "ATTACH"; "AUTOINCREMENT"; "BEFORE"; "BEGIN";
     "BETWEEN"; "BY"; "CASCADE"; "CASE"; "CAST"; "CHECK"; "COLLATE"; "COLUMN"; "COMMIT"; "CONFLICT"; "CONSTRAINT"; "CREATE"; "CROSS";
     "CURRENT"; "CURRENT_DATE"; "CURRENT_TIME"; "CURRENT_TIMESTAMP"; "DATABASE"; "DEFAULT"; "DEFERRABLE"; "DEFERRED"; "DELETE"; "DESC";
     "DETACH"; "DISTINCT"; "DO"; "DROP"; "EACH"; "ELSE"; "END"; "ESCAPE"; "EXCEPT"; "EXCLUDE"; "EXCLUSIVE"; "EXISTS"; "EXPLAIN"; "FAIL";
     "FILTER"; "FIRST"; "FOLLOWING"; "FOR"; "FOREIGN"; "FROM"; "FULL"; "GENERATED"; "GLOB"; "GROUP"; "GROUPS"; "HAVING"; "IF"; "IGNORE";
     "IMMEDIATE"; "IN"; "INDEX"; "INDEXED"; "INITIALLY"; "INNER"; "INSERT"; "INSTEAD"; "INTERSECT"; "INTO"; "IS"; "ISNULL"; "JOIN"; "KEY";
     "LAST"; "LEFT"; "LIKE"; "LIMIT"; "MATCH"; "MATERIALIZED"; "NATURAL"; "NO"; "NOT"; "NOTHING"; "NOTNULL"; "NULL"; "NULLS"; "OF";
     "OFFSET"; "ON"; "OR"; "ORDER"; "OTHERS"; "OUTER"; "OVER"; "PARTITION"; "PLAN"; "PRAGMA"; "PRECEDING"; "PRIMARY"; "QUERY"; "RAISE";
     "RANGE"; "RECURSIVE"; "REFERENCES"; "REGEXP"; "REINDEX"; "RELEASE"; "RENAME"; "REPLACE"; "RESTRICT"; "RETURNING"; "RIGHT"; "ROLLBACK";
     "ROW"; "ROWS"; "SAVEPOINT"; "SELECT"; "SET"; "TABLE"; "TEMP"; "TEMPORARY"; "THEN"; "TIES"; "TO"; "TRANSACTION"; "TRIGGER"; "UNBOUNDED";
     "UNION"; "UNIQUE"; "UPDATE"; "USING"; "VACUUM"; "VALUES"; "VIEW"; "VIRTUAL"; "WHEN"; "WHERE"; "WINDOW"; "WITH"; "WITHOUT"]
  end.

(** Reserved words that the library takes as names ("INFILEx" is in its list of words of MySQL). *)
Definition overlooked (d : rdbms) : list string :=
  match d with
  | PostgreSQL => ["CONCURRENTLY"; "CURRENT_CATALOG"; "CURRENT_SCHEMA"; "FETCH"; "VARIADIC"]
  | MySQL => ["INFILE"; "INTERSECT"]
  | _ => ["ALWAYS"; "EXCLUDE"; "FIRST"; "GENERATED"; "GROUPS"; "LAST"; "MATERIALIZED"; "NULLS"; "OTHERS"; "RETURNING"; "TIES"]
  end.
(** Words that it does not take as names although they are not reserved (in PostgreSQL, words that are reserved in the standard only). *)
Definition excessive (d : rdbms) : list string :=
  match d with
  | PostgreSQL =>
    ["A"; "ABS"; "ADA"; "ALIAS"; "ALLOCATE"; "ARE"; "ASENSITIVE"; "ATOMIC"; "ATTRIBUTE"; "ATTRIBUTES"; "AVG"; "BASE64"; "BERNOULLI"; "BETWEEN";
     "BITVAR"; "BIT_LENGTH"; "BLOB"; "BREADTH"; "C"; "CALL"; "CARDINALITY"; "CATALOG"; "CATALOG_NAME"; "CEIL"; "CEILING"; "CHARACTERS";
     "CHARACTER_LENGTH"; "CHARACTER_SET_CATALOG"; "CHARACTER_SET_NAME"; "CHARACTER_SET_SCHEMA"; "CHAR_LENGTH"; "CHECKED"; "CLASS_ORIGIN";
     "CLOB"; "COBOL"; "COLLATION_CATALOG"; "COLLATION_NAME"; "COLLATION_SCHEMA"; "COLLECT"; "COLUMN_NAME"; "COMMAND_FUNCTION";
     "COMMAND_FUNCTION_CODE"; "COMPLETION"; "CONDITION"; "CONDITION_NUMBER"; "CONNECT"; "CONNECTION_NAME"; "CONSTRAINT_CATALOG";
     "CONSTRAINT_NAME"; "CONSTRAINT_SCHEMA"; "CONSTRUCTOR"; "CONTAINS"; "CONTINUE"; "CONVERT"; "CORR"; "CORRESPONDING"; "COUNT";
     "COVAR_POP"; "COVAR_SAMP"; "CUBE"; "CUME_DIST"; "CURRENT"; "CURRENT_DEFAULT_TRANSFORM_GROUP"; "CURRENT_PATH";
     "CURRENT_TRANSFORM_GROUP_FOR_TYPE"; "CURSOR_NAME"; "DATA"; "DATE"; "DATETIME_INTERVAL_CODE"; "DATETIME_INTERVAL_PRECISION"; "DEFINED";
     "DEGREE"; "DENSE_RANK"; "DEPTH"; "DEREF"; "DERIVED"; "DESCRIBE"; "DESCRIPTOR"; "DESTROY"; "DESTRUCTOR"; "DETERMINISTIC"; "DIAGNOSTICS";
     "DISCONNECT"; "DISPATCH"; "DYNAMIC"; "DYNAMIC_FUNCTION"; "DYNAMIC_FUNCTION_CODE"; "ELEMENT"; "EQUALS"; "EVERY"; "EXCEPTION"; "EXCLUDE";
     "EXEC"; "EXISTING"; "EXP"; "FILTER"; "FINAL"; "FLOOR"; "FOLLOWING"; "FORTRAN"; "FOUND"; "FREE"; "FUSION"; "G"; "GENERAL"; "GENERATED";
     "GET"; "GO"; "GOTO"; "GROUPING"; "HEX"; "HIERARCHY"; "HOST"; "IDENTITY"; "IGNORE"; "IMPLEMENTATION"; "INDICATOR"; "INFIX";
     "INITIALIZE"; "INSTANCE"; "INSTANTIABLE"; "INTERSECTION"; "ITERATE"; "K"; "KEY_MEMBER"; "KEY_TYPE"; "LENGTH"; "LESS"; "LN"; "LOCATOR";
     "LOWER"; "M"; "MAP"; "MATCHED"; "MAX"; "MEMBER"; "MERGE"; "MESSAGE_LENGTH"; "MESSAGE_OCTET_LENGTH"; "MESSAGE_TEXT"; "METHOD"; "MIN";
     "MOD"; "MODIFIES"; "MODIFY"; "MODULE"; "MORE"; "MULTISET"; "MUMPS"; "NCLOB"; "NESTING"; "NEW"; "NORMALIZE"; "NORMALIZED"; "NULLABLE";
     "NUMBER"; "OCTETS"; "OCTET_LENGTH"; "OFF"; "OLD"; "OPEN"; "OPERATION"; "OPTIONS"; "ORDERING"; "ORDINALITY"; "OTHERS"; "OUTPUT"; "OVER";
     "OVERRIDING"; "PAD"; "PARAMETER"; "PARAMETERS"; "PARAMETER_MODE"; "PARAMETER_NAME"; "PARAMETER_ORDINAL_POSITION";
     "PARAMETER_SPECIFIC_CATALOG"; "PARAMETER_SPECIFIC_NAME"; "PARAMETER_SPECIFIC_SCHEMA"; "PARTITION"; "PASCAL"; "PATH"; "PERCENTILE_CONT";
     "PERCENTILE_DISC"; "PERCENT_RANK"; "PLI"; "POSTFIX"; "POWER"; "PRECEDING"; "PREFIX"; "PREORDER"; "PUBLIC"; "RANGE"; "RANK"; "READS";
     "RECURSIVE"; "REF"; "REFERENCING"; "REGR_AVGX"; "REGR_AVGY"; "REGR_COUNT"; "REGR_INTERCEPT"; "REGR_R2"; "REGR_SLOPE"; "REGR_SXX";
     "REGR_SXY"; "REGR_SYY"; "RESULT"; "RETURN"; "RETURNED_CARDINALITY"; "RETURNED_LENGTH"; "RETURNED_OCTET_LENGTH"; "RETURNED_SQLSTATE";
     "ROLLUP"; "ROUTINE"; "ROUTINE_CATALOG"; "ROUTINE_NAME"; "ROUTINE_SCHEMA"; "ROW_COUNT"; "ROW_NUMBER"; "SCALE"; "SCHEMA_NAME"; "SCOPE";
     "SCOPE_CATALOG"; "SCOPE_NAME"; "SCOPE_SCHEMA"; "SECTION"; "SELF"; "SENSITIVE"; "SERVER_NAME"; "SETS"; "SIZE"; "SOURCE"; "SPACE";
     "SPECIFIC"; "SPECIFICTYPE"; "SPECIFIC_NAME"; "SQL"; "SQLCODE"; "SQLERROR"; "SQLEXCEPTION"; "SQLSTATE"; "SQLWARNING"; "SQRT"; "STATE";
     "STATIC"; "STDDEV_POP"; "STDDEV_SAMP"; "STRUCTURE"; "STYLE"; "SUBCLASS_ORIGIN"; "SUBLIST"; "SUBMULTISET"; "SUM"; "TABLE_NAME";
     "TERMINATE"; "THAN"; "TIES"; "TIMEZONE_HOUR"; "TIMEZONE_MINUTE"; "TOP_LEVEL_COUNT"; "TRANSACTIONS_COMMITTED";
     "TRANSACTIONS_ROLLED_BACK"; "TRANSACTION_ACTIVE"; "TRANSFORM"; "TRANSFORMS"; "TRANSLATE"; "TRANSLATION"; "TRIGGER_CATALOG";
     "TRIGGER_NAME"; "TRIGGER_SCHEMA"; "UESCAPE"; "UNBOUNDED"; "UNDER"; "UNNAMED"; "UNNEST"; "UPPER"; "USAGE"; "USER_DEFINED_TYPE_CATALOG";
     "USER_DEFINED_TYPE_CODE"; "USER_DEFINED_TYPE_NAME"; "USER_DEFINED_TYPE_SCHEMA"; "VARIABLE"; "VAR_POP"; "VAR_SAMP"; "WHENEVER";
     "WIDTH_BUCKET"; "WITHIN"; "XMLAGG"; "XMLBINARY"; "XMLCOMMENT"; "XMLNAMESPACES"]
  | MySQL => ["AUTO_INCREMENT"; "ARRAY"; "MASTER"; "MEMBER"]
  | _ => []
  end.

(** A word: letters, digits and underscores, and no digit at the beginning. *)
Definition word (w : string) : Prop :=
  exists c s, w = String c s /\ In c letters /\ Forall (fun x => In x letters \/ In x digits) (list_ascii_of_string s).

(** The words with which an element of a table begins that is not a column. *)
Definition element_starts (d : rdbms) : list string :=
  match d with
  | PostgreSQL => ["CONSTRAINT"; "PRIMARY"; "UNIQUE"; "CHECK"; "FOREIGN"; "EXCLUDE";
                   "constraint"; "primary"; "unique"; "check"; "foreign"; "exclude"]
  | MySQL => ["CONSTRAINT"; "PRIMARY"; "UNIQUE"; "CHECK"; "FOREIGN"; "INDEX"; "KEY"; "FULLTEXT"; "SPATIAL";
              "constraint"; "primary"; "unique"; "check"; "foreign"; "index"; "key"; "fulltext"; "spatial"]
  | _ => ["CONSTRAINT"; "PRIMARY"; "UNIQUE"; "CHECK"; "FOREIGN"; "constraint"; "primary"; "unique"; "check"; "foreign"]
  end.
