(** internal/validator/validator_mysql.go *)
From Coq Require Import String Ascii List Bool.
From Verif Require Import GoStr GoNum Types Lexer VBase Words.
Import ListNotations.
Open Scope string_scope.
Open Scope v_scope.

(** validator_mysql.go:39-42 [isStringValue]. *)
Definition isStringValue (t : string) : V bool := first_byte_in [""""; "'"] t.

(** validator_mysql.go:45-47 [isIdentifier]. *)
Definition isIdentifier (t : string) : V bool := first_byte_in ["`"] t.

(** validator_mysql.go:50-58 [isValidName]. *)
Definition isValidName (name : string) : V bool :=
  If isIdentifier name Then ret true
  Else ret (name_pattern name && negb (contains ReservedWords_MySQL (to_upper name))).

(** validator_mysql.go:61-71 [validateName]. *)
Definition validateName (set : bool) : V unit :=
  t <- token ;;
  If isValidName t Then next_set set Else syntaxError.

(** validator_mysql.go:74-85 [validateTableName]. *)
Definition validateTableName (set : bool) : V unit :=
  validateName set ;;
  If matchTokenNext set ["."] Then validateName set Else ret tt.

(** validator_mysql.go:88-90 [validateColumnName]. *)
Definition validateColumnName (set : bool) : V unit := validateName set.

(** validator_mysql.go:93-103 [validateStringValue]. *)
Definition validateStringValue (set : bool) : V unit :=
  t <- token ;;
  b <- isStringValue t ;;
  if negb b then syntaxError else next_set set.

(** validator_mysql.go:145-156 [validatePositiveInteger]. *)
Definition validatePositiveInteger (set : bool) : V unit :=
  t <- token ;;
  if negb (is_positive_integer_token t) then syntaxError
  else next_set set.

(** validator_mysql.go:107-117 [validateTypeDigitN]. *)
Definition validateTypeDigitN (set : bool) : V unit :=
  If matchTokenNext set ["("] Then
    validatePositiveInteger set ;;
    validateToken set [")"]
  Else ret tt.

(** validator_mysql.go:121-123 [validateTypeDigitP]. *)
Definition validateTypeDigitP (set : bool) : V unit := validateTypeDigitN set.

(** validator_mysql.go:127-142 [validateTypeDigitPS]. *)
Definition validateTypeDigitPS (set : bool) : V unit :=
  If matchTokenNext set ["("] Then
    validatePositiveInteger set ;;
    (If matchTokenNext set [","] Then validatePositiveInteger set Else ret tt) ;;
    validateToken set [")"]
  Else ret tt.

(** validator_mysql.go:159-161 [validateExpr]. *)
Definition validateExpr (fuel : nat) (set : bool) : V unit := validateBrackets fuel set.

(** validator_mysql.go:164-186 [validateLiteralValue]. *)
Definition validateLiteralValue (set : bool) : V unit :=
  t <- token ;;
  if is_numeric_token t then next_set set
  else
    If isStringValue t Then next_set set
    Else validateToken set
      ["NULL"; "TRUE"; "FALSE"; "CURRENT_TIME"; "CURRENT_DATE"; "CURRENT_TIMESTAMP"].

(** validator_mysql.go:202-220 [validateIndexKeysAux]. *)
Fixpoint validateIndexKeysAux (fuel : nat) (set : bool) : V unit :=
  match fuel with
  | O => OutOfFuel
  | S fuel =>
    (If matchToken ["("] Then validateExpr fuel false
     Else
       validateName set ;;
       validateTypeDigitN false) ;;
    skipOpt false ["ASC"; "DESC"] ;;
    If matchTokenNext set [","] Then validateIndexKeysAux fuel set
    Else ret tt
  end.

(** validator_mysql.go:189-200 [validateIndexKeys]; the closing bracket is always set. *)
Definition validateIndexKeys (fuel : nat) (set : bool) : V unit :=
  validateToken set ["("] ;;
  validateIndexKeysAux fuel set ;;
  validateToken true [")"].

(** validator_mysql.go:261-291 [validateCreateOther]. *)
Definition validateCreateOther (fuel : nat) : V unit :=
  validateToken false
    ["VIEW"; "TRIGGER"; "INDEX"; "DATABASE"; "UNIQUE"; "PROCEDURE"; "SERVER";
     "FUNCTION"; "USER"; "EVENT"; "SEQUENCE"; "TABLESPACE"; "ROLE"; "LOGIN"] ;;
  skip_statement fuel false ;;
  validateToken false [";"].

(** validator_mysql.go:294-304 [validateIfNotExists]. *)
Definition validateIfNotExists : V unit :=
  If matchTokenNext true ["IF"] Then
    validateToken true ["NOT"] ;;
    validateToken true ["EXISTS"]
  Else ret tt.

(** validator_mysql.go:352-397 [validateColumnType]. *)
Definition validateColumnType : V unit :=
  If matchTokenNext true ["VARCHAR"; "CHAR"; "BINARY"; "VARBINARY"; "BLOB"; "TEXT"] Then
    validateTypeDigitN true
  Else If matchTokenNext true ["NUMERIC"; "DECIMAL"; "FLOAT"; "REAL"; "DOUBLE"] Then
    validateTypeDigitPS true
  Else If matchTokenNext true
      ["BIT"; "TINYINT"; "SMALLINT"; "MEDIUMINT"; "INT"; "INTEGER"; "BIGINT"] Then
    validateTypeDigitP true
  Else If matchTokenNext true ["TIME"; "DATETIME"; "TIMESTAMP"; "YEAR"] Then
    validateTypeDigitP true ;;
    If matchTokenNext false ["WITH"; "WITHOUT"] Then
      validateToken false ["TIME"] ;;
      validateToken false ["ZONE"]
    Else ret tt
  Else validateToken true DataType_MySQL.

(** validator_mysql.go:412-418 [isColumnConstraint] (its argument is not used in Go). *)
Definition isColumnConstraint : V bool :=
  matchToken
    ["PRIMARY"; "KEY"; "NOT"; "NULL"; "UNIQUE"; "CHECK"; "DEFAULT"; "COLLATE"; "REFERENCES";
     "GENERATED"; "AS"; "COMMENT"; "COLUMN_FORMAT"; "ENGINE_ATTRIBUTE"; "SECONDARY_ENGINE_ATTRIBUTE";
     "STORAGE"; "VISIBLE"; "INVISIBLE"; "VIRTUAL"; "STORED"; "AUTO_INCREMENT"].

(** validator_mysql.go:506-520 [validateConstraintPrimaryKey]. *)
Definition validateConstraintPrimaryKey : V unit :=
  If matchToken ["KEY"] Then
    set_token "PRIMARY" ;;
    set_token "KEY" ;;
    next
  Else
    validateToken true ["PRIMARY"] ;;
    validateToken true ["KEY"].

(** validator_mysql.go:523-531 [validateConstraintNotNull]. *)
Definition validateConstraintNotNull : V unit :=
  validateToken true ["NOT"] ;;
  validateToken true ["NULL"].

(** validator_mysql.go:534-539 [validateConstraintNull]. *)
Definition validateConstraintNull : V unit := validateToken false ["NULL"].

(** validator_mysql.go:542-548 [validateConstraintUnique]. *)
Definition validateConstraintUnique : V unit :=
  validateToken true ["UNIQUE"] ;;
  skipOpt false ["KEY"].

(** validator_mysql.go:551-561 [validateConstraintCheck]. *)
Definition validateConstraintCheck (fuel : nat) : V unit :=
  validateToken true ["CHECK"] ;;
  validateExpr fuel true ;;
  skipOpt false ["NOT"] ;;
  skipOpt false ["ENFORCED"].

(** validator_mysql.go:564-587 [validateConstraintDefault]. *)
Definition validateConstraintDefault (fuel : nat) : V unit :=
  validateToken true ["DEFAULT"] ;;
  If matchToken ["("] Then validateExpr fuel true
  Else
    validateLiteralValue true ;;
    If matchTokenNext false ["ON"] Then
      validateToken false ["UPDATE"] ;;
      validateToken false ["CURRENT_TIME"; "CURRENT_DATE"; "CURRENT_TIMESTAMP"]
    Else ret tt.

(** validator_mysql.go:590-598 [validateConstraintCollate]. *)
Definition validateConstraintCollate : V unit :=
  validateToken true ["COLLATE"] ;;
  validateName true.

(** validator_mysql.go:623-652 [validateConstraintReferencesAux]. *)
Fixpoint validateConstraintReferencesAux (fuel : nat) : V unit :=
  match fuel with
  | O => OutOfFuel
  | S fuel =>
    If matchTokenNext false ["ON"] Then
      validateToken false ["DELETE"; "UPDATE"] ;;
      (If matchTokenNext false ["SET"] Then validateToken false ["NULL"; "DEFAULT"]
       Else If matchTokenNext false ["CASCADE"; "RESTRICT"] Then ret tt
       Else If matchTokenNext false ["NO"] Then validateToken false ["ACTION"]
       Else syntaxError) ;;
      validateConstraintReferencesAux fuel
    Else If matchTokenNext false ["MATCH"] Then
      validateToken false ["SIMPLE"; "PARTIAL"; "FULL"] ;;
      validateConstraintReferencesAux fuel
    Else ret tt
  end.

(** validator_mysql.go:601-620 [validateConstraintReferences].  Line 617 returns
    [v.syntaxError()] instead of [err]: computed from the same state, it is the same error. *)
Definition validateConstraintReferences (fuel : nat) : V unit :=
  validateToken true ["REFERENCES"] ;;
  validateTableName true ;;
  (If matchTokenNext true ["("] Then
     validateColumnName true ;;
     validateToken true [")"]
   Else ret tt) ;;
  validateConstraintReferencesAux fuel.

(** validator_mysql.go:655-668 [validateConstraintGenerated]. *)
Definition validateConstraintGenerated (fuel : nat) : V unit :=
  (If matchTokenNext false ["GENERATED"] Then validateToken false ["ALWAYS"] Else ret tt) ;;
  validateToken false ["AS"] ;;
  validateExpr fuel false.

(** validator_mysql.go:671-679 [validateConstraintComment]. *)
Definition validateConstraintComment : V unit :=
  validateToken false ["COMMENT"] ;;
  validateStringValue false.

(** validator_mysql.go:682-690 [validateConstraintColumnFormat]. *)
Definition validateConstraintColumnFormat : V unit :=
  validateToken false ["COLUMN_FORMAT"] ;;
  validateToken false ["FIXED"; "DYNAMIC"; "DEFAULT"].

(** validator_mysql.go:693-702 [validateConstraintEngineAttribute]. *)
Definition validateConstraintEngineAttribute : V unit :=
  validateToken false ["ENGINE_ATTRIBUTE"; "SECONDARY_ENGINE_ATTRIBUTE"] ;;
  skipOpt false ["="] ;;
  validateStringValue false.

(** validator_mysql.go:705-713 [validateConstraintStorage]. *)
Definition validateConstraintStorage : V unit :=
  validateToken false ["STORAGE"] ;;
  validateToken false ["DISK"; "MEMORY"].

(** validator_mysql.go:716-721 [validateConstraintAutoincrement]. *)
Definition validateConstraintAutoincrement : V unit := validateToken true ["AUTO_INCREMENT"].

(** validator_mysql.go:455-503 [validateColumnConstraint]. *)
Definition validateColumnConstraint (fuel : nat) : V unit :=
  If matchToken ["PRIMARY"; "KEY"] Then validateConstraintPrimaryKey
  Else If matchToken ["NOT"] Then validateConstraintNotNull
  Else If matchToken ["NULL"] Then validateConstraintNull
  Else If matchToken ["UNIQUE"] Then validateConstraintUnique
  Else If matchToken ["CHECK"] Then validateConstraintCheck fuel
  Else If matchToken ["DEFAULT"] Then validateConstraintDefault fuel
  Else If matchToken ["COLLATE"] Then validateConstraintCollate
  Else If matchToken ["REFERENCES"] Then validateConstraintReferences fuel
  Else If matchToken ["GENERATED"; "AS"] Then validateConstraintGenerated fuel
  Else If matchToken ["COMMENT"] Then validateConstraintComment
  Else If matchToken ["COLUMN_FORMAT"] Then validateConstraintColumnFormat
  Else If matchToken ["ENGINE_ATTRIBUTE"; "SECONDARY_ENGINE_ATTRIBUTE"] Then
    validateConstraintEngineAttribute
  Else If matchToken ["STORAGE"] Then validateConstraintStorage
  Else If matchToken ["AUTO_INCREMENT"] Then validateConstraintAutoincrement
  Else If matchTokenNext false ["VISIBLE"; "INVISIBLE"; "VIRTUAL"; "STORED"] Then ret tt
  Else syntaxError.

(** validator_mysql.go:425-446: the entry of the list [ls] that stands for the current
    constraint word. *)
Definition constraint_entry (t : string) : V string :=
  If matchToken ["NOT"] Then ret "NULL"
  Else If matchToken ["PRIMARY"; "KEY"] Then ret "PRIMARY"
  Else If matchToken ["GENERATED"; "AS"] Then ret "GENERATED"
  Else ret (to_upper t).

(** validator_mysql.go:421-452 [validateColumnConstraintsAux]. *)
Fixpoint validateColumnConstraintsAux (fuel : nat) (ls : list string) : V unit :=
  match fuel with
  | O => OutOfFuel
  | S fuel =>
    If isColumnConstraint Then
      t <- token ;;
      e <- constraint_entry t ;;
      if contains ls e then syntaxError
      else
        validateColumnConstraint fuel ;;
        validateColumnConstraintsAux fuel (ls ++ [e])
    Else ret tt
  end.

(** validator_mysql.go:400-409 [validateColumnConstraints]. *)
Definition validateColumnConstraints (fuel : nat) : V unit :=
  (If matchTokenNext true ["CONSTRAINT"] Then
     If matchToken ["CHECK"] Then ret tt Else validateName true
   Else ret tt) ;;
  validateColumnConstraintsAux fuel [].

(** validator_mysql.go:885-893 [validateIndexType]. *)
Definition validateIndexType : V unit :=
  validateToken false ["USING"] ;;
  validateToken false ["BTREE"; "HASH"].

(** validator_mysql.go:896-937 [validateIndexOption]. *)
Fixpoint validateIndexOption (fuel : nat) : V unit :=
  match fuel with
  | O => OutOfFuel
  | S fuel =>
    If matchTokenNext false ["KEY_BLOCK_SIZE"] Then
      skipOpt false ["="] ;;
      validateLiteralValue false ;;
      validateIndexOption fuel
    Else If matchToken ["USING"] Then
      validateIndexType ;;
      validateIndexOption fuel
    Else If matchTokenNext false ["WITH"] Then
      validateToken false ["PARSER"] ;;
      validateName false ;;
      validateIndexOption fuel
    Else If matchTokenNext false ["COMMENT"] Then
      validateStringValue false ;;
      validateIndexOption fuel
    Else If matchTokenNext false ["VISIBLE"; "INVISIBLE"] Then
      validateIndexOption fuel
    Else If matchTokenNext false ["ENGINE_ATTRIBUTE"; "SECONDARY_ENGINE_ATTRIBUTE"] Then
      skipOpt false ["="] ;;
      validateStringValue false ;;
      validateIndexOption fuel
    Else ret tt
  end.

(** validator_mysql.go:940-948 [validateCommaSeparatedColumnNames]. *)
Fixpoint validateCommaSeparatedColumnNames (fuel : nat) (set : bool) : V unit :=
  match fuel with
  | O => OutOfFuel
  | S fuel =>
    validateColumnName set ;;
    If matchTokenNext set [","] Then validateCommaSeparatedColumnNames fuel set
    Else ret tt
  end.

(** validator_mysql.go:951-959 [validateCommaSeparatedTableNames]. *)
Fixpoint validateCommaSeparatedTableNames (fuel : nat) (set : bool) : V unit :=
  match fuel with
  | O => OutOfFuel
  | S fuel =>
    validateTableName set ;;
    If matchTokenNext set [","] Then validateCommaSeparatedTableNames fuel set
    Else ret tt
  end.

(** validator_mysql.go:772-791 [validateTableConstraintPrimaryKey]. *)
Definition validateTableConstraintPrimaryKey (fuel : nat) : V unit :=
  validateToken true ["PRIMARY"] ;;
  validateToken true ["KEY"] ;;
  (If matchToken ["USING"] Then validateIndexType Else ret tt) ;;
  validateIndexKeys fuel true ;;
  validateIndexOption fuel.

(** validator_mysql.go:794-816 [validateTableConstraintUnique]. *)
Definition validateTableConstraintUnique (fuel : nat) : V unit :=
  validateToken true ["UNIQUE"] ;;
  skipOpt false ["INDEX"; "KEY"] ;;
  (If matchToken ["("] Then ret tt Else validateName false) ;;
  (If matchToken ["USING"] Then validateIndexType Else ret tt) ;;
  validateIndexKeys fuel true ;;
  validateIndexOption fuel.

(** validator_mysql.go:819-853 [validateTableConstraintForeignKey].  Line 847 returns
    [v.syntaxError()] instead of [err]: computed from the same state, it is the same error. *)
Definition validateTableConstraintForeignKey (fuel : nat) : V unit :=
  validateToken true ["FOREIGN"] ;;
  validateToken true ["KEY"] ;;
  (If matchToken ["("] Then ret tt Else validateName false) ;;
  validateToken true ["("] ;;
  validateCommaSeparatedColumnNames fuel true ;;
  validateToken true [")"] ;;
  validateToken true ["REFERENCES"] ;;
  validateTableName true ;;
  validateIndexKeys fuel true ;;
  validateConstraintReferencesAux fuel.

(** validator_mysql.go:856-858 [validateTableConstraintCheck]. *)
Definition validateTableConstraintCheck (fuel : nat) : V unit := validateConstraintCheck fuel.

(** validator_mysql.go:861-882 [validateTableConstraintIndex]. *)
Definition validateTableConstraintIndex (fuel : nat) : V unit :=
  validateToken false ["INDEX"; "KEY"] ;;
  (If matchToken ["USING"] Then ret tt
   Else If matchToken ["("] Then ret tt
   Else validateName false) ;;
  (If matchToken ["USING"] Then validateIndexType Else ret tt) ;;
  validateIndexKeys fuel false ;;
  validateIndexOption fuel.

(** validator_mysql.go:736-769 [validateTableConstraintAux]. *)
Definition validateTableConstraintAux (fuel : nat) : V unit :=
  If matchToken ["PRIMARY"] Then validateTableConstraintPrimaryKey fuel
  Else If matchToken ["UNIQUE"] Then validateTableConstraintUnique fuel
  Else If matchToken ["FOREIGN"] Then validateTableConstraintForeignKey fuel
  Else If matchToken ["CHECK"] Then validateTableConstraintCheck fuel
  Else If matchToken ["INDEX"; "KEY"] Then validateTableConstraintIndex fuel
  Else If matchTokenNext false ["FULLTEXT"; "SPATIAL"] Then
    skipOpt false ["INDEX"; "KEY"] ;;
    (If matchToken ["("] Then ret tt Else validateName true) ;;
    validateIndexKeys fuel false ;;
    validateIndexOption fuel
  Else syntaxError.

(** validator_mysql.go:724-733 [validateTableConstraint]. *)
Definition validateTableConstraint (fuel : nat) : V unit :=
  (If matchTokenNext true ["CONSTRAINT"] Then
     If matchToken ["PRIMARY"; "UNIQUE"; "FOREIGN"; "CHECK"] Then ret tt Else validateName true
   Else ret tt) ;;
  validateTableConstraintAux fuel.

(** validator_mysql.go:335-349 [validateColumnDefinition]. *)
Definition validateColumnDefinition (fuel : nat) : V unit :=
  If matchToken ["CONSTRAINT"; "PRIMARY"; "UNIQUE"; "FOREIGN"; "INDEX"; "KEY"; "FULLTEXT";
                 "SPATIAL"; "CHECK"] Then
    validateTableConstraint fuel
  Else
    validateColumnName true ;;
    validateColumnType ;;
    validateColumnConstraints fuel.

(** validator_mysql.go:324-332 [validateColumnDefinitions]. *)
Fixpoint validateColumnDefinitions (fuel : nat) : V unit :=
  match fuel with
  | O => OutOfFuel
  | S fuel =>
    validateColumnDefinition fuel ;;
    If matchTokenNext true [","] Then validateColumnDefinitions fuel
    Else ret tt
  end.

(** validator_mysql.go:1023-1030 [validateTableOptionCommonLiteral]. *)
Definition validateTableOptionCommonLiteral : V unit :=
  next ;;
  skipOpt false ["="] ;;
  validateLiteralValue false.

(** validator_mysql.go:1034-1041 [validateTableOptionCommonString]. *)
Definition validateTableOptionCommonString : V unit :=
  next ;;
  skipOpt false ["="] ;;
  validateStringValue false.

(** validator_mysql.go:1045-1060 [validateTableOptionCommonName]. *)
Definition validateTableOptionCommonName : V unit :=
  (If matchTokenNext false ["CHARACTER"] Then validateToken false ["SET"]
   Else validateToken false ["COLLATE"; "ENGINE"]) ;;
  skipOpt false ["="] ;;
  validateName false.

(** validator_mysql.go:1064-1071 [validateTableOptionCommon01]. *)
Definition validateTableOptionCommon01 : V unit :=
  next ;;
  skipOpt false ["="] ;;
  validateToken false ["0"; "1"].

(** validator_mysql.go:1075-1082 [validateTableOptionCommon01Default]. *)
Definition validateTableOptionCommon01Default : V unit :=
  next ;;
  skipOpt false ["="] ;;
  validateToken false ["0"; "1"; "DEFAULT"].

(** validator_mysql.go:1085-1097 [validateTableOptionDirectory]. *)
Definition validateTableOptionDirectory : V unit :=
  validateToken false ["DATA"; "INDEX"] ;;
  validateToken false ["DIRECTORY"] ;;
  skipOpt false ["="] ;;
  validateLiteralValue false.

(** validator_mysql.go:1100-1113 [validateTableOptionTablespace]. *)
Definition validateTableOptionTablespace : V unit :=
  validateToken false ["TABLESPACE"] ;;
  validateName false ;;
  If matchTokenNext false ["STORAGE"] Then validateToken false ["DISK"; "MEMORY"]
  Else ret tt.

(** validator_mysql.go:1116-1134 [validateTableOptionDefault]. *)
Definition validateTableOptionDefault : V unit :=
  validateToken false ["DEFAULT"] ;;
  (If matchTokenNext false ["CHARACTER"] Then validateToken false ["SET"]
   Else If matchTokenNext false ["COLLATE"] Then ret tt
   Else syntaxError) ;;
  skipOpt false ["="] ;;
  validateName false.

(** validator_mysql.go:1137-1152 [validateTableOptionUnion]. *)
Definition validateTableOptionUnion (fuel : nat) : V unit :=
  validateToken false ["UNION"] ;;
  skipOpt false ["="] ;;
  validateToken false ["("] ;;
  validateCommaSeparatedTableNames fuel false ;;
  validateToken false [")"].

(** validator_mysql.go:1155-1164 [validateTableOptionInsertMethod]. *)
Definition validateTableOptionInsertMethod : V unit :=
  validateToken false ["INSERT_METHOD"] ;;
  skipOpt false ["="] ;;
  validateToken false ["NO"; "FIRST"; "LAST"].

(** validator_mysql.go:1167-1176 [validateTableOptionRowFormat]. *)
Definition validateTableOptionRowFormat : V unit :=
  validateToken false ["ROW_FORMAT"] ;;
  skipOpt false ["="] ;;
  validateToken false ["DEFAULT"; "DYNAMIC"; "FIXED"; "COMPRESSED"; "REDUNDANT"; "COMPACT"].

(** validator_mysql.go:977-1019 [validateTableOption]. *)
Definition validateTableOption (fuel : nat) : V unit :=
  If matchToken ["AUTOEXTEND_SIZE"; "AUTO_INCREMENT"; "AVG_ROW_LENGTH";
                 "KEY_BLOCK_SIZE"; "MAX_ROWS"; "MIN_ROWS"; "STATS_SAMPLE_PAGES"] Then
    validateTableOptionCommonLiteral
  Else If matchToken ["COMMENT"; "ENGINE_ATTRIBUTE"; "PASSWORD"; "SECONDARY_ENGINE_ATTRIBUTE";
                      "CONNECTION"; "COMPRESSION"; "ENCRYPTION"] Then
    validateTableOptionCommonString
  Else If matchToken ["COLLATE"; "ENGINE"; "CHARACTER"] Then validateTableOptionCommonName
  Else If matchToken ["CHECKSUM"; "DELAY_KEY_WRITE"] Then validateTableOptionCommon01
  Else If matchToken ["PACK_KEYS"; "STATS_AUTO_RECALC"; "STATS_PERSISTENT"] Then
    validateTableOptionCommon01Default
  Else If matchToken ["DATA"; "INDEX"] Then validateTableOptionDirectory
  Else If matchToken ["TABLESPACE"] Then validateTableOptionTablespace
  Else If matchToken ["DEFAULT"] Then validateTableOptionDefault
  Else If matchToken ["UNION"] Then validateTableOptionUnion fuel
  Else If matchToken ["INSERT_METHOD"] Then validateTableOptionInsertMethod
  Else If matchToken ["ROW_FORMAT"] Then validateTableOptionRowFormat
  Else syntaxError.

(** validator_mysql.go:962-974 [validateTableOptions]. *)
Fixpoint validateTableOptions (fuel : nat) : V unit :=
  match fuel with
  | O => OutOfFuel
  | S fuel =>
    If isOutOfRange Then ret tt
    Else If matchToken [";"] Then ret tt
    Else
      skipOpt false [","] ;;
      validateTableOption fuel ;;
      validateTableOptions fuel
  end.

(** validator_mysql.go:307-321 [validateTableDefinition]. *)
Definition validateTableDefinition (fuel : nat) : V unit :=
  validateToken true ["("] ;;
  validateColumnDefinitions fuel ;;
  validateToken true [")"] ;;
  validateTableOptions fuel.

(** validator_mysql.go:240-258 [validateCreateTable]. *)
Definition validateCreateTable (fuel : nat) : V unit :=
  set_token "CREATE" ;;
  validateToken true ["TABLE"] ;;
  validateIfNotExists ;;
  validateTableName true ;;
  validateTableDefinition fuel ;;
  validateToken true [";"].

(** validator_mysql.go:223-237 [validateDdl]. *)
Definition validateDdl (fuel : nat) : V unit :=
  validateToken false ["CREATE"] ;;
  If matchToken ["TABLE"] Then validateCreateTable fuel
  Else validateCreateOther fuel.

(** validator_mysql.go:28-36 [validate]. *)
Fixpoint validate (fuel : nat) : V unit :=
  match fuel with
  | O => OutOfFuel
  | S fuel =>
    If isOutOfRange Then ret tt
    Else
      validateDdl fuel ;;
      validate fuel
  end.

(** validator_mysql.go:19-25 [Validate]. *)
Definition Validate (fuel : nat) (tokens : list string) : validate_result :=
  validate_with (validate fuel) tokens.
