(** internal/validator/validator_postgresql.go *)
From Coq Require Import String Ascii List Bool.
From Verif Require Import GoStr GoNum Types Lexer VBase Words.
Import ListNotations.
Open Scope string_scope.
Open Scope v_scope.

(** validator_postgresql.go:39-41 [isStringValue]. *)
Definition isStringValue (t : string) : V bool := first_byte_in ["'"] t.

(** validator_postgresql.go:44-46 [isIdentifier]. *)
Definition isIdentifier (t : string) : V bool := first_byte_in [""""] t.

(** validator_postgresql.go:49-57 [isValidName]. *)
Definition isValidName (name : string) : V bool :=
  If isIdentifier name Then ret true
  Else ret (name_pattern name && negb (contains ReservedWords_PostgreSQL (to_upper name))).

(** validator_postgresql.go:60-70 [validateName]. *)
Definition validateName (set : bool) : V unit :=
  t <- token ;;
  If isValidName t Then next_set set Else syntaxError.

(** validator_postgresql.go:73-88 [validateTableName]. *)
Definition validateTableName (set : bool) : V unit :=
  validateName set ;;
  If matchToken ["."] Then
    next_set set ;;
    validateName set
  Else ret tt.

(** validator_postgresql.go:91-93 [validateColumnName]. *)
Definition validateColumnName (set : bool) : V unit := validateName set.

(** validator_postgresql.go:96-98 [validateExpr]. *)
Definition validateExpr (fuel : nat) (set : bool) : V unit := validateBrackets fuel set.

(** validator_postgresql.go:101-109 [validateCommaSeparatedColumnNames]. *)
Fixpoint validateCommaSeparatedColumnNames (fuel : nat) (set : bool) : V unit :=
  match fuel with
  | O => OutOfFuel
  | S fuel =>
    validateColumnName set ;;
    If matchTokenNext set [","] Then validateCommaSeparatedColumnNames fuel set
    Else ret tt
  end.

(** validator_postgresql.go:150-182 [validateCreateOther]. *)
Definition validateCreateOther (fuel : nat) : V unit :=
  validateToken false
    ["VIEW"; "TRIGGER"; "INDEX"; "MATERIALIZED"; "SEQUENCE"; "FUNCTION"; "TYPE";
     "PROCEDURE"; "TYPE"; "AGGREGATE"; "SCHEMA"; "ROLE"; "USER"; "GROUP";
     "TABLESPACE"; "EXTENSION"; "DATABASE"; "LANGUAGE"; "FOREIGN"; "DOMAIN";
     "SERVER"; "FOREIGN"; "CONVERSION"; "RULE"; "COLLATION"; "POLICY"; "OPERATOR"] ;;
  skip_statement fuel false ;;
  validateToken false [";"].

(** validator_postgresql.go:185-195 [validateIfNotExists]. *)
Definition validateIfNotExists : V unit :=
  If matchTokenNext true ["IF"] Then
    validateToken true ["NOT"] ;;
    validateToken true ["EXISTS"]
  Else ret tt.

(** validator_postgresql.go:336-342 [validatePositiveInteger]. *)
Definition validatePositiveInteger : V unit :=
  t <- token ;;
  if negb (is_positive_integer_token t) then syntaxError
  else next_set true.

(** validator_postgresql.go:300-310 [validateTypeDigitN]. *)
Definition validateTypeDigitN : V unit :=
  If matchTokenNext true ["("] Then
    validatePositiveInteger ;;
    validateToken true [")"]
  Else ret tt.

(** validator_postgresql.go:313-315 [validateTypeDigitP]. *)
Definition validateTypeDigitP : V unit := validateTypeDigitN.

(** validator_postgresql.go:318-333 [validateTypeDigitPS]. *)
Definition validateTypeDigitPS : V unit :=
  If matchTokenNext true ["("] Then
    validatePositiveInteger ;;
    (If matchTokenNext true [","] Then validatePositiveInteger Else ret tt) ;;
    validateToken true [")"]
  Else ret tt.

(** validator_postgresql.go:243-297 [validateColumnType]. *)
Definition validateColumnType : V unit :=
  If matchTokenNext true ["BIT"; "CHARACTER"] Then
    skipOpt true ["VARYING"] ;;
    validateTypeDigitN
  Else If matchTokenNext true ["VARBIT"; "VARCHAR"; "CHAR"] Then
    validateTypeDigitN
  Else If matchTokenNext true ["NUMERIC"; "DECIMAL"] Then
    validateTypeDigitPS
  Else If matchTokenNext true ["DOUBLE"] Then
    validateToken false ["PRECISION"]
  Else If matchTokenNext true ["TIME"; "TIMESTAMP"] Then
    validateTypeDigitP ;;
    If matchTokenNext false ["WITH"; "WITHOUT"] Then
      validateToken false ["TIME"] ;;
      validateToken false ["ZONE"]
    Else ret tt
  Else validateToken true DataType_PostgreSQL.

(** validator_postgresql.go:625-654 [validateIndexParameters]. *)
Definition validateIndexParameters (fuel : nat) : V unit :=
  (If matchTokenNext false ["INCLUDE"] Then
     validateToken false ["("] ;;
     validateCommaSeparatedColumnNames fuel false ;;
     validateToken false [")"]
   Else ret tt) ;;
  (If matchTokenNext false ["WITH"] Then validateBrackets fuel false Else ret tt) ;;
  (If matchTokenNext false ["USING"] Then
     validateToken false ["INDEX"] ;;
     validateToken false ["TABLESPACE"] ;;
     validateName false
   Else ret tt).

(** validator_postgresql.go:415-426 [validateConstraintPrimaryKey]. *)
Definition validateConstraintPrimaryKey (fuel : nat) : V unit :=
  validateToken true ["PRIMARY"] ;;
  validateToken true ["KEY"] ;;
  validateIndexParameters fuel.

(** validator_postgresql.go:429-437 [validateConstraintNotNull]. *)
Definition validateConstraintNotNull : V unit :=
  validateToken true ["NOT"] ;;
  validateToken true ["NULL"].

(** validator_postgresql.go:440-445 [validateConstraintNull]. *)
Definition validateConstraintNull : V unit := validateToken false ["NULL"].

(** validator_postgresql.go:448-456 [validateConstraintUnique]. *)
Definition validateConstraintUnique (fuel : nat) : V unit :=
  validateToken true ["UNIQUE"] ;;
  validateIndexParameters fuel.

(** validator_postgresql.go:459-472 [validateConstraintCheck]. *)
Definition validateConstraintCheck (fuel : nat) : V unit :=
  validateToken true ["CHECK"] ;;
  validateExpr fuel true ;;
  (If matchTokenNext false ["NO"] Then validateToken false ["INHERIT"] Else ret tt).

(** validator_postgresql.go:492-506 [validateLiteralValue]. *)
Definition validateLiteralValue : V unit :=
  t <- token ;;
  if is_numeric_token t then next_set true
  else
    If isStringValue t Then next_set true
    Else validateToken true
      ["NULL"; "TRUE"; "FALSE"; "CURRENT_TIME"; "CURRENT_DATE"; "CURRENT_TIMESTAMP"].

(** validator_postgresql.go:475-489 [validateConstraintDefault]. *)
Definition validateConstraintDefault (fuel : nat) : V unit :=
  validateToken true ["DEFAULT"] ;;
  If matchToken ["("] Then validateExpr fuel true
  Else validateLiteralValue.

(** validator_postgresql.go:531-560 [validateConstraintReferencesAux]. *)
Fixpoint validateConstraintReferencesAux (fuel : nat) : V unit :=
  match fuel with
  | O => OutOfFuel
  | S fuel =>
    If matchTokenNext false ["ON"] Then
      validateToken false ["DELETE"; "UPDATE"] ;;
      (If matchTokenNext false ["SET"] Then validateToken false ["NULL"; "DEFAULT"]
       Else If matchTokenNext false ["CASCADE"; "RESTRICT"] Then ret tt
       Else If matchTokenNext false ["NO"] Then validateToken false ["ACTION"]
       Else syntaxError) ;;
      validateConstraintReferencesAux fuel
    Else If matchTokenNext false ["MATCH"] Then
      validateToken false ["SIMPLE"; "PARTIAL"; "FULL"] ;;
      validateConstraintReferencesAux fuel
    Else ret tt
  end.

(** validator_postgresql.go:509-528 [validateConstraintReferences]. *)
Definition validateConstraintReferences (fuel : nat) : V unit :=
  validateToken true ["REFERENCES"] ;;
  validateTableName true ;;
  (If matchTokenNext true ["("] Then
     validateColumnName true ;;
     validateToken true [")"]
   Else ret tt) ;;
  validateConstraintReferencesAux fuel.

(** validator_postgresql.go:563-622 [validateConstraintGenerated]. *)
Definition validateConstraintGenerated (fuel : nat) : V unit :=
  validateToken false ["GENERATED"] ;;
  If matchTokenNext false ["ALWAYS"] Then
    validateToken false ["AS"] ;;
    If matchTokenNext false ["IDENTITY"] Then
      If matchToken ["("] Then validateBrackets fuel false Else ret tt
    Else If matchToken ["("] Then
      validateBrackets fuel false ;;
      validateToken false ["STORED"]
    Else syntaxError
  Else If matchTokenNext false ["BY"] Then
    validateToken false ["DEFAULT"] ;;
    validateToken false ["AS"] ;;
    validateToken false ["IDENTITY"] ;;
    If matchToken ["("] Then validateBrackets fuel false Else ret tt
  Else If matchTokenNext false ["AS"] Then
    validateToken false ["IDENTITY"] ;;
    If matchToken ["("] Then validateBrackets fuel false Else ret tt
  Else syntaxError.

(** validator_postgresql.go:355-360 [isColumnConstraint] (its argument is not used in Go). *)
Definition isColumnConstraint : V bool :=
  matchToken ["PRIMARY"; "NOT"; "NULL"; "UNIQUE"; "CHECK";
              "DEFAULT"; "REFERENCES"; "GENERATED"; "AS"].

(** validator_postgresql.go:386-412 [validateColumnConstraint]. *)
Definition validateColumnConstraint (fuel : nat) : V unit :=
  If matchToken ["PRIMARY"] Then validateConstraintPrimaryKey fuel
  Else If matchToken ["NOT"] Then validateConstraintNotNull
  Else If matchToken ["NULL"] Then validateConstraintNull
  Else If matchToken ["UNIQUE"] Then validateConstraintUnique fuel
  Else If matchToken ["CHECK"] Then validateConstraintCheck fuel
  Else If matchToken ["DEFAULT"] Then validateConstraintDefault fuel
  Else If matchToken ["REFERENCES"] Then validateConstraintReferences fuel
  Else If matchToken ["GENERATED"; "AS"] Then validateConstraintGenerated fuel
  Else syntaxError.

(** validator_postgresql.go:363-383 [validateColumnConstraintsAux]. *)
Fixpoint validateColumnConstraintsAux (fuel : nat) (ls : list string) : V unit :=
  match fuel with
  | O => OutOfFuel
  | S fuel =>
    If isColumnConstraint Then
      t <- token ;;
      (If matchToken ["NOT"] Then
         if contains ls "NULL" then syntaxError
         else
           validateColumnConstraint fuel ;;
           validateColumnConstraintsAux fuel (ls ++ [to_upper "NULL"])
       Else
         if contains ls (to_upper t) then syntaxError
         else
           validateColumnConstraint fuel ;;
           validateColumnConstraintsAux fuel (ls ++ [to_upper t]))
    Else ret tt
  end.

(** validator_postgresql.go:345-352 [validateColumnConstraints]. *)
Definition validateColumnConstraints (fuel : nat) : V unit :=
  (If matchTokenNext true ["CONSTRAINT"] Then validateName true Else ret tt) ;;
  validateColumnConstraintsAux fuel [].

(** validator_postgresql.go:683-703 [validateTableConstraintPrimaryKey]. *)
Definition validateTableConstraintPrimaryKey (fuel : nat) : V unit :=
  validateToken true ["PRIMARY"] ;;
  validateToken true ["KEY"] ;;
  validateToken true ["("] ;;
  validateCommaSeparatedColumnNames fuel true ;;
  validateToken true [")"] ;;
  validateIndexParameters fuel.

(** validator_postgresql.go:706-723 [validateTableConstraintUnique]. *)
Definition validateTableConstraintUnique (fuel : nat) : V unit :=
  validateToken true ["UNIQUE"] ;;
  validateToken true ["("] ;;
  validateCommaSeparatedColumnNames fuel true ;;
  validateToken true [")"] ;;
  validateIndexParameters fuel.

(** validator_postgresql.go:726-739 [validateTableConstraintCheck]. *)
Definition validateTableConstraintCheck (fuel : nat) : V unit :=
  validateToken true ["CHECK"] ;;
  validateExpr fuel true ;;
  (If matchTokenNext false ["NO"] Then validateToken false ["INHERIT"] Else ret tt).

(** validator_postgresql.go:742-776 [validateTableConstraintForeignKey]. *)
Definition validateTableConstraintForeignKey (fuel : nat) : V unit :=
  validateToken true ["FOREIGN"] ;;
  validateToken true ["KEY"] ;;
  validateToken true ["("] ;;
  validateCommaSeparatedColumnNames fuel true ;;
  validateToken true [")"] ;;
  validateToken true ["REFERENCES"] ;;
  validateTableName true ;;
  (If matchTokenNext true ["("] Then
     validateCommaSeparatedColumnNames fuel true ;;
     validateToken true [")"]
   Else ret tt) ;;
  validateConstraintReferencesAux fuel.

(** validator_postgresql.go:779-800 [validateTableConstraintExclude]. *)
Definition validateTableConstraintExclude (fuel : nat) : V unit :=
  validateToken false ["EXCLUDE"] ;;
  (If matchTokenNext false ["USING"] Then validateName false Else ret tt) ;;
  validateBrackets fuel false ;;
  validateIndexParameters fuel ;;
  (If matchTokenNext false ["WHERE"] Then validateBrackets fuel false Else ret tt).

(** validator_postgresql.go:657-680 [validateTableConstraint]. *)
Definition validateTableConstraint (fuel : nat) : V unit :=
  (If matchTokenNext true ["CONSTRAINT"] Then validateName true Else ret tt) ;;
  If matchToken ["PRIMARY"] Then validateTableConstraintPrimaryKey fuel
  Else If matchToken ["UNIQUE"] Then validateTableConstraintUnique fuel
  Else If matchToken ["CHECK"] Then validateTableConstraintCheck fuel
  Else If matchToken ["FOREIGN"] Then validateTableConstraintForeignKey fuel
  Else If matchToken ["EXCLUDE"] Then validateTableConstraintExclude fuel
  Else syntaxError.

(** validator_postgresql.go:226-240 [validateColumnDefinition]. *)
Definition validateColumnDefinition (fuel : nat) : V unit :=
  If matchToken ["CONSTRAINT"; "PRIMARY"; "UNIQUE"; "CHECK"; "FOREIGN"; "EXCLUDE"] Then
    validateTableConstraint fuel
  Else
    validateColumnName true ;;
    validateColumnType ;;
    validateColumnConstraints fuel.

(** validator_postgresql.go:215-223 [validateColumnDefinitions]. *)
Fixpoint validateColumnDefinitions (fuel : nat) : V unit :=
  match fuel with
  | O => OutOfFuel
  | S fuel =>
    validateColumnDefinition fuel ;;
    If matchTokenNext true [","] Then validateColumnDefinitions fuel
    Else ret tt
  end.

(** validator_postgresql.go:843-851 [validateTableOptionWith]. *)
Definition validateTableOptionWith (fuel : nat) : V unit :=
  validateToken false ["WITH"] ;;
  validateBrackets fuel false.

(** validator_postgresql.go:854-862 [validateTableOptionWithout]. *)
Definition validateTableOptionWithout : V unit :=
  validateToken false ["WITHOUT"] ;;
  validateToken false ["OIDS"].

(** validator_postgresql.go:865-873 [validateTableOptionTablespace]. *)
Definition validateTableOptionTablespace : V unit :=
  validateToken false ["TABLESPACE"] ;;
  validateName false.

(** validator_postgresql.go:876-884 [validateTableOptionInherits]. *)
Definition validateTableOptionInherits (fuel : nat) : V unit :=
  validateToken false ["INHERITS"] ;;
  validateBrackets fuel false.

(** validator_postgresql.go:887-901 [validateTableOptionPartition]. *)
Definition validateTableOptionPartition (fuel : nat) : V unit :=
  validateToken false ["PARTITION"] ;;
  validateToken false ["BY"] ;;
  validateToken false ["RANGE"; "LIST"; "HASH"] ;;
  validateBrackets fuel false.

(** validator_postgresql.go:904-912 [validateTableOptionUsing]. *)
Definition validateTableOptionUsing : V unit :=
  validateToken false ["USING"] ;;
  validateName false.

(** validator_postgresql.go:820-840 [validateTableOption]. *)
Definition validateTableOption (fuel : nat) : V unit :=
  If matchToken ["WITH"] Then validateTableOptionWith fuel
  Else If matchToken ["WITHOUT"] Then validateTableOptionWithout
  Else If matchToken ["TABLESPACE"] Then validateTableOptionTablespace
  Else If matchToken ["INHERITS"] Then validateTableOptionInherits fuel
  Else If matchToken ["PARTITION"] Then validateTableOptionPartition fuel
  Else If matchToken ["USING"] Then validateTableOptionUsing
  Else syntaxError.

(** validator_postgresql.go:803-817 [validateTableOptions]. *)
Fixpoint validateTableOptions (fuel : nat) : V unit :=
  match fuel with
  | O => OutOfFuel
  | S fuel =>
    If isOutOfRange Then ret tt
    Else If matchToken [";"] Then ret tt
    Else
      (If matchToken [","] Then next Else ret tt) ;;
      validateTableOption fuel ;;
      validateTableOptions fuel
  end.

(** validator_postgresql.go:198-212 [validateTableDefinition]. *)
Definition validateTableDefinition (fuel : nat) : V unit :=
  validateToken true ["("] ;;
  validateColumnDefinitions fuel ;;
  validateToken true [")"] ;;
  validateTableOptions fuel.

(** validator_postgresql.go:129-147 [validateCreateTable]. *)
Definition validateCreateTable (fuel : nat) : V unit :=
  set_token "CREATE" ;;
  validateToken true ["TABLE"] ;;
  validateIfNotExists ;;
  validateTableName true ;;
  validateTableDefinition fuel ;;
  validateToken true [";"].

(** validator_postgresql.go:112-126 [validateDdl]. *)
Definition validateDdl (fuel : nat) : V unit :=
  validateToken false ["CREATE"] ;;
  If matchToken ["TABLE"] Then validateCreateTable fuel
  Else validateCreateOther fuel.

(** validator_postgresql.go:28-36 [validate]. *)
Fixpoint validate (fuel : nat) : V unit :=
  match fuel with
  | O => OutOfFuel
  | S fuel =>
    If isOutOfRange Then ret tt
    Else
      validateDdl fuel ;;
      validate fuel
  end.

(** validator_postgresql.go:19-25 [Validate]. *)
Definition Validate (fuel : nat) (tokens : list string) : validate_result :=
  validate_with (validate fuel) tokens.
