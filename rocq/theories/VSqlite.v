(** internal/validator/validator_sqlite.go *)
From Coq Require Import String Ascii List Bool.
From Verif Require Import GoStr GoNum Types Lexer VBase Words.
Import ListNotations.
Open Scope string_scope.
Open Scope v_scope.

(** validator_sqlite.go:39-41 [isStringValue]. *)
Definition isStringValue (t : string) : V bool := first_byte_in ["'"] t.

(** validator_sqlite.go:44-47 [isIdentifier]. *)
Definition isIdentifier (t : string) : V bool := first_byte_in [""""; "`"] t.

(** validator_sqlite.go:50-58 [isValidName]. *)
Definition isValidName (name : string) : V bool :=
  If isIdentifier name Then ret true
  Else ret (name_pattern name && negb (contains ReservedWords_SQLite (to_upper name))).

(** validator_sqlite.go:61-71 [validateName]. *)
Definition validateName (set : bool) : V unit :=
  t <- token ;;
  If isValidName t Then next_set set Else syntaxError.

(** validator_sqlite.go:74-84 [validateTableName]. *)
Definition validateTableName (set : bool) : V unit :=
  validateName set ;;
  If matchTokenNext set ["."] Then validateName set Else ret tt.

(** validator_sqlite.go:87-89 [validateColumnName]. *)
Definition validateColumnName (set : bool) : V unit := validateName set.

(** validator_sqlite.go:92-100 [validateCommaSeparatedColumnNames]. *)
Fixpoint validateCommaSeparatedColumnNames (fuel : nat) (set : bool) : V unit :=
  match fuel with
  | O => OutOfFuel
  | S fuel =>
    validateColumnName set ;;
    If matchTokenNext set [","] Then validateCommaSeparatedColumnNames fuel set
    Else ret tt
  end.

(** validator_sqlite.go:103-105 [validateExpr]. *)
Definition validateExpr (fuel : nat) (set : bool) : V unit := validateBrackets fuel set.

(** validator_sqlite.go:147-174 [validateCreateOther]. *)
Definition validateCreateOther (fuel : nat) : V unit :=
  validateToken false ["VIRTUAL"; "VIEW"; "TRIGGER"; "INDEX"; "UNIQUE"] ;;
  skip_statement fuel false ;;
  validateToken false [";"].

(** validator_sqlite.go:177-187 [validateIfNotExists]. *)
Definition validateIfNotExists : V unit :=
  If matchTokenNext true ["IF"] Then
    validateToken true ["NOT"] ;;
    validateToken true ["EXISTS"]
  Else ret tt.

(** validator_sqlite.go:485-495 [validateConflictClause]. *)
Definition validateConflictClause : V unit :=
  If matchTokenNext false ["ON"] Then
    validateToken false ["CONFLICT"] ;;
    validateToken false ["ROLLBACK"; "ABORT"; "FAIL"; "IGNORE"; "REPLACE"]
  Else ret tt.

(** validator_sqlite.go:304-317 [validateConstraintPrimaryKey]. *)
Definition validateConstraintPrimaryKey : V unit :=
  validateToken true ["PRIMARY"] ;;
  validateToken true ["KEY"] ;;
  skipOpt false ["ASC"; "DESC"] ;;
  validateConflictClause ;;
  skipOpt true ["AUTOINCREMENT"].

(** validator_sqlite.go:320-331 [validateConstraintNotNull]. *)
Definition validateConstraintNotNull : V unit :=
  validateToken true ["NOT"] ;;
  validateToken true ["NULL"] ;;
  validateConflictClause.

(** validator_sqlite.go:334-342 [validateConstraintUnique]. *)
Definition validateConstraintUnique : V unit :=
  validateToken true ["UNIQUE"] ;;
  validateConflictClause.

(** validator_sqlite.go:345-353 [validateConstraintCheck]. *)
Definition validateConstraintCheck (fuel : nat) : V unit :=
  validateToken true ["CHECK"] ;;
  validateExpr fuel true.

(** validator_sqlite.go:373-387 [validateLiteralValue]. *)
Definition validateLiteralValue : V unit :=
  t <- token ;;
  if is_numeric_token t then next_set true
  else
    If isStringValue t Then next_set true
    Else validateToken true
      ["NULL"; "TRUE"; "FALSE"; "CURRENT_TIME"; "CURRENT_DATE"; "CURRENT_TIMESTAMP"].

(** validator_sqlite.go:356-370 [validateConstraintDefault]. *)
Definition validateConstraintDefault (fuel : nat) : V unit :=
  validateToken true ["DEFAULT"] ;;
  If matchToken ["("] Then validateExpr fuel true
  Else validateLiteralValue.

(** validator_sqlite.go:390-398 [validateConstraintCollate]. *)
Definition validateConstraintCollate : V unit :=
  validateToken true ["COLLATE"] ;;
  validateToken true ["BINARY"; "NOCASE"; "RTRIM"].

(** validator_sqlite.go:423-465 [validateConstraintReferencesAux]. *)
Fixpoint validateConstraintReferencesAux (fuel : nat) : V unit :=
  match fuel with
  | O => OutOfFuel
  | S fuel =>
    If matchTokenNext false ["ON"] Then
      If matchTokenNext false ["DELETE"; "UPDATE"] Then
        (If matchTokenNext false ["SET"] Then validateToken false ["NULL"; "DEFAULT"]
         Else If matchTokenNext false ["CASCADE"; "RESTRICT"] Then ret tt
         Else If matchTokenNext false ["NO"] Then validateToken false ["ACTION"]
         Else syntaxError) ;;
        validateConstraintReferencesAux fuel
      Else syntaxError
    Else If matchTokenNext false ["MATCH"] Then
      validateToken false ["SIMPLE"; "PARTIAL"; "FULL"] ;;
      validateConstraintReferencesAux fuel
    Else If matchToken ["NOT"; "DEFERRABLE"] Then
      skipOpt false ["NOT"] ;;
      validateToken false ["DEFERRABLE"] ;;
      (If matchTokenNext false ["INITIALLY"] Then validateToken false ["DEFERRED"; "IMMEDIATE"]
       Else ret tt) ;;
      validateConstraintReferencesAux fuel
    Else ret tt
  end.

(** validator_sqlite.go:401-420 [validateConstraintReferences]. *)
Definition validateConstraintReferences (fuel : nat) : V unit :=
  validateToken true ["REFERENCES"] ;;
  validateTableName true ;;
  (If matchTokenNext true ["("] Then
     validateColumnName true ;;
     validateToken true [")"]
   Else ret tt) ;;
  validateConstraintReferencesAux fuel.

(** validator_sqlite.go:468-482 [validateConstraintGenerated]. *)
Definition validateConstraintGenerated (fuel : nat) : V unit :=
  (If matchTokenNext false ["GENERATED"] Then validateToken false ["ALWAYS"] Else ret tt) ;;
  validateToken false ["AS"] ;;
  validateExpr fuel false ;;
  skipOpt false ["STORED"; "VIRTUAL"].

(** validator_sqlite.go:267-272 [isColumnConstraint] (its argument is not used in Go). *)
Definition isColumnConstraint : V bool :=
  matchToken ["PRIMARY"; "NOT"; "UNIQUE"; "CHECK"; "DEFAULT";
              "COLLATE"; "REFERENCES"; "GENERATED"; "AS"].

(** validator_sqlite.go:275-301 [validateColumnConstraint]. *)
Definition validateColumnConstraint (fuel : nat) : V unit :=
  If matchToken ["PRIMARY"] Then validateConstraintPrimaryKey
  Else If matchToken ["NOT"] Then validateConstraintNotNull
  Else If matchToken ["UNIQUE"] Then validateConstraintUnique
  Else If matchToken ["CHECK"] Then validateConstraintCheck fuel
  Else If matchToken ["DEFAULT"] Then validateConstraintDefault fuel
  Else If matchToken ["COLLATE"] Then validateConstraintCollate
  Else If matchToken ["REFERENCES"] Then validateConstraintReferences fuel
  Else If matchToken ["GENERATED"; "AS"] Then validateConstraintGenerated fuel
  Else syntaxError.

(** validator_sqlite.go:252-264 [validateColumnConstraintsAux]. *)
Fixpoint validateColumnConstraintsAux (fuel : nat) (ls : list string) : V unit :=
  match fuel with
  | O => OutOfFuel
  | S fuel =>
    If isColumnConstraint Then
      t <- token ;;
      if contains ls (to_upper t) then syntaxError
      else
        validateColumnConstraint fuel ;;
        validateColumnConstraintsAux fuel (ls ++ [to_upper t])
    Else ret tt
  end.

(** validator_sqlite.go:242-249 [validateColumnConstraints]. *)
Definition validateColumnConstraints (fuel : nat) : V unit :=
  (If matchTokenNext true ["CONSTRAINT"] Then validateName true Else ret tt) ;;
  validateColumnConstraintsAux fuel [].

(** validator_sqlite.go:235-239 [validateColumnType]. *)
Definition validateColumnType : V unit :=
  validateToken true ["TEXT"; "NUMERIC"; "INTEGER"; "REAL"; "NONE"].

(** validator_sqlite.go:521-541 [validateTableConstraintPrimaryKey].  Line 532 returns
    [v.syntaxError()] instead of [err]: computed from the same state, it is the same error. *)
Definition validateTableConstraintPrimaryKey (fuel : nat) : V unit :=
  validateToken true ["PRIMARY"] ;;
  validateToken true ["KEY"] ;;
  validateToken true ["("] ;;
  validateCommaSeparatedColumnNames fuel true ;;
  validateToken true [")"] ;;
  validateConflictClause.

(** validator_sqlite.go:544-561 [validateTableConstraintUnique]. *)
Definition validateTableConstraintUnique (fuel : nat) : V unit :=
  validateToken true ["UNIQUE"] ;;
  validateToken true ["("] ;;
  validateCommaSeparatedColumnNames fuel true ;;
  validateToken true [")"] ;;
  validateConflictClause.

(** validator_sqlite.go:564-572 [validateTableConstraintCheck]. *)
Definition validateTableConstraintCheck (fuel : nat) : V unit :=
  validateToken true ["CHECK"] ;;
  validateExpr fuel true.

(** validator_sqlite.go:575-609 [validateTableConstraintForeignKey]. *)
Definition validateTableConstraintForeignKey (fuel : nat) : V unit :=
  validateToken true ["FOREIGN"] ;;
  validateToken true ["KEY"] ;;
  validateToken true ["("] ;;
  validateCommaSeparatedColumnNames fuel true ;;
  validateToken true [")"] ;;
  validateToken true ["REFERENCES"] ;;
  validateTableName true ;;
  (If matchTokenNext true ["("] Then
     validateCommaSeparatedColumnNames fuel true ;;
     validateToken true [")"]
   Else ret tt) ;;
  validateConstraintReferencesAux fuel.

(** validator_sqlite.go:498-518 [validateTableConstraint]. *)
Definition validateTableConstraint (fuel : nat) : V unit :=
  (If matchTokenNext true ["CONSTRAINT"] Then validateName true Else ret tt) ;;
  If matchToken ["PRIMARY"] Then validateTableConstraintPrimaryKey fuel
  Else If matchToken ["UNIQUE"] Then validateTableConstraintUnique fuel
  Else If matchToken ["CHECK"] Then validateTableConstraintCheck fuel
  Else If matchToken ["FOREIGN"] Then validateTableConstraintForeignKey fuel
  Else syntaxError.

(** validator_sqlite.go:218-232 [validateColumnDefinition]. *)
Definition validateColumnDefinition (fuel : nat) : V unit :=
  If matchToken ["CONSTRAINT"; "PRIMARY"; "UNIQUE"; "CHECK"; "FOREIGN"] Then
    validateTableConstraint fuel
  Else
    validateColumnName true ;;
    validateColumnType ;;
    validateColumnConstraints fuel.

(** validator_sqlite.go:207-215 [validateColumnDefinitions]. *)
Fixpoint validateColumnDefinitions (fuel : nat) : V unit :=
  match fuel with
  | O => OutOfFuel
  | S fuel =>
    validateColumnDefinition fuel ;;
    If matchTokenNext true [","] Then validateColumnDefinitions fuel
    Else ret tt
  end.

(** validator_sqlite.go:612-636 [validateTableOptions]. *)
Definition validateTableOptions : V unit :=
  If isOutOfRange Then ret tt
  Else If matchTokenNext false ["WITHOUT"] Then
    validateToken false ["ROWID"] ;;
    If matchTokenNext false [","] Then validateToken false ["STRICT"]
    Else ret tt
  Else If matchTokenNext false ["STRICT"] Then
    If matchTokenNext false [","] Then
      validateToken false ["WITHOUT"] ;;
      validateToken false ["ROWID"]
    Else ret tt
  Else ret tt.

(** validator_sqlite.go:190-204 [validateTableDefinition]. *)
Definition validateTableDefinition (fuel : nat) : V unit :=
  validateToken true ["("] ;;
  validateColumnDefinitions fuel ;;
  validateToken true [")"] ;;
  validateTableOptions.

(** validator_sqlite.go:126-144 [validateCreateTable]. *)
Definition validateCreateTable (fuel : nat) : V unit :=
  set_token "CREATE" ;;
  validateToken true ["TABLE"] ;;
  validateIfNotExists ;;
  validateTableName true ;;
  validateTableDefinition fuel ;;
  validateToken true [";"].

(** validator_sqlite.go:108-123 [validateDdl]. *)
Definition validateDdl (fuel : nat) : V unit :=
  validateToken false ["CREATE"] ;;
  skipOpt false ["TEMP"; "TEMPORARY"] ;;
  If matchToken ["TABLE"] Then validateCreateTable fuel
  Else validateCreateOther fuel.

(** validator_sqlite.go:28-36 [validate]. *)
Fixpoint validate (fuel : nat) : V unit :=
  match fuel with
  | O => OutOfFuel
  | S fuel =>
    If isOutOfRange Then ret tt
    Else
      validateDdl fuel ;;
      validate fuel
  end.

(** validator_sqlite.go:19-25 [Validate]. *)
Definition Validate (fuel : nat) (tokens : list string) : validate_result :=
  validate_with (validate fuel) tokens.
