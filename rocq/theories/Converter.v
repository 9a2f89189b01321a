(** internal/converter/converter.go *)
From Coq Require Import String Ascii ZArith List Bool.
From Verif Require Import GoStr Unicode GoNum Types.
Import ListNotations.
Open Scope string_scope.

(** Outcome of a converter method.  converter.go:27-33 [type converter struct]:
    simplification: [tokens], [size] and [i] are represented by the remaining tokens
    [tokens[i:]] (the index only moves forward); [rdbms] is a parameter. *)
Inductive cres (A : Type) :=
| COk (a : A) (rest : list string)
| CPanic
| COutOfFuel.
Arguments COk {A}. Arguments CPanic {A}. Arguments COutOfFuel {A}.

Definition C (A : Type) := list string -> cres A.
Definition cret {A} (a : A) : C A := fun l => COk a l.
Definition cbind {A B} (m : C A) (f : A -> C B) : C B := fun l =>
  match m l with
  | COk a l => f a l
  | CPanic => CPanic
  | COutOfFuel => COutOfFuel
  end.
Definition cfuel {A} : C A := fun _ => COutOfFuel.

Declare Scope c_scope.
Delimit Scope c_scope with c.
Notation "m ;; k" := (cbind m (fun _ => k)) (at level 61, right associativity) : c_scope.
Notation "x <- m ;; k" := (cbind m (fun x => k)) (at level 61, m at next level, right associativity) : c_scope.
Notation "' p <- m ;; k" := (cbind m (fun x => let 'p := x in k))
  (at level 61, p pattern, m at next level, right associativity) : c_scope.
Open Scope c_scope.

(** converter.go:56-61 [token]. *)
Definition ctoken : C string := fun l => COk (match l with t :: _ => t | [] => EOF end) l.

(** converter.go:69-79 [next]. *)
Fixpoint cnext (l : list string) : cres string :=
  match l with
  | [] => COk EOF []
  | t :: l' =>
    if (t =? ",") && (match l' with t' :: _ => t' =? "," | [] => false end)
    then cnext l'
    else COk t l'
  end.

(** converter.go:82-88 [matchToken]. *)
Definition cmatch (keywords : list string) : C bool := fun l =>
  COk (matches keywords (match l with t :: _ => t | [] => EOF end)) l.

(** [token[0:1]] *)
Definition c_slice01 (t : string) : C string := fun l =>
  match slice01 t with Some c => COk c l | None => CPanic end.

(** [token[1 : len(token)-1]] *)
Definition c_slice_inner (t : string) : C string := fun l =>
  match slice_inner t with Some s => COk s l | None => CPanic end.

(** converter.go:91-102 [isIdentifier]. *)
Definition isIdentifier (d : rdbms) (t : string) : C bool :=
  tc <- c_slice01 t ;;
  cret (match d with
        | SQLite => (tc =? """") || (tc =? "`")
        | MySQL => tc =? "`"
        | PostgreSQL => tc =? """"
        | Other _ => false
        end).

(** converter.go:105-116 [isStringValue]. *)
Definition isStringValue (d : rdbms) (t : string) : C bool :=
  tc <- c_slice01 t ;;
  cret (match d with
        | SQLite => tc =? "'"
        | MySQL => (tc =? """") || (tc =? "'")
        | PostgreSQL => tc =? "'"
        | Other _ => false
        end).

(** converter.go:175-182 [convertName]. *)
Definition convertName (d : rdbms) : C string :=
  t <- cnext ;;
  b <- isIdentifier d t ;;
  if b then c_slice_inner t else cret t.

(** converter.go:159-172 [convertTableName]: schema name, table name. *)
Definition convertTableName (d : rdbms) : C (string * string) :=
  schemaName <- convertName d ;;
  b <- cmatch ["."] ;;
  if b then
    cnext ;;
    tableName <- convertName d ;;
    cret (schemaName, tableName)
  else cret ("", schemaName).

(** converter.go:424-439 [convertCommaSeparatedColumnNames]: the loop; [ls] is reversed. *)
Fixpoint column_names_loop (fuel : nat) (ls : list string) : C (list string) :=
  match fuel with
  | O => cfuel
  | S fuel =>
    b <- cmatch [")"] ;;
    if b then cret (rev ls)
    else
      b <- cmatch [","] ;;
      if b then cnext ;; column_names_loop fuel ls
      else
        t <- ctoken ;;
        cnext ;;
        column_names_loop fuel (t :: ls)
  end.
Definition convertCommaSeparatedColumnNames (fuel : nat) : C (list string) :=
  cnext ;; (* skip "(" *)
  ls <- column_names_loop fuel [] ;;
  cnext ;;
  cret ls.

(** converter.go:336-344 [convertExprAux]; [convertExpr] is written out at line 341. *)
Fixpoint convertExprAux (fuel : nat) : C string :=
  match fuel with
  | O => cfuel
  | S fuel =>
    b <- cmatch [")"] ;;
    if b then cret ""
    else
      b <- cmatch ["("] ;;
      if b then
        o <- cnext ;; e <- convertExprAux fuel ;; c <- cnext ;; (* convertExpr *)
        r <- convertExprAux fuel ;;
        cret ((o ++ e ++ c) ++ r)
      else
        t <- cnext ;;
        r <- convertExprAux fuel ;;
        cret (t ++ r)
  end.

(** converter.go:331-333 [convertExpr]. *)
Definition convertExpr (fuel : nat) : C string :=
  o <- cnext ;; e <- convertExprAux fuel ;; c <- cnext ;;
  cret (o ++ e ++ c).

(** converter.go:347-366 [convertLiteralValue]. *)
Definition convertLiteralValue (d : rdbms) : C default_value :=
  t <- cnext ;;
  match parse_float t with
  | Some f => cret (DFloat f)
  | None =>
    b <- isStringValue d t ;;
    if b then
      s <- c_slice_inner t ;;
      cret (DString s)
    else if go_upper t =? "NULL" then cret DNil
    else if go_upper t =? "TRUE" then cret (DBool true)
    else if go_upper t =? "FALSE" then cret (DBool false)
    else cret (DString t)
  end.

(** converter.go:322-328 [convertDefaultValue]. *)
Definition convertDefaultValue (fuel : nat) (d : rdbms) : C default_value :=
  b <- cmatch ["("] ;;
  if b then
    e <- convertExpr fuel ;;
    cret (DString e)
  else convertLiteralValue d.

(** converter.go:369-377 [convertReference]. *)
Definition convertReference (fuel : nat) (d : rdbms) : C reference :=
  cnext ;; (* skip "REFERENCES" *)
  name <- convertName d ;;
  b <- cmatch ["("] ;;
  if b then
    ls <- convertCommaSeparatedColumnNames fuel ;;
    cret (mk_reference name (Some ls))
  else cret (mk_reference name None).

(** Field updates of [types.Constraint]. *)
Definition set_name x c := mk_constraint x (c_pk c) (c_unique c) (c_notnull c) (c_auto c) (c_default c) (c_check c) (c_collate c) (c_references c).
Definition set_pk c := mk_constraint (c_name c) true (c_unique c) (c_notnull c) (c_auto c) (c_default c) (c_check c) (c_collate c) (c_references c).
Definition set_unique c := mk_constraint (c_name c) (c_pk c) true (c_notnull c) (c_auto c) (c_default c) (c_check c) (c_collate c) (c_references c).
Definition set_notnull c := mk_constraint (c_name c) (c_pk c) (c_unique c) true (c_auto c) (c_default c) (c_check c) (c_collate c) (c_references c).
Definition set_auto c := mk_constraint (c_name c) (c_pk c) (c_unique c) (c_notnull c) true (c_default c) (c_check c) (c_collate c) (c_references c).
Definition set_default x c := mk_constraint (c_name c) (c_pk c) (c_unique c) (c_notnull c) (c_auto c) x (c_check c) (c_collate c) (c_references c).
Definition set_check x c := mk_constraint (c_name c) (c_pk c) (c_unique c) (c_notnull c) (c_auto c) (c_default c) x (c_collate c) (c_references c).
Definition set_collate x c := mk_constraint (c_name c) (c_pk c) (c_unique c) (c_notnull c) (c_auto c) (c_default c) (c_check c) x (c_references c).
Definition set_references x c := mk_constraint (c_name c) (c_pk c) (c_unique c) (c_notnull c) (c_auto c) (c_default c) (c_check c) (c_collate c) x.

(** converter.go:266-319 [convertConstraintAux]. *)
Fixpoint convertConstraintAux (fuel : nat) (d : rdbms) (c : constraint) : C constraint :=
  match fuel with
  | O => cfuel
  | S fuel =>
    b <- cmatch [","; ")"] ;;
    if b then cret c else
    b <- cmatch ["PRIMARY"] ;;
    if b then
      cnext ;; cnext ;;
      convertConstraintAux fuel d (set_pk c) else
    b <- cmatch ["AUTOINCREMENT"; "AUTO_INCREMENT"] ;;
    if b then
      cnext ;;
      convertConstraintAux fuel d (set_auto c) else
    b <- cmatch ["NOT"] ;;
    if b then
      cnext ;; cnext ;;
      convertConstraintAux fuel d (set_notnull c) else
    b <- cmatch ["UNIQUE"] ;;
    if b then
      cnext ;;
      convertConstraintAux fuel d (set_unique c) else
    b <- cmatch ["DEFAULT"] ;;
    if b then
      cnext ;;
      x <- convertDefaultValue fuel d ;;
      convertConstraintAux fuel d (set_default x c) else
    b <- cmatch ["CHECK"] ;;
    if b then
      cnext ;;
      x <- convertExpr fuel ;;
      convertConstraintAux fuel d (set_check x c) else
    b <- cmatch ["COLLATE"] ;;
    if b then
      cnext ;;
      x <- convertName d ;;
      convertConstraintAux fuel d (set_collate x c) else
    b <- cmatch ["REFERENCES"] ;;
    if b then
      x <- convertReference fuel d ;;
      convertConstraintAux fuel d (set_references x c)
    else cret c
  end.

(** converter.go:253-263 [convertConstraint]. *)
Definition convertConstraint (fuel : nat) (d : rdbms) : C constraint :=
  b <- cmatch ["CONSTRAINT"] ;;
  c <- (if b then
          cnext ;;
          b <- cmatch ["PRIMARY"; "UNIQUE"; "NOT"; "AUTOINCREMENT"; "AUTO_INCREMENT"; "DEFAULT";
                       "CHECK"; "REFERENCES"; "COLLATE"] ;;
          if b then cret zero_constraint
          else x <- convertName d ;; cret (set_name x zero_constraint)
        else cret zero_constraint) ;;
  convertConstraintAux fuel d c.

(** converter.go:237-250 [convertTypeDigit]. *)
Definition convertTypeDigit : C (Z * Z) :=
  b <- cmatch ["("] ;;
  if b then
    cnext ;;
    n <- cnext ;;
    b <- cmatch [","] ;;
    m <- (if b then cnext ;; m <- cnext ;; cret (atoi_value m) else cret 0%Z) ;;
    cnext ;; (* skip ")" *)
    cret (atoi_value n, m)
  else cret (0%Z, 0%Z).

(** converter.go:217-234 [convertDateType]. *)
Definition convertDateType : C data_type :=
  t <- cnext ;;
  let name := go_upper t in
  b <- cmatch ["VARYING"] ;;
  name <- (if b then
             v <- ctoken ;;
             cnext ;;
             cret (if name =? "BIT" then "VARBIT"
                   else if name =? "CHARACTER" then "VARCHAR"
                   else name ++ " " ++ go_upper v)
           else cret name) ;;
  '(n, m) <- convertTypeDigit ;;
  cret (mk_data_type name n m).

(** converter.go:207-214 [convertColumnDefinition]. *)
Definition convertColumnDefinition (fuel : nat) (d : rdbms) : C column :=
  name <- convertName d ;;
  ty <- convertDateType ;;
  c <- convertConstraint fuel d ;;
  cret (mk_column name ty c).

(** converter.go:380-421 [convertTableConstraint]. *)
Definition convertTableConstraint (fuel : nat) (d : rdbms) (tc : table_constraint) : C table_constraint :=
  b <- cmatch ["CONSTRAINT"] ;;
  name <- (if b then
             cnext ;;
             b <- cmatch ["PRIMARY"; "UNIQUE"; "CHECK"; "FOREIGN"] ;;
             if b then cret "" else convertName d
           else cret "") ;;
  b <- cmatch ["PRIMARY"] ;;
  if b then
    cnext ;; cnext ;;
    ls <- convertCommaSeparatedColumnNames fuel ;;
    cret (mk_tc (tc_pk tc ++ [mk_pk name ls])%list (tc_unique tc) (tc_check tc) (tc_fk tc)) else
  b <- cmatch ["UNIQUE"] ;;
  if b then
    cnext ;;
    ls <- convertCommaSeparatedColumnNames fuel ;;
    cret (mk_tc (tc_pk tc) (tc_unique tc ++ [mk_unique name ls])%list (tc_check tc) (tc_fk tc)) else
  b <- cmatch ["CHECK"] ;;
  if b then
    cnext ;;
    e <- convertExpr fuel ;;
    cret (mk_tc (tc_pk tc) (tc_unique tc) (tc_check tc ++ [mk_check name e])%list (tc_fk tc)) else
  b <- cmatch ["FOREIGN"] ;;
  if b then
    cnext ;; cnext ;;
    ls <- convertCommaSeparatedColumnNames fuel ;;
    r <- convertReference fuel d ;;
    cret (mk_tc (tc_pk tc) (tc_unique tc) (tc_check tc) (tc_fk tc ++ [mk_fk name ls r])%list)
  else cret tc.

(** converter.go:189-201: the loop of [convertTableDefinition]. *)
Fixpoint table_definition_loop (fuel : nat) (d : rdbms) (cols : list column) (tc : table_constraint)
  : C (list column * table_constraint) :=
  match fuel with
  | O => cfuel
  | S fuel =>
    b <- cmatch [")"] ;;
    if b then cret (cols, tc)
    else
      b <- cmatch ["CONSTRAINT"; "PRIMARY"; "UNIQUE"; "CHECK"; "FOREIGN"] ;;
      '(cols, tc) <- (if b then
                        tc <- convertTableConstraint fuel d tc ;; cret (cols, tc)
                      else
                        c <- convertColumnDefinition fuel d ;; cret (cols ++ [c], tc)%list) ;;
      b <- cmatch [")"] ;;
      if b then cret (cols, tc)
      else
        cnext ;;
        table_definition_loop fuel d cols tc
  end.

(** converter.go:185-204 [convertTableDefinition]. *)
Definition convertTableDefinition (fuel : nat) (d : rdbms) : C (list column * table_constraint) :=
  cnext ;;
  r <- table_definition_loop fuel d [] zero_tc ;;
  cnext ;;
  cret r.

(** converter.go:130-156 [convertTable].  At the end of the tokens [matchToken(";")] is
    false, so the test [c.size > c.i] of line 150 adds nothing. *)
Definition convertTable (fuel : nat) (d : rdbms) : C table :=
  cnext ;; (* skip "CREATE" *)
  cnext ;; (* skip "TABLE" *)
  ifne <- cmatch ["IF"] ;;
  (if ifne then cnext ;; cnext ;; cnext ;; cret tt else cret tt) ;;
  '(schemaName, tableName) <- convertTableName d ;;
  '(columns, constraints) <- convertTableDefinition fuel d ;;
  b <- cmatch [";"] ;;
  (if b then cnext ;; cret tt else cret tt) ;;
  cret (mk_table schemaName tableName ifne columns constraints).

(** converter.go:119-127 [convert]; the result is that of all tables from here on. *)
Fixpoint convert (fuel : nat) (d : rdbms) : C (list table) :=
  match fuel with
  | O => cfuel
  | S fuel => fun l =>
    match l with
    | [] => COk [] []
    | _ :: _ =>
      (t <- convertTable fuel d ;;
       ts <- convert fuel d ;;
       cret (t :: ts)) l
    end
  end.

Inductive convert_result := ConvertOk (ts : list table) | ConvertPanic | ConvertOutOfFuel.

(** converter.go:41-53 [Convert]. *)
Definition Convert (fuel : nat) (d : rdbms) (tokens : list string) : convert_result :=
  match convert fuel d tokens with
  | COk ts _ => ConvertOk ts
  | CPanic => ConvertPanic
  | COutOfFuel => ConvertOutOfFuel
  end.
