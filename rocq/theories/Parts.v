(** The parts of a CREATE TABLE statement, from the grammars of the dialects. *)
From Coq Require Import String List Bool.
From Verif Require Import GoStr Types Grammar Ast.
From Verif Require GSqlite GPostgres GMysql.
Import ListNotations.
Open Scope string_scope.
Open Scope gr_scope.

(** CREATE TABLE [IF NOT EXISTS] name ( *)
Definition opening (d : rdbms) : gr unit :=
  match d with
  | PostgreSQL =>
    kw_ ["CREATE"] ** Put ["CREATE"] ** kw ["TABLE"] ** GPostgres.if_not_exists ** GPostgres.table_name ** kw ["("] ==> fun _ => tt
  | MySQL =>
    kw_ ["CREATE"] ** Put ["CREATE"] ** kw ["TABLE"] ** GMysql.if_not_exists ** GMysql.table_name ** kw ["("] ==> fun _ => tt
  | _ =>
    kw_ ["CREATE"] ** optkw false ["TEMP"; "TEMPORARY"] ** Put ["CREATE"] ** kw ["TABLE"] ** GSqlite.if_not_exists **
    GSqlite.table_name ** kw ["("] ==> fun _ => tt
  end.

(** a column or a table constraint *)
Definition element (d : rdbms) : gr a_element :=
  match d with PostgreSQL => GPostgres.element | MySQL => GMysql.element | _ => GSqlite.element end.
Definition elements (d : rdbms) : gr (list a_element) := SepBy true (element d).

(** what may stand between the closing bracket and the ";" *)
Definition options (d : rdbms) : gr unit :=
  match d with
  | PostgreSQL => GPostgres.table_options ==> fun _ => tt
  | MySQL => GMysql.table_options ==> fun _ => tt
  | _ => GSqlite.table_options
  end.

(** the beginning of a column: its name, type and the name of its constraint *)
Definition column_name (d : rdbms) : gr string := One true (CName (match d with Other _ => SQLite | _ => d end)).
Definition column_type (d : rdbms) : gr a_type :=
  match d with PostgreSQL => GPostgres.type_name | MySQL => GMysql.type_name | _ => GSqlite.type_name end.
Definition column_cname (d : rdbms) : gr (option string) :=
  match d with
  | PostgreSQL => GPostgres.constraint_name
  | MySQL => GMysql.constraint_name ["CHECK"]
  | _ => GSqlite.constraint_name
  end.
Definition column_head (d : rdbms) : gr unit := column_name d ** column_type d ** column_cname d ==> fun _ => tt.

(** a constraint of a column, the words with which it begins, and the kind of constraint that a word begins *)
Definition column_constraint (d : rdbms) : gr a_item :=
  match d with
  | PostgreSQL => GPostgres.column_constraint
  | MySQL => GMysql.column_constraint
  | _ => GSqlite.column_constraint
  end.
Definition constraint_words (d : rdbms) : list string :=
  match d with
  | PostgreSQL => GPostgres.constraint_words
  | MySQL => GMysql.constraint_words
  | _ => GSqlite.constraint_words
  end.
Definition kind (d : rdbms) : string -> string :=
  match d with
  | PostgreSQL => GPostgres.constraint_key
  | MySQL => GMysql.constraint_key
  | _ => to_upper
  end.

(** the types after which (n) may stand, and those after which (n, m) may stand *)
Definition sized_words (d : rdbms) : list string :=
  match d with
  | PostgreSQL => ["BIT"; "CHARACTER"; "VARBIT"; "VARCHAR"; "CHAR"; "NUMERIC"; "DECIMAL"; "TIME"; "TIMESTAMP"]
  | MySQL =>
    ["VARCHAR"; "CHAR"; "BINARY"; "VARBINARY"; "BLOB"; "TEXT"; "NUMERIC"; "DECIMAL"; "FLOAT"; "REAL"; "DOUBLE";
     "BIT"; "TINYINT"; "SMALLINT"; "MEDIUMINT"; "INT"; "INTEGER"; "BIGINT"; "TIME"; "DATETIME"; "TIMESTAMP"; "YEAR"]
  | _ => []
  end.
Definition sized (d : rdbms) (l : list string) : Prop :=
  (exists w, l = [w] /\ matches (sized_words d) w = true) \/
  d = PostgreSQL /\ exists w v, l = [w; v] /\ matches ["BIT"; "CHARACTER"] w = true /\ matches ["VARYING"] v = true.
Definition scaled_words (d : rdbms) : list string :=
  match d with
  | PostgreSQL => ["NUMERIC"; "DECIMAL"]
  | MySQL => ["NUMERIC"; "DECIMAL"; "FLOAT"; "REAL"; "DOUBLE"]
  | _ => []
  end.

(** elements with their commas, as they stand before another element *)
Definition before (d : rdbms) (p : list string) : Prop :=
  p = [] \/ exists es oe ve, p = (es ++ [","])%list /\ lang (elements d) es (Some ",") oe ve.
(** a token that can be the name of a column *)
Definition name_class (d : rdbms) : tclass := CName (match d with Other _ => SQLite | _ => d end).
