(** The section "PostgreSQL" of README.md (lines 153-199) as it is written there, and the changes that make it agree with
    the library.  [statement false] is the README; in [statement true] the places marked with [lib] are replaced.
    "RIMARY KEY" is read as PRIMARY KEY.  The README does not list the types and literals.  Several table options may be
    given, in any order. *)
From Coq Require Import String List Bool.
From Verif Require Import GoStr GoNum Types Grammar Readme.
Import ListNotations.
Open Scope nat_scope.
Open Scope string_scope.
Open Scope list_scope.
Open Scope form_scope.

Definition name : form := token (legal_name PostgreSQL).
Definition literal_value : form := token (literal PostgreSQL).
Definition number : form := token is_positive_integer_token.

Definition type_name : form :=
  choice
    [one_of ["BIGINT"; "INT8"; "BIGSERIAL"; "SERIAL8"; "BOOLEAN"; "BOOL"; "BOX"; "BYTEA"; "CIDR";
       "CIRCLE"; "DATE"; "FLOAT8"; "INET"; "INTEGER"; "INT"; "INT4"; "JSON"; "JSONB"; "LINE";
       "LSEG"; "MACADDR"; "MACADDR8"; "MONEY"; "PATH"; "PG_LSN"; "PG_SNAPSHOT"; "POINT"; "POLYGON";
       "REAL"; "FLOAT4"; "SMALLINT"; "INT2"; "SMALLSERIAL"; "SERIAL2"; "SERIAL"; "SERIAL4"; "TEXT";
       "TIMETZ"; "TIMESTAMPTZ"; "TSQUERY"; "TSVECTOR"; "TXID_SNAPSHOT"; "UUID"; "XML"];
     one_of ["BIT"; "CHARACTER"] ;; maybe (word "VARYING") ;; maybe (within number);
     one_of ["VARBIT"; "VARCHAR"; "CHAR"] ;; maybe (within number);
     one_of ["NUMERIC"; "DECIMAL"] ;; maybe (within (number ;; maybe (word "," ;; number)));
     words ["DOUBLE"; "PRECISION"];
     one_of ["TIME"; "TIMESTAMP"] ;; maybe (within number) ;; maybe (one_of ["WITH"; "WITHOUT"] ;; words ["TIME"; "ZONE"])].

Definition constraint_name : form := word "CONSTRAINT" ;; name.

(** index-parameters *)
Definition index_parameters : form :=
  maybe (word "INCLUDE" ;; within (listed name)) ;;
  maybe (word "WITH" ;; brackets) ;;
  maybe (word "USING" ;; word "INDEX" ;; word "TABLESPACE" ;; name).

(** SET NULL | SET DEFAULT | CASCADE | RESTRICT | NO ACTION *)
Definition action : form :=
  choice [words ["SET"; "NULL"]; words ["SET"; "DEFAULT"]; word "CASCADE"; word "RESTRICT"; words ["NO"; "ACTION"]].

(** [MATCH {FULL | PARTIAL | SIMPLE}] [ON {DELETE | UPDATE} ...] *)
Definition reference_clauses : form :=
  maybe (word "MATCH" ;; one_of ["FULL"; "PARTIAL"; "SIMPLE"]) ;;
  maybe (word "ON" ;; one_of ["DELETE"; "UPDATE"] ;; action).

(** column-constraint, without [CONSTRAINT name]; [lib]: not AS (expr) *)
Definition column_constraint (lib : bool) : form :=
  choice
    [word "PRIMARY" ;; word "KEY" ;; index_parameters;
     word "UNIQUE" ;; index_parameters;
     word "NOT" ;; word "NULL";
     word "NULL";
     word "CHECK" ;; brackets ;; maybe (words ["NO"; "INHERIT"]);
     word "DEFAULT" ;; choice [literal_value; brackets];
     word "GENERATED" ;; word "ALWAYS" ;; word "AS" ;; brackets ;; word "STORED";
     word "GENERATED" ;; choice [word "ALWAYS"; words ["BY"; "DEFAULT"]] ;; word "AS" ;; word "IDENTITY" ;; maybe brackets;
     if lib then choice [] else word "AS" ;; brackets ;; maybe (one_of ["STORED"; "VIRTUAL"]);
     word "REFERENCES" ;; name ;; maybe (within name) ;; reference_clauses].

(** [lib]: a name before the first constraint only; every kind of constraint once, where NULL and NOT NULL are the same kind *)
Definition kind (w : string) : string := if w =? "NOT" then "NULL" else w.
Definition column (lib : bool) : form :=
  name ;; type_name ;;
  if lib then choice [nothing; maybe constraint_name ;; distinct kind (fun _ _ => false) (column_constraint lib)]
  else many (maybe constraint_name ;; column_constraint lib).

(** table-constraint *)
Definition table_constraint : form :=
  maybe constraint_name ;;
  choice
    [word "PRIMARY" ;; word "KEY" ;; within (listed name) ;; index_parameters;
     word "UNIQUE" ;; within (listed name) ;; index_parameters;
     word "CHECK" ;; brackets ;; maybe (words ["NO"; "INHERIT"]);
     word "EXCLUDE" ;; maybe (word "USING" ;; name) ;; brackets ;; index_parameters ;; maybe (word "WHERE" ;; brackets);
     word "FOREIGN" ;; word "KEY" ;; within (listed name) ;; word "REFERENCES" ;; name ;; maybe (within (listed name)) ;;
       reference_clauses].

(** table-options *)
Definition table_option : form :=
  choice
    [word "WITH" ;; brackets;
     words ["WITHOUT"; "OIDS"];
     word "TABLESPACE" ;; name;
     word "INHERITS" ;; brackets;
     word "PARTITION" ;; word "BY" ;; one_of ["RANGE"; "LIST"; "HASH"] ;; brackets;
     word "USING" ;; name].

(** [IF NOT EXISTS] [schema_name.]table_name; [lib]: the name does not begin with the word IF, unless IF NOT EXISTS is there *)
Definition table_name : form := maybe (name ;; word ".") ;; name.
Definition not_if (f : form) : form := fun l => f l /\ hd "" l <> "IF" /\ hd "" l <> "if".
Definition table (lib : bool) : form :=
  if lib then choice [words ["IF"; "NOT"; "EXISTS"] ;; table_name; not_if table_name]
  else maybe (words ["IF"; "NOT"; "EXISTS"]) ;; table_name.
Definition statement (lib : bool) : form :=
  word "CREATE" ;; word "TABLE" ;; table lib ;;
  within (listed (column lib) ;; maybe (word "," ;; listed table_constraint)) ;;
  many table_option ;; word ";".
