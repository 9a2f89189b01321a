(** The section "SQLite" of README.md (lines 113-152) as it is written there, and the changes that make it agree with
    the library.  [statement false] is the README; in [statement true] the places marked with [lib] are replaced.
    "RIMARY KEY" is read as PRIMARY KEY.  The README does not list the types and literals. *)
From Coq Require Import String List Bool.
From Verif Require Import GoStr GoNum Types Grammar Readme.
Import ListNotations.
Open Scope nat_scope.
Open Scope string_scope.
Open Scope list_scope.
Open Scope form_scope.

Definition name : form := token (legal_name SQLite).
Definition literal_value : form := token (literal SQLite).
Definition type_name : form := one_of ["TEXT"; "NUMERIC"; "INTEGER"; "REAL"; "NONE"].

Definition constraint_name : form := word "CONSTRAINT" ;; name.

(** conflict-clause *)
Definition conflict_clause : form :=
  word "ON" ;; word "CONFLICT" ;; one_of ["ROLLBACK"; "ABORT"; "FAIL"; "IGNORE"; "REPLACE"].

(** SET NULL | SET DEFAULT | CASCADE | RESTRICT | NO ACTION *)
Definition action : form :=
  choice [words ["SET"; "NULL"]; words ["SET"; "DEFAULT"]; word "CASCADE"; word "RESTRICT"; words ["NO"; "ACTION"]].

(** (FULL is a reserved word, but it is a name after MATCH.)
    [ON {DELETE | UPDATE} ...] [MATCH name] [[NOT] DEFERRABLE [INITIALLY DEFERRED | INITIALLY IMMEDIATE]] *)
Definition reference_clauses (lib : bool) : form :=
  maybe (word "ON" ;; one_of ["DELETE"; "UPDATE"] ;; action) ;;
  maybe (word "MATCH" ;; if lib then one_of ["SIMPLE"; "PARTIAL"; "FULL"] else choice [name; word "FULL"]) ;;
  maybe (maybe (word "NOT") ;; word "DEFERRABLE" ;; maybe (choice [words ["INITIALLY"; "DEFERRED"]; words ["INITIALLY"; "IMMEDIATE"]])).

(** column-constraint, without [CONSTRAINT name] *)
Definition column_constraint (lib : bool) : form :=
  choice
    [word "PRIMARY" ;; word "KEY" ;; maybe (one_of ["DESC"; "ASC"]) ;; maybe conflict_clause ;; maybe (word "AUTOINCREMENT");
     word "UNIQUE" ;; maybe conflict_clause;
     word "NOT" ;; word "NULL" ;; maybe conflict_clause;
     word "CHECK" ;; brackets;
     word "DEFAULT" ;; choice [literal_value; brackets];
     word "COLLATE" ;; one_of ["BINARY"; "NOCASE"; "RTRIM"];
     word "GENERATED" ;; word "ALWAYS" ;; word "AS" ;; brackets ;; maybe (one_of ["STORED"; "VIRTUAL"]);
     word "AS" ;; brackets ;; maybe (one_of ["STORED"; "VIRTUAL"]);
     word "REFERENCES" ;; name ;; maybe (within name) ;; reference_clauses lib].

(** [lib]: a name before the first constraint only; every kind of constraint once; no NOT NULL directly after REFERENCES *)
Definition clash (a b : list string) : bool := (first_of a =? "REFERENCES") && (first_of b =? "NOT").
Definition column (lib : bool) : form :=
  name ;; type_name ;;
  if lib then choice [nothing; maybe constraint_name ;; distinct (fun w => w) clash (column_constraint lib)]
  else many (maybe constraint_name ;; column_constraint lib).

(** table-constraint *)
Definition table_constraint (lib : bool) : form :=
  maybe constraint_name ;;
  choice
    [word "PRIMARY" ;; word "KEY" ;; within (listed name) ;; maybe conflict_clause;
     word "UNIQUE" ;; within (listed name) ;; maybe conflict_clause;
     word "CHECK" ;; brackets;
     word "FOREIGN" ;; word "KEY" ;; within (listed name) ;; word "REFERENCES" ;; name ;; maybe (within (listed name)) ;;
       reference_clauses lib].

(** table-options: [WITHOUT ROWID][STRICT]; [lib]: at most one of them *)
Definition table_options (lib : bool) : form :=
  if lib then choice [nothing; words ["WITHOUT"; "ROWID"]; word "STRICT"]
  else maybe (words ["WITHOUT"; "ROWID"]) ;; maybe (word "STRICT").

(** [lib]: the semicolon is necessary *)
Definition statement (lib : bool) : form :=
  word "CREATE" ;; word "TABLE" ;; maybe (words ["IF"; "NOT"; "EXISTS"]) ;; maybe (name ;; word ".") ;; name ;;
  within (listed (column lib) ;; maybe (word "," ;; listed (table_constraint lib))) ;;
  table_options lib ;; if lib then word ";" else maybe (word ";").
