(** The section "MySQL" of README.md (lines 201-273) as it is written there, and the changes that make it agree with
    the library.  [statement false] is the README; in [statement true] the places marked with [lib] are replaced.
    "RIMARY" and "INVISIBL" are read as PRIMARY and INVISIBLE.  The README does not list the types, literals and
    index-options; the latter are taken from the MySQL manual.  Several table options may be given, in any order. *)
From Coq Require Import String List Bool.
From Verif Require Import GoStr GoNum Types Grammar Readme.
Import ListNotations.
Open Scope nat_scope.
Open Scope string_scope.
Open Scope list_scope.
Open Scope form_scope.

Definition name : form := token (legal_name MySQL).
Definition value : form := token (literal MySQL).
Definition text : form := token (quoted (str_quotes MySQL)).
Definition number : form := token is_positive_integer_token.
Definition equals : form := maybe (word "=").
(** [lib]: there is a character set and a collation called binary, which are not accepted *)
Definition collation_name (lib : bool) : form := if lib then name else choice [name; word "BINARY"].

Definition type_name : form :=
  choice
    [one_of ["SERIAL"; "BOOL"; "BOOLEAN"; "DATE"; "GEOMETRY"; "POINT"; "LINESTRING"; "POLYGON"; "MULTIPOINT"; "MULTILINESTRING"; "MULTIPOLYGON";
       "GEOMETRYCOLLECTION"; "JSON"];
     one_of ["VARCHAR"; "CHAR"; "BINARY"; "VARBINARY"; "BLOB"; "TEXT"] ;; maybe (within number);
     one_of ["BIT"; "TINYINT"; "SMALLINT"; "MEDIUMINT"; "INT"; "INTEGER"; "BIGINT"] ;; maybe (within number);
     one_of ["NUMERIC"; "DECIMAL"; "FLOAT"; "REAL"; "DOUBLE"] ;; maybe (within (number ;; maybe (word "," ;; number)));
     one_of ["TIME"; "DATETIME"; "TIMESTAMP"; "YEAR"] ;; maybe (within number)].

(** [CONSTRAINT [symbol]] *)
Definition constraint_name : form := word "CONSTRAINT" ;; maybe name.

(** SET NULL | SET DEFAULT | CASCADE | RESTRICT | NO ACTION *)
Definition action : form :=
  choice [words ["SET"; "NULL"]; words ["SET"; "DEFAULT"]; word "CASCADE"; word "RESTRICT"; words ["NO"; "ACTION"]].

(** [MATCH {FULL | PARTIAL | SIMPLE}] [ON {DELETE | UPDATE} ...] *)
Definition reference_clauses : form :=
  maybe (word "MATCH" ;; one_of ["FULL"; "PARTIAL"; "SIMPLE"]) ;;
  maybe (word "ON" ;; one_of ["DELETE"; "UPDATE"] ;; action).

Definition check : form := word "CHECK" ;; brackets ;; maybe (maybe (word "NOT") ;; word "ENFORCED").

(** column-constraint, without [CONSTRAINT [symbol]] *)
Definition column_constraint (lib : bool) : form :=
  choice
    [maybe (word "PRIMARY") ;; word "KEY";
     word "UNIQUE" ;; maybe (word "KEY");
     word "AUTO_INCREMENT";
     word "NOT" ;; word "NULL";
     word "NULL";
     word "DEFAULT" ;; choice [value; brackets];
     word "VISIBLE";
     word "INVISIBLE";
     word "COMMENT" ;; text;
     word "COLLATE" ;; collation_name lib;
     word "COLUMN_FORMAT" ;; one_of ["FIXED"; "DYNAMIC"; "DEFAULT"];
     word "ENGINE_ATTRIBUTE" ;; equals ;; text;
     word "SECONDARY_ENGINE_ATTRIBUTE" ;; equals ;; text;
     word "STORAGE" ;; one_of ["DISK"; "MEMORY"];
     maybe (words ["GENERATED"; "ALWAYS"]) ;; word "AS" ;; brackets;
     word "VIRTUAL";
     word "STORED";
     check;
     word "REFERENCES" ;; name ;; within name ;; reference_clauses].

(** [lib]: CONSTRAINT [symbol] before the first constraint only (in the README: before every CHECK); every kind of constraint
    once; no NOT NULL directly after CHECK (expr) *)
Definition kind (w : string) : string :=
  if w =? "NOT" then "NULL" else if w =? "KEY" then "PRIMARY" else if w =? "AS" then "GENERATED" else w.
(** In the second case UNIQUE KEY is one constraint. *)
Definition clash (a b : list string) : bool :=
  ((first_of a =? "CHECK") && (last a "" =? ")") && (first_of b =? "NOT"))
  || ((first_of a =? "UNIQUE") && Nat.eqb (List.length a) 1 && (first_of b =? "KEY")).
Definition column_constraints : form := distinct kind clash (column_constraint true).
Definition begins_with_check (f : form) : form := fun l => f l /\ first_of l = "CHECK".
Definition column (lib : bool) : form :=
  name ;; type_name ;;
  if lib then choice [nothing; column_constraints; constraint_name ;; begins_with_check column_constraints]
  else many (choice [column_constraint lib; constraint_name ;; check]).

(** key-part *)
Definition key_part : form :=
  choice [name ;; maybe (within number); brackets] ;; maybe (one_of ["ASC"; "DESC"]).
Definition key_parts : form := within (listed key_part).
Definition index_type : form := word "USING" ;; one_of ["BTREE"; "HASH"].
Definition index_option : form :=
  choice
    [word "KEY_BLOCK_SIZE" ;; equals ;; value;
     index_type;
     word "WITH" ;; word "PARSER" ;; name;
     word "COMMENT" ;; text;
     word "VISIBLE";
     word "INVISIBLE";
     word "ENGINE_ATTRIBUTE" ;; equals ;; text;
     word "SECONDARY_ENGINE_ATTRIBUTE" ;; equals ;; text].

(** table-constraint; [lib]: no INDEX, KEY, FULLTEXT and SPATIAL; USING after UNIQUE only if there is an index name; no NO INHERIT *)
Definition table_constraint (lib : bool) : form :=
  choice
    [if lib then choice []
     else one_of ["INDEX"; "KEY"] ;; maybe name ;; maybe index_type ;; key_parts ;; many index_option;
     if lib then choice []
     else one_of ["FULLTEXT"; "SPATIAL"] ;; maybe (one_of ["INDEX"; "KEY"]) ;; maybe name ;; key_parts ;; many index_option;
     maybe constraint_name ;;
     choice
       [word "PRIMARY" ;; word "KEY" ;; maybe index_type ;; key_parts ;; many index_option;
        word "UNIQUE" ;; maybe (one_of ["INDEX"; "KEY"]) ;;
          (if lib then maybe (name ;; maybe index_type) else maybe name ;; maybe index_type) ;; key_parts ;; many index_option;
        word "CHECK" ;; brackets ;; (if lib then nothing else maybe (words ["NO"; "INHERIT"]));
        word "FOREIGN" ;; word "KEY" ;; maybe name ;; within (listed name) ;; word "REFERENCES" ;; name ;; key_parts ;;
          reference_clauses]].

(** table-options *)
Definition table_option (lib : bool) : form :=
  choice
    [word "AUTOEXTEND_SIZE" ;; equals ;; value;
     word "AUTO_INCREMENT" ;; equals ;; value;
     word "AVG_ROW_LENGTH" ;; equals ;; value;
     maybe (word "DEFAULT") ;; words ["CHARACTER"; "SET"] ;; equals ;; collation_name lib;
     word "CHECKSUM" ;; equals ;; one_of ["0"; "1"];
     maybe (word "DEFAULT") ;; word "COLLATE" ;; equals ;; collation_name lib;
     word "COMMENT" ;; equals ;; text;
     word "COMPRESSION" ;; equals ;; token (contains ["'ZLIB'"; "'LZ4'"; "'NONE'"]);
     word "CONNECTION" ;; equals ;; text;
     one_of ["DATA"; "INDEX"] ;; word "DIRECTORY" ;; equals ;; text;
     word "DELAY_KEY_WRITE" ;; equals ;; one_of ["0"; "1"];
     word "ENCRYPTION" ;; equals ;; token (contains ["'Y'"; "'N'"]);
     word "ENGINE" ;; equals ;; name;
     word "ENGINE_ATTRIBUTE" ;; equals ;; text;
     word "INSERT_METHOD" ;; equals ;; one_of ["NO"; "FIRST"; "LAST"];
     word "KEY_BLOCK_SIZE" ;; equals ;; value;
     word "MAX_ROWS" ;; equals ;; value;
     word "MIN_ROWS" ;; equals ;; value;
     word "PACK_KEYS" ;; equals ;; one_of ["0"; "1"; "DEFAULT"];
     word "PASSWORD" ;; equals ;; text;
     word "ROW_FORMAT" ;; equals ;; one_of ["DEFAULT"; "DYNAMIC"; "FIXED"; "COMPRESSED"; "REDUNDANT"; "COMPACT"];
     word "SECONDARY_ENGINE_ATTRIBUTE" ;; equals ;; text;
     word "STATS_AUTO_RECALC" ;; equals ;; one_of ["DEFAULT"; "0"; "1"];
     word "STATS_PERSISTENT" ;; equals ;; one_of ["DEFAULT"; "0"; "1"];
     word "STATS_SAMPLE_PAGES" ;; equals ;; value;
     word "TABLESPACE" ;; name ;; maybe (word "STORAGE" ;; one_of ["DISK"; "MEMORY"]);
     word "UNION" ;; equals ;; within (listed name)].

Definition statement (lib : bool) : form :=
  word "CREATE" ;; word "TABLE" ;; maybe (words ["IF"; "NOT"; "EXISTS"]) ;; maybe (name ;; word ".") ;; name ;;
  within (listed (column lib) ;; maybe (word "," ;; listed (table_constraint lib))) ;;
  many (table_option lib) ;; word ";".
