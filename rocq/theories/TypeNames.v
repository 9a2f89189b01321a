(** The words that stand for types, and words that are never names, whatever the dialect.  (Written from the documentation of the
    dialects; the lists of the library are in Words.v.) *)
From Coq Require Import String List.
From Verif Require Import GoStr Types.
Import ListNotations.
Open Scope string_scope.

Definition type_names (d : rdbms) : list string :=
  match d with
  | PostgreSQL =>
    ["SMALLINT"; "INT2"; "INTEGER"; "INT"; "INT4"; "BIGINT"; "INT8"; "DECIMAL"; "NUMERIC"; "REAL"; "FLOAT4"; "DOUBLE"; "FLOAT8";
     "SMALLSERIAL"; "SERIAL2"; "SERIAL"; "SERIAL4"; "BIGSERIAL"; "SERIAL8"; "MONEY"; "CHARACTER"; "CHAR"; "VARCHAR"; "TEXT"; "BYTEA";
     "TIMESTAMP"; "TIMESTAMPTZ"; "DATE"; "TIME"; "TIMETZ"; "BOOLEAN"; "BOOL";
     "POINT"; "LINE"; "LSEG"; "BOX"; "PATH"; "POLYGON"; "CIRCLE"; "CIDR"; "INET"; "MACADDR"; "MACADDR8"; "BIT"; "VARBIT";
     "TSVECTOR"; "TSQUERY"; "UUID"; "XML"; "JSON"; "JSONB"; "PG_LSN"; "PG_SNAPSHOT"; "TXID_SNAPSHOT"]
  | MySQL =>
    ["TINYINT"; "SMALLINT"; "MEDIUMINT"; "INT"; "INTEGER"; "BIGINT"; "SERIAL"; "DECIMAL"; "NUMERIC"; "FLOAT"; "REAL"; "DOUBLE"; "BIT";
     "BOOL"; "BOOLEAN"; "DATE"; "DATETIME"; "TIMESTAMP"; "TIME"; "YEAR"; "CHAR"; "VARCHAR"; "BINARY"; "VARBINARY"; "BLOB"; "TEXT";
     "GEOMETRY"; "POINT"; "LINESTRING"; "POLYGON"; "MULTIPOINT"; "MULTILINESTRING"; "MULTIPOLYGON"; "GEOMETRYCOLLECTION"; "JSON"]
  | _ => ["NONE"; "INTEGER"; "REAL"; "TEXT"; "NUMERIC"]
  end.
(** [w] is the type [T], in upper or lower case. *)
Definition is_type (d : rdbms) (T w : string) : Prop := In T (type_names d) /\ (w = T \/ w = to_lower T).

(** The name by which the type is reported, if the tokens [q] follow: in PostgreSQL BIT VARYING is VARBIT, CHARACTER VARYING is VARCHAR. *)
Definition type_reported (d : rdbms) (T : string) (q : list string) : string :=
  match d, q with
  | PostgreSQL, v :: _ =>
    if ((v =? "VARYING") || (v =? "varying"))%bool
    then if T =? "BIT" then "VARBIT" else if T =? "CHARACTER" then "VARCHAR" else T
    else T
  | _, _ => T
  end.

(** Words of SQL that are reserved in all three dialects. *)
Definition core_keywords : list string :=
  ["ALL"; "AND"; "AS"; "BETWEEN"; "CASE"; "CHECK"; "COLLATE"; "COLUMN"; "CONSTRAINT"; "CREATE"; "CROSS"; "CURRENT_DATE"; "CURRENT_TIME";
   "CURRENT_TIMESTAMP"; "DEFAULT"; "DISTINCT"; "ELSE"; "EXCEPT"; "FOR"; "FOREIGN"; "FROM"; "GROUP"; "HAVING"; "IN"; "INNER"; "INTO"; "IS";
   "JOIN"; "LEFT"; "LIKE"; "LIMIT"; "NATURAL"; "NOT"; "NULL"; "ON"; "OR"; "ORDER"; "OUTER"; "OVER"; "PARTITION"; "PRIMARY"; "RECURSIVE";
   "REFERENCES"; "RIGHT"; "SELECT"; "TABLE"; "THEN"; "TO"; "UNION"; "UNIQUE"; "USING"; "WHEN"; "WHERE"; "WINDOW"; "WITH";
   "ASC"; "DESC"; "ANALYZE"; "IGNORE"; "RANGE"].
(** in any mixture of upper and lower case *)
Definition keyword (w : string) : Prop := In (to_upper w) core_keywords.
(** the keywords with which a table constraint begins *)
Definition constraint_starts : list string :=
  ["CONSTRAINT"; "PRIMARY"; "UNIQUE"; "CHECK"; "FOREIGN"; "constraint"; "primary"; "unique"; "check"; "foreign"].
