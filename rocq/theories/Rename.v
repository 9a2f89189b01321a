(** Names, and texts that differ in names only. *)
From Coq Require Import String List.
From Verif Require Import GoStr Unicode Types Grammar Ast Names TypeNames.
Import ListNotations.
Open Scope string_scope.
Open Scope list_scope.

(** The words that have a meaning somewhere in the dialect (besides the types). *)
Definition common_vocabulary : list string :=
  ["CREATE"; "TABLE"; "IF"; "NOT"; "EXISTS"; "CONSTRAINT"; "PRIMARY"; "KEY"; "UNIQUE"; "CHECK"; "DEFAULT"; "NULL"; "TRUE"; "FALSE";
   "CURRENT_TIME"; "CURRENT_DATE"; "CURRENT_TIMESTAMP"; "AUTOINCREMENT"; "AUTO_INCREMENT"; "COLLATE"; "REFERENCES"; "FOREIGN"; "ON";
   "DELETE"; "UPDATE"; "SET"; "CASCADE"; "RESTRICT"; "NO"; "ACTION"; "MATCH"; "SIMPLE"; "PARTIAL"; "FULL"; "GENERATED"; "ALWAYS"; "AS";
   "STORED"; "VIRTUAL"; "WITH"; "WITHOUT"; "VIEW"; "TRIGGER"; "INDEX"; "BEGIN"; "END"; "INF"; "INFINITY"; "NAN";
   "BIT"; "CHARACTER"; "VARYING"].
Definition vocabulary (d : rdbms) : list string :=
  common_vocabulary ++ type_names d ++
  match d with
  | PostgreSQL =>
    ["EXCLUDE"; "WHERE"; "VARYING"; "PRECISION"; "ZONE"; "INCLUDE"; "INHERIT"; "IDENTITY"; "OIDS"; "INHERITS"; "PARTITION"; "BY";
     "RANGE"; "LIST"; "HASH"; "USING"; "MATERIALIZED"; "SEQUENCE"; "FUNCTION"; "PROCEDURE"; "TYPE"; "AGGREGATE"; "SCHEMA"; "ROLE";
     "USER"; "GROUP"; "TABLESPACE"; "EXTENSION"; "DATABASE"; "LANGUAGE"; "DOMAIN"; "SERVER"; "CONVERSION"; "RULE"; "COLLATION";
     "POLICY"; "OPERATOR"]
  | MySQL =>
    ["FULLTEXT"; "SPATIAL"; "ASC"; "DESC"; "USING"; "BTREE"; "HASH"; "PARSER"; "ZONE"; "ENFORCED"; "COLUMN_FORMAT"; "VISIBLE";
     "INVISIBLE"; "AUTOEXTEND_SIZE"; "AVG_ROW_LENGTH"; "KEY_BLOCK_SIZE"; "MAX_ROWS"; "MIN_ROWS"; "STATS_SAMPLE_PAGES"; "COMMENT";
     "ENGINE_ATTRIBUTE"; "PASSWORD"; "SECONDARY_ENGINE_ATTRIBUTE"; "CONNECTION"; "COMPRESSION"; "ENCRYPTION"; "ENGINE"; "CHECKSUM";
     "DELAY_KEY_WRITE"; "PACK_KEYS"; "STATS_AUTO_RECALC"; "STATS_PERSISTENT"; "DATA"; "DIRECTORY"; "STORAGE"; "DISK"; "MEMORY";
     "CHARACTER"; "UNION"; "INSERT_METHOD"; "FIRST"; "LAST"; "ROW_FORMAT"; "DYNAMIC"; "FIXED"; "COMPRESSED"; "REDUNDANT"; "COMPACT";
     "DATABASE"; "PROCEDURE"; "SERVER"; "FUNCTION"; "USER"; "EVENT"; "SEQUENCE"; "TABLESPACE"; "ROLE"; "LOGIN"]
  | _ =>
    ["TEMP"; "TEMPORARY"; "ASC"; "DESC"; "CONFLICT"; "ROLLBACK"; "ABORT"; "FAIL"; "IGNORE"; "REPLACE"; "BINARY"; "NOCASE"; "RTRIM";
     "DEFERRABLE"; "INITIALLY"; "DEFERRED"; "IMMEDIATE"; "STRICT"; "ROWID"]
  end.

(** a token that can only be a name, with or without quotation marks *)
Definition name_token (d : rdbms) (t : string) : Prop := legal d t /\ ~ In (to_upper t) (vocabulary d).

Section Renamed.
Variables (d : rdbms) (R : string -> string -> Prop).
(** the same token, or two names, related by [R] *)
Definition renamed (t t' : string) : Prop := t' = t \/ (R t t' /\ name_token d t /\ name_token d t').

(** names, as they are reported *)
Definition name_renamed (x x' : string) : Prop := exists t t', renamed t t' /\ x = unquote d t /\ x' = unquote d t'.
Definition opt_renamed (x x' : string) : Prop := x = "" /\ x' = "" \/ name_renamed x x'.
Definition list_renamed (l l' : list string) : Prop := Forall2 renamed l l'.
(** expressions: the text of renamed tokens *)
Definition text_renamed (x x' : string) : Prop := exists l l', Forall2 renamed l l' /\ x = text l /\ x' = text l'.
Definition default_renamed (v v' : default_value) : Prop :=
  v = v' \/ exists x x', v = DString x /\ v' = DString x' /\ text_renamed x x'.
Definition reference_renamed (r r' : reference) : Prop :=
  opt_renamed (ref_table r) (ref_table r') /\
  match ref_columns r, ref_columns r' with Some l, Some l' => list_renamed l l' | None, None => True | _, _ => False end.
(** the word reported as the type is a name in some scripts: see C46_refuted *)
Definition type_word_renamed (x x' : string) : Prop :=
  x = x' \/ exists t t' s, renamed t t' /\ x = (go_upper t ++ s)%string /\ x' = (go_upper t' ++ s)%string.
Definition type_renamed (y y' : data_type) : Prop :=
  type_word_renamed (dt_name y) (dt_name y') /\ dt_n y = dt_n y' /\ dt_m y = dt_m y'.
(** [T]: what is known about the types, [eq] or [type_renamed] *)
Definition column_renamed (T : data_type -> data_type -> Prop) (c c' : column) : Prop :=
  name_renamed (col_name c) (col_name c') /\ T (col_type c) (col_type c') /\
  let k := col_constraint c in let k' := col_constraint c' in
  opt_renamed (c_name k) (c_name k') /\ c_pk k = c_pk k' /\ c_unique k = c_unique k' /\ c_notnull k = c_notnull k' /\ c_auto k = c_auto k' /\
  default_renamed (c_default k) (c_default k') /\ text_renamed (c_check k) (c_check k') /\
  opt_renamed (c_collate k) (c_collate k') /\ reference_renamed (c_references k) (c_references k').
Definition tc_renamed (x x' : table_constraint) : Prop :=
  Forall2 (fun p p' => opt_renamed (pk_name p) (pk_name p') /\ list_renamed (pk_columns p) (pk_columns p')) (tc_pk x) (tc_pk x') /\
  Forall2 (fun p p' => opt_renamed (uq_name p) (uq_name p') /\ list_renamed (uq_columns p) (uq_columns p')) (tc_unique x) (tc_unique x') /\
  Forall2 (fun p p' => opt_renamed (ck_name p) (ck_name p') /\ text_renamed (ck_expr p) (ck_expr p')) (tc_check x) (tc_check x') /\
  Forall2 (fun p p' => opt_renamed (fk_name p) (fk_name p') /\ list_renamed (fk_columns p) (fk_columns p') /\
    reference_renamed (fk_references p) (fk_references p')) (tc_fk x) (tc_fk x').
Definition table_renamed (T : data_type -> data_type -> Prop) (t t' : table) : Prop :=
  opt_renamed (t_schema t) (t_schema t') /\ name_renamed (t_name t) (t_name t') /\ t_if_not_exists t = t_if_not_exists t' /\
  Forall2 (column_renamed T) (t_columns t) (t_columns t') /\ tc_renamed (t_constraints t) (t_constraints t').
End Renamed.

(** The same name, quoted in another way or not at all.  What is reported of names is the same; lists of columns and expressions
    are reported as they are written. *)
Section Requoted.
Variable d : rdbms.
Definition same_name (t t' : string) : Prop := unquote d t = unquote d t'.
Definition reference_requoted (r r' : reference) : Prop :=
  ref_table r = ref_table r' /\
  match ref_columns r, ref_columns r' with Some l, Some l' => list_renamed d same_name l l' | None, None => True | _, _ => False end.
Definition column_requoted (T : data_type -> data_type -> Prop) (c c' : column) : Prop :=
  col_name c = col_name c' /\ T (col_type c) (col_type c') /\
  let k := col_constraint c in let k' := col_constraint c' in
  c_name k = c_name k' /\ c_pk k = c_pk k' /\ c_unique k = c_unique k' /\ c_notnull k = c_notnull k' /\ c_auto k = c_auto k' /\
  default_renamed d same_name (c_default k) (c_default k') /\ text_renamed d same_name (c_check k) (c_check k') /\
  c_collate k = c_collate k' /\ reference_requoted (c_references k) (c_references k').
Definition tc_requoted (x x' : table_constraint) : Prop :=
  Forall2 (fun p p' => pk_name p = pk_name p' /\ list_renamed d same_name (pk_columns p) (pk_columns p')) (tc_pk x) (tc_pk x') /\
  Forall2 (fun p p' => uq_name p = uq_name p' /\ list_renamed d same_name (uq_columns p) (uq_columns p')) (tc_unique x) (tc_unique x') /\
  Forall2 (fun p p' => ck_name p = ck_name p' /\ text_renamed d same_name (ck_expr p) (ck_expr p')) (tc_check x) (tc_check x') /\
  Forall2 (fun p p' => fk_name p = fk_name p' /\ list_renamed d same_name (fk_columns p) (fk_columns p') /\
    reference_requoted (fk_references p) (fk_references p')) (tc_fk x) (tc_fk x').
Definition table_requoted (T : data_type -> data_type -> Prop) (t t' : table) : Prop :=
  t_schema t = t_schema t' /\ t_name t = t_name t' /\ t_if_not_exists t = t_if_not_exists t' /\
  Forall2 (column_requoted T) (t_columns t) (t_columns t') /\ tc_requoted (t_constraints t) (t_constraints t').
End Requoted.
