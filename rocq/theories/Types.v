(** internal/types/types.go and internal/common/{constants,errors}.go. *)
From Coq Require Import String ZArith List.
From Verif Require Import GoStr GoNum.
Open Scope string_scope.

(** common/constants.go:4-9 [type Rdbms string]: the three constants, and any other string. *)
Inductive rdbms := SQLite | PostgreSQL | MySQL | Other (name : string).

(** common/errors.go:8-11 [ValidateError]. *)
Record verror := mk_verror { err_line : nat; err_near : string }.

(** The dynamic values stored in [Constraint.Default interface{}]. *)
Inductive default_value := DNil | DFloat (f : float64) | DBool (b : bool) | DString (s : string).

(** types.go:36-39.  [None] is a nil slice, [Some nil] an empty one. *)
Record reference := mk_reference {
  ref_table : string; ref_columns : option (list string) }.

(** types.go:18-22 *)
Record data_type := mk_data_type { dt_name : string; dt_n : Z; dt_m : Z }.

(** types.go:24-34 *)
Record constraint := mk_constraint {
  c_name : string; c_pk : bool; c_unique : bool; c_notnull : bool; c_auto : bool;
  c_default : default_value; c_check : string; c_collate : string; c_references : reference }.

(** types.go:12-16 *)
Record column := mk_column {
  col_name : string; col_type : data_type; col_constraint : constraint }.

(** types.go:48-67.  ColumnNames of these three are never nil. *)
Record primary_key := mk_pk { pk_name : string; pk_columns : list string }.
Record unique := mk_unique { uq_name : string; uq_columns : list string }.
Record check := mk_check { ck_name : string; ck_expr : string }.
Record foreign_key := mk_fk { fk_name : string; fk_columns : list string; fk_references : reference }.

(** types.go:41-46.  A nil slice is the empty list: append never leaves it empty. *)
Record table_constraint := mk_tc {
  tc_pk : list primary_key; tc_unique : list unique; tc_check : list check; tc_fk : list foreign_key }.

(** types.go:4-10 *)
Record table := mk_table {
  t_schema : string; t_name : string; t_if_not_exists : bool;
  t_columns : list column; t_constraints : table_constraint }.

(** Go zero values of the structs. *)
Definition zero_reference := mk_reference "" None.
Definition zero_constraint :=
  mk_constraint "" false false false false DNil "" "" zero_reference.
Definition zero_tc := mk_tc nil nil nil nil.
