(** The tables of an unknown dialect with the quotes of SQLite removed. *)
From Coq Require Import String Ascii List Bool.
From Verif Require Import GoStr GoNum Types Grammar Ast.
Import ListNotations.
Open Scope string_scope.

(** A name without its quotes (double quotes or back quotes), a string without its single quotes. *)
Definition un (s : string) : string := unquote SQLite s.
Definition un_default (x : default_value) : default_value :=
  match x with
  | DString s => DString (if quoted ["'"] s then inner s else s)
  | _ => x
  end.
Definition un_reference (r : reference) : reference := mk_reference (un (ref_table r)) (ref_columns r).
Definition un_constraint (c : constraint) : constraint :=
  mk_constraint (un (c_name c)) (c_pk c) (c_unique c) (c_notnull c) (c_auto c) (un_default (c_default c)) (c_check c)
    (un (c_collate c)) (un_reference (c_references c)).
Definition un_column (c : column) : column := mk_column (un (col_name c)) (col_type c) (un_constraint (col_constraint c)).
Definition un_tc (tc : table_constraint) : table_constraint :=
  mk_tc
    (map (fun x => mk_pk (un (pk_name x)) (pk_columns x)) (tc_pk tc))
    (map (fun x => mk_unique (un (uq_name x)) (uq_columns x)) (tc_unique tc))
    (map (fun x => mk_check (un (ck_name x)) (ck_expr x)) (tc_check tc))
    (map (fun x => mk_fk (un (fk_name x)) (fk_columns x) (un_reference (fk_references x))) (tc_fk tc)).
Definition un_table (t : table) : table :=
  mk_table (un (t_schema t)) (un (t_name t)) (t_if_not_exists t) (map un_column (t_columns t)) (un_tc (t_constraints t)).
