(** The strings in a table. *)
From Coq Require Import String List.
From Verif Require Import GoStr Types.
Import ListNotations.
Open Scope list_scope.

Definition reference_strings (r : reference) : list string := ref_table r :: match ref_columns r with Some l => l | None => [] end.
Definition default_strings (x : default_value) : list string := match x with DString s => [s] | _ => [] end.
Definition column_strings (c : column) : list string :=
  [col_name c; dt_name (col_type c); c_name (col_constraint c); c_check (col_constraint c); c_collate (col_constraint c)] ++
  default_strings (c_default (col_constraint c)) ++ reference_strings (c_references (col_constraint c)).
Definition table_strings (t : table) : list string :=
  [t_schema t; t_name t] ++ flat_map column_strings (t_columns t) ++
  flat_map (fun k => pk_name k :: pk_columns k) (tc_pk (t_constraints t)) ++
  flat_map (fun k => uq_name k :: uq_columns k) (tc_unique (t_constraints t)) ++
  flat_map (fun k => [ck_name k; ck_expr k]) (tc_check (t_constraints t)) ++
  flat_map (fun k => fk_name k :: fk_columns k ++ reference_strings (fk_references k)) (tc_fk (t_constraints t)).
