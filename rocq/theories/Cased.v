(** Words in another letter case, and tables that are the same up to letter case. *)
From Coq Require Import String List.
From Verif Require Import GoStr Types DocWords.
Import ListNotations.
Open Scope string_scope.

(** The token [t'] is [t], or both are the same word in all-upper or in all-lower case. *)
Definition respelled (t t' : string) : Prop :=
  t' = t \/
  exists w, word w /\ (t = to_upper w \/ t = to_lower w) /\ (t' = to_upper w \/ t' = to_lower w).

(** the same text up to letter case *)
Definition same_letters (x x' : string) : Prop := to_upper x = to_upper x'.
Definition list_cased (l l' : list string) : Prop := Forall2 same_letters l l'.
Definition default_cased (v v' : default_value) : Prop :=
  match v, v' with DString x, DString x' => same_letters x x' | _, _ => v = v' end.
Definition reference_cased (r r' : reference) : Prop :=
  same_letters (ref_table r) (ref_table r') /\
  match ref_columns r, ref_columns r' with Some l, Some l' => list_cased l l' | None, None => True | _, _ => False end.
Definition constraint_cased (k k' : constraint) : Prop :=
  same_letters (c_name k) (c_name k') /\ c_pk k = c_pk k' /\ c_unique k = c_unique k' /\ c_notnull k = c_notnull k' /\ c_auto k = c_auto k' /\
  default_cased (c_default k) (c_default k') /\ same_letters (c_check k) (c_check k') /\
  same_letters (c_collate k) (c_collate k') /\ reference_cased (c_references k) (c_references k').
(** the types are the same *)
Definition column_cased (c c' : column) : Prop :=
  same_letters (col_name c) (col_name c') /\ col_type c = col_type c' /\ constraint_cased (col_constraint c) (col_constraint c').
Definition tc_cased (x x' : table_constraint) : Prop :=
  Forall2 (fun p p' => same_letters (pk_name p) (pk_name p') /\ list_cased (pk_columns p) (pk_columns p')) (tc_pk x) (tc_pk x') /\
  Forall2 (fun p p' => same_letters (uq_name p) (uq_name p') /\ list_cased (uq_columns p) (uq_columns p')) (tc_unique x) (tc_unique x') /\
  Forall2 (fun p p' => same_letters (ck_name p) (ck_name p') /\ same_letters (ck_expr p) (ck_expr p')) (tc_check x) (tc_check x') /\
  Forall2 (fun p p' => same_letters (fk_name p) (fk_name p') /\ list_cased (fk_columns p) (fk_columns p') /\
    reference_cased (fk_references p) (fk_references p')) (tc_fk x) (tc_fk x').
Definition table_cased (t t' : table) : Prop :=
  same_letters (t_schema t) (t_schema t') /\ same_letters (t_name t) (t_name t') /\ t_if_not_exists t = t_if_not_exists t' /\
  Forall2 column_cased (t_columns t) (t_columns t') /\ tc_cased (t_constraints t) (t_constraints t').
