(** How much is reported: the strings in a result, and their length in bytes. *)
From Coq Require Import String List.
From Verif Require Import GoStr Unicode Types.
Import ListNotations.
Open Scope list_scope.

Definition default_strings (x : default_value) : list string := match x with DString s => [s] | _ => [] end.
Definition reference_strings (r : reference) : list string :=
  ref_table r :: match ref_columns r with Some cs => cs | None => [] end.
Definition constraint_strings (c : constraint) : list string :=
  c_name c :: default_strings (c_default c) ++ c_check c :: c_collate c :: reference_strings (c_references c).
Definition column_strings (c : column) : list string :=
  col_name c :: dt_name (col_type c) :: constraint_strings (col_constraint c).
Definition tc_strings (tc : table_constraint) : list string :=
  flat_map (fun x => pk_name x :: pk_columns x) (tc_pk tc) ++
  flat_map (fun x => uq_name x :: uq_columns x) (tc_unique tc) ++
  flat_map (fun x => [ck_name x; ck_expr x]) (tc_check tc) ++
  flat_map (fun x => fk_name x :: fk_columns x ++ reference_strings (fk_references x)) (tc_fk tc).
Definition table_strings (t : table) : list string :=
  t_schema t :: t_name t :: flat_map column_strings (t_columns t) ++ tc_strings (t_constraints t).

(** The length of all strings together. *)
Definition total (l : list string) : nat := list_sum (map String.length l).
Definition size (ts : list table) : nat := total (flat_map table_strings ts).
(** No character of the text has an upper case that is longer in UTF-8 (among those that have one are U+0250 and U+026B, with two bytes and three). *)
Definition steady (rs : list rune) : Prop := Forall (fun c => String.length (utf8 [upper_rune c]) <= String.length (utf8 [c])) rs.
