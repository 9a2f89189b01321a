(** CREATE TABLE with and without IF NOT EXISTS. *)
From Coq Require Import String List.
From Verif Require Import GoStr Types VBase.
Open Scope string_scope.

(** the next word is not IF *)
Definition no_if (l : list string) : Prop := forall x, hd_error l = Some x -> matches ("IF" :: nil) x = false.
(** the same table, with IfNotExists (internal/types/types.go, type Table) set *)
Definition if_not_exists (t : table) : table := mk_table (t_schema t) (t_name t) true (t_columns t) (t_constraints t).
