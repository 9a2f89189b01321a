(** A table with the elements of two tables. *)
From Coq Require Import List.
From Verif Require Import Types.
Open Scope list_scope.

Definition join (t u : table) : table :=
  mk_table (t_schema t) (t_name t) (t_if_not_exists t) (t_columns t ++ t_columns u)
    (mk_tc (tc_pk (t_constraints t) ++ tc_pk (t_constraints u)) (tc_unique (t_constraints t) ++ tc_unique (t_constraints u))
       (tc_check (t_constraints t) ++ tc_check (t_constraints u)) (tc_fk (t_constraints t) ++ tc_fk (t_constraints u))).
