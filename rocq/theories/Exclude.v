(** EXCLUDE elements of PostgreSQL tables. *)
From Coq Require Import String List.
From Verif Require Import GoStr Types Grammar Ast Spec Parts.
From Verif Require GPostgres.
Import ListNotations.
Open Scope string_scope.
Open Scope gr_scope.

(** the elements of a table with the commas between them *)
Fixpoint commas (ts : list (list string)) : list string :=
  match ts with
  | [] => []
  | [t] => t
  | t :: ts => t ++ "," :: commas ts
  end.
(** an element *)
Definition is_element (t : list string) : Prop := exists o v, lang (element PostgreSQL) t None o v.
(** [CONSTRAINT name] EXCLUDE ..., and without name *)
Definition is_exclude (t : list string) : Prop := exists o v, lang (GPostgres.constraint_name ** GPostgres.t_exclude) t None o v.
Definition is_unnamed (t : list string) : Prop := exists o v, lang GPostgres.t_exclude t None o v.
