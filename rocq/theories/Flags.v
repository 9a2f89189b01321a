(** Where the words of PRIMARY KEY, UNIQUE and AUTO_INCREMENT stand in the definition of a column. *)
From Coq Require Import String List.
From Verif Require Import GoStr Types Grammar NotNull.
Import ListNotations.
Open Scope string_scope.

(** one of the words stands in [l], outside of brackets *)
Definition word_outside (ws l : list string) : Prop := exists t, In t (outside 0 l) /\ matches ws t = true.
(** KEY stands there, not directly after UNIQUE *)
Definition key_written (l : list string) : Prop :=
  exists p k q, outside 0 l = (p ++ k :: q)%list /\ matches ["KEY"] k = true /\
    ~ exists p' u, p = (p' ++ [u])%list /\ matches ["UNIQUE"] u = true.

Definition unique_written (l : list string) : Prop := word_outside ["UNIQUE"] l.
Definition primary_written (d : rdbms) (l : list string) : Prop :=
  match d with MySQL => key_written l | _ => word_outside ["PRIMARY"] l end.
(** the word, or a constraint with such a name (which the library takes for the word) *)
Definition auto_written (d : rdbms) (l : list string) : Prop :=
  word_outside (match d with PostgreSQL => [] | MySQL => ["AUTO_INCREMENT"] | _ => ["AUTOINCREMENT"] end) l \/
  exists p a b q, outside 0 l = (p ++ a :: b :: q)%list /\ matches ["CONSTRAINT"] a = true /\
    matches ["AUTOINCREMENT"; "AUTO_INCREMENT"] b = true.

(** the column [r] is reported with the flags that its definition [t] has *)
Definition flags (d : rdbms) (t : list string) (r : column) : Prop :=
  (c_pk (col_constraint r) = true <-> primary_written d t) /\
  (c_unique (col_constraint r) = true <-> unique_written t) /\
  (c_auto (col_constraint r) = true <-> auto_written d t).
