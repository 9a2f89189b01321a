(** On which token sequences the syntax check never ends. *)
From Coq Require Import String List.
From Verif Require Import GoStr Types Grammar Spec.
Import ListNotations.
Open Scope string_scope.
Open Scope list_scope.

(** The bracket opened before [m] is not closed in [m]. *)
Definition unclosed (m : list string) : Prop := forall b r, balanced b -> m <> b ++ ")" :: r.
(** After [p] there may be a bracket with anything in it. *)
Definition opens (d : rdbms) (p : list string) : Prop := forall b, balanced b -> continues d (p ++ "(" :: b).
(** A bracket that may contain anything is never closed. *)
Definition hangs (d : rdbms) (l : list string) : Prop :=
  exists p m, l = p ++ "(" :: m /\ opens d p /\ unclosed m.
