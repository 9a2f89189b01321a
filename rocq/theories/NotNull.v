(** Where the words NOT NULL stand in the definition of a column. *)
From Coq Require Import String List.
From Verif Require Import GoStr Types Grammar.
Import ListNotations.
Open Scope nat_scope.
Open Scope string_scope.

(** The tokens outside of brackets ([n] brackets are open); "()" stands for a pair of brackets with its contents. *)
Fixpoint outside (n : nat) (l : list string) : list string :=
  match l with
  | [] => []
  | t :: l =>
    if t =? "(" then (match n with 0 => ["()"] | _ => [] end ++ outside (S n) l)%list
    else if t =? ")" then match n with 0 => t :: outside 0 l | S n => outside n l end
    else (match n with 0 => [t] | _ => [] end ++ outside n l)%list
  end.

(** the words stand in [l], outside of brackets *)
Definition not_null_in (l : list string) : Prop :=
  exists p a b q, outside 0 l = (p ++ a :: b :: q)%list /\ matches ["NOT"] a = true /\ matches ["NULL"] b = true.
(** ... and not directly after CHECK (...) *)
Definition not_after_check (l : list string) : Prop :=
  exists p a b q, outside 0 l = (p ++ a :: b :: q)%list /\ matches ["NOT"] a = true /\ matches ["NULL"] b = true /\
    ~ exists p' c, p = (p' ++ [c; "()"])%list /\ matches ["CHECK"] c = true.
Definition not_null_written (d : rdbms) (l : list string) : Prop :=
  match d with MySQL => not_after_check l | _ => not_null_in l end.
