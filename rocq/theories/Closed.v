(** Closing brackets. *)
From Coq Require Import String List Bool Arith.
Import ListNotations.
Open Scope nat_scope.
Open Scope string_scope.

(** How many closing and how many opening brackets of [l] have no partner in [l]. *)
Fixpoint unmatched (l : list string) : nat * nat :=
  match l with
  | [] => (0, 0)
  | t :: l =>
    let '(c, o) := unmatched l in
    if t =? "(" then match c with S c => (c, o) | O => (0, S o) end
    else if t =? ")" then (S c, o)
    else (c, o)
  end.
(** Every opening bracket is closed. *)
Definition closed (l : list string) : bool := Nat.eqb (snd (unmatched l)) 0.
