(** The parts of a table whose order can be changed: the constraints of a column, and the elements of the table. *)
From Coq Require Import String List Bool.
From Verif Require Import GoStr Types Grammar Ast Parts.
Import ListNotations.
Open Scope string_scope.

(** [c] is a constraint of a column, [t] is the element [e] of a table. *)
Definition is_constraint (d : rdbms) (c : list string) : Prop := exists o v, lang (column_constraint d) c None o v.
Definition an_element (d : rdbms) (t : list string) (e : a_element) : Prop := exists o, lang (element d) t None o e.

(** The words that cannot follow a constraint, because they would be taken for a part of it: NOT after REFERENCES ... in SQLite
    (as in NOT DEFERRABLE); in MySQL NOT after CHECK ( ... ) (as in NOT ENFORCED) and KEY after UNIQUE (as in UNIQUE KEY). *)
Definition barred (d : rdbms) (c : list string) : list string :=
  match d, c with
  | PostgreSQL, _ | _, [] => []
  | MySQL, t :: r =>
    if matches ["CHECK"] t && (last r "" =? ")") then ["NOT"]
    else if matches ["UNIQUE"] t && match r with [] => true | _ => false end then ["KEY"]
    else []
  | _, t :: _ => if matches ["REFERENCES"] t then ["NOT"] else []
  end.
(** no constraint is followed by a word that is taken for a part of it *)
Fixpoint arranged (d : rdbms) (cs : list (list string)) : Prop :=
  match cs with
  | [] => True
  | c :: r => (forall t, hd_error (concat r) = Some t -> matches (barred d c) t = false) /\ arranged d r
  end.

(** The kinds of elements that are reported in lists of their own. *)
Inductive group := GColumn | GPrimary | GUnique | GCheck | GForeign.
Definition in_group (g : group) (e : a_element) : bool :=
  match g, e with
  | GColumn, EColumn _ => true
  | GPrimary, EConstraint _ (BPrimary _) => true
  | GUnique, EConstraint _ (BUnique _) => true
  | GCheck, EConstraint _ (BCheck _) => true
  | GForeign, EConstraint _ (BForeign _ _) => true
  | _, _ => false
  end.
(** the same elements of each kind in the same order *)
Definition regrouped (es es' : list a_element) : Prop := forall g, filter (in_group g) es = filter (in_group g) es'.
