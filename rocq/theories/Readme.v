(** The notation in which README.md gives the grammars of the three dialects.  A form is a set of token lists;
    unlike the grammars of Grammar.v forms have no values, no output and no lookahead. *)
From Coq Require Import String List Bool.
From Verif Require Import GoStr GoNum Types Grammar.
Import ListNotations.
Open Scope nat_scope.
Open Scope string_scope.
Open Scope list_scope.

Definition form := list string -> Prop.

(** A word in capital or in small letters. *)
Definition word (w : string) : form := fun l => l = [to_upper w] \/ l = [to_lower w].
(** One token of a kind. *)
Definition token (k : string -> bool) : form := fun l => exists t, k t = true /\ l = [t].
Definition nothing : form := fun l => l = [].
(** f g *)
Definition seq (f g : form) : form := fun l => exists l1 l2, l = l1 ++ l2 /\ f l1 /\ g l2.
(** { f | ... | g } *)
Fixpoint choice (fs : list form) : form :=
  match fs with [] => fun _ => False | f :: r => fun l => f l \/ choice r l end.
(** [ f ] *)
Definition maybe (f : form) : form := fun l => l = [] \/ f l.
(** f f ... f, possibly none *)
Inductive many (f : form) : form :=
| many_nil : many f []
| many_cons l1 l2 : f l1 -> many f l2 -> many f (l1 ++ l2).
(** f, f, ..., f *)
Inductive listed (f : form) : form :=
| listed_one l : f l -> listed f l
| listed_cons l1 l2 : f l1 -> listed f l2 -> listed f (l1 ++ "," :: l2).
(** (...), (expr): anything with balanced brackets *)
Definition brackets : form := fun l => exists e, balanced e /\ l = "(" :: e ++ [")"].

Declare Scope form_scope.
Delimit Scope form_scope with form.
Bind Scope form_scope with form.
Notation "f ;; g" := (seq f g) (at level 61, right associativity) : form_scope.
Open Scope form_scope.

(** Several words. *)
Fixpoint words (ws : list string) : form :=
  match ws with [] => nothing | [w] => word w | w :: r => seq (word w) (words r) end.
(** { w | ... | w' } *)
Definition one_of (ws : list string) : form := choice (map word ws).

(** (f) *)
Definition within (f : form) : form := word "(" ;; f ;; word ")".

(** The pieces of a column definition under the restrictions of the library: every kind of constraint at most
    once, and no two neighbours that are taken for something else. *)
Definition first_of (i : list string) : string := match i with t :: _ => to_upper t | [] => "" end.
Fixpoint apart (clash : list string -> list string -> bool) (items : list (list string)) : Prop :=
  match items with
  | a :: (b :: _) as r => clash a b = false /\ apart clash r
  | _ => True
  end.
Definition distinct (kind : string -> string) (clash : list string -> list string -> bool) (f : form) : form :=
  fun l => exists items, l = concat items /\ items <> [] /\ Forall f items /\
    NoDup (map (fun i => kind (first_of i)) items) /\ apart clash items.
