(** Where in a text an error is.  Nothing in this file refers to the model. *)
From Coq Require Import String NArith List Bool Arith.
From Verif Require Import GoStr Layout.
Import ListNotations.
Open Scope list_scope.

(** The line breaks in a text. *)
Definition line_breaks (rs : list rune) : nat := count_occ N.eq_dec rs nl.
(** The characters [s] in this order, with others between them. *)
Inductive among : list rune -> list rune -> Prop :=
| among_nil w : among [] w
| among_take c s w : among s w -> among (c :: s) (c :: w)
| among_skip c s w : among s w -> among s (c :: w).
(** [s] is how the characters [w] of the text are reported: unchanged, or, in quoted text, with some left out. *)
Definition shown (s w : list rune) : Prop :=
  s = w \/ exists q s' w', s = q :: s' /\ w = q :: w' /\ quote_mark q = true /\ among s' w'.
(** The error is after the part [before] of the text: at the end, or at the characters [w]. *)
Definition error_place (rs : list rune) (before : list rune) (near : string) : Prop :=
  (near = "<EOF>"%string /\ rs = before) \/
  exists a w b s, rs = a ++ w ++ b /\ before = a ++ w /\ w <> [] /\ shown s w /\ near = utf8 s.
