(** Texts in which every line break is counted.  Nothing in this file refers to the model. *)
From Coq Require Import NArith List Bool.
From Verif Require Import GoStr Layout.
Import ListNotations.
Open Scope list_scope.

(** [a] is nowhere directly followed by [b]. *)
Definition no_pair (a b : rune) (rs : list rune) : Prop := ~ exists u v, rs = u ++ a :: b :: v.
(** No line break directly after a star or slash; one kind of quotation marks only, or no line break directly after a quotation mark. *)
Definition calm (rs : list rune) : Prop :=
  no_pair aster nl rs /\ no_pair slash nl rs /\
  ((exists q, forall c, In c rs -> quote_mark c = true -> c = q) \/ forall q, quote_mark q = true -> no_pair q nl rs).
Definition letter (c : rune) : bool := ((65 <=? c) && (c <=? 90) || (97 <=? c) && (c <=? 122))%N.
