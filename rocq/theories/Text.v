(** Vocabulary about texts. *)
From Coq Require Import String Ascii NArith List Bool Arith.
From Verif Require Import GoStr Types Grammar.
Import ListNotations.
Open Scope nat_scope.
Open Scope string_scope.

(** [subseq a b]: [a] is [b] with some elements left out. *)
Inductive subseq {A} : list A -> list A -> Prop :=
| ss_nil l : subseq [] l
| ss_keep x a b : subseq a b -> subseq (x :: a) (x :: b)
| ss_skip x a b : subseq a b -> subseq a (x :: b).

(** The text [t] was taken from the characters [rs]: it is a run of them or, if it begins with a
    quotation mark, some of them in their order. *)
Definition taken (rs : list rune) (t : string) : Prop :=
  (exists u w v, rs = (u ++ w ++ v)%list /\ t = utf8 w) \/
  (quoted [""""; "'"; "`"] t = true /\ exists w, subseq w rs /\ t = utf8 w).

(** The number of line feeds in a text. *)
Fixpoint line_feeds (s : string) : nat :=
  match s with
  | EmptyString => 0
  | String c s => (if Ascii.eqb c "010" then 1 else 0) + line_feeds s
  end.
(** The number of lines. *)
Definition lines (s : string) : nat := 1 + line_feeds s.
