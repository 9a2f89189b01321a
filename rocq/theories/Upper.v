(** Texts in upper case. *)
From Coq Require Import String NArith List.
From Verif Require Import GoStr Unicode.

(** Each character is its own upper case. *)
Definition capitals (s : string) : Prop := Forall (fun c => upper_rune c = c) (runes_of s).
