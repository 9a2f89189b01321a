(** C66: an error lies in the text. *)
From Coq Require Import String Ascii NArith List Bool Arith.
From Verif Require Import GoStr Types Spec Layout Witness Inside InsideFacts.
Import ListNotations.
Open Scope nat_scope.
Open Scope string_scope.
Open Scope list_scope.

(** What is named is in the text, or the end of it, and the line is not after it. *)
Theorem C66_place : forall d ddl line near, rejected ddl d line near ->
  exists before, error_place (runes_of ddl) before near /\ 1 <= line <= 1 + line_breaks before.
Proof. exact InsideFacts.inside. Qed.
Print Assumptions C66_place.
(** The line is one of the lines of the text. *)
Theorem C66_line : forall d ddl line near, rejected ddl d line near -> 1 <= line <= 1 + line_breaks (runes_of ddl).
Proof. exact InsideFacts.line_in_text. Qed.
Print Assumptions C66_line.

Definition two_lines : string := "CREATE TABLE t (
a FOO);".
Example C66_example : rejected two_lines SQLite 2 "FOO" /\ line_breaks (runes_of two_lines) = 1 /\
  exists before, error_place (runes_of two_lines) before "FOO" /\ 1 <= 2 <= 1 + line_breaks before.
Proof.
  assert (X : rejected two_lines SQLite 2 "FOO") by computes. split; [exact X|]. split; [reflexivity|]. exact (C66_place _ _ _ _ X).
Qed.
(** A quoted text is named without its line breaks, at the line where it ends. *)
Example C66_quoted : rejected "CREATE TABLE t ('a
b' TEXT);" SQLite 2 "'ab'" /\ rejected "CREATE TABLE t (a TEXT CHECK 'x
" SQLite 2 "<EOF>".
Proof. split; computes. Qed.
(** The line can be before that of the error: the first line break of the text, and one after a star or slash in a comment, are not counted. *)
Example C66_before : rejected "
FOO" SQLite 1 "FOO" /\ rejected "/* *
*/ FOO" SQLite 1 "FOO".
Proof. split; computes. Qed.
