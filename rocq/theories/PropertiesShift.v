(** C81: line breaks before a text. *)
From Coq Require Import String Ascii NArith List Bool Arith.
From Verif Require Import GoStr Types Parse Spec Lines Shift Decide Witness.
From Verif Require CutError.
Import ListNotations.
Open Scope nat_scope.
Open Scope string_scope.
Open Scope list_scope.

(** C81: after k line breaks ([breaks k]) the error of a text is k lines further down; but the first of them may not be counted. *)
Theorem C81_shift_partial : forall d s line near k, rejected s d line near ->
  rejected (breaks (S k) ++ s) d (line + k) near \/ rejected (breaks (S k) ++ s) d (line + k + 1) near.
Proof. exact shift_any. Qed.
Print Assumptions C81_shift_partial.
(** All are counted before a text that begins with a line break ... *)
Theorem C81_counted_partial : forall d s line near k, rejected (String "010" s) d line near -> rejected (breaks k ++ String "010" s) d (line + k) near.
Proof. exact shift_counted. Qed.
Print Assumptions C81_counted_partial.
(** ... and before one that cannot be divided into tokens; ... *)
Theorem C81_lexical_partial : forall d s line near k, (forall toks, ~ lexes d s toks) -> rejected s d line near -> rejected (breaks k ++ s) d (line + k) near.
Proof. exact shift_illegal. Qed.
Print Assumptions C81_lexical_partial.
(** ... the first is not counted before a text that begins with a letter and can be divided into tokens. *)
Theorem C81_uncounted : forall d s c rs toks line near k, runes_of s = c :: rs -> letter c = true -> lexes d s toks -> rejected s d line near ->
  rejected (breaks (S k) ++ s) d (line + k) near.
Proof. exact shift_letter. Qed.
Print Assumptions C81_uncounted.
Theorem C81_refuted : exists s line near, Forall (fun d => rejected s d line near /\ rejected (String "010" s) d line near) [SQLite; PostgreSQL; MySQL].
Proof. exists "CREATE TABLE t (aa FOO);", 1, "FOO". repeat constructor; computes. Qed.
Print Assumptions C81_refuted.
Example C81_example : rejected ("CREATE TABLE t (" ++ String "010" "aa FOO);")%string MySQL 2 "FOO" /\
  rejected (breaks 3 ++ "CREATE TABLE t (" ++ String "010" "aa FOO);")%string MySQL 4 "FOO" /\
  (exists c rs toks, runes_of ("CREATE TABLE t (" ++ String "010" "aa FOO);")%string = c :: rs /\ letter c = true /\
     lexes MySQL ("CREATE TABLE t (" ++ String "010" "aa FOO);")%string toks).
Proof.
  split; [computes|]. split; [computes|]. do 3 eexists. split; [vm_compute; reflexivity|]. split; [reflexivity|]. exists 100. vm_compute. reflexivity.
Qed.
Example C81_example_lexical : (forall toks, ~ lexes SQLite "CREATE TABLE t (aa 'x);" toks) /\ rejected "CREATE TABLE t (aa 'x);" SQLite 1 "<EOF>" /\
  rejected (breaks 2 ++ "CREATE TABLE t (aa 'x);")%string SQLite 3 "<EOF>".
Proof.
  split; [|split; computes]. intros toks H. apply CutError.lexes_eq in H. vm_compute in H. discriminate H.
Qed.
