(** C84: the numbers of the reported types are lengths. *)
From Coq Require Import String Ascii NArith ZArith List Bool Arith.
From Verif Require Import GoStr Types Spec Values Lengths Witness Seen.
Import ListNotations.
Open Scope nat_scope.
Open Scope string_scope.
Open Scope list_scope.

(** C84 is false: after a schema-qualified reference, a CHECK is taken for a type, and its number for a length. *)
Theorem C84_refuted : exists ddl d ts c, accepted ddl d ts /\ In c (result_columns ts) /\ (dt_n (col_type c) < 0)%Z.
Proof. exists "CREATE TABLE t (aa INT REFERENCES s.u CHECK (-5));", PostgreSQL. do 2 eexists. split; [computes|]. split; [right; left; reflexivity|reflexivity]. Qed.
Print Assumptions C84_refuted.
(** What is true: in readable scripts there is no number, or a positive one and perhaps a second. *)
Theorem C84_sensible_partial : forall ddl d stmts ts c, says d ddl stmts -> readable stmts = true -> accepted ddl d ts -> In c (result_columns ts) ->
  sensible (col_type c).
Proof. exact lengths_sensible. Qed.
Print Assumptions C84_sensible_partial.
(** In all texts the numbers are at least those that Go can hold. *)
Theorem C84_int64 : forall ddl d ts c, accepted ddl d ts -> In c (result_columns ts) -> int64 (dt_n (col_type c)) /\ int64 (dt_m (col_type c)).
Proof. exact lengths_int64. Qed.
Print Assumptions C84_int64.
Example C84_example : exists stmts ts, let ddl := "CREATE TABLE t (aa DECIMAL(9, 2), bb VARCHAR(9223372036854775807), cc DATE);" in
  says MySQL ddl stmts /\ readable stmts = true /\ accepted ddl MySQL ts /\
  map (fun c => (dt_n (col_type c), dt_m (col_type c))) (result_columns ts) = [(9, 2); (9223372036854775807, 0); (0, 0)]%Z.
Proof. do 2 eexists. split; [reads|]. split; [reflexivity|]. split; [computes|]. reflexivity. Qed.
