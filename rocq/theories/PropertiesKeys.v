(** C86: reported keys have columns. *)
From Coq Require Import String Ascii NArith ZArith List Bool Arith.
From Verif Require Import GoStr Types Spec Ast Seen KeysFacts Witness.
Import ListNotations.
Open Scope nat_scope.
Open Scope string_scope.
Open Scope list_scope.

(** C86 is false: in MySQL a key of expressions is reported without columns, ... *)
Theorem C86_refuted : exists ddl ts t k, accepted ddl MySQL ts /\ In t ts /\ In k (tc_unique (t_constraints t)) /\ uq_columns k = [].
Proof.
  exists "CREATE TABLE t (aa INT, UNIQUE ((aa + 1)));". do 3 eexists. split; [computes|]. split; [left; reflexivity|]. split; [left; reflexivity|reflexivity].
Qed.
Print Assumptions C86_refuted.
(** ... and in PostgreSQL words of an expression after a schema-qualified reference are taken for a key. *)
Theorem C86_refuted_postgres : exists ddl ts t k, accepted ddl PostgreSQL ts /\ In t ts /\ In k (tc_unique (t_constraints t)) /\ uq_columns k = [].
Proof.
  exists "CREATE TABLE t (aa INT REFERENCES s.u CHECK (1 2, UNIQUE (), bb INT CHECK 3));". do 3 eexists. split; [computes|]. split; [left; reflexivity|]. split; [left; reflexivity|reflexivity].
Qed.
Print Assumptions C86_refuted_postgres.
(** What is true: in the other dialects all keys and references of readable scripts have columns. *)
Theorem C86_keys_partial : forall ddl d stmts ts, d <> MySQL -> says d ddl stmts -> readable stmts = true -> accepted ddl d ts ->
  forall t, In t ts -> keys_listed t.
Proof. exact keys_have_columns. Qed.
Print Assumptions C86_keys_partial.
(** In all dialects foreign keys and the references of columns have columns. *)
Theorem C86_foreign_partial : forall ddl d stmts ts, says d ddl stmts -> readable stmts = true -> accepted ddl d ts ->
  forall t, In t ts -> (forall k, In k (tc_fk (t_constraints t)) -> fk_columns k <> []) /\
    (forall c, In c (t_columns t) -> ref_columns (c_references (col_constraint c)) <> Some []).
Proof. exact foreign_have_columns. Qed.
Print Assumptions C86_foreign_partial.
Example C86_example : exists stmts t, let ddl := "CREATE TABLE t (aa INT REFERENCES u (xx), bb INT, PRIMARY KEY (aa, bb), UNIQUE (bb), FOREIGN KEY (bb) REFERENCES v (yy));" in
  says PostgreSQL ddl stmts /\ readable stmts = true /\ accepted ddl PostgreSQL [t] /\
  map pk_columns (tc_pk (t_constraints t)) = [["aa"; "bb"]] /\ map uq_columns (tc_unique (t_constraints t)) = [["bb"]] /\
  map (fun k => (fk_columns k, ref_columns (fk_references k))) (tc_fk (t_constraints t)) = [(["bb"], Some ["yy"])] /\
  map (fun c => ref_columns (c_references (col_constraint c))) (t_columns t) = [Some ["xx"]; None].
Proof. do 2 eexists. split; [reads|]. split; [reflexivity|]. split; [computes|]. repeat split; reflexivity. Qed.
Example C86_example_foreign : exists stmts t, let ddl := "CREATE TABLE t (aa INT REFERENCES u (xx), FOREIGN KEY (aa) REFERENCES v ((yy)));" in
  says MySQL ddl stmts /\ readable stmts = true /\ accepted ddl MySQL [t] /\
  map (fun k => (fk_columns k, ref_columns (fk_references k))) (tc_fk (t_constraints t)) = [(["aa"], Some [])] /\
  map (fun c => ref_columns (c_references (col_constraint c))) (t_columns t) = [Some ["xx"]].
Proof. do 2 eexists. split; [reads|]. split; [reflexivity|]. split; [computes|]. split; reflexivity. Qed.
