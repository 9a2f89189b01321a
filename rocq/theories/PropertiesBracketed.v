(** C85: reported CHECK expressions stand in brackets. *)
From Coq Require Import String Ascii NArith ZArith List Bool Arith.
From Verif Require Import GoStr Types Spec Ast Seen Values Bracketed ExprClosed Witness.
Import ListNotations.
Open Scope nat_scope.
Open Scope string_scope.
Open Scope list_scope.

(** C85 is false: after a schema-qualified reference, words of an expression are taken for constraints. *)
Theorem C85_refuted : exists ddl d ts r, accepted ddl d ts /\ In r (result_columns ts) /\ c_check (col_constraint r) = "3)".
Proof. exists "CREATE TABLE t (aa INT REFERENCES s.u CHECK (1 2 CHECK 3));", PostgreSQL. do 2 eexists. split; [computes|]. split; [right; left; reflexivity|reflexivity]. Qed.
Print Assumptions C85_refuted.
(** What is true: in readable scripts the expression of a column is empty, and then there is no CHECK in its definition, or it stands in brackets, ... *)
Theorem C85_columns_partial : forall ddl d stmts ts, says d ddl stmts -> readable stmts = true -> accepted ddl d ts ->
  Forall2 (fun c r => bracketed (c_check (col_constraint r)) \/ (c_check (col_constraint r) = "" /\ forall e, ~ In (ICheck e) (ac_items c)))
    (columns_in stmts) (result_columns ts).
Proof. exact column_checks. Qed.
Print Assumptions C85_columns_partial.
(** ... and so does that of every CHECK of a table. *)
Theorem C85_tables_partial : forall ddl d stmts ts, says d ddl stmts -> readable stmts = true -> accepted ddl d ts ->
  forall t k, In t ts -> In k (tc_check (t_constraints t)) -> bracketed (ck_expr k).
Proof. exact table_checks. Qed.
Print Assumptions C85_tables_partial.
(** In all texts, readable or not, a reported expression ends with a closing bracket; only columns may have none. *)
Theorem C85_closed_partial : forall ddl d ts, accepted ddl d ts ->
  (forall c, In c (result_columns ts) -> c_check (col_constraint c) = "" \/ exists s, c_check (col_constraint c) = (s ++ ")")%string) /\
  (forall t k, In t ts -> In k (tc_check (t_constraints t)) -> exists s, ck_expr k = (s ++ ")")%string).
Proof. exact expressions_closed. Qed.
Print Assumptions C85_closed_partial.
Example C85_example : exists stmts t, let ddl := "CREATE TABLE t (aa INTEGER CHECK ((aa) > 0), bb INTEGER, CHECK (aa IN (1, 2)));" in
  says SQLite ddl stmts /\ readable stmts = true /\ accepted ddl SQLite [t] /\
  map (fun c => c_check (col_constraint c)) (t_columns t) = ["((aa)>0)"; ""] /\ map ck_expr (tc_check (t_constraints t)) = ["(aaIN(1,2))"].
Proof. do 2 eexists. split; [reads|]. split; [reflexivity|]. split; [computes|]. split; reflexivity. Qed.
