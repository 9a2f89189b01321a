(** C83: reported tables and columns have names, and tables have columns. *)
From Coq Require Import String Ascii NArith List Bool Arith.
From Verif Require Import GoStr Types Spec Named Witness Text Ast Seen.
Import ListNotations.
Open Scope nat_scope.
Open Scope string_scope.
Open Scope list_scope.

(** C83 is false: an empty quotation is a name, for a table and for a column, ... *)
Theorem C83_refuted : exists ddl d ts t, accepted ddl d ts /\ In t ts /\ t_name t = "".
Proof. exists "CREATE TABLE """" (aa TEXT);", SQLite. eexists. eexists. split; [computes|]. split; [left; reflexivity|reflexivity]. Qed.
Print Assumptions C83_refuted.
Theorem C83_refuted_column : exists ddl d ts t c, accepted ddl d ts /\ In t ts /\ In c (t_columns t) /\ col_name c = "".
Proof.
  exists "CREATE TABLE t ("""" TEXT);", PostgreSQL. eexists. eexists. eexists. split; [computes|]. split; [left; reflexivity|]. split; [left; reflexivity|reflexivity].
Qed.
Print Assumptions C83_refuted_column.
(** ... and constraints alone make a table. *)
Theorem C83_refuted_columns : exists ddl d ts t, accepted ddl d ts /\ In t ts /\ t_columns t = [].
Proof. exists "CREATE TABLE t (PRIMARY KEY (aa));", MySQL. eexists. eexists. split; [computes|]. split; [left; reflexivity|reflexivity]. Qed.
Print Assumptions C83_refuted_columns.
(** What is true: without empty quotations among the tokens all tables and columns have names, ... *)
Theorem C83_named_partial : forall ddl d ts l, accepted ddl d ts -> tokens d ddl l -> (forall x, In x l -> ~ empty_quotation x) ->
  forall t, In t ts -> t_name t <> "" /\ forall c, In c (t_columns t) -> col_name c <> "".
Proof. exact names_written. Qed.
Print Assumptions C83_named_partial.
(** ... and the name of the type of a column is never empty. *)
Theorem C83_types : forall ddl d ts t c, accepted ddl d ts -> In t ts -> In c (t_columns t) -> dt_name (col_type c) <> "".
Proof. exact types_named. Qed.
Print Assumptions C83_types.
(** In readable scripts a table has columns if columns are written in its statement. *)
Theorem C83_columns_partial : forall ddl d stmts ts, says d ddl stmts -> readable stmts = true -> accepted ddl d ts ->
  (forall t, In (STable t) stmts -> exists c, In (EColumn c) (at_elements t)) -> forall t, In t ts -> t_columns t <> [].
Proof. exact columns_written. Qed.
Print Assumptions C83_columns_partial.
Definition c83_text : string := "CREATE TABLE ""t"" (aa VARCHAR(3) DEFAULT '');".
Example C83_example : exists l t c, accepted c83_text PostgreSQL [t] /\ tokens PostgreSQL c83_text l /\ (forall x, In x l -> ~ empty_quotation x) /\
  t_columns t = [c] /\ t_name t = "t" /\ col_name c = "aa" /\ dt_name (col_type c) = "VARCHAR".
Proof.
  exists ["CREATE"; "TABLE"; """t"""; "("; "aa"; "VARCHAR"; "("; "3"; ")"; "DEFAULT"; "''"; ")"; ";"]. eexists. eexists. split; [computes|].
  split; [exists 1000; eexists; split; vm_compute; reflexivity|]. split; [|repeat split; reflexivity].
  intros x I [E|[E|[]]]; subst x; cbn in I; repeat (destruct I as [I|I]; [discriminate I|]); contradiction.
Qed.
Example C83_example_columns : exists stmts t, says PostgreSQL c83_text stmts /\ readable stmts = true /\ accepted c83_text PostgreSQL [t] /\
  (forall t, In (STable t) stmts -> exists c, In (EColumn c) (at_elements t)) /\ List.length (t_columns t) = 1.
Proof.
  do 2 eexists. split; [reads|]. split; [reflexivity|]. split; [computes|]. split; [|reflexivity].
  intros t [E|[]]. injection E as <-. eexists. left. reflexivity.
Qed.
