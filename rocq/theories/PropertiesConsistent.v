(** C73: whether the names in a table agree with each other.  They need not: nothing of this is checked. *)
From Coq Require Import String Ascii NArith ZArith List Bool.
From Verif Require Import GoStr Types Spec Witness Print PropertiesPrint.
Import ListNotations.
Open Scope nat_scope.
Open Scope string_scope.
Open Scope list_scope.

(** no two columns have the same name *)
Definition distinct_columns (t : table) : Prop := NoDup (map col_name (t_columns t)).
(** the lists of columns in keys *)
Definition key_lists (t : table) : list (list string) :=
  map pk_columns (tc_pk (t_constraints t)) ++ map uq_columns (tc_unique (t_constraints t)) ++ map fk_columns (tc_fk (t_constraints t)).
(** keys are made of columns of the table *)
Definition keys_exist (t : table) : Prop := forall cs c, In cs (key_lists t) -> In c cs -> In c (map col_name (t_columns t)).
(** no key names a column twice *)
Definition keys_distinct (t : table) : Prop := Forall (@NoDup string) (key_lists t).
(** there is at most one primary key *)
Definition one_primary_key (t : table) : Prop :=
  length (filter (fun c => c_pk (col_constraint c)) (t_columns t)) + length (tc_pk (t_constraints t)) <= 1.
(** a foreign key has as many columns on both sides *)
Definition foreign_keys_match (t : table) : Prop :=
  Forall (fun k => match ref_columns (fk_references k) with Some cs => length (fk_columns k) = length cs | None => True end)
    (tc_fk (t_constraints t)).
(** different tables have different names *)
Definition distinct_tables (ts : list table) : Prop := NoDup (map (fun t => (t_schema t, t_name t)) ts).

(** A table with the given names: any columns, any primary keys, unique constraints, and foreign keys. *)
Definition named_table (schema name : string) (ty : data_type) (columns : list string) (pks uqs : list (list string))
    (fks : list (list string * (string * list string))) : table :=
  mk_table schema name false (map (fun n => mk_column n ty zero_constraint) columns)
    (mk_tc (map (mk_pk "") pks) (map (mk_unique "") uqs) [] (map (fun '(cs, (t, rs)) => mk_fk "" cs (mk_reference t (Some rs))) fks)).

(** Whatever the names of columns and keys are, and whichever of them are the same, there is a text that is accepted
    and reported with them. *)
Theorem C73_any_names : forall d ty ts, In d [SQLite; PostgreSQL; MySQL] -> type_ok d ty ->
  Forall (fun '(schema, name, columns, pks, uqs, fks) =>
    name_ok schema /\ name_ok name /\ columns <> [] /\ Forall name_ok columns /\ Forall (keys_ok d) pks /\ Forall (keys_ok d) uqs /\
    Forall (fun '(cs, (t, rs)) => keys_ok d cs /\ name_ok t /\ keys_ok d rs) fks) ts ->
  accepted (print d (map (fun '(schema, name, columns, pks, uqs, fks) => named_table schema name ty columns pks uqs fks) ts)) d
    (map (fun '(schema, name, columns, pks, uqs, fks) => named_table schema name ty columns pks uqs fks) ts).
Proof.
  intros d ty ts D T F. apply C43_round_trip; [exact D|].
  apply Forall_map. revert F. apply Forall_impl. intros [[[[[schema name] columns] pks] uqs] fks] (S & N & E & C & P & U & K).
  assert (O : name_ok "") by (exists []; split; reflexivity).
  assert (Z : constraint_ok d zero_constraint) by (clear -D; destruct D as [<-|[<-|[<-|[]]]]; ok I).
  unfold table_ok, named_table, tc_ok; cbn -[name_ok column_ok keys_ok reference_ok zero_tc].
  repeat split; try assumption.
  - apply Forall_map. revert C. apply Forall_impl. intros n Hn. unfold column_ok; cbn -[name_ok type_ok constraint_ok].
    split; [exact Hn|split; [exact T|exact Z]].
  - apply Forall_map. revert P. apply Forall_impl. intros cs Hc. cbn -[name_ok keys_ok]. tauto.
  - apply Forall_map. revert U. apply Forall_impl. intros cs Hc. cbn -[name_ok keys_ok]. tauto.
  - constructor.
  - apply Forall_map. revert K. apply Forall_impl. intros [cs [t rs]] (Hc & Ht & Hr). cbn -[name_ok keys_ok reference_ok].
    unfold reference_ok; cbn -[name_ok keys_ok]. repeat split; try tauto; try (apply Hc || apply Hr). discriminate.
  - left. destruct columns; [now elim E|discriminate].
Qed.
Print Assumptions C73_any_names.

(** names that agree in nothing *)
Definition the_names : list (string * string * list string * list (list string) * list (list string) * list (list string * (string * list string))) :=
  let t := ("", "users", ["name"; "name"], [["zz"; "zz"]; ["name"]], [["yy"]], [(["aa"; "bb"], ("users", ["cc"]))]) in [t; t].
Example C73_names_example : forall d, In d [SQLite; PostgreSQL; MySQL] ->
  Forall (fun '(schema, name, columns, pks, uqs, fks) =>
    name_ok schema /\ name_ok name /\ columns <> [] /\ Forall name_ok columns /\ Forall (keys_ok d) pks /\ Forall (keys_ok d) uqs /\
    Forall (fun '(cs, (t, rs)) => keys_ok d cs /\ name_ok t /\ keys_ok d rs) fks) the_names /\
  exists w, type_ok d (mk_data_type w 0 0).
Proof.
  intros d [<-|[<-|[<-|[]]]]; (split; [unfold the_names; ok I; repeat (ok I)|]).
  - exists "TEXT". ok I.
  - exists "BIGINT". ok I.
  - exists "BIGINT". ok I.
Qed.

Definition inconsistent : string :=
  "CREATE TABLE users (name NUMERIC PRIMARY KEY, name NUMERIC, PRIMARY KEY (zz, zz), FOREIGN KEY (aa, bb) REFERENCES users (cc)); CREATE TABLE users (id NUMERIC);".
Theorem C73_refuted : forall d, In d [SQLite; PostgreSQL; MySQL] ->
  exists ddl t u, accepted ddl d [t; u] /\ ~ distinct_columns t /\ ~ keys_exist t /\ ~ keys_distinct t /\ ~ one_primary_key t /\
    ~ foreign_keys_match t /\ ~ distinct_tables [t; u].
Proof.
  assert (X : forall A (x : A) l, ~ NoDup (x :: x :: l)) by (intros A x l H; inversion H as [|? ? N _]; apply N; left; reflexivity).
  intros d D. exists inconsistent. destruct D as [<-|[<-|[<-|[]]]]; eexists; eexists; (split; [computes|]);
  unfold distinct_columns, keys_exist, keys_distinct, one_primary_key, foreign_keys_match, distinct_tables, key_lists; cbn;
  (split; [apply X|]);
  (split; [intros H; specialize (H ["zz"; "zz"] "zz" (or_introl eq_refl) (or_introl eq_refl)); cbn in H; intuition discriminate|]);
  (split; [intros H; inversion H as [|? ? N _]; exact (X _ _ _ N)|]);
  (split; [intros H; apply le_S_n in H; inversion H|]);
  (split; [intros H; inversion H as [|? ? N _]; discriminate|apply X]).
Qed.
Print Assumptions C73_refuted.
