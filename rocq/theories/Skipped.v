(** Statements that are skipped: CREATE VIEW, CREATE TRIGGER, ... *)
From Coq Require Import String List.
From Verif Require Import GoStr Types Grammar.
Import ListNotations.
Open Scope string_scope.

(** what may be created besides a table (validator/*.go: validateCreateStatement) *)
Definition other_words (d : rdbms) : list string :=
  match d with
  | PostgreSQL =>
    ["VIEW"; "TRIGGER"; "INDEX"; "MATERIALIZED"; "SEQUENCE"; "FUNCTION"; "TYPE"; "PROCEDURE"; "AGGREGATE"; "SCHEMA";
     "ROLE"; "USER"; "GROUP"; "TABLESPACE"; "EXTENSION"; "DATABASE"; "LANGUAGE"; "FOREIGN"; "DOMAIN"; "SERVER";
     "CONVERSION"; "RULE"; "COLLATION"; "POLICY"; "OPERATOR"]
  | MySQL =>
    ["VIEW"; "TRIGGER"; "INDEX"; "DATABASE"; "UNIQUE"; "PROCEDURE"; "SERVER"; "FUNCTION"; "USER"; "EVENT"; "SEQUENCE";
     "TABLESPACE"; "ROLE"; "LOGIN"]
  | _ => ["VIRTUAL"; "VIEW"; "TRIGGER"; "INDEX"; "UNIQUE"]
  end.
Definition temp_words (d : rdbms) : list string :=
  match d with PostgreSQL | MySQL => [] | _ => ["TEMP"; "TEMPORARY"] end.

(** CREATE [TEMP] word ... ; without ";" in between, except in BEGIN ... END *)
Definition other_statement (d : rdbms) (l : list string) : Prop :=
  exists c t w body, l = (c :: t ++ w :: body ++ [";"])%list /\ matches ["CREATE"] c = true /\
    (t = [] \/ exists x, t = [x] /\ matches (temp_words d) x = true) /\ matches (other_words d) w = true /\ skipped body.
