(** Legal names, and the names in a table. *)
From Coq Require Import String Ascii List Bool.
From Verif Require Import GoStr GoNum Types Grammar Ast.
Import ListNotations.
Open Scope string_scope.

Definition letters : list ascii := list_ascii_of_string "abcdefghijklmnopqrstuvwxyzABCDEFGHIJKLMNOPQRSTUVWXYZ_".
Definition digits : list ascii := list_ascii_of_string "0123456789".

(** A quoted identifier of the dialect, or a word that is not reserved. *)
Definition legal (d : rdbms) (t : string) : Prop :=
  (exists q s, t = String q (s ++ String q "") /\ In (String q "") (id_quotes d)) \/
  (exists c s, t = String c s /\ In c letters /\ Forall (fun x => In x letters \/ In x digits) (list_ascii_of_string s)) /\
  ~ In (to_upper t) (reserved d).

Section Legal.
Variables (d : rdbms) (L : list string).
(** a legal name among the tokens [L] *)
Definition legal_in (t : string) : Prop := In t L /\ legal d t.
Definition name_in (x : string) : Prop := exists t, legal_in t /\ x = unquote d t.
Definition opt_name_in (x : string) : Prop := x = "" \/ name_in x.
Definition reference_legal (r : reference) : Prop :=
  opt_name_in (ref_table r) /\ match ref_columns r with Some cs => Forall legal_in cs | None => True end.
Definition column_legal (c : column) : Prop :=
  name_in (col_name c) /\ opt_name_in (c_name (col_constraint c)) /\ reference_legal (c_references (col_constraint c)).
Definition tc_legal (tc : table_constraint) : Prop :=
  Forall (fun x => opt_name_in (pk_name x) /\ Forall legal_in (pk_columns x)) (tc_pk tc) /\
  Forall (fun x => opt_name_in (uq_name x) /\ Forall legal_in (uq_columns x)) (tc_unique tc) /\
  Forall (fun x => opt_name_in (ck_name x)) (tc_check tc) /\
  Forall (fun x => opt_name_in (fk_name x) /\ Forall legal_in (fk_columns x) /\ reference_legal (fk_references x)) (tc_fk tc).
Definition table_legal (t : table) : Prop :=
  opt_name_in (t_schema t) /\ name_in (t_name t) /\ Forall column_legal (t_columns t) /\ tc_legal (t_constraints t).
End Legal.
