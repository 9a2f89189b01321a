(** C72: other numbers. *)
From Coq Require Import String Ascii List Bool Arith NArith ZArith.
From Verif Require Import GoStr GoNum Types Lexer Grammar Converter Parse Ast Safe Seen Spec Decide Witness PartsFacts Layout Meaning
  Number NumberFacts NumberConvert NumberRead NumberText Utf8.
Import ListNotations.
Open Scope nat_scope.
Open Scope string_scope.

(** Numbers may be replaced by other numbers, positive integers by positive integers, in any text, script or not.  Whether it is a
    script does not depend on it ... *)
Theorem C72_scripts : forall d R ddl ddl' toks toks', lexes d ddl toks -> lexes d ddl' toks' ->
  Forall2 (numbered d R) toks toks' ->
  ((exists stmts, says d ddl stmts) <-> (exists stmts, says d ddl' stmts)).
Proof. exact NumberFacts.numbered_scripts. Qed.
Print Assumptions C72_scripts.
(** ... nor where the error is: at the same line, at the token that is there now. *)
Theorem C72_rejected : forall d R ddl ddl' toks toks' line near, lexes d ddl toks -> lexes d ddl' toks' ->
  Forall2 (numbered d R) toks toks' -> rejected ddl d line near -> exists near', rejected ddl' d line near' /\ numbered d R near near'.
Proof. exact NumberFacts.numbered_rejected. Qed.
Print Assumptions C72_rejected.
(** ... nor whether the call returns. *)
Theorem C72_diverges : forall d R ddl ddl' toks toks', lexes d ddl toks -> lexes d ddl' toks' ->
  Forall2 (numbered d R) toks toks' -> diverges ddl d -> diverges ddl' d.
Proof. exact NumberConvert.numbered_diverges. Qed.
Print Assumptions C72_diverges.
(** The tables are the same but for these numbers, wherever they are reported. *)
Theorem C72_tables : forall d R ddl ddl' toks toks' ts, lexes d ddl toks -> lexes d ddl' toks' ->
  Forall2 (numbered d R) toks toks' -> accepted ddl d ts ->
  exists ts', accepted ddl' d ts' /\ Forall2 (table_numbered d R) ts ts'.
Proof. exact NumberConvert.numbered_accepted. Qed.
Print Assumptions C72_tables.
(** In [readable] scripts (Seen.v) these are defaults, expressions and the digits of types only. *)
Theorem C72_names_partial : forall d R ddl ddl' l l' stmts, tokens d ddl l -> tokens d ddl' l' -> Forall2 (numbered d R) l l' ->
  says d ddl stmts -> readable stmts = true ->
  exists ts ts', accepted ddl d ts /\ accepted ddl' d ts' /\ Forall2 (table_fixed d R) ts ts'.
Proof. exact NumberRead.numbered_tables. Qed.
Print Assumptions C72_names_partial.
(** Such texts are those in which a number that stands as a word is replaced by another.  ([layout]: Layout.v.) *)
Theorem C72_text_partial : forall d a w w' b, numbered d (fun _ _ => True) (utf8 w) (utf8 w') ->
  layout d (a ++ IWord w :: b) = true -> layout d (a ++ IWord w' :: b) = true ->
  exists toks toks', lexes d (text_of (a ++ IWord w :: b)) toks /\ lexes d (text_of (a ++ IWord w' :: b)) toks' /\
    Forall2 (numbered d (fun _ _ => True)) toks toks'.
Proof. exact NumberText.numbered_text. Qed.
Print Assumptions C72_text_partial.

Definition c72_one : string := "CREATE TABLE t (aa NUMERIC(8, 2) DEFAULT 0 NOT NULL, bb VARCHAR(10) CHECK (bb <> 5), CHECK (aa > 1e3));".
Definition c72_two : string := "CREATE TABLE t (aa NUMERIC(16, 4) DEFAULT -15e2 NOT NULL, bb VARCHAR(255) CHECK (bb <> 17), CHECK (aa > 0x1p4));".
Ltac is_number :=
  split; [eexists; vm_compute; reflexivity|split; [do 2 eexists; split; [reflexivity|cbn; tauto]|intros; first [discriminate|split; discriminate]]].
Ltac same_sign :=
  rewrite !positive_spec; split; intros H; first [reflexivity|vm_compute in H; discriminate H].
Ltac all_numbered :=
  repeat first [apply Forall2_nil | apply Forall2_cons; [first [left; reflexivity|right; split; [exact I|split; [is_number|split; [is_number|same_sign]]]]|]].
Example C72_example : exists l l' stmts, tokens PostgreSQL c72_one l /\ tokens PostgreSQL c72_two l' /\
  Forall2 (numbered PostgreSQL (fun _ _ => True)) l l' /\ says PostgreSQL c72_one stmts /\ readable stmts = true /\ l <> l'.
Proof.
  do 3 eexists. split; [is_tokens|]. split; [is_tokens|]. split; [all_numbered|].
  split; [reads|]. split; [reflexivity|discriminate].
Qed.
Example C72_result : exists ts, accepted c72_two PostgreSQL ts /\
  map (fun t => (t_name t, map (fun c => (col_name c, col_type c, c_notnull (col_constraint c), c_default (col_constraint c), c_check (col_constraint c))) (t_columns t),
    map ck_expr (tc_check (t_constraints t)))) ts =
  [("t", [("aa", mk_data_type "NUMERIC" 16 4, true, DFloat (FFin true 6597069766656000 (-42)), "");
          ("bb", mk_data_type "VARCHAR" 255 0, false, DNil, "(bb<>17)")], ["(aa>0x1p4)"])].
Proof. eexists. split; [computes|reflexivity]. Qed.
(** Where the error is does not depend on the number, which may be the token it is found at. *)
Definition c72_bad : string := "CREATE TABLE t (aa INT,
  bb 7);".
Definition c72_worse : string := "CREATE TABLE t (aa INT,
  bb 8);".
Example C72_bad : exists toks toks', lexes MySQL c72_bad toks /\ lexes MySQL c72_worse toks' /\
  Forall2 (numbered MySQL (fun _ _ => True)) toks toks' /\ rejected c72_bad MySQL 2 "7" /\ rejected c72_worse MySQL 2 "8".
Proof.
  do 2 eexists. split; [exists 1000; vm_compute; reflexivity|]. split; [exists 1000; vm_compute; reflexivity|]. split; [all_numbered|].
  split; computes.
Qed.
Definition c72_laid (w : string) : list item :=
  [IWord (runes_of "DEFAULT"); ISpace 32%N] ++ IWord (runes_of w) :: [ISym 59%N].
Example C72_laid : layout SQLite (c72_laid "0") = true /\ layout SQLite (c72_laid "-5") = true /\
  text_of (c72_laid "-5") = "DEFAULT -5;".
Proof. repeat split; vm_compute; reflexivity. Qed.

(** Numbers of different kinds may not be exchanged: the length of a type is positive, and MySQL expects 0 or 1 in some options. *)
Theorem C72_kinds :
  ((exists ts, accepted "CREATE TABLE tt (aa VARCHAR(1));" MySQL ts) /\ rejected "CREATE TABLE tt (aa VARCHAR(0));" MySQL 1 "0") /\
  ((exists ts, accepted "CREATE TABLE tt (aa INT) CHECKSUM = 1;" MySQL ts) /\ rejected "CREATE TABLE tt (aa INT) CHECKSUM = 2;" MySQL 1 "2").
Proof. split; (split; [eexists; computes|computes]). Qed.
Print Assumptions C72_kinds.
(** That names and types do not depend on numbers is false of scripts that are not readable: the name of a column is
    the number of the CHECK. *)
Definition c72_strange : string := "CREATE TABLE t (id INT REFERENCES s.u CHECK ( 5 6 7 8));".
Definition c72_stranger : string := "CREATE TABLE t (id INT REFERENCES s.u CHECK ( 5 6 7 9));".
Theorem C72_refuted : exists toks toks' ts ts', lexes PostgreSQL c72_strange toks /\ lexes PostgreSQL c72_stranger toks' /\
  Forall2 (numbered PostgreSQL (fun _ _ => True)) toks toks' /\ accepted c72_strange PostgreSQL ts /\ accepted c72_stranger PostgreSQL ts' /\
  map (fun t => map col_name (t_columns t)) ts = [["id"; "u"; "8"]] /\
  map (fun t => map col_name (t_columns t)) ts' = [["id"; "u"; "9"]].
Proof.
  do 4 eexists. split; [exists 1000; vm_compute; reflexivity|]. split; [exists 1000; vm_compute; reflexivity|]. split; [all_numbered|].
  split; [computes|]. split; [computes|]. split; reflexivity.
Qed.
Print Assumptions C72_refuted.
