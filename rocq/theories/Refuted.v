(** Properties that the code does not have: each witness is a text on which Parse does something else. *)
From Coq Require Import String Ascii List Bool Arith ZArith.
From Verif Require Import GoStr GoNum Types Lexer Converter Parse Ast Spec Text Witness.
Import ListNotations.
Open Scope nat_scope.
Open Scope string_scope.

(** C20 (see Properties.v for the true part): a lexical error further on hides the syntax error. *)
Theorem C20_refuted : exists s s', rejected s SQLite 1 "FOO" /\ rejected (s ++ s') SQLite 1 "<EOF>".
Proof. exists "CREATE FOO;", " '". split; computes. Qed.
Print Assumptions C20_refuted.
(** The line is one too small when the text begins with a line break. *)
Example C20_witnesses :
  rejected (String "010" "CREATE FOO;") SQLite 1 "FOO" /\
  rejected (String "010" (String "010" "CREATE FOO;")) SQLite 2 "FOO".
Proof. split; computes. Qed.

(** C25. *)
Theorem C25_refuted : exists ddl ts, accepted (ddl ++ ";") SQLite ts /\ rejected ddl SQLite 1 "<EOF>".
Proof. exists "CREATE TABLE t (a TEXT)". eexists. split; computes. Qed.
Print Assumptions C25_refuted.

(** C26: accepted by the syntax check, but the reference is not reported and another column appears, or the
    call does not return. *)
Definition outline (ts : list table) : list (string * list string) :=
  map (fun t => (t_name t, map col_name (t_columns t))) ts.
Theorem C26_refuted : exists ddl ts, accepted ddl SQLite ts /\
  outline ts = [("t", ["a"; "u"]); ("TEXT", ["c"]); ("q", ["a"])].
Proof.
  exists "CREATE TABLE t (a INTEGER REFERENCES s.u (x), b TEXT, c TEXT); CREATE TABLE q (a TEXT);".
  eexists. split; [computes|reflexivity].
Qed.
Print Assumptions C26_refuted.
Example C26_witnesses :
  (exists stmts, let ddl := "CREATE TABLE t (a INTEGER REFERENCES s.u (x), b TEXT);" in
     says SQLite ddl stmts /\ diverges ddl SQLite) /\
  (exists ts, accepted "CREATE TABLE t (id INT REFERENCES s.u (x), b TEXT, d TEXT);" PostgreSQL ts /\
     outline ts = [("t", ["id"; "u"]); ("TEXT", ["d"])]) /\
  (exists ts, accepted "CREATE TABLE t (a INT REFERENCES s.u (x), b TEXT, c TEXT);" MySQL ts /\
     outline ts = [("t", ["a"; "u"]); ("TEXT", ["c"])]).
Proof. repeat split; eexists; (split; [first [reads|computes]|first [computes|reflexivity]]). Qed.

(** C27. *)
Theorem C27_refuted : exists before index after ts ts',
  accepted (before ++ after) MySQL ts /\ accepted (before ++ index ++ after) MySQL ts' /\
  outline ts = [("t", ["a"; "b"; "c"])] /\ outline ts' = [("t", ["a"]); ("INT", ["c"])].
Proof.
  exists "CREATE TABLE t (a INT, ", "INDEX (a), ", "b INT, c INT);". do 2 eexists.
  split; [computes|]. split; [computes|]. split; reflexivity.
Qed.
Print Assumptions C27_refuted.
Example C27_witnesses :
  diverges "CREATE TABLE t (a INT, INDEX (a));" MySQL /\
  diverges "CREATE TABLE t (a INT, KEY k (a));" MySQL /\
  diverges "CREATE TABLE t (a INT, FULLTEXT (a));" MySQL /\
  diverges "CREATE TABLE t (a INT, SPATIAL INDEX (a));" MySQL.
Proof. repeat split; computes. Qed.

(** C28. *)
Theorem C28_refuted : forall d, In d [SQLite; PostgreSQL; MySQL] -> exists a b,
  (exists ts, accepted (a ++ String "010" b) d ts) /\
  (exists line near, rejected (a ++ String "013" (String "010" b)) d line near).
Proof.
  intros d [<- |[<- |[<- |[]]]].
  all: exists "CREATE TABLE t (b TEXT);", ""; split; [eexists; computes|do 2 eexists; computes].
Qed.
Print Assumptions C28_refuted.

(** C29 (true for SQLite and PostgreSQL, see Properties.v). *)
Theorem C29_refuted : exists ddl ts, ddl = "CREATE TABLE t (a INT CHECK (a) NOT NULL);" /\ accepted ddl MySQL ts /\
  map (fun t => map (fun c => c_notnull (col_constraint c)) (t_columns t)) ts = [[false]].
Proof. eexists. eexists. split; [reflexivity|]. split; [computes|reflexivity]. Qed.
Print Assumptions C29_refuted.

(** C33. *)
Theorem C33_refuted : exists before exclude after ts ts',
  accepted (before ++ after) PostgreSQL ts /\ accepted (before ++ exclude ++ after) PostgreSQL ts' /\
  outline ts = [("t", ["id"])] /\ outline ts' = [("t", [","])].
Proof.
  exists "CREATE TABLE t (", "EXCLUDE (id WITH x), ", "id INT);". do 2 eexists.
  split; [computes|]. split; [computes|]. split; reflexivity.
Qed.
Print Assumptions C33_refuted.

(** C35. *)
Theorem C35_refuted : forall d, In d [SQLite; PostgreSQL; MySQL] -> exists ts,
  accepted "CREATE TABLE t (b TEXT CHECK (x y));" d ts /\ accepted "CREATE TABLE t (b TEXT CHECK (xy));" d ts.
Proof. intros d [<- |[<- |[<- |[]]]]; eexists; split; computes. Qed.
Print Assumptions C35_refuted.
Example C35_witnesses : exists ts ts',
  accepted "CREATE TABLE t (b TEXT CHECK (f(x,y)));" SQLite ts /\ accepted "CREATE TABLE t (b TEXT CHECK (f(x,,y)));" SQLite ts /\
  accepted "CREATE TABLE t (b TEXT DEFAULT 'CURRENT_DATE');" SQLite ts' /\
  accepted "CREATE TABLE t (b TEXT DEFAULT CURRENT_DATE);" SQLite ts'.
Proof. do 2 eexists. repeat split; computes. Qed.

(** C36. *)
Theorem C36_refuted : forall d, In d [SQLite; PostgreSQL; MySQL] -> exists name t,
  accepted ("CREATE TABLE t (" ++ name ++ " TEXT, UNIQUE (" ++ name ++ "));") d [t] /\
  map col_name (t_columns t) = ["b"] /\ map uq_columns (tc_unique (t_constraints t)) = [[name]] /\ name <> "b".
Proof.
  intros d [<- |[<- |[<- |[]]]]; [exists """b"""|exists """b"""|exists "`b`"]; eexists;
    (split; [computes|split; [reflexivity|split; [reflexivity|discriminate]]]).
Qed.
Print Assumptions C36_refuted.

(** C37. *)
Theorem C37_refuted : forall d, In d [SQLite; PostgreSQL; MySQL] ->
  rejected "CREATE TABLE t (b TEXT DEFAULT 'it''s');" d 1 "'s'".
Proof. intros d [<- |[<- |[<- |[]]]]; computes. Qed.
Print Assumptions C37_refuted.

(** C38. *)
Theorem C38_refuted : forall d, In d [SQLite; PostgreSQL; MySQL] ->
  rejected "CREATE TABLE t (b REAL DEFAULT 1.5);" d 1 ".".
Proof. intros d [<- |[<- |[<- |[]]]]; computes. Qed.
Print Assumptions C38_refuted.
