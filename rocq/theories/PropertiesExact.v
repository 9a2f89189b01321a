(** C15, C16, C17, C26, C27, C33: which scripts are reported faithfully, and what is reported of the others. *)
From Coq Require Import String List Bool.
From Verif Require Import GoStr Types Grammar Ast Converter Parse Safe Seen Spec Decide Witness.
From Verif Require Meaning Reported.
Import ListNotations.
Open Scope string_scope.
Open Scope list_scope.

(** The tables of a script are those that it stands for if and only if the script is [safe]. *)
Theorem C15_sqlite_exact : forall ddl stmts, says SQLite ddl stmts ->
  (accepted ddl SQLite (tables_of SQLite stmts) <-> safe stmts = true).
Proof. intros ddl stmts. apply (Reported.exact_plain SQLite). discriminate. Qed.
Print Assumptions C15_sqlite_exact.
Theorem C16_postgres_exact : forall ddl stmts, says PostgreSQL ddl stmts ->
  (accepted ddl PostgreSQL (tables_of PostgreSQL stmts) <-> safe stmts = true).
Proof. intros ddl stmts. apply (Reported.exact_plain PostgreSQL). discriminate. Qed.
Print Assumptions C16_postgres_exact.
(** In MySQL: for scripts with INDEX elements, only if they are [ordinary]. *)
Theorem C17_mysql_exact_partial : forall ddl stmts, says MySQL ddl stmts -> (has_index stmts = true -> ordinary MySQL stmts = true) ->
  (accepted ddl MySQL (tables_of MySQL stmts) <-> safe stmts = true).
Proof. exact (Reported.says_exact MySQL). Qed.
Print Assumptions C17_mysql_exact_partial.
Example C15_C16_C17_exact_examples :
  (exists stmts, says SQLite "CREATE TABLE t (a TEXT CHECK (f(a,,b)));" stmts /\ safe stmts = false) /\
  (exists stmts, says PostgreSQL "CREATE TABLE t (id INT); CREATE TABLE u (EXCLUDE (a WITH x), n INT);" stmts /\ safe stmts = false) /\
  (exists stmts, says MySQL "CREATE TABLE t (a INT, INDEX (a), b INT); CREATE TABLE u (a INT);" stmts /\ safe stmts = false /\
     has_index stmts = true /\ ordinary MySQL stmts = true) /\
  (exists stmts, says MySQL "CREATE TABLE t (a INT, CHECK (a));" stmts /\ safe stmts = true /\ has_index stmts = false).
Proof. repeat split; eexists; (split; [reads|]); repeat split. Qed.

(** What is reported if no reference has a schema, there are no INDEX elements and no unnamed EXCLUDE is the first of several elements:
    the tables of the script [seen stmts]. *)
Theorem C15_C16_C17_seen : forall d ddl stmts, says d ddl stmts -> readable stmts = true ->
  accepted ddl d (tables_of d (seen stmts)).
Proof. exact Meaning.says_seen. Qed.
Print Assumptions C15_C16_C17_seen.
(** A [safe] script is seen as it is. *)
Theorem C15_C16_C17_safe_seen : forall stmts, safe stmts = true -> readable stmts = true /\ seen stmts = stmts.
Proof. intros stmts H. split; [now apply Conv.safe_readable|now apply Conv.seen_same]. Qed.
Print Assumptions C15_C16_C17_safe_seen.
Example C15_C16_C17_seen_example : exists stmts ts,
  let ddl := "CREATE TABLE t (a INTEGER CONSTRAINT AUTO_INCREMENT UNIQUE CHECK (f(a,,,b)), CHECK (a,,b));" in
  says SQLite ddl stmts /\ readable stmts = true /\ safe stmts = false /\ accepted ddl SQLite ts /\
  map (fun t => map (fun c => let k := col_constraint c in (c_name k, c_auto k, c_unique k, c_check k)) (t_columns t)) ts =
    [[("", true, true, "(f(a,b))")]] /\
  map (fun t => map ck_expr (tc_check (t_constraints t))) ts = [["(a,b)"]].
Proof. do 2 eexists. split; [reads|]. do 2 (split; [reflexivity|]). split; [computes|]. split; reflexivity. Qed.

(** C26: a script with a schema-qualified reference is never reported faithfully. *)
Theorem C26_never_partial : forall d ddl stmts, says d ddl stmts -> (has_index stmts = true -> ordinary d stmts = true) ->
  qualified_in stmts -> diverges ddl d \/ exists ts, accepted ddl d ts /\ ts <> tables_of d stmts.
Proof. exact Reported.qualified_wrong. Qed.
Print Assumptions C26_never_partial.
Example C26_never_example :
  (exists stmts, says PostgreSQL "CREATE TABLE t (id INT, FOREIGN KEY (id) REFERENCES s.u (x));" stmts /\ qualified_in stmts /\ has_index stmts = false) /\
  (exists stmts, says SQLite "CREATE TABLE t (a INTEGER REFERENCES s.u);" stmts /\ qualified_in stmts /\ has_index stmts = false).
Proof.
  split; eexists; (split; [reads|]); (split; [|reflexivity]); eexists; (split; [now left|]).
  - right. do 3 eexists. split; [right; now left|discriminate].
  - left. do 2 eexists. split; [now left|]. split; [now left|discriminate].
Qed.

(** C27: a MySQL script with an INDEX element is never reported faithfully. *)
Theorem C27_never_partial : forall ddl stmts, says MySQL ddl stmts -> ordinary MySQL stmts = true -> has_index stmts = true ->
  diverges ddl MySQL \/ exists ts, accepted ddl MySQL ts /\ ts <> tables_of MySQL stmts.
Proof. exact Reported.index_wrong. Qed.
Print Assumptions C27_never_partial.
Example C27_never_example : exists stmts, says MySQL "CREATE TABLE t (a INT, FULLTEXT INDEX k (a)); CREATE TABLE u (a INT);" stmts /\
  ordinary MySQL stmts = true /\ has_index stmts = true.
Proof. eexists. split; [reads|]. split; reflexivity. Qed.

(** C33: a table with an unnamed EXCLUDE as first of several elements is never reported faithfully. *)
Theorem C33_never : forall ddl stmts, says PostgreSQL ddl stmts -> exclude_first stmts ->
  diverges ddl PostgreSQL \/ exists ts, accepted ddl PostgreSQL ts /\ ts <> tables_of PostgreSQL stmts.
Proof. exact Reported.exclude_wrong. Qed.
Print Assumptions C33_never.
Example C33_never_example : exists stmts, says PostgreSQL "CREATE TABLE u (EXCLUDE (a WITH x), n INT);" stmts /\ exclude_first stmts.
Proof. eexists. split; [reads|]. do 3 eexists. split; [now left|reflexivity]. Qed.
