(** C53, C54, C55: the grammars of README.md (Readme.v, ReadmeSqlite.v, ReadmePostgres.v, ReadmeMysql.v) and what the library accepts. *)
From Coq Require Import String Ascii List Bool Arith.
From Verif Require Import GoStr GoNum Types Grammar Ast Parse Seen Spec Pipe Meaning Decide Witness Readme ReadmeFacts ReadmeNarrow.
From Verif Require ReadmeSqlite ReadmePostgres ReadmeMysql ReadmeSqliteFacts ReadmePostgresFacts ReadmeMysqlFacts.
Import ListNotations.
Open Scope nat_scope.
Open Scope string_scope.

(** The text is a statement of the README's grammar and is rejected. *)
Definition wrongly_rejected (d : rdbms) (statement : form) (ddl : string) : Prop :=
  exists l line near, tokens d ddl l /\ statement l /\ rejected ddl d line near.
Ltac rejects := eexists; eexists; eexists; split; [exists 1000; eexists; split; vm_compute; reflexivity|]; split; [eat|computes].

(** C53: every script of README statements (with the changes of ReadmeSqlite.v) is accepted, with one table per statement. *)
Theorem C53_accepted_partial : forall ddl parts, tokens SQLite ddl (concat parts) -> Forall (ReadmeSqlite.statement true) parts ->
  exists ts, accepted ddl SQLite ts /\ List.length ts = List.length parts.
Proof.
  intros ddl parts T F. exact (script_accepted SQLite ddl parts T (ReadmeSqliteFacts.script_sqlite parts F)).
Qed.
Print Assumptions C53_accepted_partial.
Definition c53_items : list (list string) := [["NOT"; "NULL"; "on"; "conflict"; "abort"]; ["DEFAULT"; "1"]; ["REFERENCES"; "u"; "("; "x"; ")"; "ON"; "DELETE"; "SET"; "NULL"; "NOT"; "DEFERRABLE"]].
Definition c53_text : string := "CREATE TABLE IF NOT EXISTS s.t (aa INTEGER CONSTRAINT n NOT NULL on conflict abort DEFAULT 1 REFERENCES u(x) ON DELETE SET NULL NOT DEFERRABLE,
  ""b c"" text, UNIQUE (aa, bb), CONSTRAINT m FOREIGN KEY (aa) REFERENCES v MATCH FULL) STRICT;".
Example C53_example : exists parts, tokens SQLite c53_text (concat parts) /\ Forall (ReadmeSqlite.statement true) parts /\ List.length parts = 1.
Proof.
  assert (E : exists l, tokens SQLite c53_text l /\ ReadmeSqlite.statement true l).
  { eexists. split; [exists 1000; eexists; split; vm_compute; reflexivity|]. pose (it := c53_items). unfold c53_items in it. eat. }
  destruct E as (l & T & S). exists [l]. cbn [concat]. rewrite app_nil_r. auto.
Qed.
Theorem C53_within : forall l, ReadmeSqlite.statement true l -> ReadmeSqlite.statement false l.
Proof. exact within_sqlite. Qed.
Print Assumptions C53_within.
(** The changes are necessary: no semicolon; MATCH name; both options; NOT NULL after REFERENCES; two checks; two names; a name before the second constraint. *)
Theorem C53_refuted : Forall (wrongly_rejected SQLite (ReadmeSqlite.statement false))
  ["CREATE TABLE t (aa TEXT)";
   "CREATE TABLE t (aa TEXT REFERENCES u MATCH other);";
   "CREATE TABLE t (aa TEXT) WITHOUT ROWID STRICT;";
   "CREATE TABLE t (aa TEXT REFERENCES u NOT NULL);";
   "CREATE TABLE t (aa INTEGER CHECK (aa) CHECK (aa < 9));";
   "CREATE TABLE t (aa TEXT CONSTRAINT n1 NOT NULL CONSTRAINT n2 UNIQUE);";
   "CREATE TABLE t (aa TEXT NOT NULL CONSTRAINT n2 UNIQUE);"].
Proof. repeat (apply Forall_cons; [rejects|]). apply Forall_nil. Qed.
Print Assumptions C53_refuted.

(** C54: the same for PostgreSQL. *)
Theorem C54_accepted_partial : forall ddl parts, tokens PostgreSQL ddl (concat parts) -> Forall (ReadmePostgres.statement true) parts ->
  exists ts, accepted ddl PostgreSQL ts /\ List.length ts = List.length parts.
Proof.
  intros ddl parts T F. exact (script_accepted PostgreSQL ddl parts T (ReadmePostgresFacts.script_postgres parts F)).
Qed.
Print Assumptions C54_accepted_partial.
Definition c54_items : list (list string) := [["NOT"; "NULL"]; ["DEFAULT"; "("; "1"; ")"]; ["generated"; "by"; "default"; "as"; "identity"]; ["REFERENCES"; "u"; "("; "x"; ")"; "MATCH"; "FULL"; "ON"; "DELETE"; "CASCADE"]].
Definition c54_text : string := "CREATE TABLE s.t (aa NUMERIC(5,2) CONSTRAINT n NOT NULL DEFAULT (1) generated by default as identity REFERENCES u(x) MATCH FULL ON DELETE CASCADE,
  ""b c"" timestamp (3) with time zone, UNIQUE (aa, bb) INCLUDE (cc) WITH (fillfactor=70), EXCLUDE USING gist (bb) WHERE (aa)) INHERITS (u) TABLESPACE x;".
Example C54_example : exists parts, tokens PostgreSQL c54_text (concat parts) /\ Forall (ReadmePostgres.statement true) parts /\ List.length parts = 1.
Proof.
  assert (E : exists l, tokens PostgreSQL c54_text l /\ ReadmePostgres.statement true l).
  { eexists. split; [exists 1000; eexists; split; vm_compute; reflexivity|]. pose (it := c54_items). unfold c54_items in it. eat. }
  destruct E as (l & T & S). exists [l]. cbn [concat]. rewrite app_nil_r. auto.
Qed.
Theorem C54_within : forall l, ReadmePostgres.statement true l -> ReadmePostgres.statement false l.
Proof. exact within_postgres. Qed.
Print Assumptions C54_within.
(** The changes are necessary: a generated column with AS only; two checks; two names; a name before the second constraint; NULL NOT NULL; a table called if. *)
Theorem C54_refuted : Forall (wrongly_rejected PostgreSQL (ReadmePostgres.statement false))
  ["CREATE TABLE t (aa INT AS (1) STORED);";
   "CREATE TABLE t (aa INT CHECK (aa) CHECK (aa < 9));";
   "CREATE TABLE t (aa TEXT CONSTRAINT n1 NOT NULL CONSTRAINT n2 UNIQUE);";
   "CREATE TABLE t (aa TEXT NOT NULL CONSTRAINT n2 UNIQUE);";
   "CREATE TABLE t (aa TEXT NULL NOT NULL);";
   "CREATE TABLE if (aa TEXT);"].
Proof. repeat (apply Forall_cons; [rejects|]). apply Forall_nil. Qed.
Print Assumptions C54_refuted.

(** C55: the same for MySQL. *)
Theorem C55_accepted_partial : forall ddl parts, tokens MySQL ddl (concat parts) -> Forall (ReadmeMysql.statement true) parts ->
  exists ts, accepted ddl MySQL ts /\ List.length ts = List.length parts.
Proof.
  intros ddl parts T F. exact (script_accepted MySQL ddl parts T (ReadmeMysqlFacts.script_mysql parts F)).
Qed.
Print Assumptions C55_accepted_partial.
Definition c55_items : list (list string) := [["CHECK"; "("; "1"; ")"; "NOT"; "ENFORCED"]; ["NOT"; "NULL"]; ["auto_increment"]; ["UNIQUE"; "KEY"]; ["KEY"]; ["COMMENT"; "'x'"]; ["COLLATE"; "utf8"]].
Definition c55_text : string := "CREATE TABLE s.t (aa DECIMAL(5,2) CONSTRAINT n CHECK (1) NOT ENFORCED NOT NULL auto_increment UNIQUE KEY KEY COMMENT 'x' COLLATE utf8,
  `b c` datetime (3), CONSTRAINT UNIQUE INDEX i USING BTREE (aa, bb(5) DESC) COMMENT 'y', CHECK (aa), CONSTRAINT k FOREIGN KEY (aa) REFERENCES u (x) ON UPDATE CASCADE)
  ENGINE = InnoDB DEFAULT CHARACTER SET utf8 CHECKSUM 1 DATA DIRECTORY '/d';".
Example C55_example : exists parts, tokens MySQL c55_text (concat parts) /\ Forall (ReadmeMysql.statement true) parts /\ List.length parts = 1.
Proof.
  assert (E : exists l, tokens MySQL c55_text l /\ ReadmeMysql.statement true l).
  { eexists. split; [exists 1000; eexists; split; vm_compute; reflexivity|]. pose (it := c55_items). unfold c55_items in it. eat. }
  destruct E as (l & T & S). exists [l]. cbn [concat]. rewrite app_nil_r. auto.
Qed.
Theorem C55_within : forall l, ReadmeMysql.statement true l -> ReadmeMysql.statement false l.
Proof. exact within_mysql. Qed.
Print Assumptions C55_within.
(** The changes are necessary: NO INHERIT; USING without index name; the character set and the collation binary; two checks; a name before the second constraint. *)
Theorem C55_refuted : Forall (wrongly_rejected MySQL (ReadmeMysql.statement false))
  ["CREATE TABLE t (aa INT, CHECK (aa) NO INHERIT);";
   "CREATE TABLE t (aa INT, UNIQUE USING BTREE (aa));";
   "CREATE TABLE t (aa TEXT COLLATE binary);";
   "CREATE TABLE t (aa TEXT) CHARACTER SET binary;";
   "CREATE TABLE t (aa INT CHECK (aa) CHECK (aa < 9));";
   "CREATE TABLE t (aa INT NOT NULL CONSTRAINT n1 CHECK (aa));"].
Proof. repeat (apply Forall_cons; [rejects|]). apply Forall_nil. Qed.
Print Assumptions C55_refuted.
(** With INDEX and FULLTEXT the call runs forever. *)
Theorem C55_forever_refuted : Forall (fun ddl => exists l, tokens MySQL ddl l /\ ReadmeMysql.statement false l /\ diverges ddl MySQL)
  ["CREATE TABLE t (aa INT, INDEX i (aa));"; "CREATE TABLE t (aa INT, FULLTEXT KEY (aa));"].
Proof. repeat (apply Forall_cons; [eexists; split; [exists 1000; eexists; split; vm_compute; reflexivity|]; split; [eat|computes]|]). apply Forall_nil. Qed.
Print Assumptions C55_forever_refuted.
(** The sign = is found between blanks only: without them the options are rejected. *)
Theorem C55_equals_refuted : exists ts, accepted "CREATE TABLE t (aa INT) ENGINE = InnoDB;" MySQL ts /\
  rejected "CREATE TABLE t (aa INT) ENGINE=InnoDB;" MySQL 1 "ENGINE=InnoDB".
Proof. eexists. split; computes. Qed.
Print Assumptions C55_equals_refuted.
(** README.md:89-96, the text of the usage example. *)
Definition usage : string := "CREATE TABLE users (
        id INT AUTO_INCREMENT PRIMARY KEY,
        email VARCHAR(50) NOT NULL UNIQUE,
        username VARCHAR(50),
        password TEXT NOT NULL,
        created_at TIMESTAMP NOT NULL DEFAULT CURRENT_TIMESTAMP,
        updated_at TIMESTAMP NOT NULL DEFAULT CURRENT_TIMESTAMP ON UPDATE CURRENT_TIMESTAMP
    );".
Example C55_usage : exists t, accepted usage MySQL [t] /\ t_name t = "users" /\ map col_name (t_columns t) = ["id"; "email"; "username"; "password"; "created_at"; "updated_at"] /\
  map (fun c => c_notnull (col_constraint c)) (t_columns t) = [false; true; false; true; true; true].
Proof. eexists. split; [computes|]. auto. Qed.
