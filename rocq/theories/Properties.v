(** The properties of /verif/properties.jsonl, as theorems about the model (see also Refuted.v).
    The vocabulary is in Spec.v (what a call does), Text.v (texts), Grammar.v and G*.v (the grammars),
    Ast.v (what a statement says and the tables it stands for), Safe.v, Seen.v and Closed.v (side conditions). *)
From Coq Require Import String Ascii List Bool Arith ZArith.
From Verif Require Import GoStr GoNum Types Lexer VBase Converter Parse Exec Grammar Ast Safe Seen Closed Spec Text Witness.
From Verif Require VSqlite GSqlite VPostgres GPostgres VMysql GMysql Accept ParseFacts Meaning NoPanic Total Decide
  Origin Force Compose ErrorAt.
Import ListNotations.
Open Scope nat_scope.
Open Scope string_scope.

(** C01. *)
Theorem C01_no_panic : forall ddl d, ~ panics ddl d.
Proof. intros ddl d [fuel H]. exact (NoPanic.no_panic fuel ddl d H). Qed.
Print Assumptions C01_no_panic.
Theorem C01_no_panic_force : forall ddl fuel, ParseForce fuel ddl <> Panics.
Proof. intros ddl fuel. exact (NoPanic.no_panic_force fuel ddl). Qed.
Print Assumptions C01_no_panic_force.
Example C01_example : returns "CREATE TABLE `` (`` INT DEFAULT ''" MySQL [] (Some (mk_verror 1 "<EOF>")).
Proof. computes. Qed.

(** C02: refuted. *)
Theorem C02_refuted : exists ddl d, diverges ddl d.
Proof. exists "CREATE TABLE t (a INTEGER CHECK (", SQLite. computes. Qed.
Print Assumptions C02_refuted.
(** In every dialect, and on accepted syntax too. *)
Example C02_witnesses :
  diverges "CREATE TABLE t (id INT DEFAULT ((1);" PostgreSQL /\
  diverges "CREATE TABLE t (a INT DEFAULT ((1);" MySQL /\
  diverges "CREATE TABLE t (a INTEGER REFERENCES s.u (b));" SQLite /\
  diverges "CREATE TABLE t (id INT REFERENCES s.u (b));" PostgreSQL /\
  diverges "CREATE TABLE t (a INT REFERENCES s.u (b));" MySQL /\
  diverges "CREATE TABLE t (a INT, INDEX (a));" MySQL.
Proof. repeat split; computes. Qed.
(** True part: if every "(" is closed and the statements are [readable] (Seen.v), Parse returns. *)
Theorem C02_closed_readable_partial : forall ddl d,
  (forall l, tokens d ddl l -> closed l = true) ->
  (forall stmts, says d ddl stmts -> readable stmts = true) ->
  exists ts err, returns ddl d ts err.
Proof. intros ddl d. exact (Total.total_readable d ddl). Qed.
Print Assumptions C02_closed_readable_partial.
(** Whether Parse returns can be computed. *)
Theorem C02_decidable : forall ddl d,
  match Decide.answer_of d ddl with
  | Decide.Answer ts err => returns ddl d ts err
  | Decide.Forever => diverges ddl d
  end.
Proof.
  intros ddl d. destruct (Decide.answer_of d ddl) as [ts err|] eqn:E;
    [now apply Decide.answer_returns|now apply Decide.answer_forever].
Qed.
Print Assumptions C02_decidable.
Example C02_example : exists ts err, returns "CREATE TABLE t (a INTEGER CHECK ((a) > (b)), c);" SQLite ts err.
Proof.
  apply C02_closed_readable_partial.
  - intros l H. lexes H. reflexivity.
  - intros stmts H. no_script H.
Qed.

(** C03.  [taken] is in Text.v; every error of the model is a [verror] (errors.go's ValidateError). *)
Theorem C03_error_or_tables : forall ddl d ts err, returns ddl d ts err ->
  match err with
  | None => True
  | Some e => ts = [] /\ 1 <= err_line e <= lines ddl /\
      (err_near e = "<EOF>" \/ taken (runes_of ddl) (err_near e))
  end.
Proof. intros ddl d ts [e|] H; [exact (Origin.error_position ddl d ts e H)|exact I]. Qed.
Print Assumptions C03_error_or_tables.
Example C03_example : rejected (String.concat (String "010" "") ["CREATE TABLE t ("; "  a ?"; ");"]) SQLite 2 "?".
Proof. computes. Qed.

(** C04. *)
Theorem C04_first_accepting : forall ddl ts err, force_returns ddl ts err <->
  err = None /\
  ((exists d before after, [SQLite; PostgreSQL; MySQL] = (before ++ d :: after)%list /\ accepted ddl d ts /\
      forall d', In d' before -> exists line near, rejected ddl d' line near) \/
   (ts = [] /\ forall d, In d [SQLite; PostgreSQL; MySQL] -> exists line near, rejected ddl d line near)).
Proof. exact Force.force_iff. Qed.
Print Assumptions C04_first_accepting.
Example C04_example : exists ts, let ddl := "CREATE TABLE t (id INT);" in
  force_returns ddl ts None /\ accepted ddl PostgreSQL ts /\ rejected ddl SQLite 1 "INT".
Proof.
  eexists. cbv zeta. assert (A : accepted "CREATE TABLE t (id INT);" PostgreSQL _) by computes.
  assert (R : rejected "CREATE TABLE t (id INT);" SQLite 1 "INT") by computes.
  split; [|split; [exact A|exact R]].
  apply C04_first_accepting. split; [reflexivity|]. left.
  exists PostgreSQL, [SQLite], [MySQL]. split; [reflexivity|]. split; [exact A|].
  intros d' [<- |[]]. eauto.
Qed.

(** C05: refuted. *)
Theorem C05_refuted : exists ddl fuel,
  (exists e1 e2 e3, ParseSQLite fuel ddl = Returns [] (Some e1) /\
     ParsePostgreSQL fuel ddl = Returns [] (Some e2) /\ ParseMySQL fuel ddl = Returns [] (Some e3)) /\
  ParseForce fuel ddl = Returns [] None.
Proof. exists "DROP TABLE t;", 100. split; [do 3 eexists; repeat split|]; vm_compute; reflexivity. Qed.
Print Assumptions C05_refuted.

(** C12.  [strip] removes the line-break tokens. *)
Theorem C12_sqlite_grammar : forall tokens out,
  (exists fuel, VSqlite.Validate fuel tokens = ValidateOk out) <->
  (exists stmts, lang GSqlite.script (strip tokens) None out stmts).
Proof. exact Accept.sqlite_accepts. Qed.
Print Assumptions C12_sqlite_grammar.

Example C12_example : exists stmts, lang GSqlite.script
  ["CREATE"; "TABLE"; "t"; "("; "a"; "INTEGER"; "PRIMARY"; "KEY"; ","; "CHECK"; "("; "a"; ")"; ")"; ";"] None
  ["CREATE"; "TABLE"; "t"; "("; "a"; "INTEGER"; "PRIMARY"; "KEY"; ","; "CHECK"; "("; "a"; ")"; ")"; ";"] stmts.
Proof.
  apply (C12_sqlite_grammar ["CREATE"; "TABLE"; "t"; "("; "a"; "INTEGER"; NL; "PRIMARY"; "KEY"; ",";
    "CHECK"; "("; "a"; ")"; ")"; ";"; NL]).
  exists 50. vm_compute. reflexivity.
Qed.

(** C13. *)
Theorem C13_postgres_grammar : forall tokens out,
  (exists fuel, VPostgres.Validate fuel tokens = ValidateOk out) <->
  (exists stmts, lang GPostgres.script (strip tokens) None out stmts).
Proof. exact Accept.postgres_accepts. Qed.
Print Assumptions C13_postgres_grammar.

Example C13_example : exists stmts, lang GPostgres.script
  ["CREATE"; "TABLE"; "t"; "("; "id"; "CHARACTER"; "VARYING"; "("; "9"; ")"; "NOT"; "NULL"; ",";
   "EXCLUDE"; "("; "id"; ")"; ")"; "WITHOUT"; "OIDS"; ";"] None
  ["CREATE"; "TABLE"; "t"; "("; "id"; "CHARACTER"; "VARYING"; "("; "9"; ")"; "NOT"; "NULL"; ","; ")"; ";"] stmts.
Proof.
  apply (C13_postgres_grammar ["CREATE"; "TABLE"; "t"; "("; "id"; "CHARACTER"; "VARYING"; "("; "9"; ")"; "NOT"; "NULL"; ",";
   "EXCLUDE"; "("; "id"; ")"; ")"; "WITHOUT"; "OIDS"; ";"]).
  exists 50. vm_compute. reflexivity.
Qed.

(** C14. *)
Theorem C14_mysql_grammar : forall tokens out,
  (exists fuel, VMysql.Validate fuel tokens = ValidateOk out) <->
  (exists stmts, lang GMysql.script (strip tokens) None out stmts).
Proof. exact Accept.mysql_accepts. Qed.
Print Assumptions C14_mysql_grammar.

Example C14_example : exists stmts, lang GMysql.script
  ["create"; "table"; "t"; "("; "a"; "int"; "key"; "COMMENT"; "'c'"; ","; "UNIQUE"; "KEY"; "k";
   "("; "a"; "("; "3"; ")"; "DESC"; ")"; ")"; "ENGINE"; "="; "InnoDB"; ";"] None
  ["CREATE"; "table"; "t"; "("; "a"; "int"; "PRIMARY"; "KEY"; ","; "UNIQUE"; "("; "a"; ")"; ")"; ";"] stmts.
Proof.
  apply (C14_mysql_grammar ["create"; "table"; "t"; "("; "a"; "int"; "key"; "COMMENT"; "'c'"; ","; "UNIQUE"; "KEY"; "k";
   "("; "a"; "("; "3"; ")"; "DESC"; ")"; ")"; "ENGINE"; "="; "InnoDB"; ";"]).
  exists 50. vm_compute. reflexivity.
Qed.

(** C15. *)
Theorem C15_sqlite_tables_partial : forall ddl stmts,
  says SQLite ddl stmts -> safe stmts = true -> accepted ddl SQLite (tables_of SQLite stmts).
Proof. exact (Meaning.says_tables SQLite). Qed.
Print Assumptions C15_sqlite_tables_partial.
Theorem C15_sqlite_tables_only_partial : forall ddl ts, accepted ddl SQLite ts ->
  exists stmts, says SQLite ddl stmts /\ (forall stmts', says SQLite ddl stmts' -> stmts' = stmts) /\
    (safe stmts = true -> ts = tables_of SQLite stmts).
Proof. exact (Witness.accepted_tables SQLite). Qed.
Print Assumptions C15_sqlite_tables_only_partial.

Example C15_example : exists stmts,
  let ddl := "CREATE TABLE IF NOT EXISTS main.""my t"" (
  id INTEGER PRIMARY KEY AUTOINCREMENT, -- key
  n NUMERIC CONSTRAINT c NOT NULL DEFAULT 12 CHECK (n > 1) REFERENCES u (x) ON DELETE CASCADE,
  s TEXT DEFAULT 'a b' COLLATE nocase,
  CONSTRAINT k UNIQUE (id, n) ON CONFLICT IGNORE,
  FOREIGN KEY (n) REFERENCES v (y)) WITHOUT ROWID;
CREATE TRIGGER x BEGIN SELECT 1; END;" in
  says SQLite ddl stmts /\ safe stmts = true /\
  accepted ddl SQLite
   [mk_table "main" "my t" true
     [mk_column "id" (mk_data_type "INTEGER" 0 0) (mk_constraint "" true false false true DNil "" "" (mk_reference "" None));
      mk_column "n" (mk_data_type "NUMERIC" 0 0)
        (mk_constraint "c" false false true false (default_of SQLite (ALit "12")) "(n>1)" "" (mk_reference "u" (Some ["x"])));
      mk_column "s" (mk_data_type "TEXT" 0 0)
        (mk_constraint "" false false false false (DString "a b") "" "nocase" (mk_reference "" None))]
     (mk_tc [] [mk_unique "k" ["id"; "n"]] [] [mk_fk "" ["n"] (mk_reference "v" (Some ["y"]))])].
Proof.
  eexists. split; [reads|]. split; [reflexivity|]. computes.
Qed.

(** The full claim is false. *)
Theorem C15_refuted : exists ddl stmts, says SQLite ddl stmts /\ ~ accepted ddl SQLite (tables_of SQLite stmts).
Proof. exists "CREATE TABLE t (a INTEGER CONSTRAINT AUTO_INCREMENT UNIQUE);". eexists. split; [reads|computes]. Qed.
Print Assumptions C15_refuted.
(** Each condition in [safe] is needed. *)
Example C15_witnesses :
  (exists stmts, let ddl := "CREATE TABLE t (a INTEGER REFERENCES s.u);" in
     says SQLite ddl stmts /\ diverges ddl SQLite) /\
  (exists stmts, let ddl := "CREATE TABLE t (a INTEGER, FOREIGN KEY (a) REFERENCES s.u (b));" in
     says SQLite ddl stmts /\ diverges ddl SQLite) /\
  (exists stmts, let ddl := "CREATE TABLE t (a INTEGER CHECK (b,,c));" in
     says SQLite ddl stmts /\ ~ accepted ddl SQLite (tables_of SQLite stmts)) /\
  (exists stmts, let ddl := "CREATE TABLE t (a INTEGER DEFAULT (b,,c));" in
     says SQLite ddl stmts /\ ~ accepted ddl SQLite (tables_of SQLite stmts)) /\
  (exists stmts, let ddl := "CREATE TABLE t (a INTEGER, CHECK (b,,c));" in
     says SQLite ddl stmts /\ ~ accepted ddl SQLite (tables_of SQLite stmts)).
Proof. repeat split; eexists; (split; [reads|computes]). Qed.

(** C16. *)
Theorem C16_postgres_tables_partial : forall ddl stmts,
  says PostgreSQL ddl stmts -> safe stmts = true -> accepted ddl PostgreSQL (tables_of PostgreSQL stmts).
Proof. exact (Meaning.says_tables PostgreSQL). Qed.
Print Assumptions C16_postgres_tables_partial.
Theorem C16_postgres_tables_only_partial : forall ddl ts, accepted ddl PostgreSQL ts ->
  exists stmts, says PostgreSQL ddl stmts /\ (forall stmts', says PostgreSQL ddl stmts' -> stmts' = stmts) /\
    (safe stmts = true -> ts = tables_of PostgreSQL stmts).
Proof. exact (Witness.accepted_tables PostgreSQL). Qed.
Print Assumptions C16_postgres_tables_only_partial.
Example C16_example : exists stmts,
  let ddl := "CREATE TABLE IF NOT EXISTS app.""my t"" (
  id SERIAL PRIMARY KEY,
  n NUMERIC(10, 2) NOT NULL DEFAULT 0 CHECK (n >= 0),
  s CHARACTER VARYING(20) UNIQUE,
  r INT CONSTRAINT fk REFERENCES u (x) ON DELETE SET NULL,
  CONSTRAINT p PRIMARY KEY (id, n),
  EXCLUDE USING gist (n WITH x)
);" in
  says PostgreSQL ddl stmts /\ safe stmts = true /\
  accepted ddl PostgreSQL
   [mk_table "app" "my t" true
     [mk_column "id" (mk_data_type "SERIAL" 0 0) (mk_constraint "" true false false false DNil "" "" (mk_reference "" None));
      mk_column "n" (mk_data_type "NUMERIC" 10 2)
        (mk_constraint "" false false true false (default_of PostgreSQL (ALit "0")) "(n>=0)" "" (mk_reference "" None));
      mk_column "s" (mk_data_type "VARCHAR" 20 0)
        (mk_constraint "" false true false false DNil "" "" (mk_reference "" None));
      mk_column "r" (mk_data_type "INT" 0 0)
        (mk_constraint "fk" false false false false DNil "" "" (mk_reference "u" (Some ["x"])))]
     (mk_tc [mk_pk "p" ["id"; "n"]] [] [] [])].
Proof. eexists. split; [reads|]. split; [reflexivity|]. computes. Qed.
Theorem C16_refuted : exists ddl stmts, says PostgreSQL ddl stmts /\
  ~ accepted ddl PostgreSQL (tables_of PostgreSQL stmts).
Proof. exists "CREATE TABLE t (EXCLUDE (id WITH x), id INT);". eexists. split; [reads|computes]. Qed.
Print Assumptions C16_refuted.
Example C16_witnesses :
  (exists stmts, let ddl := "CREATE TABLE t (id INT REFERENCES s.u);" in
     says PostgreSQL ddl stmts /\ diverges ddl PostgreSQL) /\
  (exists stmts, let ddl := "CREATE TABLE t (id INT CONSTRAINT AUTO_INCREMENT UNIQUE);" in
     says PostgreSQL ddl stmts /\ ~ accepted ddl PostgreSQL (tables_of PostgreSQL stmts)).
Proof. repeat split; eexists; (split; [reads|computes]). Qed.

(** C17. *)
Theorem C17_mysql_tables_partial : forall ddl stmts,
  says MySQL ddl stmts -> safe stmts = true -> accepted ddl MySQL (tables_of MySQL stmts).
Proof. exact (Meaning.says_tables MySQL). Qed.
Print Assumptions C17_mysql_tables_partial.
Theorem C17_mysql_tables_only_partial : forall ddl ts, accepted ddl MySQL ts ->
  exists stmts, says MySQL ddl stmts /\ (forall stmts', says MySQL ddl stmts' -> stmts' = stmts) /\
    (safe stmts = true -> ts = tables_of MySQL stmts).
Proof. exact (Witness.accepted_tables MySQL). Qed.
Print Assumptions C17_mysql_tables_only_partial.
Example C17_example : exists stmts,
  let ddl := "CREATE TABLE IF NOT EXISTS db.`my t` (
  id BIGINT AUTO_INCREMENT PRIMARY KEY COMMENT 'key', # key
  n DECIMAL(10, 2) NOT NULL DEFAULT 7,
  s varchar(20) DEFAULT ""x"",
  UNIQUE KEY k (id DESC, s(3)),
  CONSTRAINT f FOREIGN KEY (n) REFERENCES u (x) ON UPDATE CASCADE,
  CHECK (n > 0)
) ENGINE = InnoDB;" in
  says MySQL ddl stmts /\ safe stmts = true /\
  accepted ddl MySQL
   [mk_table "db" "my t" true
     [mk_column "id" (mk_data_type "BIGINT" 0 0) (mk_constraint "" true false false true DNil "" "" (mk_reference "" None));
      mk_column "n" (mk_data_type "DECIMAL" 10 2)
        (mk_constraint "" false false true false (default_of MySQL (ALit "7")) "" "" (mk_reference "" None));
      mk_column "s" (mk_data_type "VARCHAR" 20 0)
        (mk_constraint "" false false false false (DString "x") "" "" (mk_reference "" None))]
     (mk_tc [] [mk_unique "" ["id"; "s"]] [mk_check "" "(n>0)"] [mk_fk "f" ["n"] (mk_reference "u" (Some ["x"]))])].
Proof. eexists. split; [reads|]. split; [reflexivity|]. computes. Qed.
Theorem C17_refuted : exists ddl stmts, says MySQL ddl stmts /\ ~ accepted ddl MySQL (tables_of MySQL stmts).
Proof. exists "CREATE TABLE t (a INT, INDEX (a), b INT, c INT);". eexists. split; [reads|computes]. Qed.
Print Assumptions C17_refuted.
Example C17_witnesses :
  (exists stmts, let ddl := "CREATE TABLE t (a INT, INDEX (a));" in
     says MySQL ddl stmts /\ diverges ddl MySQL) /\
  (exists stmts, let ddl := "CREATE TABLE t (a INT REFERENCES s.u (b));" in
     says MySQL ddl stmts /\ diverges ddl MySQL) /\
  (exists stmts, let ddl := "CREATE TABLE t (a INT CONSTRAINT AUTOINCREMENT UNIQUE);" in
     says MySQL ddl stmts /\ ~ accepted ddl MySQL (tables_of MySQL stmts)).
Proof. repeat split; eexists; (split; [reads|computes]). Qed.

(** C18. *)
Theorem C18_one_table_each_partial : forall ddl d ts stmts, accepted ddl d ts ->
  says d ddl stmts -> readable stmts = true ->
  List.length ts = List.length (filter is_table stmts).
Proof. exact Witness.table_count. Qed.
Print Assumptions C18_one_table_each_partial.
Example C18_example : exists ts stmts,
  let ddl := "CREATE VIEW v AS SELECT 1; CREATE TABLE t (a TEXT); CREATE TRIGGER x BEGIN SELECT 1; SELECT 2; END; CREATE TABLE u (b TEXT);" in
  accepted ddl SQLite ts /\ says SQLite ddl stmts /\ readable stmts = true /\ List.length ts = 2.
Proof. do 2 eexists. split; [computes|]. split; [reads|]. split; reflexivity. Qed.
Theorem C18_refuted : exists ddl ts stmts, accepted ddl MySQL ts /\ says MySQL ddl stmts /\
  List.length ts = 2 /\ List.length (filter is_table stmts) = 1.
Proof.
  exists "CREATE TABLE t (a INT, INDEX (a), b INT, c INT);". do 2 eexists. split; [computes|].
  split; [reads|]. split; reflexivity.
Qed.
Print Assumptions C18_refuted.

(** C19. *)
Theorem C19_compose : forall d s1 s2 ts1 ts2, accepted s1 d ts1 -> accepted s2 d ts2 ->
  accepted (s1 ++ String "010" (String "010" "") ++ s2) d (ts1 ++ ts2)%list.
Proof. exact Compose.compose_accepted. Qed.
Print Assumptions C19_compose.
Theorem C19_compose_rejected : forall d s1 s2 ts1 line near, accepted s1 d ts1 -> rejected s2 d line near ->
  exists line', rejected (s1 ++ String "010" (String "010" "") ++ s2) d line' near /\
    line + 1 <= line' <= line + line_feeds s1 + 3.
Proof. exact Compose.compose_rejected. Qed.
Print Assumptions C19_compose_rejected.
Example C19_example : exists ts1 ts2,
  let s1 := "CREATE TABLE t (a TEXT); -- one" in
  let s2 := "/* two */ CREATE TABLE u (b TEXT);" in
  accepted s1 SQLite ts1 /\ accepted s2 SQLite ts2 /\
  accepted (s1 ++ String "010" (String "010" "") ++ s2) SQLite (ts1 ++ ts2)%list /\
  List.length (ts1 ++ ts2) = 2 /\ rejected "CREATE FOO;" SQLite 1 "FOO".
Proof. do 2 eexists. split; [computes|]. split; [computes|]. split; [computes|]. split; [reflexivity|computes]. Qed.

(** C20: the true part.  The error names a token of the text, with its line; the verdict is the same for every text
    with the same tokens up to there; that token is the first after which no continuation is a script.  (Not for
    texts that cannot be split into tokens; the line does not count a line break at the very start.) *)
Theorem C20_located_partial : forall d ddl line near toks, rejected ddl d line near -> lexes d ddl toks ->
  (near = EOF /\ line = line_after toks) \/
  (exists p q, toks = (p ++ near :: q)%list /\ line = line_after p /\
    forall ddl' q', lexes d ddl' (p ++ near :: q')%list -> rejected ddl' d line near).
Proof. exact ErrorAt.located. Qed.
Print Assumptions C20_located_partial.
Theorem C20_first_bad_token_partial : forall d ddl line near toks, rejected ddl d line near -> lexes d ddl toks ->
  (near = EOF /\ line = line_after toks /\ continues d (strip toks) /\
     forall out stmts, ~ lang (script d) (strip toks) None out stmts) \/
  (exists p q, toks = (p ++ near :: q)%list /\ near <> NL /\ line = line_after p /\
     continues d (strip p) /\ ~ continues d (strip p ++ [near])).
Proof. exact ErrorAt.first_bad. Qed.
Print Assumptions C20_first_bad_token_partial.
Theorem C20_stays_partial : forall d s1 s2 line near toks1 toks2, rejected s1 d line near -> near <> EOF ->
  lexes d s1 toks1 -> lexes d s2 toks2 -> rejected (s1 ++ String "010" (String "010" "") ++ s2) d line near.
Proof. exact ErrorAt.stays. Qed.
Print Assumptions C20_stays_partial.
Example C20_example : exists toks toks2,
  let s1 := "CREATE TABLE t (a TEXT,
  b FOO, c TEXT);" in
  let s2 := "CREATE" in
  rejected s1 SQLite 2 "FOO" /\ lexes SQLite s1 toks /\ lexes SQLite s2 toks2 /\ "FOO" <> EOF /\
  rejected s2 SQLite 1 EOF /\ rejected (s1 ++ String "010" (String "010" "") ++ s2) SQLite 2 "FOO".
Proof.
  do 2 eexists. split; [computes|]. split; [exists 500; vm_compute; reflexivity|].
  split; [exists 500; vm_compute; reflexivity|]. split; [discriminate|]. split; computes.
Qed.
