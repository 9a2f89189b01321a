(** The expectations of the tests in /repo (test/*.go, ddlparse_test.go), checked against the
    model.  Generated from the Go test files; the name of each example gives test file and line. *)
From Coq Require Import String ZArith NArith List.
From Verif Require Import GoStr GoNum Types Lexer VBase Converter Parse.
Import ListNotations.
Open Scope string_scope.
Open Scope N_scope.
Open Scope Z_scope.

Definition fuel_for (ddl : string) : nat := (20 + 2 * String.length ddl)%nat.
Definition lex (ddl : string) (d : rdbms) := Lex (fuel_for ddl) d ddl.
(** test/common_test.go:48-56 *)
Definition validate (ddl : string) (d : rdbms) : validate_result :=
  match lex ddl d with
  | LexOk tokens => Validate (fuel_for ddl) d tokens
  | LexErr e => ValidateErr e
  | LexOutOfFuel => ValidateOutOfFuel
  end.
Definition LexOK ddl d n := match lex ddl d with LexOk l => List.length l = n | _ => False end.
Definition LexNG ddl d line near := lex ddl d = LexErr (mk_verror line near).
Definition ValidateOK ddl d := match validate ddl d with ValidateOk _ => True | _ => False end.
Definition ValidateNG ddl d line near := validate ddl d = ValidateErr (mk_verror line near).
Definition ConvertOK ddl d ts := Parse (fuel_for ddl) ddl d = Returns ts None.

Example t_lexer_test_12 : LexOK "" SQLite 0%nat.
Proof. vm_compute. reflexivity. Qed.

Example t_lexer_test_24 : LexOK "CREATE TABLE IF NOT EXISTS users (
			""user_id"" INTEGER PRIMARY KEY AUTOINCREMENT,
			'username' TEXT NOT NULL UNIQUE, * - -2 #aaaaaa
			password TEXT NOT NULL DEFAULT ""aaaa'bbb'aaaa"", --XXX
			email TEXT NOT NULL UNIQUE, /*aaa*/
			created_at TEXT NOT NULL DEFAULT (DATETIME('now', 'localtime')),
			updated_at TEXT NOT NULL DEFAULT(DATETIME('now', 'localtime'))
		);CREATE TABLE IF NOT EXISTS users (`user_id` INTEGER PRIMARY KEY AUTOINCREMENT)" SQLite 85%nat.
Proof. vm_compute. reflexivity. Qed.

Example t_lexer_test_30 : LexNG "CREATE TABLE IF NOT EXISTS users (
		""user_id"" INTEGER PRIMARY KEY AUTOINCREMENT,
		email TEXT NOT NULL UNIQUE */
	);" SQLite 3%nat "*".
Proof. vm_compute. reflexivity. Qed.

Example t_lexer_test_36 : LexNG "CREATE TABLE IF NOT EXISTS users (
		""user_id"" INTEGER PRIMARY KEY AUTOINCREMENT, /*
		email TEXT NOT NULL UNIQUE
	);" SQLite 4%nat "<EOF>".
Proof. vm_compute. reflexivity. Qed.

Example t_lexer_test_42 : LexNG "CREATE TABLE IF NOT EXISTS users (
		""user_id"" INTEGER PRIMARY KEY AUTOINCREMENT,
		email TEXT NOT NULL UNIQUE ""
	);" SQLite 4%nat "<EOF>".
Proof. vm_compute. reflexivity. Qed.

Example t_lexer_test_48 : LexNG "CREATE TABLE IF NOT EXISTS users (
		""user_id"" INTEGER PRIMARY KEY AUTOINCREMENT,
		email TEXT NOT NULL UNIQUE '
	);" SQLite 4%nat "<EOF>".
Proof. vm_compute. reflexivity. Qed.

Example t_lexer_test_51 : LexNG "CREATE TABLE IF NOT EXISTS `users ();" SQLite 1%nat "<EOF>".
Proof. vm_compute. reflexivity. Qed.

Example t_lexer_test_67 : LexOK "CREATE TABLE IF NOT EXISTS users (
		""user_id"" INTEGER PRIMARY KEY AUTOINCREMENT,
		'username' TEXT NOT NULL UNIQUE, * - -2 #aaaaaa
		password TEXT NOT NULL DEFAULT ""aaaa'bbb'aaaa"", --XXX
		email TEXT NOT NULL UNIQUE, /*aaa*/
		created_at TEXT NOT NULL DEFAULT (DATETIME('now', 'localtime')),
		updated_at TEXT NOT NULL DEFAULT(DATETIME('now', 'localtime'))
	);CREATE TABLE IF NOT EXISTS users (`user_id` INTEGER PRIMARY KEY AUTOINCREMENT)" MySQL 84%nat.
Proof. vm_compute. reflexivity. Qed.

Example t_lexer_test_84 : LexNG "CREATE TABLE IF NOT EXISTS users (
		""user_id"" INTEGER PRIMARY KEY AUTOINCREMENT,
		'username' TEXT NOT NULL UNIQUE, * - -2 #aaaaaa
		password TEXT NOT NULL DEFAULT ""aaaa'bbb'aaaa"", --XXX
		email TEXT NOT NULL UNIQUE, /*aaa*/
		created_at TEXT NOT NULL DEFAULT (DATETIME('now', 'localtime')),
		updated_at TEXT NOT NULL DEFAULT(DATETIME('now', 'localtime'))
	);CREATE TABLE IF NOT EXISTS users (`user_id` INTEGER PRIMARY KEY AUTOINCREMENT)" PostgreSQL 8%nat "`".
Proof. vm_compute. reflexivity. Qed.

Example t_vs_13 : ValidateOK "" SQLite.
Proof. vm_compute. exact I. Qed.

Example t_vs_17 : ValidateNG "CREAT TABLE IF NOT EXISTS users ();" SQLite 1%nat "CREAT".
Proof. vm_compute. reflexivity. Qed.

Example t_vs_22 : ValidateNG "CREATE TABLE IF NOT EXISTS users (

	);" SQLite 3%nat ")".
Proof. vm_compute. reflexivity. Qed.

Example t_vs_25 : ValidateNG "CREATE TABLE IF EXISTS users ();" SQLite 1%nat "EXISTS".
Proof. vm_compute. reflexivity. Qed.

Example t_vs_28 : ValidateNG "CREATE TABL IF NOT EXISTS users ();" SQLite 1%nat "TABL".
Proof. vm_compute. reflexivity. Qed.

Example t_vs_31 : ValidateNG "CREATE TABLE IF NOT EXISTS ""users ();" SQLite 1%nat "<EOF>".
Proof. vm_compute. reflexivity. Qed.

Example t_vs_34 : ValidateNG "CREATE TABLE IF NOT EXISTS `users ();" SQLite 1%nat "<EOF>".
Proof. vm_compute. reflexivity. Qed.

Example t_vs_37 : ValidateNG "CREATE TABLE IF NOT EXISTS AUTOINCREMENT ();" SQLite 1%nat "AUTOINCREMENT".
Proof. vm_compute. reflexivity. Qed.

Example t_vs_42 : ValidateNG "CREATE TABLE IF NOT EXISTS users (
		aaaa INTEGER,
	);" SQLite 3%nat ")".
Proof. vm_compute. reflexivity. Qed.

Example t_vs_54 : ValidateOK "create table users (
		aaaa integer, --comment
		aaaa integer, /* commen
		comment
		comment
		*/
		aaaa integer
	);" SQLite.
Proof. vm_compute. exact I. Qed.

Example t_vs_60 : ValidateNG "create table users (
		aaaa integer,
		aaaa integer -comment
	);" SQLite 3%nat "-comment".
Proof. vm_compute. reflexivity. Qed.

Example t_vs_66 : ValidateNG "create table users (
		aaaa integer,
		aaaa integer / * aaa */
	);" SQLite 3%nat "*".
Proof. vm_compute. reflexivity. Qed.

Example t_vs_72 : ValidateNG "create table users (
		aaaa integer,
		aaaa integer /* aaa
	);" SQLite 4%nat "<EOF>".
Proof. vm_compute. reflexivity. Qed.

Example t_vs_78 : ValidateNG "create table users (
		aaaa integer,
		aaaa integer #aaa
	);" SQLite 3%nat "#aaa".
Proof. vm_compute. reflexivity. Qed.

Example t_vs_84 : ValidateNG "create table users (
		aaaa integer --aaa,
		aaaa integer 
	);" SQLite 3%nat "aaaa".
Proof. vm_compute. reflexivity. Qed.

Example t_vs_91 : ValidateOK "create table scm.users (
		aaaa integer
	);" SQLite.
Proof. vm_compute. exact I. Qed.

Example t_vs_96 : ValidateNG "create table scm users (
		aaaa integer
	);" SQLite 1%nat "users".
Proof. vm_compute. reflexivity. Qed.

Example t_vs_101 : ValidateNG "create table scm,users (
		aaaa integer
	);" SQLite 1%nat ",".
Proof. vm_compute. reflexivity. Qed.

Example t_vs_108 : ValidateOK "create table ""scm"".""users"" (
		""aaaa"" integer
	);" SQLite.
Proof. vm_compute. exact I. Qed.

Example t_vs_113 : ValidateNG "create table 'scm'.""users"" (
		""aaaa"" integer
	);" SQLite 1%nat "'scm'".
Proof. vm_compute. reflexivity. Qed.

Example t_vs_118 : ValidateNG "create table ""scm"".'users' (
		""aaaa"" integer
	);" SQLite 1%nat "'users'".
Proof. vm_compute. reflexivity. Qed.

Example t_vs_123 : ValidateNG "create table ""scm"".""users"" (
		'aaaa' integer
	);" SQLite 2%nat "'aaaa'".
Proof. vm_compute. reflexivity. Qed.

Example t_vs_126 : ValidateOK "create table `scm`.`users` (`aaaa` integer);" SQLite.
Proof. vm_compute. exact I. Qed.

Example t_vs_131 : ValidateNG "create table ""scm.users (
		aaaa integer
	);" SQLite 3%nat "<EOF>".
Proof. vm_compute. reflexivity. Qed.

Example t_vs_134 : ValidateNG "create table `scm.users (aaaa integer);" SQLite 1%nat "<EOF>".
Proof. vm_compute. reflexivity. Qed.

Example t_vs_147 : ValidateOK "create table users (
		aaaa integer,
		aaaa text,
		aaaa numeric,
		aaaa integer,
		aaaa real,
		aaaa none
	);" SQLite.
Proof. vm_compute. exact I. Qed.

Example t_vs_152 : ValidateNG "create table users (
		aaaa integerrr
	);" SQLite 2%nat "integerrr".
Proof. vm_compute. reflexivity. Qed.

Example t_vs_171 : ValidateOK "create table users (
		aaaa integer
	) without rowid;
	
	create table users (
		aaaa integer
	) strict;

	create table users (
		aaaa integer
	) strict, without rowid;
	
	create table users (
		aaaa integer
	) without rowid, strict;" SQLite.
Proof. vm_compute. exact I. Qed.

Example t_vs_176 : ValidateNG "create table users (
		aaaa integer
	) without;" SQLite 3%nat ";".
Proof. vm_compute. reflexivity. Qed.

Example t_vs_181 : ValidateNG "create table users (
		aaaa integer
	) strict, without rowid, strict;" SQLite 3%nat ",".
Proof. vm_compute. reflexivity. Qed.

Example t_vs_202 : ValidateOK "create table users (
		user_id INTEGER PRIMARY KEY AUTOINCREMENT,
		PRIMARY KEY (a),
		CONSTRAINT const_name PRIMARY KEY (a, b, ""c""),
		CONSTRAINT const_name PRIMARY KEY (a, b, ""c"") ON CONFLICT ROLLBACK,
		constraint const_name primary key (a, b, ""c"") on conflict rollback,
		UNIQUE (a),
		CONSTRAINT const_name UNIQUE (a, b, ""c""),
		CONSTRAINT const_name UNIQUE (a, b, ""c"") ON CONFLICT ROLLBACK,
		constraint const_name unique (a, b, ""c"") on conflict rollback,
		CHECK (a),
		CONSTRAINT const_name CHECK (aaa(aa(a)a())aa),
		CONSTRAINT const_name check (aaa(aa(a)a())aa),
		FOREIGN KEY (a) REFERENCES bbb(ccc) ON DELETE SET NULL,
		CONSTRAINT const_name FOREIGN KEY (a, b, ""c"") REFERENCES bbb(ccc) ON DELETE SET NULL,
		constraint const_name foreign key (a, b, ""c"") references bbb(ccc) on delete set null
	);" SQLite.
Proof. vm_compute. exact I. Qed.

Example t_vs_208 : ValidateNG "create table users (
		aaaa integer,
		constraintttt check(aaaa)
	);" SQLite 3%nat "check".
Proof. vm_compute. reflexivity. Qed.

Example t_vs_214 : ValidateNG "create table users (
		aaaa integer,
		constraint check check(aaaa)
	);" SQLite 3%nat "check".
Proof. vm_compute. reflexivity. Qed.

Example t_vs_220 : ValidateNG "create table users (
		aaaa integer,
		constraint constraint_zzzz check a
	);" SQLite 3%nat "a".
Proof. vm_compute. reflexivity. Qed.

Example t_vs_226 : ValidateNG "create table users (
		aaaa integer,
		check(aaa) inherit,
	);" SQLite 3%nat "inherit".
Proof. vm_compute. reflexivity. Qed.

Example t_vs_232 : ValidateNG "create table users (
		aaaa integer,
		unique
	);" SQLite 4%nat ")".
Proof. vm_compute. reflexivity. Qed.

Example t_vs_238 : ValidateNG "create table users (
		aaaa integer,
		unique('aaaa')
	);" SQLite 3%nat "'aaaa'".
Proof. vm_compute. reflexivity. Qed.

Example t_vs_244 : ValidateNG "create table users (
		aaaa integer,
		primary key
	);" SQLite 4%nat ")".
Proof. vm_compute. reflexivity. Qed.

Example t_vs_250 : ValidateNG "create table users (
		aaaa integer,
		primary key('aaaa')
	);" SQLite 3%nat "'aaaa'".
Proof. vm_compute. reflexivity. Qed.

Example t_vs_326 : ValidateOK "create table users (
		aaaa INTEGER PRIMARY KEY,
		aaaa INTEGER PRIMARY KEY AUTOINCREMENT,
		aaaa INTEGER PRIMARY KEY ASC AUTOINCREMENT,
		aaaa INTEGER PRIMARY KEY DESC AUTOINCREMENT,
		aaaa INTEGER PRIMARY KEY ON CONFLICT ROLLBACK AUTOINCREMENT,
		aaaa INTEGER PRIMARY KEY ON CONFLICT ABORT AUTOINCREMENT,
		aaaa INTEGER PRIMARY KEY ON CONFLICT FAIL AUTOINCREMENT,
		aaaa INTEGER PRIMARY KEY ON CONFLICT IGNORE AUTOINCREMENT,
		aaaa INTEGER PRIMARY KEY ON CONFLICT REPLACE AUTOINCREMENT,
		aaaa integer primary key on conflict rollback autoincrement,
		aaaa INTEGER PRIMARY KEY ON CONFLICT ROLLBACK,
		aaaa INTEGER NOT NULL,
		aaaa INTEGER NOT NULL ON CONFLICT ROLLBACK,
		aaaa INTEGER NOT NULL ON CONFLICT ABORT,
		aaaa INTEGER NOT NULL ON CONFLICT FAIL,
		aaaa INTEGER NOT NULL ON CONFLICT IGNORE,
		aaaa INTEGER NOT NULL ON CONFLICT REPLACE,
		aaaa integer not null on conflict rollback,
		aaaa INTEGER UNIQUE,
		aaaa INTEGER UNIQUE ON CONFLICT ROLLBACK,
		aaaa INTEGER UNIQUE ON CONFLICT ABORT,
		aaaa INTEGER UNIQUE ON CONFLICT FAIL,
		aaaa INTEGER UNIQUE ON CONFLICT IGNORE,
		aaaa INTEGER UNIQUE ON CONFLICT REPLACE,
		aaaa integer unique on conflict rollback,
		aaaa INTEGER CHECK (),
		aaaa INTEGER CHECK (aaaaaaaaa),
		aaaa INTEGER CHECK (aaa(aa(a)a())aa),
		aaaa integer check (aaaaaaaaa),
		aaaa INTEGER DEFAULT (),
		aaaa INTEGER DEFAULT (aaaaaaaaa),
		aaaa INTEGER DEFAULT (aaa(aa(a)a())aa),
		aaaa INTEGER DEFAULT +10,
		aaaa INTEGER DEFAULT -10,
		aaaa INTEGER DEFAULT 10,
		aaaa INTEGER DEFAULT 'aaaaa',
		aaaa INTEGER DEFAULT NULL,
		aaaa INTEGER DEFAULT TRUE,
		aaaa INTEGER DEFAULT FALSE,
		aaaa INTEGER DEFAULT CURRENT_TIME,
		aaaa INTEGER DEFAULT CURRENT_DATE,
		aaaa INTEGER DEFAULT CURRENT_TIMESTAMP,
		aaaa integer default null,
		aaaa integer default true,
		aaaa integer default false,
		aaaa integer default current_time,
		aaaa integer default current_date,
		aaaa integer default current_timestamp,
		aaaa INTEGER COLLATE BINARY,
		aaaa INTEGER COLLATE NOCASE,
		aaaa INTEGER COLLATE RTRIM,
		aaaa INTEGER collate binary,
		aaaa INTEGER collate nocase,
		aaaa INTEGER collate rtrim,
		aaaa INTEGER REFERENCES bbb(ccc),
		aaaa INTEGER REFERENCES bbb(ccc) ON DELETE SET NULL,
		aaaa INTEGER REFERENCES bbb(ccc) ON DELETE SET DEFAULT,
		aaaa INTEGER REFERENCES bbb(ccc) ON UPDATE CASCADE,
		aaaa INTEGER REFERENCES bbb(ccc) ON UPDATE RESTRICT,
		aaaa INTEGER REFERENCES bbb(ccc) ON UPDATE NO ACTION,
		aaaa INTEGER REFERENCES bbb(ccc) MATCH SIMPLE,
		aaaa INTEGER REFERENCES bbb(ccc) MATCH PARTIAL,
		aaaa INTEGER REFERENCES bbb(ccc) MATCH FULL,
		aaaa INTEGER REFERENCES bbb(ccc) DEFERRABLE,
		aaaa INTEGER REFERENCES bbb(ccc) NOT DEFERRABLE,
		aaaa INTEGER REFERENCES bbb(ccc) NOT DEFERRABLE INITIALLY DEFERRED,
		aaaa INTEGER REFERENCES bbb(ccc) NOT DEFERRABLE INITIALLY IMMEDIATE,
		aaaa INTEGER REFERENCES bbb(ccc) ON DELETE SET NULL MATCH SIMPLE DEFERRABLE INITIALLY IMMEDIATE,
		aaaa INTEGER REFERENCES bbb ON DELETE SET NULL MATCH SIMPLE DEFERRABLE INITIALLY IMMEDIATE,
		aaaa INTEGER NOT NULL UNIQUE DEFAULT -10
	);" SQLite.
Proof. vm_compute. exact I. Qed.

Example t_vs_331 : ValidateNG "create table users (
		aaaa integer default ""aaa""
	);" SQLite 2%nat """aaa""".
Proof. vm_compute. reflexivity. Qed.

Example t_vs_334 : ValidateNG "create table users (aaaa integer default `aaa`);" SQLite 1%nat "`aaa`".
Proof. vm_compute. reflexivity. Qed.

Example t_vs_339 : ValidateNG "create table users (
		aaaa integer default aaa
	);" SQLite 2%nat "aaa".
Proof. vm_compute. reflexivity. Qed.

Example t_vs_344 : ValidateNG "create table users (
		aaaa integer default 'aaa
	);" SQLite 3%nat "<EOF>".
Proof. vm_compute. reflexivity. Qed.

Example t_vs_349 : ValidateNG "create table users (
		aaaa integer default - 2
	);" SQLite 2%nat "-".
Proof. vm_compute. reflexivity. Qed.

Example t_vs_354 : ValidateNG "create table users (
		aaaa integer unique unique
	);" SQLite 2%nat "unique".
Proof. vm_compute. reflexivity. Qed.

Example t_vs_359 : ValidateNG "create table users (
		aaaa integer primary key primary key
	);" SQLite 2%nat "primary".
Proof. vm_compute. reflexivity. Qed.

Example t_vs_391 : ValidateOK "create table users (
		aaaa integer
	) without rowid;
	
	create temp table users (
		aaaa integer
	) strict;

	CREATE TRIGGER update_timestamp
	AFTER UPDATE ON users
	FOR EACH ROW
	BEGIN
		UPDATE users SET updated_at = CURRENT_TIMESTAMP WHERE id = NEW.id;
	END;

	CREATE VIRTUAL TABLE documents USING fts5(content);

	CREATE TEMP VIEW temp_active_users AS
	SELECT id, name, email
	FROM users
	WHERE active = 1;

	CREATE INDEX idx_active_users_email ON users(email) WHERE active = 1;
	CREATE UNIQUE INDEX idx_users_unique_email ON users(email);
	
	create table users2 (
		aaaa integer
	) without rowid, strict;" SQLite.
Proof. vm_compute. exact I. Qed.

Example t_vs_403 : ValidateNG "create table users (
		aaaa integer
	) without rowid;

	CREATE TRIGGE update_timestamp
	AFTER UPDATE ON users
	FOR EACH ROW
	BEGIN
		UPDATE users SET updated_at = CURRENT_TIMESTAMP WHERE id = NEW.id;
	END;" SQLite 5%nat "TRIGGE".
Proof. vm_compute. reflexivity. Qed.

Example t_vp_13 : ValidateOK "" PostgreSQL.
Proof. vm_compute. exact I. Qed.

Example t_vp_17 : ValidateNG "CREAT TABLE IF NOT EXISTS users ();" PostgreSQL 1%nat "CREAT".
Proof. vm_compute. reflexivity. Qed.

Example t_vp_22 : ValidateNG "CREATE TABLE IF NOT EXISTS users (

	);" PostgreSQL 3%nat ")".
Proof. vm_compute. reflexivity. Qed.

Example t_vp_25 : ValidateNG "CREATE TABLE IF EXISTS users ();" PostgreSQL 1%nat "EXISTS".
Proof. vm_compute. reflexivity. Qed.

Example t_vp_28 : ValidateNG "CREATE TABL IF NOT EXISTS users ();" PostgreSQL 1%nat "TABL".
Proof. vm_compute. reflexivity. Qed.

Example t_vp_31 : ValidateNG "CREATE TABLE IF NOT EXISTS ""users ();" PostgreSQL 1%nat "<EOF>".
Proof. vm_compute. reflexivity. Qed.

Example t_vp_34 : ValidateNG "CREATE TABLE IF NOT EXISTS 'users ();" PostgreSQL 1%nat "<EOF>".
Proof. vm_compute. reflexivity. Qed.

Example t_vp_37 : ValidateNG "CREATE TABLE IF NOT EXISTS ALLOCATE ();" PostgreSQL 1%nat "ALLOCATE".
Proof. vm_compute. reflexivity. Qed.

Example t_vp_42 : ValidateNG "CREATE TABLE IF NOT EXISTS users (
		aaaa INTEGER,
	);" PostgreSQL 3%nat ")".
Proof. vm_compute. reflexivity. Qed.

Example t_vp_54 : ValidateOK "create table users (
		aaaa integer, --comment
		aaaa integer, /* commen
		comment
		comment
		*/
		aaaa integer
	);" PostgreSQL.
Proof. vm_compute. exact I. Qed.

Example t_vp_60 : ValidateNG "create table users (
		aaaa int,
		aaaa integer -comment
	);" PostgreSQL 3%nat "-comment".
Proof. vm_compute. reflexivity. Qed.

Example t_vp_66 : ValidateNG "create table users (
		aaaa int,
		aaaa integer / * aaa */
	);" PostgreSQL 3%nat "*".
Proof. vm_compute. reflexivity. Qed.

Example t_vp_72 : ValidateNG "create table users (
		aaaa int,
		aaaa integer /* aaa
	);" PostgreSQL 4%nat "<EOF>".
Proof. vm_compute. reflexivity. Qed.

Example t_vp_78 : ValidateNG "create table users (
		aaaa int,
		aaaa integer #aaa
	);" PostgreSQL 3%nat "#aaa".
Proof. vm_compute. reflexivity. Qed.

Example t_vp_84 : ValidateNG "create table users (
		aaaa int --aaa,
		aaaa integer 
	);" PostgreSQL 3%nat "aaaa".
Proof. vm_compute. reflexivity. Qed.

Example t_vp_91 : ValidateOK "create table scm.users (
		aaaa integer
	);" PostgreSQL.
Proof. vm_compute. exact I. Qed.

Example t_vp_96 : ValidateNG "create table scm users (
		aaaa integer
	);" PostgreSQL 1%nat "users".
Proof. vm_compute. reflexivity. Qed.

Example t_vp_101 : ValidateNG "create table scm,users (
		aaaa integer
	);" PostgreSQL 1%nat ",".
Proof. vm_compute. reflexivity. Qed.

Example t_vp_108 : ValidateOK "create table ""scm"".""users"" (
		""aaaa"" integer
	);" PostgreSQL.
Proof. vm_compute. exact I. Qed.

Example t_vp_113 : ValidateNG "create table 'scm'.""users"" (
		""aaaa"" integer
	);" PostgreSQL 1%nat "'scm'".
Proof. vm_compute. reflexivity. Qed.

Example t_vp_118 : ValidateNG "create table ""scm"".'users' (
		""aaaa"" integer
	);" PostgreSQL 1%nat "'users'".
Proof. vm_compute. reflexivity. Qed.

Example t_vp_123 : ValidateNG "create table ""scm"".""users"" (
		'aaaa' integer
	);" PostgreSQL 2%nat "'aaaa'".
Proof. vm_compute. reflexivity. Qed.

Example t_vp_126 : ValidateNG "create table `scm`.`users` (`aaaa` integer);" PostgreSQL 1%nat "`".
Proof. vm_compute. reflexivity. Qed.

Example t_vp_131 : ValidateNG "create table ""scm.users (
		aaaa integer
	);" PostgreSQL 3%nat "<EOF>".
Proof. vm_compute. reflexivity. Qed.

Example t_vp_209 : ValidateOK "create table users (
		aaaa bigint,
		aaaa int8,
		aaaa bigserial,
		aaaa serial8,
		aaaa bit,
		aaaa bit(10),
		aaaa bit varying,
		aaaa bit varying(10),
		aaaa varbit,
		aaaa varbit(10),
		aaaa boolean,
		aaaa bool,
		aaaa box,
		aaaa bytea,
		aaaa character,
		aaaa character(10),
		aaaa char,
		aaaa char(10),
		aaaa character varying,
		aaaa character varying(10),
		aaaa varchar,
		aaaa varchar(10),
		aaaa cidr,
		aaaa circle,
		aaaa double precision,
		aaaa float8,
		aaaa inet,
		aaaa integer,
		aaaa int,
		aaaa int4,
		aaaa json,
		aaaa jsonb,
		aaaa line,
		aaaa lseg,
		aaaa macaddr,
		aaaa macaddr8,
		aaaa money,
		aaaa numeric,
		aaaa numeric(10),
		aaaa numeric(10, 5),
		aaaa decimal,
		aaaa decimal(10),
		aaaa decimal(10, 5),
		aaaa path,
		aaaa pg_lsn,
		aaaa pg_snapshot,
		aaaa point,
		aaaa polygon,
		aaaa real,
		aaaa float4,
		aaaa smallint,
		aaaa int2,
		aaaa smallserial,
		aaaa serial2,
		aaaa serial,
		aaaa serial4,
		aaaa text,
		aaaa time,
		aaaa time(10),
		aaaa time(10) without time zone,
		aaaa time(10) with time zone,
		aaaa timetz,
		aaaa timestamp,
		aaaa timestamp(10),
		aaaa timestamp(10) without time zone,
		aaaa timestamp(10) with time zone,
		aaaa timestamptz,
		aaaa tsquery,
		aaaa tsvector,
		aaaa txid_snapshot,
		aaaa uuid,
		aaaa xml
	);" PostgreSQL.
Proof. vm_compute. exact I. Qed.

Example t_vp_215 : ValidateNG "create table users (
		aaaa int,
		aaaa bigin
	);" PostgreSQL 3%nat "bigin".
Proof. vm_compute. reflexivity. Qed.

Example t_vp_221 : ValidateNG "create table users (
		aaaa int,
		aaaa bit var (10)
	);" PostgreSQL 3%nat "var".
Proof. vm_compute. reflexivity. Qed.

Example t_vp_227 : ValidateNG "create table users (
		aaaa int,
		aaaa numeric ()
	);" PostgreSQL 3%nat ")".
Proof. vm_compute. reflexivity. Qed.

Example t_vp_233 : ValidateNG "create table users (
		aaaa int,
		aaaa numeric (10, '5')
	);" PostgreSQL 3%nat "'5'".
Proof. vm_compute. reflexivity. Qed.

Example t_vp_239 : ValidateNG "create table users (
		aaaa int,
		aaaa numeric (10, 5, 2)
	);" PostgreSQL 3%nat ",".
Proof. vm_compute. reflexivity. Qed.

Example t_vp_245 : ValidateNG "create table users (
		aaaa int,
		aaaa int (10)
	);" PostgreSQL 3%nat "(".
Proof. vm_compute. reflexivity. Qed.

Example t_vp_251 : ValidateNG "create table users (
		aaaa int,
		aaaa time (10, 2)
	);" PostgreSQL 3%nat ",".
Proof. vm_compute. reflexivity. Qed.

Example t_vp_257 : ValidateNG "create table users (
		aaaa int,
		aaaa time (10) without time
	);" PostgreSQL 4%nat ")".
Proof. vm_compute. reflexivity. Qed.

Example t_vp_263 : ValidateNG "create table users (
		aaaa int,
		aaaa time (10) with
	);" PostgreSQL 4%nat ")".
Proof. vm_compute. reflexivity. Qed.

Example t_vp_269 : ValidateNG "create table users (
		aaaa int,
		aaaa time (10) without time zon
	);" PostgreSQL 3%nat "zon".
Proof. vm_compute. reflexivity. Qed.

Example t_vp_300 : ValidateOK "create table users (
		aaaa integer
	),
	with (aaaaa),
	without oids,
	tablespace tsn,
	inherits (parent_table1, parent_table2),
	partition by range (aaaa aaaa aaaa),
	partition by list (aaaa aaaa aaaa),
	partition by hash (aaaa aaaa aaaa),
	using aaaa;
	
	create table users (
		aaaa integer
	)
	with (aaaaa)
	without oids
	tablespace tsn
	PARTITION BY RANGE ( { column_name | ( expression ) } [ COLLATE collation ] [ opclass ] [, ... ] )
	USING aaaa;
	
	CREATE TABLE users (
		aaaa integer
	)
	WITH (aaaaa)
	WITHOUT oids
	TABLESPACE tsn
	INHERITS ( parent_table [, ... ] ) ;" PostgreSQL.
Proof. vm_compute. exact I. Qed.

Example t_vp_308 : ValidateOK "create table users (
		aaaa integer
	)
	with (aaaaa),
	without oids,
	tablespace tsn;" PostgreSQL.
Proof. vm_compute. exact I. Qed.

Example t_vp_316 : ValidateNG "create table users (
		aaaa integer
	),
	with aaaaa,
	without oids,
	tablespaceeee tsn;" PostgreSQL 4%nat "aaaaa".
Proof. vm_compute. reflexivity. Qed.

Example t_vp_324 : ValidateNG "create table users (
		aaaa integer
	),
	with (aaaaa),
	without oids aaa,
	tablespace tsn;" PostgreSQL 5%nat "aaa".
Proof. vm_compute. reflexivity. Qed.

Example t_vp_332 : ValidateNG "create table users (
		aaaa integer
	),
	with (aaaaa),
	without oids,
	tablespaceeee tsn;" PostgreSQL 6%nat "tablespaceeee".
Proof. vm_compute. reflexivity. Qed.

Example t_vp_371 : ValidateOK "create table users (
		aaaa integer,
		bbbb integer,
		cccc text,
		constraint constraint_zzzz check(aaa),
		check(aaa()'bbb'(aaa)),
		check(aaa) no inherit,
		constraint constraint_zzzz unique(aaaa),
		unique(aaaa),
		unique(aaaa, bbbb, ""cccc""),
		unique(aaaa) include (bbbb, cccc),
		unique(aaaa) with (aaaa = value, bbbb = 1),
		unique(aaaa) using index tablespace tsn,
		constraint constraint_zzzz primary key(aaaa),
		primary key(aaaa),
		primary key(aaaa, bbbb, ""cccc""),
		primary key(aaaa) include (bbbb, cccc),
		primary key(aaaa) with (aaaa = value, bbbb = 1),
		primary key(aaaa) using index tablespace tsn,
		constraint constraint_zzzz exclude (exclude_element WITH operator, exclude_element WITH operator),
		exclude (exclude_element WITH operator, exclude_element WITH operator),
		exclude using index_method (exclude_element WITH operator),
		exclude using index_method (exclude_element WITH operator) include (bbbb, cccc),
		exclude using index_method (exclude_element WITH operator) include (bbbb, cccc) where (predicate),
		constraint constraint_zzzz foreign key(aaaa) references reftable,
		foreign key(aaaa, bbbb, ""cccc"") references reftable,
		foreign key(aaaa, bbbb) references reftable (dddd, eeee),
		foreign key(aaaa) references reftable (dddd) match full,
		foreign key(aaaa) references reftable (dddd) match partial,
		foreign key(aaaa) references reftable (dddd) match simple,
		foreign key(aaaa) references reftable (dddd) match full on delete NO ACTION,
		foreign key(aaaa) references reftable (dddd) match full on update RESTRICT,
		foreign key(aaaa) references reftable (dddd) match full on update SET DEFAULT,
		foreign key(aaaa) references reftable (dddd) match full on delete CASCADE on update SET NULL
	);" PostgreSQL.
Proof. vm_compute. exact I. Qed.

Example t_vp_377 : ValidateNG "create table users (
		aaaa integer,
		constraintttt check(aaaa)
	);" PostgreSQL 3%nat "check".
Proof. vm_compute. reflexivity. Qed.

Example t_vp_383 : ValidateNG "create table users (
		aaaa integer,
		constraint check check(aaaa)
	);" PostgreSQL 3%nat "check".
Proof. vm_compute. reflexivity. Qed.

Example t_vp_389 : ValidateNG "create table users (
		aaaa integer,
		constraint constraint_zzzz check a
	);" PostgreSQL 3%nat "a".
Proof. vm_compute. reflexivity. Qed.

Example t_vp_395 : ValidateNG "create table users (
		aaaa integer,
		check(aaa) inherit,
	);" PostgreSQL 3%nat "inherit".
Proof. vm_compute. reflexivity. Qed.

Example t_vp_401 : ValidateNG "create table users (
		aaaa integer,
		unique
	);" PostgreSQL 4%nat ")".
Proof. vm_compute. reflexivity. Qed.

Example t_vp_407 : ValidateNG "create table users (
		aaaa integer,
		unique('aaaa')
	);" PostgreSQL 3%nat "'aaaa'".
Proof. vm_compute. reflexivity. Qed.

Example t_vp_413 : ValidateNG "create table users (
		aaaa integer,
		primary key
	);" PostgreSQL 4%nat ")".
Proof. vm_compute. reflexivity. Qed.

Example t_vp_419 : ValidateNG "create table users (
		aaaa integer,
		primary key('aaaa')
	);" PostgreSQL 3%nat "'aaaa'".
Proof. vm_compute. reflexivity. Qed.

Example t_vp_470 : ValidateOK "create table users (
		aaaa integer,
		aaaa integer constraint constraint_zzzz not null,
		aaaa integer not null,
		aaaa integer constraint constraint_zzzz null,
		aaaa integer null,
		aaaa integer constraint constraint_zzzz default 1,
		aaaa integer default -1,
		aaaa integer default 'a',
		aaaa integer default null,
		aaaa integer default true,
		aaaa integer default false,
		aaaa integer default current_date,
		aaaa integer default current_time,
		aaaa integer default current_timestamp,
		aaaa integer constraint constraint_zzzz generated always as (generation_expr) stored,
		aaaa integer generated always as (generation_expr) stored,
		aaaa integer generated as identity,
		aaaa integer generated as identity (sequence_options),
		aaaa integer generated always as identity,
		aaaa integer generated always as identity (sequence_options),
		aaaa integer generated by default as identity,
		aaaa integer generated by default as identity (sequence_options),
		aaaa integer constraint constraint_zzzz check(aaa),
		aaaa integer check(aaa()'bbb'(aaa)),
		aaaa integer check(aaa) no inherit,
		aaaa integer constraint constraint_zzzz unique,
		aaaa integer unique,
		aaaa integer unique include (bbbb, cccc),
		aaaa integer unique with (aaaa = value, bbbb = 1),
		aaaa integer unique using index tablespace tsn,
		aaaa integer constraint constraint_zzzz primary key,
		aaaa integer primary key,
		aaaa integer primary key include (bbbb, cccc),
		aaaa integer primary key with (aaaa = value, bbbb = 1),
		aaaa integer primary key using index tablespace tsn,
		aaaa integer constraint constraint_zzzz references reftable,
		aaaa integer references reftable (bbbb),
		aaaa integer references reftable (dddd),
		aaaa integer references reftable (dddd) match full,
		aaaa integer references reftable (dddd) match partial,
		aaaa integer references reftable (dddd) match simple,
		aaaa integer references reftable (dddd) match full on delete NO ACTION,
		aaaa integer references reftable (dddd) match full on update RESTRICT,
		aaaa integer references reftable (dddd) match full on update SET DEFAULT,
		aaaa integer references reftable (dddd) match full on delete CASCADE on update SET NULL
	);" PostgreSQL.
Proof. vm_compute. exact I. Qed.

Example t_vp_475 : ValidateNG "create table users (
		aaaa integer null not null
	);" PostgreSQL 2%nat "not".
Proof. vm_compute. reflexivity. Qed.

Example t_vp_480 : ValidateNG "create table users (
		aaaa integer not null null
	);" PostgreSQL 2%nat "null".
Proof. vm_compute. reflexivity. Qed.

Example t_vp_485 : ValidateNG "create table users (
		aaaa integer default ""aaa""
	);" PostgreSQL 2%nat """aaa""".
Proof. vm_compute. reflexivity. Qed.

Example t_vp_490 : ValidateNG "create table users (
		aaaa integer default aaa
	);" PostgreSQL 2%nat "aaa".
Proof. vm_compute. reflexivity. Qed.

Example t_vp_495 : ValidateNG "create table users (
		aaaa integer default 'aaa
	);" PostgreSQL 3%nat "<EOF>".
Proof. vm_compute. reflexivity. Qed.

Example t_vp_500 : ValidateNG "create table users (
		aaaa integer default - 2
	);" PostgreSQL 2%nat "-".
Proof. vm_compute. reflexivity. Qed.

Example t_vp_505 : ValidateNG "create table users (
		aaaa integer unique unique
	);" PostgreSQL 2%nat "unique".
Proof. vm_compute. reflexivity. Qed.

Example t_vp_510 : ValidateNG "create table users (
		aaaa integer primary key primary key
	);" PostgreSQL 2%nat "primary".
Proof. vm_compute. reflexivity. Qed.

Example t_vp_541 : ValidateOK "create table scm.users (
		aaaa integer
	);

	CREATE TRIGGER update_timestamp
	AFTER UPDATE ON users
	FOR EACH ROW
	BEGIN
		UPDATE users SET updated_at = CURRENT_TIMESTAMP WHERE id = NEW.id;
	END;

	CREATE VIEW temp_active_users AS
	SELECT id, name, email
	FROM users
	WHERE active = 1;

	CREATE INDEX idx_active_users_email ON users(email) WHERE active = 1;
	CREATE AGGREGATE aggregate_name (datatype) (
		SFUNC = state_function,
		STYPE = state_data_type,
		FINALFUNC = final_function,
		INITCOND = initial_condition
	);
	
	create table scm.users2 (
		aaaa integer
	);" PostgreSQL.
Proof. vm_compute. exact I. Qed.

Example t_vp_553 : ValidateNG "create table scm.users (
		aaaa integer
	);

	CREATE TRIGGE update_timestamp
	AFTER UPDATE ON users
	FOR EACH ROW
	BEGIN
		UPDATE users SET updated_at = CURRENT_TIMESTAMP WHERE id = NEW.id;
	END;" PostgreSQL 5%nat "TRIGGE".
Proof. vm_compute. reflexivity. Qed.

Example t_vm_13 : ValidateOK "" MySQL.
Proof. vm_compute. exact I. Qed.

Example t_vm_17 : ValidateNG "CREAT TABLE IF NOT EXISTS users ();" MySQL 1%nat "CREAT".
Proof. vm_compute. reflexivity. Qed.

Example t_vm_22 : ValidateNG "CREATE TABLE IF NOT EXISTS users (

	);" MySQL 3%nat ")".
Proof. vm_compute. reflexivity. Qed.

Example t_vm_25 : ValidateNG "CREATE TABLE IF EXISTS users ();" MySQL 1%nat "EXISTS".
Proof. vm_compute. reflexivity. Qed.

Example t_vm_28 : ValidateNG "CREATE TABL IF NOT EXISTS users ();" MySQL 1%nat "TABL".
Proof. vm_compute. reflexivity. Qed.

Example t_vm_31 : ValidateNG "CREATE TABLE IF NOT EXISTS ""users ();" MySQL 1%nat "<EOF>".
Proof. vm_compute. reflexivity. Qed.

Example t_vm_34 : ValidateNG "CREATE TABLE IF NOT EXISTS `users ();" MySQL 1%nat "<EOF>".
Proof. vm_compute. reflexivity. Qed.

Example t_vm_37 : ValidateNG "CREATE TABLE IF NOT EXISTS AUTO_INCREMENT ();" MySQL 1%nat "AUTO_INCREMENT".
Proof. vm_compute. reflexivity. Qed.

Example t_vm_42 : ValidateNG "CREATE TABLE IF NOT EXISTS users (
		aaaa INTEGER,
	);" MySQL 3%nat ")".
Proof. vm_compute. reflexivity. Qed.

Example t_vm_54 : ValidateOK "create table users (
		aaaa integer, --comment
		aaaa integer, /* commen
		comment
		comment
		*/
		aaaa integer #aaa
	);" MySQL.
Proof. vm_compute. exact I. Qed.

Example t_vm_60 : ValidateNG "create table users (
		aaaa int,
		aaaa integer -comment
	);" MySQL 3%nat "-comment".
Proof. vm_compute. reflexivity. Qed.

Example t_vm_66 : ValidateNG "create table users (
		aaaa int,
		aaaa integer / * aaa */
	);" MySQL 3%nat "*".
Proof. vm_compute. reflexivity. Qed.

Example t_vm_72 : ValidateNG "create table users (
		aaaa int,
		aaaa integer /* aaa
	);" MySQL 4%nat "<EOF>".
Proof. vm_compute. reflexivity. Qed.

Example t_vm_78 : ValidateNG "create table users (
		aaaa int --aaa,
		aaaa integer 
	);" MySQL 3%nat "aaaa".
Proof. vm_compute. reflexivity. Qed.

Example t_vm_85 : ValidateOK "create table scm.users (
		aaaa integer
	);" MySQL.
Proof. vm_compute. exact I. Qed.

Example t_vm_90 : ValidateNG "create table scm users (
		aaaa integer
	);" MySQL 1%nat "users".
Proof. vm_compute. reflexivity. Qed.

Example t_vm_95 : ValidateNG "create table scm,users (
		aaaa integer
	);" MySQL 1%nat ",".
Proof. vm_compute. reflexivity. Qed.

Example t_vm_100 : ValidateOK "create table `scm`.`users` (`aaaa` integer);" MySQL.
Proof. vm_compute. exact I. Qed.

Example t_vm_105 : ValidateNG "create table 'scm'.`users` (
		""aaaa"" integer
	);" MySQL 1%nat "'scm'".
Proof. vm_compute. reflexivity. Qed.

Example t_vm_110 : ValidateNG "create table `scm`.'users' (
		""aaaa"" integer
	);" MySQL 1%nat "'users'".
Proof. vm_compute. reflexivity. Qed.

Example t_vm_115 : ValidateNG "create table ""scm"".""users"" (
		""aaaa"" integer
	);" MySQL 1%nat """scm""".
Proof. vm_compute. reflexivity. Qed.

Example t_vm_120 : ValidateNG "create table `scm`.`users` (
		'aaaa' integer
	);" MySQL 2%nat "'aaaa'".
Proof. vm_compute. reflexivity. Qed.

Example t_vm_123 : ValidateNG "create table `scm`.`users` (""aaaa"" integer);" MySQL 1%nat """aaaa""".
Proof. vm_compute. reflexivity. Qed.

Example t_vm_128 : ValidateNG "create table ""scm.users (
		aaaa integer
	);" MySQL 3%nat "<EOF>".
Proof. vm_compute. reflexivity. Qed.

Example t_vm_193 : ValidateOK "create table users (
		aaaa bool,
		aaaa boolean,
		aaaa integer,
		aaaa integer (10),
		aaaa int,
		aaaa int (10),
		aaaa smallint,
		aaaa smallint (10),
		aaaa tinyint,
		aaaa tinyint (10),
		aaaa mediumint,
		aaaa mediumint (10),
		aaaa bigint,
		aaaa bigint (10),
		aaaa numeric,
		aaaa numeric(10),
		aaaa numeric(10, 5),
		aaaa decimal,
		aaaa decimal(10),
		aaaa decimal(10, 5),
		aaaa float,
		aaaa float (10),
		aaaa float (10, 5),
		aaaa real,
		aaaa real (10),
		aaaa real (10, 5),
		aaaa double,
		aaaa double (10),
		aaaa double (10, 5),
		aaaa bit,
		aaaa bit (10),
		aaaa date,
		aaaa datetime,
		aaaa datetime (3),
		aaaa timestamp,
		aaaa timestamp (3),
		aaaa time,
		aaaa time (3),
		aaaa year,
		aaaa year (4),
		aaaa char,
		aaaa char(10),
		aaaa varchar,
		aaaa varchar(10),
		aaaa binary (100),
		aaaa varbinary (100),
		aaaa blob,
		aaaa blob (10),
		aaaa text,
		aaaa text (10),
		aaaa geometry,
		aaaa point,
		aaaa linestring,
		aaaa polygon,
		aaaa multipoint,
		aaaa multilinestring,
		aaaa multipolygon,
		aaaa geometrycollection,
		aaaa json
	);" MySQL.
Proof. vm_compute. exact I. Qed.

Example t_vm_199 : ValidateNG "create table users (
		aaaa int,
		aaaa bigin
	);" MySQL 3%nat "bigin".
Proof. vm_compute. reflexivity. Qed.

Example t_vm_205 : ValidateNG "create table users (
		aaaa int,
		aaaa bit var (10)
	);" MySQL 3%nat "var".
Proof. vm_compute. reflexivity. Qed.

Example t_vm_211 : ValidateNG "create table users (
		aaaa int,
		aaaa numeric ()
	);" MySQL 3%nat ")".
Proof. vm_compute. reflexivity. Qed.

Example t_vm_217 : ValidateNG "create table users (
		aaaa int,
		aaaa numeric (10, '5')
	);" MySQL 3%nat "'5'".
Proof. vm_compute. reflexivity. Qed.

Example t_vm_223 : ValidateNG "create table users (
		aaaa int,
		aaaa numeric (10, 5, 2)
	);" MySQL 3%nat ",".
Proof. vm_compute. reflexivity. Qed.

Example t_vm_229 : ValidateNG "create table users (
		aaaa int,
		aaaa int (10 , 5)
	);" MySQL 3%nat ",".
Proof. vm_compute. reflexivity. Qed.

Example t_vm_235 : ValidateNG "create table users (
		aaaa int,
		aaaa time (10, 2)
	);" MySQL 3%nat ",".
Proof. vm_compute. reflexivity. Qed.

Example t_vm_360 : ValidateOK "create table users (
		aaaa integer
	)
	AUTOEXTEND_SIZE = 1
	AUTO_INCREMENT = 1
	AVG_ROW_LENGTH = 1
	DEFAULT CHARACTER SET = charset_zzzz
	CHARACTER SET = charset_zzzz
	CHECKSUM = 0
	CHECKSUM = 1
	DEFAULT COLLATE = collation_zzzz
	COLLATE = collation_zzzz
	COMMENT = 'string'
	COMPRESSION = 'ZLIB'
	COMPRESSION = 'LZ4'
	COMPRESSION = 'NONE'
	CONNECTION = 'connect_string'
	DATA DIRECTORY = 'absolute path to directory'
	INDEX DIRECTORY = 'absolute path to directory'
	DELAY_KEY_WRITE = 0
	DELAY_KEY_WRITE = 1
	ENCRYPTION = 'Y' 
	ENCRYPTION = 'N'
	ENGINE = engine_zzzz
	ENGINE_ATTRIBUTE = 'string'
	INSERT_METHOD = NO
	INSERT_METHOD = FIRST
	INSERT_METHOD = LAST
	KEY_BLOCK_SIZE = 1
	MAX_ROWS = 1
	MIN_ROWS = 1
	PACK_KEYS = 0
	PACK_KEYS = 1
	PACK_KEYS = DEFAULT
	PASSWORD = 'string'
	ROW_FORMAT = DEFAULT 
	ROW_FORMAT = DYNAMIC
	ROW_FORMAT = FIXED
	ROW_FORMAT = COMPRESSED
	ROW_FORMAT = REDUNDANT
	ROW_FORMAT = COMPACT
	SECONDARY_ENGINE_ATTRIBUTE = 'string'
	STATS_AUTO_RECALC = DEFAULT 
	STATS_AUTO_RECALC = 0
	STATS_AUTO_RECALC = 1
	STATS_PERSISTENT = DEFAULT
	STATS_PERSISTENT = 0
	STATS_PERSISTENT = 1
	STATS_SAMPLE_PAGES = 1
	TABLESPACE tablespace_zzzz
	TABLESPACE tablespace_zzzz STORAGE DISK
	TABLESPACE tablespace_zzzz STORAGE MEMORY
	UNION = (tbl_yyyy, tbl_zzzz);

	create table users (
		aaaa integer
	)
	AUTOEXTEND_SIZE 1
	AUTO_INCREMENT 1
	AVG_ROW_LENGTH 1
	DEFAULT CHARACTER SET charset_zzzz
	CHARACTER SET charset_zzzz
	CHECKSUM 0
	CHECKSUM 1
	DEFAULT COLLATE collation_zzzz
	COLLATE collation_zzzz
	COMMENT 'string'
	COMPRESSION 'ZLIB'
	COMPRESSION 'LZ4'
	COMPRESSION 'NONE'
	CONNECTION 'connect_string'
	DATA DIRECTORY 'absolute path to directory'
	INDEX DIRECTORY 'absolute path to directory'
	DELAY_KEY_WRITE 0
	DELAY_KEY_WRITE 1
	ENCRYPTION 'Y' 
	ENCRYPTION 'N'
	ENGINE engine_zzzz
	ENGINE_ATTRIBUTE 'string'
	INSERT_METHOD NO
	INSERT_METHOD FIRST
	INSERT_METHOD LAST
	KEY_BLOCK_SIZE 1
	MAX_ROWS 1
	MIN_ROWS 1
	PACK_KEYS 0
	PACK_KEYS 1
	PACK_KEYS DEFAULT
	PASSWORD 'string'
	ROW_FORMAT DEFAULT 
	ROW_FORMAT DYNAMIC
	ROW_FORMAT FIXED
	ROW_FORMAT COMPRESSED
	ROW_FORMAT REDUNDANT
	ROW_FORMAT COMPACT
	SECONDARY_ENGINE_ATTRIBUTE 'string'
	STATS_AUTO_RECALC DEFAULT 
	STATS_AUTO_RECALC 0
	STATS_AUTO_RECALC 1
	STATS_PERSISTENT DEFAULT
	STATS_PERSISTENT 0
	STATS_PERSISTENT 1
	STATS_SAMPLE_PAGES = 1
	TABLESPACE tablespace_zzzz
	TABLESPACE tablespace_zzzz STORAGE DISK
	TABLESPACE tablespace_zzzz STORAGE MEMORY
	UNION (tbl_yyyy, tbl_zzzz);

	create table users (
		aaaa integer
	),
	AUTOEXTEND_SIZE = 1,
	AUTO_INCREMENT = 1,
	AVG_ROW_LENGTH = 1,
	DEFAULT CHARACTER SET = charset_zzzz,
	CHARACTER SET = charset_zzzz;
	
	create table users (
		aaaa integer
	)
	AUTOEXTEND_SIZE = 1 AUTO_INCREMENT = 1 AVG_ROW_LENGTH = 1 DEFAULT CHARACTER SET = charset_zzzz CHARACTER SET = charset_zzzz;" MySQL.
Proof. vm_compute. exact I. Qed.

Example t_vm_430 : ValidateOK "create table users (
		aaaa integer,
		bbbb integer,
		cccc text,
		index index_zzzz using btree (aaaa (10) asc, bbbb (10) desc, cccc (10), dddd) KEY_BLOCK_SIZE = 'value' COMMENT 'string',
		index index_zzzz using hash ((expr(zzzz)), (expr(zzzz)) asc, (expr(zzzz)) desc),
		index index_zzzz using hash (aaaa) KEY_BLOCK_SIZE 1 WITH PARSER parser_zzzz VISIBLE INVISIBLE ENGINE_ATTRIBUTE = 'string' SECONDARY_ENGINE_ATTRIBUTE = 'string',
		index index_zzzz (aaaa (10)) using hash,
		index index_zzzz (aaaa (10)),
		index index_zzzz (aaaa),
		index (aaaa (10)) using hash,
		index (aaaa (10)),
		key index_zzzz using btree (aaaa (10) asc, bbbb (10) desc, cccc (10), dddd) KEY_BLOCK_SIZE = 'value' COMMENT 'string',
		key index_zzzz using hash ((expr(zzzz)), (expr(zzzz)) asc, (expr(zzzz)) desc),
		key index_zzzz using hash (aaaa) KEY_BLOCK_SIZE 1 WITH PARSER parser_zzzz VISIBLE INVISIBLE ENGINE_ATTRIBUTE = 'string' SECONDARY_ENGINE_ATTRIBUTE = 'string',
		key index_zzzz (aaaa (10)) using hash,
		key index_zzzz (aaaa (10)),
		key index_zzzz (aaaa),
		key (aaaa (10)) using hash,
		key (aaaa (10)),
		fulltext index index_zzzz (aaaa (10)) KEY_BLOCK_SIZE = 'value',
		fulltext key index_zzzz (aaaa (10)) KEY_BLOCK_SIZE = 'value',
		fulltext index (aaaa (10)) KEY_BLOCK_SIZE = 'value',
		fulltext key (aaaa (10)) KEY_BLOCK_SIZE = 'value',
		fulltext index (aaaa (10)),
		fulltext key (aaaa (10)),
		spatial index index_zzzz (aaaa (10)) KEY_BLOCK_SIZE = 'value',
		spatial key index_zzzz (aaaa (10)) KEY_BLOCK_SIZE = 'value',
		spatial index (aaaa (10)) KEY_BLOCK_SIZE = 'value',
		spatial key (aaaa (10)) KEY_BLOCK_SIZE = 'value',
		spatial index (aaaa (10)),
		spatial key (aaaa (10)),
		constraint constraint_zzzz primary key(aaaa),
		constraint primary key(aaaa),
		primary key using btree (aaaa (10) asc, bbbb (10) desc, cccc (10), dddd) KEY_BLOCK_SIZE = 'value' COMMENT 'string',
		primary key using btree (aaaa (10) asc, bbbb (10) desc, cccc (10)),
		primary key (aaaa (10) asc, bbbb (10) desc, cccc (10)),
		primary key (aaaa, bbbb, cccc),
		constraint constraint_zzzz unique (aaaa),
		constraint unique (aaaa),
		unique index index_zzzz using btree (aaaa (10) asc, bbbb (10) desc, cccc (10), dddd) KEY_BLOCK_SIZE = 'value' COMMENT 'string',
		unique index index_zzzz using hash ((expr(zzzz)), (expr(zzzz)) asc, (expr(zzzz)) desc),
		unique index index_zzzz using hash (aaaa) KEY_BLOCK_SIZE 1 WITH PARSER parser_zzzz VISIBLE INVISIBLE ENGINE_ATTRIBUTE = 'string' SECONDARY_ENGINE_ATTRIBUTE ='string',
		unique index index_zzzz (aaaa (10)) using hash,
		unique index index_zzzz (aaaa (10)),
		unique index index_zzzz (aaaa),
		unique index (aaaa (10)) using hash,
		unique index (aaaa (10)),
		unique key (aaaa (10)),
		unique (aaaa, bbbb, cccc),
		foreign key(aaaa, bbbb, cccc) references reftable (aaaa (10) asc, bbbb (10) desc, cccc (10), dddd),
		foreign key(aaaa, bbbb, dddd) references reftable ((expr(zzzz)), (expr(zzzz)) asc, (expr(zzzz)) desc),
		foreign key(aaaa) references reftable (dddd) match full,
		foreign key(aaaa) references reftable (dddd) match partial,
		foreign key(aaaa) references reftable (dddd) match simple,
		foreign key(aaaa) references reftable (dddd) match full on delete NO ACTION,
		foreign key(aaaa) references reftable (dddd) match full on update RESTRICT,
		foreign key(aaaa) references reftable (dddd) match full on update SET DEFAULT,
		foreign key(aaaa) references reftable (dddd) match full on delete CASCADE on update SET NULL,
		foreign key index_zzzz (aaaa) references reftable (dddd),
		constraint constraint_zzzz check(aaa),
		constraint check(aaa),
		check(aaa()'bbb'(aaa)),
		check(aaa) not enforced,
		check(aaa) enforced
	);" MySQL.
Proof. vm_compute. exact I. Qed.

Example t_vm_436 : ValidateNG "create table users (
		aaaa integer,
		constraintttt check(aaaa)
	);" MySQL 3%nat "check".
Proof. vm_compute. reflexivity. Qed.

Example t_vm_442 : ValidateNG "create table users (
		aaaa integer,
		constraint check check(aaaa)
	);" MySQL 3%nat "check".
Proof. vm_compute. reflexivity. Qed.

Example t_vm_448 : ValidateNG "create table users (
		aaaa integer,
		constraint constraint_zzzz check a
	);" MySQL 3%nat "a".
Proof. vm_compute. reflexivity. Qed.

Example t_vm_454 : ValidateNG "create table users (
		aaaa integer,
		check(aaa) inherit,
	);" MySQL 3%nat "inherit".
Proof. vm_compute. reflexivity. Qed.

Example t_vm_460 : ValidateNG "create table users (
		aaaa integer,
		unique
	);" MySQL 4%nat ")".
Proof. vm_compute. reflexivity. Qed.

Example t_vm_466 : ValidateNG "create table users (
		aaaa integer,
		unique('aaaa')
	);" MySQL 3%nat "'aaaa'".
Proof. vm_compute. reflexivity. Qed.

Example t_vm_472 : ValidateNG "create table users (
		aaaa integer,
		primary key
	);" MySQL 4%nat ")".
Proof. vm_compute. reflexivity. Qed.

Example t_vm_478 : ValidateNG "create table users (
		aaaa integer,
		primary key('aaaa')
	);" MySQL 3%nat "'aaaa'".
Proof. vm_compute. reflexivity. Qed.

Example t_vm_538 : ValidateOK "create table users (
		aaaa integer,
		aaaa integer not null,
		aaaa integer null,
		aaaa integer default -1,
		aaaa integer default 'a',
		aaaa integer default ""a"",
		aaaa integer default null,
		aaaa integer default true,
		aaaa integer default false,
		aaaa date default current_date,
		aaaa date default current_date on update current_date,
		aaaa time default current_time,
		aaaa time default current_time on update current_time,
		aaaa timestamp default current_timestamp,
		aaaa timestamp default current_timestamp on update current_timestamp,
		aaaa integer default (expr(aaa)),
		aaaa integer visible,
		aaaa integer invisible,
		aaaa integer auto_increment,
		aaaa integer unique,
		aaaa integer unique key,
		aaaa integer primary key,
		aaaa integer key,
		aaaa integer comment 'string',
		aaaa integer comment ""string"",
		aaaa integer collate collation_zzzz,
		aaaa integer column_format fixed,
		aaaa integer column_format dynamic,
		aaaa integer column_format default,
		aaaa integer engine_attribute = 'string',
		aaaa integer engine_attribute 'string',
		aaaa integer secondary_engine_attribute = 'string',
		aaaa integer secondary_engine_attribute 'string',
		aaaa integer storage disk,
		aaaa integer storage memory,
		aaaa integer references reftable (dddd) match full,
		aaaa integer references reftable (dddd) match partial,
		aaaa integer references reftable (dddd) match simple,
		aaaa integer references reftable (dddd) match full on delete NO ACTION,
		aaaa integer references reftable (dddd) match full on update RESTRICT,
		aaaa integer references reftable (dddd) match full on update SET DEFAULT,
		aaaa integer references reftable (dddd) match full on delete CASCADE on update SET NULL,
		aaaa integer references reftable (dddd),
		aaaa integer constraint constraint_zzzz check(aaa),
		aaaa integer constraint check(aaa),
		aaaa integer check(aaa()'bbb'(aaa)),
		aaaa integer check(aaa) not enforced,
		aaaa integer check(aaa) enforced,
		aaaa integer generated always as (generation_expr),
		aaaa integer as (generation_expr),
		aaaa integer virtual,
		aaaa integer stored,
		aaaa integer virtual,
		aaaa integer not null default -1 visible key
	);" MySQL.
Proof. vm_compute. exact I. Qed.

Example t_vm_543 : ValidateNG "create table users (
		aaaa integer null not null
	);" MySQL 2%nat "not".
Proof. vm_compute. reflexivity. Qed.

Example t_vm_548 : ValidateNG "create table users (
		aaaa integer not null null
	);" MySQL 2%nat "null".
Proof. vm_compute. reflexivity. Qed.

Example t_vm_551 : ValidateNG "create table users (aaaa integer default `aaa`);" MySQL 1%nat "`aaa`".
Proof. vm_compute. reflexivity. Qed.

Example t_vm_556 : ValidateNG "create table users (
		aaaa integer default aaa
	);" MySQL 2%nat "aaa".
Proof. vm_compute. reflexivity. Qed.

Example t_vm_561 : ValidateNG "create table users (
		aaaa integer default 'aaa
	);" MySQL 3%nat "<EOF>".
Proof. vm_compute. reflexivity. Qed.

Example t_vm_566 : ValidateNG "create table users (
		aaaa integer default - 2
	);" MySQL 2%nat "-".
Proof. vm_compute. reflexivity. Qed.

Example t_vm_571 : ValidateNG "create table users (
		aaaa integer unique unique
	);" MySQL 2%nat "unique".
Proof. vm_compute. reflexivity. Qed.

Example t_vm_576 : ValidateNG "create table users (
		aaaa integer primary key primary key
	);" MySQL 2%nat "primary".
Proof. vm_compute. reflexivity. Qed.

Example t_vm_604 : ValidateOK "create table scm.users (
		aaaa integer
	);

	CREATE TRIGGER update_timestamp
	AFTER UPDATE ON users
	FOR EACH ROW
	BEGIN
		UPDATE users SET updated_at = CURRENT_TIMESTAMP WHERE id = NEW.id;
	END;

	CREATE VIEW temp_active_users AS
	SELECT id, name, email
	FROM users
	WHERE active = 1;

	CREATE INDEX idx_active_users_email ON users(email) WHERE active = 1;
	CREATE DATABASE LINK dblink_name
	CONNECT TO user_name IDENTIFIED BY password
	USING 'service_name';
	
	create table scm.users2 (
		aaaa integer
	);" MySQL.
Proof. vm_compute. exact I. Qed.

Example t_vm_616 : ValidateNG "create table scm.users (
		aaaa integer
	);

	CREATE TRIGGE update_timestamp
	AFTER UPDATE ON users
	FOR EACH ROW
	BEGIN
		UPDATE users SET updated_at = CURRENT_TIMESTAMP WHERE id = NEW.id;
	END;" MySQL 5%nat "TRIGGE".
Proof. vm_compute. reflexivity. Qed.

Example t_cs_475 : ConvertOK "CREATE TABLE IF NOT EXISTS sch.table_name (
		column_name1 INTEGER PRIMARY KEY AUTOINCREMENT,
		column_name2 NUMERIC NOT NULL UNIQUE,
		column_name3 REAL NOT NULL DEFAULT 10,
		""column_name4"" NONE REFERENCES table2(col_name),
		column_name5 TEXT NOT NULL COLLATE BINARY,
		created_at TEXT NOT NULL DEFAULT (DATETIME('now', 'localtime')),
		updated_at TEXT NOT NULL DEFAULT (DATETIME('now', 'localtime'))
	);
	
	create table ""scm"".""table_name2"" (
		column_name1 integer primary key asc autoincrement,
		column_name2 numeric not null on conflict fail unique,
		column_name3 real default -10,
		column_name4 none default true,
		column_name5 text default false,
		column_name6 text default null,
		column_name7 text default (DATETIME('now', 'localtime')),
		column_name8 text default 'AAA',
		column_name9 text check (aaa(aa(a)a())aa),
		column_name10 text,
		constraint const_name foreign key (a, b, ""c"") references bbb(ccc) on delete set null,
		primary key (column_name1, column_name2),
		unique (column_name3, column_name4)
	);
	" SQLite [mk_table "sch" "table_name" true
    [(mk_column "column_name1" (mk_data_type "INTEGER" (0) (0)) (mk_constraint "" true false false true DNil "" "" (mk_reference "" None))); (mk_column "column_name2" (mk_data_type "NUMERIC" (0) (0)) (mk_constraint "" false true true false DNil "" "" (mk_reference "" None))); (mk_column "column_name3" (mk_data_type "REAL" (0) (0)) (mk_constraint "" false false true false (DFloat (FFin false 5629499534213120 (-49))) "" "" (mk_reference "" None))); (mk_column "column_name4" (mk_data_type "NONE" (0) (0)) (mk_constraint "" false false false false DNil "" "" (mk_reference "table2" (Some ["col_name"])))); (mk_column "column_name5" (mk_data_type "TEXT" (0) (0)) (mk_constraint "" false false true false DNil "" "BINARY" (mk_reference "" None))); (mk_column "created_at" (mk_data_type "TEXT" (0) (0)) (mk_constraint "" false false true false (DString "(DATETIME('now','localtime'))") "" "" (mk_reference "" None))); (mk_column "updated_at" (mk_data_type "TEXT" (0) (0)) (mk_constraint "" false false true false (DString "(DATETIME('now','localtime'))") "" "" (mk_reference "" None)))]
    (mk_tc [] [] [] []);
  mk_table "scm" "table_name2" false
    [(mk_column "column_name1" (mk_data_type "INTEGER" (0) (0)) (mk_constraint "" true false false true DNil "" "" (mk_reference "" None))); (mk_column "column_name2" (mk_data_type "NUMERIC" (0) (0)) (mk_constraint "" false true true false DNil "" "" (mk_reference "" None))); (mk_column "column_name3" (mk_data_type "REAL" (0) (0)) (mk_constraint "" false false false false (DFloat (FFin true 5629499534213120 (-49))) "" "" (mk_reference "" None))); (mk_column "column_name4" (mk_data_type "NONE" (0) (0)) (mk_constraint "" false false false false (DBool true) "" "" (mk_reference "" None))); (mk_column "column_name5" (mk_data_type "TEXT" (0) (0)) (mk_constraint "" false false false false (DBool false) "" "" (mk_reference "" None))); (mk_column "column_name6" (mk_data_type "TEXT" (0) (0)) (mk_constraint "" false false false false DNil "" "" (mk_reference "" None))); (mk_column "column_name7" (mk_data_type "TEXT" (0) (0)) (mk_constraint "" false false false false (DString "(DATETIME('now','localtime'))") "" "" (mk_reference "" None))); (mk_column "column_name8" (mk_data_type "TEXT" (0) (0)) (mk_constraint "" false false false false (DString "AAA") "" "" (mk_reference "" None))); (mk_column "column_name9" (mk_data_type "TEXT" (0) (0)) (mk_constraint "" false false false false DNil "(aaa(aa(a)a())aa)" "" (mk_reference "" None))); (mk_column "column_name10" (mk_data_type "TEXT" (0) (0)) (mk_constraint "" false false false false DNil "" "" (mk_reference "" None)))]
    (mk_tc [mk_pk "" ["column_name1"; "column_name2"]] [mk_unique "" ["column_name3"; "column_name4"]] [] [mk_fk "const_name" ["a"; "b"; """c"""] (mk_reference "bbb" (Some ["ccc"]))])].
Proof. vm_compute. reflexivity. Qed.

Example t_cp_665 : ConvertOK "create table ""scm"".""test_table"" (
		aaa1 bit,
		aaa2 bit(10),
		aaa3 bit varying,
		aaa4 bit varying(10),
		aaa5 varbit,
		aaa6 varbit(10),
		aaa7 boolean,
		aaa8 bool,
		aaa9 box,
		aa10 bytea constraint constraint_zzzz not null default 1,
		aa11 character default 'aaa',
		aa12 character(10) default null,
		aa13 char default current_timestamp,
		aa14 char(10) default true,
		aa15 character varying,
		aa16 character varying(10),
		aa17 numeric,
		aa18 numeric(10),
		aa19 numeric(10, 5),
		aa20 decimal references reftable (dddd),
		aa21 decimal(10) check(aaa()'bbb'(aaa)),
		aa22 decimal(10, 5) generated always as (generation_expr) stored,
		""aa23"" time(10) without time zone,
		aa24 time(10) with time zone,
		primary key(aaa1, aaa2, aaa3) using index tablespace tsn,
		constraint aaaaa primary key(aaa1, aaa2, aaa3) using index tablespace tsn,
		unique(aaa4, aaa5, aaa6) include (bbbb, cccc),
		constraint bbbbb unique(aaa4, aaa5, aaa6) include (bbbb, cccc),
		constraint constraint_zzzz exclude (exclude_element WITH operator, exclude_element WITH operator)
	)
	WITH (aaaaa)
	WITHOUT oids
	TABLESPACE tsn;
	
	create table if not exists test_table2 (
		aaa1 integer
	);" PostgreSQL [mk_table "scm" "test_table" false
    [(mk_column "aaa1" (mk_data_type "BIT" (0) (0)) (mk_constraint "" false false false false DNil "" "" (mk_reference "" None))); (mk_column "aaa2" (mk_data_type "BIT" (10) (0)) (mk_constraint "" false false false false DNil "" "" (mk_reference "" None))); (mk_column "aaa3" (mk_data_type "VARBIT" (0) (0)) (mk_constraint "" false false false false DNil "" "" (mk_reference "" None))); (mk_column "aaa4" (mk_data_type "VARBIT" (10) (0)) (mk_constraint "" false false false false DNil "" "" (mk_reference "" None))); (mk_column "aaa5" (mk_data_type "VARBIT" (0) (0)) (mk_constraint "" false false false false DNil "" "" (mk_reference "" None))); (mk_column "aaa6" (mk_data_type "VARBIT" (10) (0)) (mk_constraint "" false false false false DNil "" "" (mk_reference "" None))); (mk_column "aaa7" (mk_data_type "BOOLEAN" (0) (0)) (mk_constraint "" false false false false DNil "" "" (mk_reference "" None))); (mk_column "aaa8" (mk_data_type "BOOL" (0) (0)) (mk_constraint "" false false false false DNil "" "" (mk_reference "" None))); (mk_column "aaa9" (mk_data_type "BOX" (0) (0)) (mk_constraint "" false false false false DNil "" "" (mk_reference "" None))); (mk_column "aa10" (mk_data_type "BYTEA" (0) (0)) (mk_constraint "constraint_zzzz" false false true false (DFloat (FFin false 4503599627370496 (-52))) "" "" (mk_reference "" None))); (mk_column "aa11" (mk_data_type "CHARACTER" (0) (0)) (mk_constraint "" false false false false (DString "aaa") "" "" (mk_reference "" None))); (mk_column "aa12" (mk_data_type "CHARACTER" (10) (0)) (mk_constraint "" false false false false DNil "" "" (mk_reference "" None))); (mk_column "aa13" (mk_data_type "CHAR" (0) (0)) (mk_constraint "" false false false false (DString "current_timestamp") "" "" (mk_reference "" None))); (mk_column "aa14" (mk_data_type "CHAR" (10) (0)) (mk_constraint "" false false false false (DBool true) "" "" (mk_reference "" None))); (mk_column "aa15" (mk_data_type "VARCHAR" (0) (0)) (mk_constraint "" false false false false DNil "" "" (mk_reference "" None))); (mk_column "aa16" (mk_data_type "VARCHAR" (10) (0)) (mk_constraint "" false false false false DNil "" "" (mk_reference "" None))); (mk_column "aa17" (mk_data_type "NUMERIC" (0) (0)) (mk_constraint "" false false false false DNil "" "" (mk_reference "" None))); (mk_column "aa18" (mk_data_type "NUMERIC" (10) (0)) (mk_constraint "" false false false false DNil "" "" (mk_reference "" None))); (mk_column "aa19" (mk_data_type "NUMERIC" (10) (5)) (mk_constraint "" false false false false DNil "" "" (mk_reference "" None))); (mk_column "aa20" (mk_data_type "DECIMAL" (0) (0)) (mk_constraint "" false false false false DNil "" "" (mk_reference "reftable" (Some ["dddd"])))); (mk_column "aa21" (mk_data_type "DECIMAL" (10) (0)) (mk_constraint "" false false false false DNil "(aaa()'bbb'(aaa))" "" (mk_reference "" None))); (mk_column "aa22" (mk_data_type "DECIMAL" (10) (5)) (mk_constraint "" false false false false DNil "" "" (mk_reference "" None))); (mk_column "aa23" (mk_data_type "TIME" (10) (0)) (mk_constraint "" false false false false DNil "" "" (mk_reference "" None))); (mk_column "aa24" (mk_data_type "TIME" (10) (0)) (mk_constraint "" false false false false DNil "" "" (mk_reference "" None)))]
    (mk_tc [mk_pk "" ["aaa1"; "aaa2"; "aaa3"]; mk_pk "aaaaa" ["aaa1"; "aaa2"; "aaa3"]] [mk_unique "" ["aaa4"; "aaa5"; "aaa6"]; mk_unique "bbbbb" ["aaa4"; "aaa5"; "aaa6"]] [] []);
  mk_table "" "test_table2" true
    [(mk_column "aaa1" (mk_data_type "INTEGER" (0) (0)) (mk_constraint "" false false false false DNil "" "" (mk_reference "" None)))]
    (mk_tc [] [] [] [])].
Proof. vm_compute. reflexivity. Qed.

Example t_cm_832 : ConvertOK "create table test_table (
		aaa1 integer primary key auto_increment,
		aaa2 integer (10) key visible not null,
		aaa3 int (10) not null default -1,
		aaa4 smallint (10) null default null,
		aaa5 tinyint (10) default 'a',
		aaa6 mediumint (10) default ""a"",
		aaa7 bigint (10) default true,
		aaa8 numeric(10) default (expr(aaa)),
		aaa9 numeric(10, 5) unique comment 'string',
		aa10 decimal(10) unique key collate collation_zzzz,
		aa11 decimal(10, 5) column_format fixed,
		aa12 float (10) engine_attribute = 'string',
		aa13 float (10, 5) engine_attribute 'string',
		aa14 real (10) secondary_engine_attribute = 'string',
		aa15 real (10, 5) storage disk,
		aa16 double (10) references reftable (aaaa),
		aa17 double (10, 5) references reftable (dddd) match full on delete CASCADE on update SET NULL,
		aa18 bit (10) check(aaa()'bbb'(aaa)),
		aa19 datetime (3) check(aaa) not enforced,
		aa20 timestamp (3) generated always as (generation_expr),
		aa21 time (3) as (generation_expr),
		aa22 year (4) virtual,
		aa23 char(10) not null default -1 visible key,
		aa24 varchar(10),
		aa25 binary (100),
		aa26 varbinary (100), --aaaaa
		aa27 blob (10),
		aa28 text (10),
		updated_at timestamp with time zone default current_timestamp on update current_timestamp,
		primary key using btree (aa25 (10) asc, aa26 (10) desc, aa27 (10), aa28) KEY_BLOCK_SIZE = 'value' COMMENT 'string',
		unique index index_zzzz using btree (aa25 (10) asc, aa26 (10) desc, aa27 (10), aa28) KEY_BLOCK_SIZE = 'value' COMMENT 'string',
		foreign key(aaaa, bbbb) references reftable (aaaa (10) asc, bbbb (10) desc, cccc (10), dddd),
		constraint constraint_zzzz check(aaa)
	)AUTOEXTEND_SIZE 1
	AUTO_INCREMENT 1
	AVG_ROW_LENGTH 1
	DEFAULT CHARACTER SET charset_zzzz
	CHARACTER SET charset_zzzz
	CHECKSUM 0
	CHECKSUM 1
	DEFAULT COLLATE collation_zzzz
	COLLATE collation_zzzz
	COMMENT 'string'
	COMPRESSION 'ZLIB'
	COMPRESSION 'LZ4'
	COMPRESSION 'NONE'
	CONNECTION 'connect_string'
	DATA DIRECTORY 'absolute path to directory'
	INDEX DIRECTORY 'absolute path to directory'
	DELAY_KEY_WRITE 0
	DELAY_KEY_WRITE 1
	ENCRYPTION 'Y' 
	ENCRYPTION 'N'
	ENGINE engine_zzzz
	ENGINE_ATTRIBUTE 'string'
	INSERT_METHOD NO
	INSERT_METHOD FIRST
	INSERT_METHOD LAST
	KEY_BLOCK_SIZE 1
	MAX_ROWS 1
	MIN_ROWS 1
	PACK_KEYS 0
	PACK_KEYS 1
	PACK_KEYS DEFAULT
	PASSWORD 'string'
	ROW_FORMAT DEFAULT 
	ROW_FORMAT DYNAMIC
	ROW_FORMAT FIXED
	ROW_FORMAT COMPRESSED
	ROW_FORMAT REDUNDANT
	ROW_FORMAT COMPACT
	SECONDARY_ENGINE_ATTRIBUTE 'string'
	STATS_AUTO_RECALC DEFAULT 
	STATS_AUTO_RECALC 0
	STATS_AUTO_RECALC 1
	STATS_PERSISTENT DEFAULT
	STATS_PERSISTENT 0
	STATS_PERSISTENT 1
	STATS_SAMPLE_PAGES = 1
	TABLESPACE tablespace_zzzz
	TABLESPACE tablespace_zzzz STORAGE DISK
	TABLESPACE tablespace_zzzz STORAGE MEMORY
	UNION (tbl_yyyy, tbl_zzzz);
	create table if not exists scm.`test_table2`(`aaa1`integer);" MySQL [mk_table "" "test_table" false
    [(mk_column "aaa1" (mk_data_type "INTEGER" (0) (0)) (mk_constraint "" true false false true DNil "" "" (mk_reference "" None))); (mk_column "aaa2" (mk_data_type "INTEGER" (10) (0)) (mk_constraint "" true false true false DNil "" "" (mk_reference "" None))); (mk_column "aaa3" (mk_data_type "INT" (10) (0)) (mk_constraint "" false false true false (DFloat (FFin true 4503599627370496 (-52))) "" "" (mk_reference "" None))); (mk_column "aaa4" (mk_data_type "SMALLINT" (10) (0)) (mk_constraint "" false false false false DNil "" "" (mk_reference "" None))); (mk_column "aaa5" (mk_data_type "TINYINT" (10) (0)) (mk_constraint "" false false false false (DString "a") "" "" (mk_reference "" None))); (mk_column "aaa6" (mk_data_type "MEDIUMINT" (10) (0)) (mk_constraint "" false false false false (DString "a") "" "" (mk_reference "" None))); (mk_column "aaa7" (mk_data_type "BIGINT" (10) (0)) (mk_constraint "" false false false false (DBool true) "" "" (mk_reference "" None))); (mk_column "aaa8" (mk_data_type "NUMERIC" (10) (0)) (mk_constraint "" false false false false (DString "(expr(aaa))") "" "" (mk_reference "" None))); (mk_column "aaa9" (mk_data_type "NUMERIC" (10) (5)) (mk_constraint "" false true false false DNil "" "" (mk_reference "" None))); (mk_column "aa10" (mk_data_type "DECIMAL" (10) (0)) (mk_constraint "" false true false false DNil "" "collation_zzzz" (mk_reference "" None))); (mk_column "aa11" (mk_data_type "DECIMAL" (10) (5)) (mk_constraint "" false false false false DNil "" "" (mk_reference "" None))); (mk_column "aa12" (mk_data_type "FLOAT" (10) (0)) (mk_constraint "" false false false false DNil "" "" (mk_reference "" None))); (mk_column "aa13" (mk_data_type "FLOAT" (10) (5)) (mk_constraint "" false false false false DNil "" "" (mk_reference "" None))); (mk_column "aa14" (mk_data_type "REAL" (10) (0)) (mk_constraint "" false false false false DNil "" "" (mk_reference "" None))); (mk_column "aa15" (mk_data_type "REAL" (10) (5)) (mk_constraint "" false false false false DNil "" "" (mk_reference "" None))); (mk_column "aa16" (mk_data_type "DOUBLE" (10) (0)) (mk_constraint "" false false false false DNil "" "" (mk_reference "reftable" (Some ["aaaa"])))); (mk_column "aa17" (mk_data_type "DOUBLE" (10) (5)) (mk_constraint "" false false false false DNil "" "" (mk_reference "reftable" (Some ["dddd"])))); (mk_column "aa18" (mk_data_type "BIT" (10) (0)) (mk_constraint "" false false false false DNil "(aaa()'bbb'(aaa))" "" (mk_reference "" None))); (mk_column "aa19" (mk_data_type "DATETIME" (3) (0)) (mk_constraint "" false false false false DNil "(aaa)" "" (mk_reference "" None))); (mk_column "aa20" (mk_data_type "TIMESTAMP" (3) (0)) (mk_constraint "" false false false false DNil "" "" (mk_reference "" None))); (mk_column "aa21" (mk_data_type "TIME" (3) (0)) (mk_constraint "" false false false false DNil "" "" (mk_reference "" None))); (mk_column "aa22" (mk_data_type "YEAR" (4) (0)) (mk_constraint "" false false false false DNil "" "" (mk_reference "" None))); (mk_column "aa23" (mk_data_type "CHAR" (10) (0)) (mk_constraint "" true false true false (DFloat (FFin true 4503599627370496 (-52))) "" "" (mk_reference "" None))); (mk_column "aa24" (mk_data_type "VARCHAR" (10) (0)) (mk_constraint "" false false false false DNil "" "" (mk_reference "" None))); (mk_column "aa25" (mk_data_type "BINARY" (100) (0)) (mk_constraint "" false false false false DNil "" "" (mk_reference "" None))); (mk_column "aa26" (mk_data_type "VARBINARY" (100) (0)) (mk_constraint "" false false false false DNil "" "" (mk_reference "" None))); (mk_column "aa27" (mk_data_type "BLOB" (10) (0)) (mk_constraint "" false false false false DNil "" "" (mk_reference "" None))); (mk_column "aa28" (mk_data_type "TEXT" (10) (0)) (mk_constraint "" false false false false DNil "" "" (mk_reference "" None))); (mk_column "updated_at" (mk_data_type "TIMESTAMP" (0) (0)) (mk_constraint "" false false false false (DString "current_timestamp") "" "" (mk_reference "" None)))]
    (mk_tc [mk_pk "" ["aa25"; "aa26"; "aa27"; "aa28"]] [mk_unique "" ["aa25"; "aa26"; "aa27"; "aa28"]] [mk_check "constraint_zzzz" "(aaa)"] [mk_fk "" ["aaaa"; "bbbb"] (mk_reference "reftable" (Some ["aaaa"; "bbbb"; "cccc"; "dddd"]))]);
  mk_table "scm" "test_table2" true
    [(mk_column "aaa1" (mk_data_type "INTEGER" (0) (0)) (mk_constraint "" false false false false DNil "" "" (mk_reference "" None)))]
    (mk_tc [] [] [] [])].
Proof. vm_compute. reflexivity. Qed.

Example t_pt_167 : Parse (fuel_for "
	CREATE TABLE IF NOT EXISTS users (
		user_id INTEGER PRIMARY KEY AUTOINCREMENT,
		user_name TEXT NOT NULL UNIQUE,
		user_password TEXT NOT NULL,
		created_at TEXT NOT NULL DEFAULT (DATETIME('now', 'localtime')),
		updated_at TEXT NOT NULL DEFAULT (DATETIME('now', 'localtime'))
	);
	
	CREATE TRIGGER IF NOT EXISTS trg_users_upd AFTER UPDATE ON users
	BEGIN
	UPDATE users
	SET updated_at = DATETIME('now', 'localtime') 
    WHERE rowid == NEW.rowid;
	END;") "
	CREATE TABLE IF NOT EXISTS users (
		user_id INTEGER PRIMARY KEY AUTOINCREMENT,
		user_name TEXT NOT NULL UNIQUE,
		user_password TEXT NOT NULL,
		created_at TEXT NOT NULL DEFAULT (DATETIME('now', 'localtime')),
		updated_at TEXT NOT NULL DEFAULT (DATETIME('now', 'localtime'))
	);
	
	CREATE TRIGGER IF NOT EXISTS trg_users_upd AFTER UPDATE ON users
	BEGIN
	UPDATE users
	SET updated_at = DATETIME('now', 'localtime') 
    WHERE rowid == NEW.rowid;
	END;" SQLite = Returns [mk_table "" "users" true
    [(mk_column "user_id" (mk_data_type "INTEGER" (0) (0)) (mk_constraint "" true false false true DNil "" "" (mk_reference "" None))); (mk_column "user_name" (mk_data_type "TEXT" (0) (0)) (mk_constraint "" false true true false DNil "" "" (mk_reference "" None))); (mk_column "user_password" (mk_data_type "TEXT" (0) (0)) (mk_constraint "" false false true false DNil "" "" (mk_reference "" None))); (mk_column "created_at" (mk_data_type "TEXT" (0) (0)) (mk_constraint "" false false true false (DString "(DATETIME('now','localtime'))") "" "" (mk_reference "" None))); (mk_column "updated_at" (mk_data_type "TEXT" (0) (0)) (mk_constraint "" false false true false (DString "(DATETIME('now','localtime'))") "" "" (mk_reference "" None)))]
    (mk_tc [] [] [] [])] None.
Proof. vm_compute. reflexivity. Qed.

Example t_pt_170 : ParseSQLite (fuel_for "
	CREATE TABLE IF NOT EXISTS users (
		user_id INTEGER PRIMARY KEY AUTOINCREMENT,
		user_name TEXT NOT NULL UNIQUE,
		user_password TEXT NOT NULL,
		created_at TEXT NOT NULL DEFAULT (DATETIME('now', 'localtime')),
		updated_at TEXT NOT NULL DEFAULT (DATETIME('now', 'localtime'))
	);
	
	CREATE TRIGGER IF NOT EXISTS trg_users_upd AFTER UPDATE ON users
	BEGIN
	UPDATE users
	SET updated_at = DATETIME('now', 'localtime') 
    WHERE rowid == NEW.rowid;
	END;") "
	CREATE TABLE IF NOT EXISTS users (
		user_id INTEGER PRIMARY KEY AUTOINCREMENT,
		user_name TEXT NOT NULL UNIQUE,
		user_password TEXT NOT NULL,
		created_at TEXT NOT NULL DEFAULT (DATETIME('now', 'localtime')),
		updated_at TEXT NOT NULL DEFAULT (DATETIME('now', 'localtime'))
	);
	
	CREATE TRIGGER IF NOT EXISTS trg_users_upd AFTER UPDATE ON users
	BEGIN
	UPDATE users
	SET updated_at = DATETIME('now', 'localtime') 
    WHERE rowid == NEW.rowid;
	END;" = Returns [mk_table "" "users" true
    [(mk_column "user_id" (mk_data_type "INTEGER" (0) (0)) (mk_constraint "" true false false true DNil "" "" (mk_reference "" None))); (mk_column "user_name" (mk_data_type "TEXT" (0) (0)) (mk_constraint "" false true true false DNil "" "" (mk_reference "" None))); (mk_column "user_password" (mk_data_type "TEXT" (0) (0)) (mk_constraint "" false false true false DNil "" "" (mk_reference "" None))); (mk_column "created_at" (mk_data_type "TEXT" (0) (0)) (mk_constraint "" false false true false (DString "(DATETIME('now','localtime'))") "" "" (mk_reference "" None))); (mk_column "updated_at" (mk_data_type "TEXT" (0) (0)) (mk_constraint "" false false true false (DString "(DATETIME('now','localtime'))") "" "" (mk_reference "" None)))]
    (mk_tc [] [] [] [])] None.
Proof. vm_compute. reflexivity. Qed.

Example t_pt_173 : ParseForce (fuel_for "
	CREATE TABLE IF NOT EXISTS users (
		user_id INTEGER PRIMARY KEY AUTOINCREMENT,
		user_name TEXT NOT NULL UNIQUE,
		user_password TEXT NOT NULL,
		created_at TEXT NOT NULL DEFAULT (DATETIME('now', 'localtime')),
		updated_at TEXT NOT NULL DEFAULT (DATETIME('now', 'localtime'))
	);
	
	CREATE TRIGGER IF NOT EXISTS trg_users_upd AFTER UPDATE ON users
	BEGIN
	UPDATE users
	SET updated_at = DATETIME('now', 'localtime') 
    WHERE rowid == NEW.rowid;
	END;") "
	CREATE TABLE IF NOT EXISTS users (
		user_id INTEGER PRIMARY KEY AUTOINCREMENT,
		user_name TEXT NOT NULL UNIQUE,
		user_password TEXT NOT NULL,
		created_at TEXT NOT NULL DEFAULT (DATETIME('now', 'localtime')),
		updated_at TEXT NOT NULL DEFAULT (DATETIME('now', 'localtime'))
	);
	
	CREATE TRIGGER IF NOT EXISTS trg_users_upd AFTER UPDATE ON users
	BEGIN
	UPDATE users
	SET updated_at = DATETIME('now', 'localtime') 
    WHERE rowid == NEW.rowid;
	END;" = Returns [mk_table "" "users" true
    [(mk_column "user_id" (mk_data_type "INTEGER" (0) (0)) (mk_constraint "" true false false true DNil "" "" (mk_reference "" None))); (mk_column "user_name" (mk_data_type "TEXT" (0) (0)) (mk_constraint "" false true true false DNil "" "" (mk_reference "" None))); (mk_column "user_password" (mk_data_type "TEXT" (0) (0)) (mk_constraint "" false false true false DNil "" "" (mk_reference "" None))); (mk_column "created_at" (mk_data_type "TEXT" (0) (0)) (mk_constraint "" false false true false (DString "(DATETIME('now','localtime'))") "" "" (mk_reference "" None))); (mk_column "updated_at" (mk_data_type "TEXT" (0) (0)) (mk_constraint "" false false true false (DString "(DATETIME('now','localtime'))") "" "" (mk_reference "" None)))]
    (mk_tc [] [] [] [])] None.
Proof. vm_compute. reflexivity. Qed.

Example t_pt_316 : Parse (fuel_for "
	CREATE TABLE IF NOT EXISTS users (
		user_id SERIAL PRIMARY KEY,
		user_name TEXT NOT NULL UNIQUE,
		user_password TEXT NOT NULL,
		created_at TIMESTAMP NOT NULL DEFAULT CURRENT_TIMESTAMP,
		updated_at TIMESTAMP NOT NULL DEFAULT CURRENT_TIMESTAMP
	);
	
	create trigger trg_users_upd BEFORE UPDATE ON users FOR EACH ROW
  	execute procedure set_update_time();") "
	CREATE TABLE IF NOT EXISTS users (
		user_id SERIAL PRIMARY KEY,
		user_name TEXT NOT NULL UNIQUE,
		user_password TEXT NOT NULL,
		created_at TIMESTAMP NOT NULL DEFAULT CURRENT_TIMESTAMP,
		updated_at TIMESTAMP NOT NULL DEFAULT CURRENT_TIMESTAMP
	);
	
	create trigger trg_users_upd BEFORE UPDATE ON users FOR EACH ROW
  	execute procedure set_update_time();" PostgreSQL = Returns [mk_table "" "users" true
    [(mk_column "user_id" (mk_data_type "SERIAL" (0) (0)) (mk_constraint "" true false false false DNil "" "" (mk_reference "" None))); (mk_column "user_name" (mk_data_type "TEXT" (0) (0)) (mk_constraint "" false true true false DNil "" "" (mk_reference "" None))); (mk_column "user_password" (mk_data_type "TEXT" (0) (0)) (mk_constraint "" false false true false DNil "" "" (mk_reference "" None))); (mk_column "created_at" (mk_data_type "TIMESTAMP" (0) (0)) (mk_constraint "" false false true false (DString "CURRENT_TIMESTAMP") "" "" (mk_reference "" None))); (mk_column "updated_at" (mk_data_type "TIMESTAMP" (0) (0)) (mk_constraint "" false false true false (DString "CURRENT_TIMESTAMP") "" "" (mk_reference "" None)))]
    (mk_tc [] [] [] [])] None.
Proof. vm_compute. reflexivity. Qed.

Example t_pt_319 : ParsePostgreSQL (fuel_for "
	CREATE TABLE IF NOT EXISTS users (
		user_id SERIAL PRIMARY KEY,
		user_name TEXT NOT NULL UNIQUE,
		user_password TEXT NOT NULL,
		created_at TIMESTAMP NOT NULL DEFAULT CURRENT_TIMESTAMP,
		updated_at TIMESTAMP NOT NULL DEFAULT CURRENT_TIMESTAMP
	);
	
	create trigger trg_users_upd BEFORE UPDATE ON users FOR EACH ROW
  	execute procedure set_update_time();") "
	CREATE TABLE IF NOT EXISTS users (
		user_id SERIAL PRIMARY KEY,
		user_name TEXT NOT NULL UNIQUE,
		user_password TEXT NOT NULL,
		created_at TIMESTAMP NOT NULL DEFAULT CURRENT_TIMESTAMP,
		updated_at TIMESTAMP NOT NULL DEFAULT CURRENT_TIMESTAMP
	);
	
	create trigger trg_users_upd BEFORE UPDATE ON users FOR EACH ROW
  	execute procedure set_update_time();" = Returns [mk_table "" "users" true
    [(mk_column "user_id" (mk_data_type "SERIAL" (0) (0)) (mk_constraint "" true false false false DNil "" "" (mk_reference "" None))); (mk_column "user_name" (mk_data_type "TEXT" (0) (0)) (mk_constraint "" false true true false DNil "" "" (mk_reference "" None))); (mk_column "user_password" (mk_data_type "TEXT" (0) (0)) (mk_constraint "" false false true false DNil "" "" (mk_reference "" None))); (mk_column "created_at" (mk_data_type "TIMESTAMP" (0) (0)) (mk_constraint "" false false true false (DString "CURRENT_TIMESTAMP") "" "" (mk_reference "" None))); (mk_column "updated_at" (mk_data_type "TIMESTAMP" (0) (0)) (mk_constraint "" false false true false (DString "CURRENT_TIMESTAMP") "" "" (mk_reference "" None)))]
    (mk_tc [] [] [] [])] None.
Proof. vm_compute. reflexivity. Qed.

Example t_pt_322 : ParseForce (fuel_for "
	CREATE TABLE IF NOT EXISTS users (
		user_id SERIAL PRIMARY KEY,
		user_name TEXT NOT NULL UNIQUE,
		user_password TEXT NOT NULL,
		created_at TIMESTAMP NOT NULL DEFAULT CURRENT_TIMESTAMP,
		updated_at TIMESTAMP NOT NULL DEFAULT CURRENT_TIMESTAMP
	);
	
	create trigger trg_users_upd BEFORE UPDATE ON users FOR EACH ROW
  	execute procedure set_update_time();") "
	CREATE TABLE IF NOT EXISTS users (
		user_id SERIAL PRIMARY KEY,
		user_name TEXT NOT NULL UNIQUE,
		user_password TEXT NOT NULL,
		created_at TIMESTAMP NOT NULL DEFAULT CURRENT_TIMESTAMP,
		updated_at TIMESTAMP NOT NULL DEFAULT CURRENT_TIMESTAMP
	);
	
	create trigger trg_users_upd BEFORE UPDATE ON users FOR EACH ROW
  	execute procedure set_update_time();" = Returns [mk_table "" "users" true
    [(mk_column "user_id" (mk_data_type "SERIAL" (0) (0)) (mk_constraint "" true false false false DNil "" "" (mk_reference "" None))); (mk_column "user_name" (mk_data_type "TEXT" (0) (0)) (mk_constraint "" false true true false DNil "" "" (mk_reference "" None))); (mk_column "user_password" (mk_data_type "TEXT" (0) (0)) (mk_constraint "" false false true false DNil "" "" (mk_reference "" None))); (mk_column "created_at" (mk_data_type "TIMESTAMP" (0) (0)) (mk_constraint "" false false true false (DString "CURRENT_TIMESTAMP") "" "" (mk_reference "" None))); (mk_column "updated_at" (mk_data_type "TIMESTAMP" (0) (0)) (mk_constraint "" false false true false (DString "CURRENT_TIMESTAMP") "" "" (mk_reference "" None)))]
    (mk_tc [] [] [] [])] None.
Proof. vm_compute. reflexivity. Qed.

Example t_pt_464 : Parse (fuel_for "
	CREATE TABLE IF NOT EXISTS users (
		user_id INT AUTO_INCREMENT PRIMARY KEY,
		user_name VARCHAR(255) NOT NULL UNIQUE,
		user_password TEXT NOT NULL,
		created_at TIMESTAMP NOT NULL DEFAULT CURRENT_TIMESTAMP,
		updated_at TIMESTAMP NOT NULL DEFAULT CURRENT_TIMESTAMP ON UPDATE CURRENT_TIMESTAMP
	);
	
	CREATE INDEX index_user_name ON users (user_name);") "
	CREATE TABLE IF NOT EXISTS users (
		user_id INT AUTO_INCREMENT PRIMARY KEY,
		user_name VARCHAR(255) NOT NULL UNIQUE,
		user_password TEXT NOT NULL,
		created_at TIMESTAMP NOT NULL DEFAULT CURRENT_TIMESTAMP,
		updated_at TIMESTAMP NOT NULL DEFAULT CURRENT_TIMESTAMP ON UPDATE CURRENT_TIMESTAMP
	);
	
	CREATE INDEX index_user_name ON users (user_name);" MySQL = Returns [mk_table "" "users" true
    [(mk_column "user_id" (mk_data_type "INT" (0) (0)) (mk_constraint "" true false false true DNil "" "" (mk_reference "" None))); (mk_column "user_name" (mk_data_type "VARCHAR" (255) (0)) (mk_constraint "" false true true false DNil "" "" (mk_reference "" None))); (mk_column "user_password" (mk_data_type "TEXT" (0) (0)) (mk_constraint "" false false true false DNil "" "" (mk_reference "" None))); (mk_column "created_at" (mk_data_type "TIMESTAMP" (0) (0)) (mk_constraint "" false false true false (DString "CURRENT_TIMESTAMP") "" "" (mk_reference "" None))); (mk_column "updated_at" (mk_data_type "TIMESTAMP" (0) (0)) (mk_constraint "" false false true false (DString "CURRENT_TIMESTAMP") "" "" (mk_reference "" None)))]
    (mk_tc [] [] [] [])] None.
Proof. vm_compute. reflexivity. Qed.

Example t_pt_467 : ParseMySQL (fuel_for "
	CREATE TABLE IF NOT EXISTS users (
		user_id INT AUTO_INCREMENT PRIMARY KEY,
		user_name VARCHAR(255) NOT NULL UNIQUE,
		user_password TEXT NOT NULL,
		created_at TIMESTAMP NOT NULL DEFAULT CURRENT_TIMESTAMP,
		updated_at TIMESTAMP NOT NULL DEFAULT CURRENT_TIMESTAMP ON UPDATE CURRENT_TIMESTAMP
	);
	
	CREATE INDEX index_user_name ON users (user_name);") "
	CREATE TABLE IF NOT EXISTS users (
		user_id INT AUTO_INCREMENT PRIMARY KEY,
		user_name VARCHAR(255) NOT NULL UNIQUE,
		user_password TEXT NOT NULL,
		created_at TIMESTAMP NOT NULL DEFAULT CURRENT_TIMESTAMP,
		updated_at TIMESTAMP NOT NULL DEFAULT CURRENT_TIMESTAMP ON UPDATE CURRENT_TIMESTAMP
	);
	
	CREATE INDEX index_user_name ON users (user_name);" = Returns [mk_table "" "users" true
    [(mk_column "user_id" (mk_data_type "INT" (0) (0)) (mk_constraint "" true false false true DNil "" "" (mk_reference "" None))); (mk_column "user_name" (mk_data_type "VARCHAR" (255) (0)) (mk_constraint "" false true true false DNil "" "" (mk_reference "" None))); (mk_column "user_password" (mk_data_type "TEXT" (0) (0)) (mk_constraint "" false false true false DNil "" "" (mk_reference "" None))); (mk_column "created_at" (mk_data_type "TIMESTAMP" (0) (0)) (mk_constraint "" false false true false (DString "CURRENT_TIMESTAMP") "" "" (mk_reference "" None))); (mk_column "updated_at" (mk_data_type "TIMESTAMP" (0) (0)) (mk_constraint "" false false true false (DString "CURRENT_TIMESTAMP") "" "" (mk_reference "" None)))]
    (mk_tc [] [] [] [])] None.
Proof. vm_compute. reflexivity. Qed.

Example t_pt_470 : ParseForce (fuel_for "
	CREATE TABLE IF NOT EXISTS users (
		user_id INT AUTO_INCREMENT PRIMARY KEY,
		user_name VARCHAR(255) NOT NULL UNIQUE,
		user_password TEXT NOT NULL,
		created_at TIMESTAMP NOT NULL DEFAULT CURRENT_TIMESTAMP,
		updated_at TIMESTAMP NOT NULL DEFAULT CURRENT_TIMESTAMP ON UPDATE CURRENT_TIMESTAMP
	);
	
	CREATE INDEX index_user_name ON users (user_name);") "
	CREATE TABLE IF NOT EXISTS users (
		user_id INT AUTO_INCREMENT PRIMARY KEY,
		user_name VARCHAR(255) NOT NULL UNIQUE,
		user_password TEXT NOT NULL,
		created_at TIMESTAMP NOT NULL DEFAULT CURRENT_TIMESTAMP,
		updated_at TIMESTAMP NOT NULL DEFAULT CURRENT_TIMESTAMP ON UPDATE CURRENT_TIMESTAMP
	);
	
	CREATE INDEX index_user_name ON users (user_name);" = Returns [mk_table "" "users" true
    [(mk_column "user_id" (mk_data_type "INT" (0) (0)) (mk_constraint "" true false false true DNil "" "" (mk_reference "" None))); (mk_column "user_name" (mk_data_type "VARCHAR" (255) (0)) (mk_constraint "" false true true false DNil "" "" (mk_reference "" None))); (mk_column "user_password" (mk_data_type "TEXT" (0) (0)) (mk_constraint "" false false true false DNil "" "" (mk_reference "" None))); (mk_column "created_at" (mk_data_type "TIMESTAMP" (0) (0)) (mk_constraint "" false false true false (DString "CURRENT_TIMESTAMP") "" "" (mk_reference "" None))); (mk_column "updated_at" (mk_data_type "TIMESTAMP" (0) (0)) (mk_constraint "" false false true false (DString "CURRENT_TIMESTAMP") "" "" (mk_reference "" None)))]
    (mk_tc [] [] [] [])] None.
Proof. vm_compute. reflexivity. Qed.

