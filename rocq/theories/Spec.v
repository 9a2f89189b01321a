(** What a call of the library does, without fuel: vocabulary of the statements in Properties.v. *)
From Coq Require Import String List.
From Verif Require Import GoStr Types VBase Exec Grammar Ast Converter Parse Lexer.
From Verif Require GSqlite GPostgres GMysql.

(** The call returns this table list and this error. *)
Definition returns (ddl : string) (d : rdbms) (tables : list table) (err : option verror) : Prop :=
  exists fuel, Parse fuel ddl d = Returns tables err.
(** The call stops with a run-time panic. *)
Definition panics (ddl : string) (d : rdbms) : Prop := exists fuel, Parse fuel ddl d = Panics.
(** The call never returns. *)
Definition diverges (ddl : string) (d : rdbms) : Prop := forall fuel, Parse fuel ddl d = NoFuel.

Definition accepted (ddl : string) (d : rdbms) (tables : list table) : Prop :=
  returns ddl d tables None.
Definition rejected (ddl : string) (d : rdbms) (line : nat) (near : string) : Prop :=
  returns ddl d nil (Some (mk_verror line near)).

Definition force_returns (ddl : string) (tables : list table) (err : option verror) : Prop :=
  exists fuel, ParseForce fuel ddl = Returns tables err.

(** The grammar of a dialect.  (An unknown dialect has the grammar of SQLite.) *)
Definition script (d : rdbms) : gr (list a_stmt) :=
  match d with
  | PostgreSQL => GPostgres.script
  | MySQL => GMysql.script
  | _ => GSqlite.script
  end.

(** The text consists of the tokens [l] ([strip] removes the line breaks from the lexer's result). *)
Definition tokens (d : rdbms) (ddl : string) (l : list string) : Prop :=
  exists fuel toks, Lex fuel d ddl = LexOk toks /\ l = strip toks.

(** The text is a script of the dialect: these statements. *)
Definition says (d : rdbms) (ddl : string) (stmts : list a_stmt) : Prop :=
  exists l out, tokens d ddl l /\ lang (script d) l None out stmts.

(** The tokens of the text with the line breaks among them, as the lexer reports them. *)
Definition lexes (d : rdbms) (ddl : string) (toks : list string) : Prop :=
  exists fuel, Lex fuel d ddl = LexOk toks.

(** The line on which the tokens after [p] begin: the line breaks in [p] are counted, except one at the very
    start. *)
Definition line_after (p : list string) : nat :=
  1 + count_nl (match p with t :: p' => if is_nl t then p' else p | nil => nil end).

(** The tokens [p] can be continued to a script. *)
Definition continues (d : rdbms) (p : list string) : Prop :=
  exists more out stmts, lang (script d) (p ++ more) None out stmts.

(** The two texts have the same result. *)
Definition same_result (d : rdbms) (s s' : string) : Prop :=
  (forall ts err, returns s d ts err <-> returns s' d ts err) /\ (diverges s d <-> diverges s' d).
(** ... up to the line number of an error. *)
Definition alike (d : rdbms) (s s' : string) : Prop :=
  (forall ts, accepted s d ts <-> accepted s' d ts) /\
  (forall near, (exists line, rejected s d line near) <-> (exists line, rejected s' d line near)) /\
  (diverges s d <-> diverges s' d).
