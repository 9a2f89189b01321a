(** ddlparse.go *)
From Coq Require Import String List.
From Verif Require Import GoStr GoNum Types Lexer VBase Converter.
From Verif Require VSqlite VPostgres VMysql.
Import ListNotations.

(** Outcome of a call of the library: it returns a table list and an error (nil: [None]),
    or it panics, or the fuel given to the model does not suffice. *)
Inductive outcome :=
| Returns (tables : list table) (err : option verror)
| Panics
| NoFuel.

(** validator.go:26-33 [NewValidator]: the validator of the dialect; SQLite by default. *)
Definition Validate (fuel : nat) (d : rdbms) (tokens : list string) : validate_result :=
  match d with
  | PostgreSQL => VPostgres.Validate fuel tokens
  | MySQL => VMysql.Validate fuel tokens
  | SQLite => VSqlite.Validate fuel tokens
  | Other _ => VSqlite.Validate fuel tokens
  end.

(** ddlparse.go:36-52 [Parse]. *)
Definition Parse (fuel : nat) (ddl : string) (d : rdbms) : outcome :=
  match Lex fuel d ddl with
  | LexOutOfFuel => NoFuel
  | LexErr e => Returns [] (Some e)
  | LexOk tokens =>
    match Validate fuel d tokens with
    | ValidateOutOfFuel => NoFuel
    | ValidatePanic => Panics
    | ValidateErr e => Returns [] (Some e)
    | ValidateOk validated =>
      match Convert fuel d validated with
      | ConvertOutOfFuel => NoFuel
      | ConvertPanic => Panics
      | ConvertOk tables => Returns tables None
      end
    end
  end.

(** ddlparse.go:54-64 [ParseSQLite], [ParsePostgreSQL], [ParseMySQL]. *)
Definition ParseSQLite (fuel : nat) (ddl : string) : outcome := Parse fuel ddl SQLite.
Definition ParsePostgreSQL (fuel : nat) (ddl : string) : outcome := Parse fuel ddl PostgreSQL.
Definition ParseMySQL (fuel : nat) (ddl : string) : outcome := Parse fuel ddl MySQL.

(** ddlparse.go:66-76 [ParseForce]: the loop.  The [err] assigned in the loop body is a new
    variable (:=), so [outer_err], declared before the loop, keeps its zero value nil. *)
Fixpoint parse_force_loop (fuel : nat) (ddl : string) (ls : list rdbms) (outer_err : option verror)
  : outcome :=
  match ls with
  | [] => Returns [] outer_err
  | d :: ls =>
    match Parse fuel ddl d with
    | Returns tables None => Returns tables None
    | Returns _ (Some err) => parse_force_loop fuel ddl ls outer_err
    | Panics => Panics
    | NoFuel => NoFuel
    end
  end.
Definition ParseForce (fuel : nat) (ddl : string) : outcome :=
  parse_force_loop fuel ddl [SQLite; PostgreSQL; MySQL] None.
