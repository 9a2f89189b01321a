(** The grammar of SQLite scripts accepted by ddlparse, from the section "SQLite" of README.md.

    Differences from the README: the statement must end with ";"; MATCH is followed by SIMPLE,
    PARTIAL or FULL; the two table options are separated by a comma; a reference in a column
    constraint may not be followed by the word NOT (it is taken as the beginning of NOT DEFERRABLE);
    a column constraint keyword may be used once; there is one constraint name per column.
    Not in the README: TEMP and TEMPORARY; the other CREATE statements, which are skipped;
    schema-qualified names in REFERENCES; several actions in one reference. *)
From Coq Require Import String List Bool.
From Verif Require Import GoStr Types Grammar Ast.
Import ListNotations.
Open Scope string_scope.
Open Scope gr_scope.

Definition name : gr string := One true (CName SQLite).

(** [schema.]table *)
Definition table_name : gr (option string * string) :=
  name ** opt ["."] (kw ["."] ** name)
  ==> fun '(a, o) => match o with Some (_, b) => (Some a, b) | None => (None, a) end.

(** (column, ...) *)
Definition columns : gr (list string) :=
  kw ["("] ** SepBy true name ** kw [")"] ==> fun '(_, (l, _)) => l.

Definition expr : gr (list string) := Brackets true.

(** conflict-clause *)
Definition conflict_clause :=
  opt ["ON"] (kw_ ["ON"] ** kw_ ["CONFLICT"] **
              kw_ ["ROLLBACK"; "ABORT"; "FAIL"; "IGNORE"; "REPLACE"]).

(** PRIMARY KEY [ASC | DESC] [conflict-clause] [AUTOINCREMENT] *)
Definition c_primary : gr a_item :=
  kw ["PRIMARY"] ** kw ["KEY"] ** optkw false ["ASC"; "DESC"] ** conflict_clause **
  optkw true ["AUTOINCREMENT"]
  ==> fun '(_, (_, (_, (_, o)))) => IPrimary (match o with Some _ => true | None => false end).

Definition c_notnull : gr a_item :=
  kw ["NOT"] ** kw ["NULL"] ** conflict_clause ==> fun _ => INotNull.

Definition c_unique : gr a_item := kw ["UNIQUE"] ** conflict_clause ==> fun _ => IUnique.

Definition c_check : gr a_item := kw ["CHECK"] ** expr ==> fun '(_, e) => ICheck e.

Definition c_default : gr a_item :=
  kw ["DEFAULT"] **
  (Case ["("] of (expr ==> AExpr) or (One true (CLit SQLite) ==> ALit))
  ==> fun '(_, x) => IDefault x.

Definition c_collate : gr a_item :=
  kw ["COLLATE"] ** kw ["BINARY"; "NOCASE"; "RTRIM"] ==> fun '(_, t) => ICollate t.

(** SET NULL | SET DEFAULT | CASCADE | RESTRICT | NO ACTION *)
Definition fk_action : gr unit :=
  Case ["SET"] of (kw_ ["SET"] ** kw_ ["NULL"; "DEFAULT"] ==> fun _ => tt) or
  Case ["CASCADE"; "RESTRICT"] of (kw_ ["CASCADE"; "RESTRICT"] ==> fun _ => tt) or
  (kw_ ["NO"] ** kw_ ["ACTION"] ==> fun _ => tt).

(** ON {DELETE | UPDATE} action; MATCH ...; [NOT] DEFERRABLE [INITIALLY ...] *)
Definition ref_option : gr unit :=
  Case ["ON"] of (kw_ ["ON"] ** kw_ ["DELETE"; "UPDATE"] ** fk_action ==> fun _ => tt) or
  Case ["MATCH"] of (kw_ ["MATCH"] ** kw_ ["SIMPLE"; "PARTIAL"; "FULL"] ==> fun _ => tt) or
  (optkw false ["NOT"] ** kw_ ["DEFERRABLE"] **
   opt ["INITIALLY"] (kw_ ["INITIALLY"] ** kw_ ["DEFERRED"; "IMMEDIATE"]) ==> fun _ => tt).
Definition ref_options := While (next_in ["ON"; "MATCH"; "NOT"; "DEFERRABLE"]) ref_option.

(** REFERENCES table [(column)] options *)
Definition c_references : gr a_item :=
  kw ["REFERENCES"] ** table_name ** opt ["("] (kw ["("] ** name ** kw [")"]) **
  ref_options ** NotNext ["NOT"]
  ==> fun '(_, ((s, t), (o, _))) =>
        IReferences (mk_aref s t (match o with Some (_, (c, _)) => Some [c] | None => None end)).

(** [GENERATED ALWAYS] AS (expr) [STORED | VIRTUAL] *)
Definition c_generated : gr a_item :=
  opt ["GENERATED"] (kw_ ["GENERATED"] ** kw_ ["ALWAYS"]) **
  kw_ ["AS"] ** Brackets false ** optkw false ["STORED"; "VIRTUAL"] ==> fun _ => INone.

Definition column_constraint : gr a_item :=
  Case ["PRIMARY"] of c_primary or
  Case ["NOT"] of c_notnull or
  Case ["UNIQUE"] of c_unique or
  Case ["CHECK"] of c_check or
  Case ["DEFAULT"] of c_default or
  Case ["COLLATE"] of c_collate or
  Case ["REFERENCES"] of c_references or
  c_generated.
Definition constraint_words : list string :=
  ["PRIMARY"; "NOT"; "UNIQUE"; "CHECK"; "DEFAULT"; "COLLATE"; "REFERENCES"; "GENERATED"; "AS"].
(** any number of column constraints, no two beginning with the same word *)
Definition column_constraints : gr (list a_item) :=
  WhileU (next_in constraint_words) to_upper column_constraint.

(** [CONSTRAINT name] *)
Definition constraint_name : gr (option string) :=
  opt ["CONSTRAINT"] (kw ["CONSTRAINT"] ** name ==> snd).

Definition type_name : gr a_type :=
  kw ["TEXT"; "NUMERIC"; "INTEGER"; "REAL"; "NONE"] ==> fun w => mk_atype w false None.

(** column_name type_name [column-constraint ...] *)
Definition column : gr a_element :=
  name ** type_name ** constraint_name ** column_constraints
  ==> fun '(n, (t, (c, l))) => EColumn (mk_acolumn n t c l).

Definition t_primary : gr a_body :=
  kw ["PRIMARY"] ** kw ["KEY"] ** columns ** conflict_clause
  ==> fun '(_, (_, (l, _))) => BPrimary l.
Definition t_unique : gr a_body :=
  kw ["UNIQUE"] ** columns ** conflict_clause ==> fun '(_, (l, _)) => BUnique l.
Definition t_check : gr a_body := kw ["CHECK"] ** expr ==> fun '(_, e) => BCheck e.
Definition t_foreign : gr a_body :=
  kw ["FOREIGN"] ** kw ["KEY"] ** columns ** kw ["REFERENCES"] ** table_name **
  opt ["("] columns ** ref_options
  ==> fun '(_, (_, (l, (_, ((s, t), (o, _)))))) => BForeign l (mk_aref s t o).

(** [CONSTRAINT name] ... *)
Definition table_constraint : gr a_element :=
  constraint_name **
  (Case ["PRIMARY"] of t_primary or
   Case ["UNIQUE"] of t_unique or
   Case ["CHECK"] of t_check or
   t_foreign)
  ==> fun '(n, b) => EConstraint n b.

Definition element : gr a_element :=
  Case ["CONSTRAINT"; "PRIMARY"; "UNIQUE"; "CHECK"; "FOREIGN"] of table_constraint or column.

(** table-options *)
Definition table_options : gr unit :=
  Case ["WITHOUT"] of
    (kw_ ["WITHOUT"] ** kw_ ["ROWID"] ** opt [","] (kw_ [","] ** kw_ ["STRICT"]) ==> fun _ => tt) or
  Case ["STRICT"] of
    (kw_ ["STRICT"] ** opt [","] (kw_ [","] ** kw_ ["WITHOUT"] ** kw_ ["ROWID"]) ==> fun _ => tt) or
  Eps.

(** [IF NOT EXISTS] *)
Definition if_not_exists : gr bool :=
  opt ["IF"] (kw ["IF"] ** kw ["NOT"] ** kw ["EXISTS"])
  ==> fun o => match o with Some _ => true | None => false end.

(** TABLE [IF NOT EXISTS] name ( element, ... ) table-options ; *)
Definition create_table : gr a_stmt :=
  Put ["CREATE"] ** kw ["TABLE"] ** if_not_exists ** table_name **
  kw ["("] ** SepBy true element ** kw [")"] ** table_options ** kw [";"]
  ==> fun '(_, (_, (i, ((s, t), (_, (l, _)))))) => STable (mk_atable i s t l).

(** a statement that is skipped *)
Definition create_other : gr a_stmt :=
  kw_ ["VIRTUAL"; "VIEW"; "TRIGGER"; "INDEX"; "UNIQUE"] ** Skip ** kw_ [";"] ==> fun _ => SOther.

Definition statement : gr a_stmt :=
  kw_ ["CREATE"] ** optkw false ["TEMP"; "TEMPORARY"] **
  (Case ["TABLE"] of create_table or create_other) ==> fun '(_, (_, s)) => s.

Definition script : gr (list a_stmt) := While (mk_la [] true false) statement.
