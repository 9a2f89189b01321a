(** The grammar of PostgreSQL scripts accepted by ddlparse, from the section "PostgreSQL" of
    README.md.

    Differences from the README: a column constraint AS (expr) is not accepted; there is one
    constraint name per column; a column constraint keyword may be used once (NULL and NOT NULL
    count as the same).
    Not in the README: table options may be separated by commas; GENERATED AS IDENTITY;
    schema-qualified names in REFERENCES; several actions in one reference; the other CREATE
    statements, which are skipped.
    The word IF is not reserved; a table cannot be called IF without quotes all the same. *)
From Coq Require Import String List Bool.
From Verif Require Import GoStr Types Grammar Ast.
Import ListNotations.
Open Scope string_scope.
Open Scope gr_scope.

Definition name : gr string := One true (CName PostgreSQL).
Definition name_ : gr string := One false (CName PostgreSQL).

(** [schema.]table *)
Definition table_name : gr (option string * string) :=
  name ** opt ["."] (kw ["."] ** name)
  ==> fun '(a, o) => match o with Some (_, b) => (Some a, b) | None => (None, a) end.

(** (column, ...) *)
Definition columns : gr (list string) :=
  kw ["("] ** SepBy true name ** kw [")"] ==> fun '(_, (l, _)) => l.

Definition expr : gr (list string) := Brackets true.

(** (n) *)
Definition digits1 : gr (option (string * option string)) :=
  opt ["("] (kw ["("] ** One true CPos ** kw [")"] ==> fun '(_, (n, _)) => (n, None)).
(** (n) or (n, m) *)
Definition digits2 : gr (option (string * option string)) :=
  opt ["("] (kw ["("] ** One true CPos ** opt [","] (kw [","] ** One true CPos ==> snd) ** kw [")"]
             ==> fun '(_, (n, (m, _))) => (n, m)).

Definition is_some {A} (o : option A) : bool := match o with Some _ => true | None => false end.

(** types without parameters *)
Definition plain_types : list string :=
  ["BIGINT"; "INT8"; "BIGSERIAL"; "SERIAL8"; "BOOLEAN"; "BOOL"; "BOX"; "BYTEA"; "CIDR";
   "CIRCLE"; "DATE"; "FLOAT8"; "INET"; "INTEGER"; "INT"; "INT4"; "JSON"; "JSONB"; "LINE";
   "LSEG"; "MACADDR"; "MACADDR8"; "MONEY"; "PATH"; "PG_LSN"; "PG_SNAPSHOT"; "POINT"; "POLYGON";
   "REAL"; "FLOAT4"; "SMALLINT"; "INT2"; "SMALLSERIAL"; "SERIAL2"; "SERIAL"; "SERIAL4"; "TEXT";
   "TIMETZ"; "TIMESTAMPTZ"; "TSQUERY"; "TSVECTOR"; "TXID_SNAPSHOT"; "UUID"; "XML"].

Definition type_name : gr a_type :=
  Case ["BIT"; "CHARACTER"] of
    (kw ["BIT"; "CHARACTER"] ** optkw true ["VARYING"] ** digits1
     ==> fun '(w, (v, d)) => mk_atype w (is_some v) d) or
  Case ["VARBIT"; "VARCHAR"; "CHAR"] of
    (kw ["VARBIT"; "VARCHAR"; "CHAR"] ** digits1 ==> fun '(w, d) => mk_atype w false d) or
  Case ["NUMERIC"; "DECIMAL"] of
    (kw ["NUMERIC"; "DECIMAL"] ** digits2 ==> fun '(w, d) => mk_atype w false d) or
  Case ["DOUBLE"] of
    (kw ["DOUBLE"] ** kw_ ["PRECISION"] ==> fun '(w, _) => mk_atype w false None) or
  Case ["TIME"; "TIMESTAMP"] of
    (kw ["TIME"; "TIMESTAMP"] ** digits1 **
     opt ["WITH"; "WITHOUT"] (kw_ ["WITH"; "WITHOUT"] ** kw_ ["TIME"] ** kw_ ["ZONE"])
     ==> fun '(w, (d, _)) => mk_atype w false d) or
  (kw plain_types ==> fun w => mk_atype w false None).

(** index-parameters *)
Definition index_parameters : gr unit :=
  opt ["INCLUDE"] (kw_ ["INCLUDE"] ** kw_ ["("] ** SepBy false name_ ** kw_ [")"]) **
  opt ["WITH"] (kw_ ["WITH"] ** Brackets false) **
  opt ["USING"] (kw_ ["USING"] ** kw_ ["INDEX"] ** kw_ ["TABLESPACE"] ** name_)
  ==> fun _ => tt.

Definition c_primary : gr a_item :=
  kw ["PRIMARY"] ** kw ["KEY"] ** index_parameters ==> fun _ => IPrimary false.
Definition c_notnull : gr a_item := kw ["NOT"] ** kw ["NULL"] ==> fun _ => INotNull.
Definition c_null : gr a_item := kw_ ["NULL"] ==> fun _ => INone.
Definition c_unique : gr a_item := kw ["UNIQUE"] ** index_parameters ==> fun _ => IUnique.

Definition no_inherit := opt ["NO"] (kw_ ["NO"] ** kw_ ["INHERIT"]).
Definition c_check : gr a_item :=
  kw ["CHECK"] ** expr ** no_inherit ==> fun '(_, (e, _)) => ICheck e.

Definition c_default : gr a_item :=
  kw ["DEFAULT"] **
  (Case ["("] of (expr ==> AExpr) or (One true (CLit PostgreSQL) ==> ALit))
  ==> fun '(_, x) => IDefault x.

(** SET NULL | SET DEFAULT | CASCADE | RESTRICT | NO ACTION *)
Definition fk_action : gr unit :=
  Case ["SET"] of (kw_ ["SET"] ** kw_ ["NULL"; "DEFAULT"] ==> fun _ => tt) or
  Case ["CASCADE"; "RESTRICT"] of (kw_ ["CASCADE"; "RESTRICT"] ==> fun _ => tt) or
  (kw_ ["NO"] ** kw_ ["ACTION"] ==> fun _ => tt).

(** ON {DELETE | UPDATE} action; MATCH ... *)
Definition ref_option : gr unit :=
  Case ["ON"] of (kw_ ["ON"] ** kw_ ["DELETE"; "UPDATE"] ** fk_action ==> fun _ => tt) or
  (kw_ ["MATCH"] ** kw_ ["SIMPLE"; "PARTIAL"; "FULL"] ==> fun _ => tt).
Definition ref_options := While (next_in ["ON"; "MATCH"]) ref_option.

(** REFERENCES table [(column)] options *)
Definition c_references : gr a_item :=
  kw ["REFERENCES"] ** table_name ** opt ["("] (kw ["("] ** name ** kw [")"]) ** ref_options
  ==> fun '(_, ((s, t), (o, _))) =>
        IReferences (mk_aref s t (match o with Some (_, (c, _)) => Some [c] | None => None end)).

(** GENERATED ALWAYS AS (expr) STORED | GENERATED [ALWAYS | BY DEFAULT] AS IDENTITY [(...)] *)
Definition sequence_options := opt ["("] (Brackets false).
Definition c_generated : gr a_item :=
  kw_ ["GENERATED"] **
  (Case ["ALWAYS"] of
     (kw_ ["ALWAYS"] ** kw_ ["AS"] **
      (Case ["IDENTITY"] of (kw_ ["IDENTITY"] ** sequence_options ==> fun _ => tt) or
       (Brackets false ** kw_ ["STORED"] ==> fun _ => tt)) ==> fun _ => tt) or
   Case ["BY"] of
     (kw_ ["BY"] ** kw_ ["DEFAULT"] ** kw_ ["AS"] ** kw_ ["IDENTITY"] ** sequence_options
      ==> fun _ => tt) or
   (kw_ ["AS"] ** kw_ ["IDENTITY"] ** sequence_options ==> fun _ => tt))
  ==> fun _ => INone.

Definition column_constraint : gr a_item :=
  Case ["PRIMARY"] of c_primary or
  Case ["NOT"] of c_notnull or
  Case ["NULL"] of c_null or
  Case ["UNIQUE"] of c_unique or
  Case ["CHECK"] of c_check or
  Case ["DEFAULT"] of c_default or
  Case ["REFERENCES"] of c_references or
  c_generated.
(** a word AS here is an error, too *)
Definition constraint_words : list string :=
  ["PRIMARY"; "NOT"; "NULL"; "UNIQUE"; "CHECK"; "DEFAULT"; "REFERENCES"; "GENERATED"; "AS"].
(** any number of column constraints, no two beginning with the same word; NOT NULL counts as NULL *)
Definition constraint_key (t : string) : string :=
  if matches ["NOT"] t then "NULL" else to_upper t.
Definition column_constraints : gr (list a_item) :=
  WhileU (next_in constraint_words) constraint_key column_constraint.

(** [CONSTRAINT name] *)
Definition constraint_name : gr (option string) :=
  opt ["CONSTRAINT"] (kw ["CONSTRAINT"] ** name ==> snd).

(** column_name type_name [column-constraint ...] *)
Definition column : gr a_element :=
  name ** type_name ** constraint_name ** column_constraints
  ==> fun '(n, (t, (c, l))) => EColumn (mk_acolumn n t c l).

Definition t_primary : gr a_body :=
  kw ["PRIMARY"] ** kw ["KEY"] ** columns ** index_parameters
  ==> fun '(_, (_, (l, _))) => BPrimary l.
Definition t_unique : gr a_body :=
  kw ["UNIQUE"] ** columns ** index_parameters ==> fun '(_, (l, _)) => BUnique l.
Definition t_check : gr a_body :=
  kw ["CHECK"] ** expr ** no_inherit ==> fun '(_, (e, _)) => BCheck e.
Definition t_foreign : gr a_body :=
  kw ["FOREIGN"] ** kw ["KEY"] ** columns ** kw ["REFERENCES"] ** table_name **
  opt ["("] columns ** ref_options
  ==> fun '(_, (_, (l, (_, ((s, t), (o, _)))))) => BForeign l (mk_aref s t o).
(** EXCLUDE [USING index-method] (...) [index-parameters] [WHERE (...)] *)
Definition t_exclude : gr a_body :=
  kw_ ["EXCLUDE"] ** opt ["USING"] (kw_ ["USING"] ** name_) ** Brackets false **
  index_parameters ** opt ["WHERE"] (kw_ ["WHERE"] ** Brackets false)
  ==> fun _ => BNone.

(** [CONSTRAINT name] ... *)
Definition table_constraint : gr a_element :=
  constraint_name **
  (Case ["PRIMARY"] of t_primary or
   Case ["UNIQUE"] of t_unique or
   Case ["CHECK"] of t_check or
   Case ["FOREIGN"] of t_foreign or
   t_exclude)
  ==> fun '(n, b) => EConstraint n b.

Definition element : gr a_element :=
  Case ["CONSTRAINT"; "PRIMARY"; "UNIQUE"; "CHECK"; "FOREIGN"; "EXCLUDE"] of table_constraint
  or column.

(** table-options *)
Definition table_option : gr unit :=
  Case ["WITH"] of (kw_ ["WITH"] ** Brackets false ==> fun _ => tt) or
  Case ["WITHOUT"] of (kw_ ["WITHOUT"] ** kw_ ["OIDS"] ==> fun _ => tt) or
  Case ["TABLESPACE"] of (kw_ ["TABLESPACE"] ** name_ ==> fun _ => tt) or
  Case ["INHERITS"] of (kw_ ["INHERITS"] ** Brackets false ==> fun _ => tt) or
  Case ["PARTITION"] of
    (kw_ ["PARTITION"] ** kw_ ["BY"] ** kw_ ["RANGE"; "LIST"; "HASH"] ** Brackets false
     ==> fun _ => tt) or
  (kw_ ["USING"] ** name_ ==> fun _ => tt).
Definition table_options :=
  While (mk_la [";"] true false) (optkw false [","] ** table_option).

(** [IF NOT EXISTS] *)
Definition if_not_exists : gr bool :=
  Case ["IF"] of (kw ["IF"] ** kw ["NOT"] ** kw ["EXISTS"] ==> fun _ => true) or
  (NotNext ["IF"] ==> fun _ => false).

(** TABLE [IF NOT EXISTS] name ( element, ... ) table-options ; *)
Definition create_table : gr a_stmt :=
  Put ["CREATE"] ** kw ["TABLE"] ** if_not_exists ** table_name **
  kw ["("] ** SepBy true element ** kw [")"] ** table_options ** kw [";"]
  ==> fun '(_, (_, (i, ((s, t), (_, (l, _)))))) => STable (mk_atable i s t l).

(** a statement that is skipped *)
Definition create_other : gr a_stmt :=
  kw_ ["VIEW"; "TRIGGER"; "INDEX"; "MATERIALIZED"; "SEQUENCE"; "FUNCTION"; "TYPE";
       "PROCEDURE"; "TYPE"; "AGGREGATE"; "SCHEMA"; "ROLE"; "USER"; "GROUP";
       "TABLESPACE"; "EXTENSION"; "DATABASE"; "LANGUAGE"; "FOREIGN"; "DOMAIN";
       "SERVER"; "FOREIGN"; "CONVERSION"; "RULE"; "COLLATION"; "POLICY"; "OPERATOR"] **
  Skip ** kw_ [";"] ==> fun _ => SOther.

Definition statement : gr a_stmt :=
  kw_ ["CREATE"] ** (Case ["TABLE"] of create_table or create_other) ==> snd.

Definition script : gr (list a_stmt) := While (mk_la [] true false) statement.
