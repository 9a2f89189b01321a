(** Clauses of column and table constraints that are accepted and not reported. *)
From Coq Require Import String List Bool.
From Verif Require Import GoStr Types Grammar Ast Parts Order.
From Verif Require GSqlite GPostgres GMysql.
Import ListNotations.
Open Scope string_scope.
Open Scope gr_scope.
Open Scope list_scope.

(** a constraint that is not reported at all: NULL, GENERATED ..., COMMENT ..., STORAGE ..., ... *)
Definition unreported (d : rdbms) (c : list string) : Prop := exists o, lang (column_constraint d) c None o INone.

(** A clause [k_clause], and what stands before and after it. *)
Record clause := mk_clause { k_before : gr unit; k_clause : gr unit; k_after : gr unit }.
Definition any {A} (g : gr A) : gr unit := g ==> fun _ => tt.

(** Clauses of the constraints of columns. *)
Definition column_clauses (d : rdbms) : list clause :=
  match d with
  | PostgreSQL =>
    [mk_clause (any (kw ["PRIMARY"] ** kw ["KEY"])) GPostgres.index_parameters Eps;
     mk_clause (any (kw ["UNIQUE"])) GPostgres.index_parameters Eps;
     mk_clause (any (kw ["CHECK"] ** Brackets true)) (any GPostgres.no_inherit) Eps;
     mk_clause (any (kw ["REFERENCES"] ** GPostgres.table_name ** opt ["("] (kw ["("] ** GPostgres.name ** kw [")"])))
       (any GPostgres.ref_options) Eps]
  | MySQL =>
    [mk_clause (any (kw ["UNIQUE"])) (any (kw_ ["KEY"])) Eps;
     mk_clause (any (kw ["CHECK"] ** Brackets true)) (any (optkw false ["NOT"] ** kw_ ["ENFORCED"])) Eps;
     mk_clause (any (kw ["DEFAULT"] ** One true (CLit MySQL)))
       (any (kw_ ["ON"] ** kw_ ["UPDATE"] ** kw_ ["CURRENT_TIME"; "CURRENT_DATE"; "CURRENT_TIMESTAMP"])) Eps;
     mk_clause (any (kw ["REFERENCES"] ** GMysql.table_name ** opt ["("] (kw ["("] ** GMysql.name ** kw [")"])))
       (any GMysql.ref_options) Eps]
  | _ =>
    [mk_clause (any (kw ["PRIMARY"] ** kw ["KEY"])) (any (optkw false ["ASC"; "DESC"] ** GSqlite.conflict_clause))
       (any (optkw true ["AUTOINCREMENT"]));
     mk_clause (any (kw ["NOT"] ** kw ["NULL"])) (any GSqlite.conflict_clause) Eps;
     mk_clause (any (kw ["UNIQUE"])) (any GSqlite.conflict_clause) Eps;
     mk_clause (any (kw ["REFERENCES"] ** GSqlite.table_name ** opt ["("] (kw ["("] ** GSqlite.name ** kw [")"])))
       (any GSqlite.ref_options) Eps]
  end.

(** Clauses of table constraints, and the words about time zones after the types of times. *)
Definition element_clauses (d : rdbms) : list clause :=
  match d with
  | PostgreSQL =>
    [mk_clause (any (GPostgres.constraint_name ** kw ["PRIMARY"] ** kw ["KEY"] ** GPostgres.columns)) GPostgres.index_parameters Eps;
     mk_clause (any (GPostgres.constraint_name ** kw ["UNIQUE"] ** GPostgres.columns)) GPostgres.index_parameters Eps;
     mk_clause (any (GPostgres.constraint_name ** kw ["CHECK"] ** Brackets true)) (any GPostgres.no_inherit) Eps;
     mk_clause (any (GPostgres.constraint_name ** kw ["FOREIGN"] ** kw ["KEY"] ** GPostgres.columns ** kw ["REFERENCES"] **
       GPostgres.table_name ** opt ["("] GPostgres.columns)) (any GPostgres.ref_options) Eps;
     mk_clause (any (GPostgres.name ** kw ["TIME"; "TIMESTAMP"] ** GPostgres.digits1))
       (any (kw_ ["WITH"; "WITHOUT"] ** kw_ ["TIME"] ** kw_ ["ZONE"])) (any (GPostgres.constraint_name ** GPostgres.column_constraints))]
  | MySQL =>
    [mk_clause (any (GMysql.constraint_name ["PRIMARY"; "UNIQUE"; "FOREIGN"; "CHECK"] ** kw ["PRIMARY"] ** kw ["KEY"]))
       (any GMysql.index_type) (any (GMysql.keys true ** GMysql.index_options));
     mk_clause (any (GMysql.constraint_name ["PRIMARY"; "UNIQUE"; "FOREIGN"; "CHECK"] ** kw ["PRIMARY"] ** kw ["KEY"] **
       GMysql.index_type ** GMysql.keys true)) (any GMysql.index_options) Eps;
     mk_clause (any (GMysql.constraint_name ["PRIMARY"; "UNIQUE"; "FOREIGN"; "CHECK"] ** kw ["UNIQUE"]))
       (any (optkw false ["INDEX"; "KEY"])) (any (GMysql.name_or_keys false ** GMysql.index_type ** GMysql.keys true ** GMysql.index_options));
     mk_clause (any (GMysql.constraint_name ["PRIMARY"; "UNIQUE"; "FOREIGN"; "CHECK"] ** kw ["UNIQUE"] ** optkw false ["INDEX"; "KEY"]))
       (any (GMysql.name_ ** GMysql.index_type)) (any (GMysql.keys true ** GMysql.index_options));
     mk_clause (any (GMysql.constraint_name ["PRIMARY"; "UNIQUE"; "FOREIGN"; "CHECK"] ** kw ["UNIQUE"] ** optkw false ["INDEX"; "KEY"] **
       GMysql.name_or_keys false ** GMysql.index_type ** GMysql.keys true)) (any GMysql.index_options) Eps;
     mk_clause (any (GMysql.constraint_name ["PRIMARY"; "UNIQUE"; "FOREIGN"; "CHECK"] ** kw ["CHECK"] ** Brackets true))
       (any (optkw false ["NOT"] ** kw_ ["ENFORCED"])) Eps;
     mk_clause (any (GMysql.constraint_name ["PRIMARY"; "UNIQUE"; "FOREIGN"; "CHECK"] ** kw ["FOREIGN"] ** kw ["KEY"]))
       (any GMysql.name_) (any (GMysql.columns ** kw ["REFERENCES"] ** GMysql.table_name ** GMysql.keys true ** GMysql.ref_options));
     mk_clause (any (GMysql.constraint_name ["PRIMARY"; "UNIQUE"; "FOREIGN"; "CHECK"] ** kw ["FOREIGN"] ** kw ["KEY"] **
       GMysql.name_or_keys false ** GMysql.columns ** kw ["REFERENCES"] ** GMysql.table_name ** GMysql.keys true))
       (any GMysql.ref_options) Eps;
     mk_clause (any (GMysql.name ** kw GMysql.time_types ** GMysql.digits1))
       (any (kw_ ["WITH"; "WITHOUT"] ** kw_ ["TIME"] ** kw_ ["ZONE"])) (any (GMysql.constraint_name ["CHECK"] ** GMysql.column_constraints))]
  | _ =>
    [mk_clause (any (GSqlite.constraint_name ** kw ["PRIMARY"] ** kw ["KEY"] ** GSqlite.columns)) (any GSqlite.conflict_clause) Eps;
     mk_clause (any (GSqlite.constraint_name ** kw ["UNIQUE"] ** GSqlite.columns)) (any GSqlite.conflict_clause) Eps;
     mk_clause (any (GSqlite.constraint_name ** kw ["FOREIGN"] ** kw ["KEY"] ** GSqlite.columns ** kw ["REFERENCES"] **
       GSqlite.table_name ** opt ["("] GSqlite.columns)) (any GSqlite.ref_options) Eps]
  end.

(** [p] is one of the clauses [l] between [r] and [q]. *)
Definition clause_in (l : list clause) (r p q : list string) : Prop :=
  exists k, In k l /\ (exists o, lang (k_before k) r None o tt) /\ (exists o, lang (k_clause k) p None o tt) /\ (exists o, lang (k_after k) q None o tt).
