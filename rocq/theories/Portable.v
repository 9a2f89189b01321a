(** Scripts that mean the same in several dialects.  The grammar below uses only what SQLite, PostgreSQL and MySQL have
    in common ([three = true]), or PostgreSQL and MySQL ([three = false]). *)
From Coq Require Import String Ascii List Bool.
From Verif Require Import GoStr Types Grammar Ast.
Import ListNotations.
Open Scope string_scope.
Open Scope gr_scope.

Definition dialects (three : bool) : list rdbms := if three then [SQLite; PostgreSQL; MySQL] else [PostgreSQL; MySQL].

Section Portable.
Variables (three : bool) (d : rdbms).

Definition p_name : gr string := One true (CName d).
Definition p_table_name : gr (option string * string) :=
  p_name ** opt ["."] (kw ["."] ** p_name)
  ==> fun '(a, o) => match o with Some (_, b) => (Some a, b) | None => (None, a) end.
Definition p_columns : gr (list string) := kw ["("] ** SepBy true p_name ** kw [")"] ==> fun '(_, (l, _)) => l.
Definition p_expr : gr (list string) := Brackets true.

(** types *)
Definition p_digits1 : gr (option (string * option string)) :=
  opt ["("] (kw ["("] ** One true CPos ** kw [")"] ==> fun '(_, (n, _)) => (n, None)).
Definition p_digits2 : gr (option (string * option string)) :=
  opt ["("] (kw ["("] ** One true CPos ** opt [","] (kw [","] ** One true CPos ==> snd) ** kw [")"]
             ==> fun '(_, (n, (m, _))) => (n, m)).
Definition p_zone := opt ["WITH"; "WITHOUT"] (kw_ ["WITH"; "WITHOUT"] ** kw_ ["TIME"] ** kw_ ["ZONE"]).
Definition p_plain : list string :=
  ["SMALLINT"; "INT"; "INTEGER"; "BIGINT"; "REAL"; "TEXT"; "SERIAL"; "BOOL"; "BOOLEAN"; "DATE"; "POINT"; "POLYGON"; "JSON"].
Definition p_type : gr a_type :=
  if three then kw ["TEXT"; "NUMERIC"; "INTEGER"; "REAL"] ==> fun w => mk_atype w false None
  else
    Case ["VARCHAR"; "CHAR"; "BIT"] of (kw ["VARCHAR"; "CHAR"; "BIT"] ** p_digits1 ==> fun '(w, n) => mk_atype w false n) or
    Case ["NUMERIC"; "DECIMAL"] of (kw ["NUMERIC"; "DECIMAL"] ** p_digits2 ==> fun '(w, n) => mk_atype w false n) or
    Case ["TIME"; "TIMESTAMP"] of (kw ["TIME"; "TIMESTAMP"] ** p_digits1 ** p_zone ==> fun '(w, (n, _)) => mk_atype w false n) or
    (kw p_plain ==> fun w => mk_atype w false None).

(** references *)
Definition p_action : gr unit :=
  Case ["SET"] of (kw_ ["SET"] ** kw_ ["NULL"; "DEFAULT"] ==> fun _ => tt) or
  Case ["CASCADE"; "RESTRICT"] of (kw_ ["CASCADE"; "RESTRICT"] ==> fun _ => tt) or
  (kw_ ["NO"] ** kw_ ["ACTION"] ==> fun _ => tt).
Definition p_option : gr unit :=
  Case ["ON"] of (kw_ ["ON"] ** kw_ ["DELETE"; "UPDATE"] ** p_action ==> fun _ => tt) or
  (kw_ ["MATCH"] ** kw_ ["SIMPLE"; "PARTIAL"; "FULL"] ==> fun _ => tt).
Definition p_options := While (next_in ["ON"; "MATCH"]) p_option.

(** Constraints of a column.  A word NOT may not come directly after CHECK (...), where MySQL takes it for NOT ENFORCED,
    nor after REFERENCES ..., where SQLite takes it for NOT DEFERRABLE. *)
Definition p_primary : gr a_item := kw ["PRIMARY"] ** kw ["KEY"] ==> fun _ => IPrimary false.
Definition p_notnull : gr a_item := kw ["NOT"] ** kw ["NULL"] ==> fun _ => INotNull.
Definition p_unique : gr a_item := kw ["UNIQUE"] ==> fun _ => IUnique.
Definition p_check : gr a_item := kw ["CHECK"] ** p_expr ** NotNext ["NOT"] ==> fun '(_, (e, _)) => ICheck e.
Definition p_default : gr a_item :=
  kw ["DEFAULT"] ** (Case ["("] of (p_expr ==> AExpr) or (One true (CLit d) ==> ALit)) ==> fun '(_, x) => IDefault x.
Definition p_references : gr a_item :=
  kw ["REFERENCES"] ** p_name ** opt ["("] (kw ["("] ** p_name ** kw [")"]) ** p_options ** (if three then NotNext ["NOT"] else Eps)
  ==> fun '(_, (t, (o, _))) => IReferences (mk_aref None t (match o with Some (_, (c, _)) => Some [c] | None => None end)).
Definition p_item : gr a_item :=
  Case ["PRIMARY"] of p_primary or
  Case ["NOT"] of p_notnull or
  Case ["UNIQUE"] of p_unique or
  Case ["CHECK"] of p_check or
  Case ["DEFAULT"] of p_default or
  p_references.
Definition p_words : list string := ["PRIMARY"; "NOT"; "UNIQUE"; "CHECK"; "DEFAULT"; "REFERENCES"].
Definition p_items : gr (list a_item) := WhileU (next_in p_words) to_upper p_item.
Definition p_cname : gr (option string) := opt ["CONSTRAINT"] (kw ["CONSTRAINT"] ** p_name ==> snd).
Definition p_column : gr a_element :=
  p_name ** p_type ** p_cname ** p_items ==> fun '(n, (t, (c, l))) => EColumn (mk_acolumn n t c l).

(** Table constraints *)
Definition p_body : gr a_body :=
  Case ["PRIMARY"] of (kw ["PRIMARY"] ** kw ["KEY"] ** p_columns ==> fun '(_, (_, l)) => BPrimary l) or
  Case ["UNIQUE"] of (kw ["UNIQUE"] ** p_columns ==> fun '(_, l) => BUnique l) or
  Case ["CHECK"] of (kw ["CHECK"] ** p_expr ==> fun '(_, e) => BCheck e) or
  (kw ["FOREIGN"] ** kw ["KEY"] ** p_columns ** kw ["REFERENCES"] ** p_name ** p_columns ** p_options
   ==> fun '(_, (_, (l, (_, (t, (k, _)))))) => BForeign l (mk_aref None t (Some k))).
Definition p_constraint : gr a_element := p_cname ** p_body ==> fun '(n, b) => EConstraint n b.
Definition p_element : gr a_element :=
  Case ["CONSTRAINT"; "PRIMARY"; "UNIQUE"; "CHECK"; "FOREIGN"] of p_constraint or p_column.

(** Statements *)
Definition p_ine : gr bool :=
  Case ["IF"] of (kw ["IF"] ** kw ["NOT"] ** kw ["EXISTS"] ==> fun _ => true) or (NotNext ["IF"] ==> fun _ => false).
Definition p_create_table : gr a_stmt :=
  kw ["TABLE"] ** p_ine ** p_table_name ** kw ["("] ** SepBy true p_element ** kw [")"] ** kw [";"]
  ==> fun '(_, (i, ((s, t), (_, (l, _))))) => STable (mk_atable i s t l).
Definition p_create_other : gr a_stmt := kw_ ["VIEW"; "TRIGGER"; "INDEX"] ** Skip ** kw_ [";"] ==> fun _ => SOther.
Definition p_statement : gr a_stmt := kw_ ["CREATE"] ** (Case ["TABLE"] of p_create_table or p_create_other) ==> snd.
Definition p_script : gr (list a_stmt) := While (mk_la [] true false) p_statement.
End Portable.

(** The tokens [l] are a script of the common grammar, whose names and literals are legal in all the dialects. *)
Definition portable (three : bool) (l : list string) (stmts : list a_stmt) : Prop :=
  forall d, In d (dialects three) -> exists out, lang (p_script three d) l None out stmts.

(** The three dialects *)
Definition known (d : rdbms) : Prop := In d [SQLite; PostgreSQL; MySQL].
(** Texts that the lexers of all dialects divide alike: without number signs and back quotes. *)
Definition has_char (c : ascii) (s : string) : Prop := In c (list_ascii_of_string s).
Definition plain_text (ddl : string) : Prop := ~ has_char "#" ddl /\ ~ has_char "`" ddl.
