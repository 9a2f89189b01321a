(** The grammar of MySQL scripts accepted by ddlparse, from the section "MySQL" of README.md.

    Differences from the README: table constraint CHECK (expr) [[NOT] ENFORCED] as in MySQL,
    not NO INHERIT; the word NOT after CHECK (expr) is skipped even if it belongs to a NOT NULL
    that follows; UNIQUE USING ... without an index name is not accepted; there is
    one constraint name per column, given before all of its constraints, and it may be left out
    before CHECK only; a column constraint keyword may be used once (NULL and NOT NULL count as
    the same, so do KEY and PRIMARY KEY, and AS and GENERATED ALWAYS AS); REFERENCES of a
    column does not need a column list, and takes one column.
    Not in the README: table options may be separated by commas; schema-qualified names in
    REFERENCES; several actions in one reference; DEFAULT literal ON UPDATE CURRENT_TIMESTAMP;
    CONSTRAINT name before INDEX, KEY, FULLTEXT and SPATIAL; values of options are any literals,
    strings or names; the other CREATE statements, which are skipped. *)
From Coq Require Import String List Bool.
From Verif Require Import GoStr Types Grammar Ast.
Import ListNotations.
Open Scope string_scope.
Open Scope gr_scope.

Definition name : gr string := One true (CName MySQL).
Definition name_ : gr string := One false (CName MySQL).
Definition str_ : gr string := One false (CStr MySQL).
Definition lit_ : gr string := One false (CLit MySQL).

(** [schema.]table *)
Definition table_name : gr (option string * string) :=
  name ** opt ["."] (kw ["."] ** name)
  ==> fun '(a, o) => match o with Some (_, b) => (Some a, b) | None => (None, a) end.
Definition table_name_ : gr unit := name_ ** opt ["."] (kw_ ["."] ** name_) ==> fun _ => tt.

(** (column, ...) *)
Definition columns : gr (list string) :=
  kw ["("] ** SepBy true name ** kw [")"] ==> fun '(_, (l, _)) => l.

Definition expr : gr (list string) := Brackets true.

(** {column_name [(length)] | (expr)} [ASC | DESC]: the column, if any *)
Definition key_part (keep : bool) : gr (option string) :=
  (Case ["("] of (Brackets false ==> fun _ => None) or
   (One keep (CName MySQL) ** opt ["("] (kw_ ["("] ** One false CPos ** kw_ [")"])
    ==> fun '(n, _) => Some n)) **
  optkw false ["ASC"; "DESC"] ==> fst.

Definition some_of (l : list (option string)) : list string :=
  flat_map (fun o => match o with Some n => [n] | None => [] end) l.

(** (key-part, ...) *)
Definition keys (keep : bool) : gr (list string) :=
  One keep (CW ["("]) ** SepBy keep (key_part keep) ** kw [")"] ==> fun '(_, (l, _)) => some_of l.

(** (n) *)
Definition digits1 : gr (option (string * option string)) :=
  opt ["("] (kw ["("] ** One true CPos ** kw [")"] ==> fun '(_, (n, _)) => (n, None)).
(** (n) or (n, m) *)
Definition digits2 : gr (option (string * option string)) :=
  opt ["("] (kw ["("] ** One true CPos ** opt [","] (kw [","] ** One true CPos ==> snd) ** kw [")"]
             ==> fun '(_, (n, (m, _))) => (n, m)).

Definition char_types := ["VARCHAR"; "CHAR"; "BINARY"; "VARBINARY"; "BLOB"; "TEXT"].
Definition number_types := ["NUMERIC"; "DECIMAL"; "FLOAT"; "REAL"; "DOUBLE"].
Definition int_types := ["BIT"; "TINYINT"; "SMALLINT"; "MEDIUMINT"; "INT"; "INTEGER"; "BIGINT"].
Definition time_types := ["TIME"; "DATETIME"; "TIMESTAMP"; "YEAR"].
(** types without parameters *)
Definition plain_types : list string :=
  ["SERIAL"; "BOOL"; "BOOLEAN"; "DATE"; "GEOMETRY"; "POINT"; "LINESTRING"; "POLYGON";
   "MULTIPOINT"; "MULTILINESTRING"; "MULTIPOLYGON"; "GEOMETRYCOLLECTION"; "JSON"].

Definition type_name : gr a_type :=
  Case char_types of (kw char_types ** digits1 ==> fun '(w, d) => mk_atype w false d) or
  Case number_types of (kw number_types ** digits2 ==> fun '(w, d) => mk_atype w false d) or
  Case int_types of (kw int_types ** digits1 ==> fun '(w, d) => mk_atype w false d) or
  Case time_types of
    (kw time_types ** digits1 **
     opt ["WITH"; "WITHOUT"] (kw_ ["WITH"; "WITHOUT"] ** kw_ ["TIME"] ** kw_ ["ZONE"])
     ==> fun '(w, (d, _)) => mk_atype w false d) or
  (kw plain_types ==> fun w => mk_atype w false None).

(** [PRIMARY] KEY *)
Definition c_primary : gr a_item :=
  Case ["KEY"] of (Put ["PRIMARY"] ** Put ["KEY"] ** kw_ ["KEY"] ==> fun _ => IPrimary false) or
  (kw ["PRIMARY"] ** kw ["KEY"] ==> fun _ => IPrimary false).
Definition c_notnull : gr a_item := kw ["NOT"] ** kw ["NULL"] ==> fun _ => INotNull.
Definition c_null : gr a_item := kw_ ["NULL"] ==> fun _ => INone.

(** an optional word that is skipped if it is there *)
Definition skip_word (ws : list string) : gr unit :=
  Case ws of (kw_ ws ==> fun _ => tt) or NotNext ws.

Definition c_unique : gr a_item := kw ["UNIQUE"] ** skip_word ["KEY"] ==> fun _ => IUnique.
(** CHECK (expr) [[NOT] ENFORCED] *)
Definition check : gr (list string) :=
  kw ["CHECK"] ** expr ** skip_word ["NOT"] ** optkw false ["ENFORCED"] ==> fun '(_, (e, _)) => e.
Definition c_check : gr a_item := check ==> ICheck.
Definition c_default : gr a_item :=
  kw ["DEFAULT"] **
  (Case ["("] of (expr ==> AExpr) or
   (One true (CLit MySQL) **
    opt ["ON"] (kw_ ["ON"] ** kw_ ["UPDATE"] **
                kw_ ["CURRENT_TIME"; "CURRENT_DATE"; "CURRENT_TIMESTAMP"])
    ==> fun '(t, _) => ALit t))
  ==> fun '(_, x) => IDefault x.
Definition c_collate : gr a_item := kw ["COLLATE"] ** name ==> fun '(_, n) => ICollate n.

(** SET NULL | SET DEFAULT | CASCADE | RESTRICT | NO ACTION *)
Definition fk_action : gr unit :=
  Case ["SET"] of (kw_ ["SET"] ** kw_ ["NULL"; "DEFAULT"] ==> fun _ => tt) or
  Case ["CASCADE"; "RESTRICT"] of (kw_ ["CASCADE"; "RESTRICT"] ==> fun _ => tt) or
  (kw_ ["NO"] ** kw_ ["ACTION"] ==> fun _ => tt).

(** ON {DELETE | UPDATE} action; MATCH ... *)
Definition ref_option : gr unit :=
  Case ["ON"] of (kw_ ["ON"] ** kw_ ["DELETE"; "UPDATE"] ** fk_action ==> fun _ => tt) or
  (kw_ ["MATCH"] ** kw_ ["SIMPLE"; "PARTIAL"; "FULL"] ==> fun _ => tt).
Definition ref_options := While (next_in ["ON"; "MATCH"]) ref_option.

(** REFERENCES table [(column)] options *)
Definition c_references : gr a_item :=
  kw ["REFERENCES"] ** table_name ** opt ["("] (kw ["("] ** name ** kw [")"]) ** ref_options
  ==> fun '(_, ((s, t), (o, _))) =>
        IReferences (mk_aref s t (match o with Some (_, (c, _)) => Some [c] | None => None end)).

(** [GENERATED ALWAYS] AS (expr) *)
Definition c_generated : gr a_item :=
  opt ["GENERATED"] (kw_ ["GENERATED"] ** kw_ ["ALWAYS"]) ** kw_ ["AS"] ** Brackets false
  ==> fun _ => INone.
Definition c_comment : gr a_item := kw_ ["COMMENT"] ** str_ ==> fun _ => INone.
Definition c_format : gr a_item :=
  kw_ ["COLUMN_FORMAT"] ** kw_ ["FIXED"; "DYNAMIC"; "DEFAULT"] ==> fun _ => INone.
Definition c_engine : gr a_item :=
  kw_ ["ENGINE_ATTRIBUTE"; "SECONDARY_ENGINE_ATTRIBUTE"] ** optkw false ["="] ** str_
  ==> fun _ => INone.
Definition c_storage : gr a_item := kw_ ["STORAGE"] ** kw_ ["DISK"; "MEMORY"] ==> fun _ => INone.
Definition c_auto : gr a_item := kw ["AUTO_INCREMENT"] ==> fun _ => IAuto.

Definition column_constraint : gr a_item :=
  Case ["PRIMARY"; "KEY"] of c_primary or
  Case ["NOT"] of c_notnull or
  Case ["NULL"] of c_null or
  Case ["UNIQUE"] of c_unique or
  Case ["CHECK"] of c_check or
  Case ["DEFAULT"] of c_default or
  Case ["COLLATE"] of c_collate or
  Case ["REFERENCES"] of c_references or
  Case ["GENERATED"; "AS"] of c_generated or
  Case ["COMMENT"] of c_comment or
  Case ["COLUMN_FORMAT"] of c_format or
  Case ["ENGINE_ATTRIBUTE"; "SECONDARY_ENGINE_ATTRIBUTE"] of c_engine or
  Case ["STORAGE"] of c_storage or
  Case ["AUTO_INCREMENT"] of c_auto or
  (kw_ ["VISIBLE"; "INVISIBLE"; "VIRTUAL"; "STORED"] ==> fun _ => INone).
Definition constraint_words : list string :=
  ["PRIMARY"; "KEY"; "NOT"; "NULL"; "UNIQUE"; "CHECK"; "DEFAULT"; "COLLATE"; "REFERENCES";
   "GENERATED"; "AS"; "COMMENT"; "COLUMN_FORMAT"; "ENGINE_ATTRIBUTE"; "SECONDARY_ENGINE_ATTRIBUTE";
   "STORAGE"; "VISIBLE"; "INVISIBLE"; "VIRTUAL"; "STORED"; "AUTO_INCREMENT"].
(** any number of column constraints, no two of the same kind *)
Definition constraint_key (t : string) : string :=
  if matches ["NOT"] t then "NULL"
  else if matches ["PRIMARY"; "KEY"] t then "PRIMARY"
  else if matches ["GENERATED"; "AS"] t then "GENERATED"
  else to_upper t.
Definition column_constraints : gr (list a_item) :=
  WhileU (next_in constraint_words) constraint_key column_constraint.

(** [CONSTRAINT [name]], without name only before one of the words [ws] *)
Definition constraint_name (ws : list string) : gr (option string) :=
  Case ["CONSTRAINT"] of
    (kw ["CONSTRAINT"] ** (Case ws of (IsNext ws ==> fun _ => None) or (name ==> Some)) ==> snd) or
  (Eps ==> fun _ => None).

(** column_name type_name [column-constraint ...] *)
Definition column : gr a_element :=
  name ** type_name ** constraint_name ["CHECK"] ** column_constraints
  ==> fun '(n, (t, (c, l))) => EColumn (mk_acolumn n t c l).

(** USING {BTREE | HASH} *)
Definition index_type := opt ["USING"] (kw_ ["USING"] ** kw_ ["BTREE"; "HASH"]).
Definition index_option : gr unit :=
  Case ["KEY_BLOCK_SIZE"] of
    (kw_ ["KEY_BLOCK_SIZE"] ** optkw false ["="] ** lit_ ==> fun _ => tt) or
  Case ["USING"] of (kw_ ["USING"] ** kw_ ["BTREE"; "HASH"] ==> fun _ => tt) or
  Case ["WITH"] of (kw_ ["WITH"] ** kw_ ["PARSER"] ** name_ ==> fun _ => tt) or
  Case ["COMMENT"] of (kw_ ["COMMENT"] ** str_ ==> fun _ => tt) or
  Case ["VISIBLE"; "INVISIBLE"] of (kw_ ["VISIBLE"; "INVISIBLE"] ==> fun _ => tt) or
  (kw_ ["ENGINE_ATTRIBUTE"; "SECONDARY_ENGINE_ATTRIBUTE"] ** optkw false ["="] ** str_
   ==> fun _ => tt).
Definition index_options :=
  While (next_in ["KEY_BLOCK_SIZE"; "USING"; "WITH"; "COMMENT"; "VISIBLE"; "INVISIBLE";
                  "ENGINE_ATTRIBUTE"; "SECONDARY_ENGINE_ATTRIBUTE"]) index_option.

Definition t_primary : gr a_body :=
  kw ["PRIMARY"] ** kw ["KEY"] ** index_type ** keys true ** index_options
  ==> fun '(_, (_, (_, (l, _)))) => BPrimary l.
(** a name, or the bracket of a key list *)
Definition name_or_keys (keep : bool) : gr unit :=
  Case ["("] of IsNext ["("] or (One keep (CName MySQL) ==> fun _ => tt).
Definition t_unique : gr a_body :=
  kw ["UNIQUE"] ** optkw false ["INDEX"; "KEY"] ** name_or_keys false ** index_type **
  keys true ** index_options
  ==> fun '(_, (_, (_, (_, (l, _))))) => BUnique l.
Definition t_foreign : gr a_body :=
  kw ["FOREIGN"] ** kw ["KEY"] ** name_or_keys false ** columns ** kw ["REFERENCES"] **
  table_name ** keys true ** ref_options
  ==> fun '(_, (_, (_, (l, (_, ((s, t), (k, _))))))) => BForeign l (mk_aref s t (Some k)).
Definition t_check : gr a_body := check ==> BCheck.
Definition t_index : gr a_body :=
  kw_ ["INDEX"; "KEY"] **
  (Case ["USING"] of IsNext ["USING"] or name_or_keys false) ** index_type **
  keys false ** index_options ==> fun _ => BIndex.
Definition t_fulltext : gr a_body :=
  kw_ ["FULLTEXT"; "SPATIAL"] ** optkw false ["INDEX"; "KEY"] ** name_or_keys true **
  keys false ** index_options ==> fun _ => BIndex.

Definition table_constraint : gr a_element :=
  constraint_name ["PRIMARY"; "UNIQUE"; "FOREIGN"; "CHECK"] **
  (Case ["PRIMARY"] of t_primary or
   Case ["UNIQUE"] of t_unique or
   Case ["FOREIGN"] of t_foreign or
   Case ["CHECK"] of t_check or
   Case ["INDEX"; "KEY"] of t_index or
   t_fulltext)
  ==> fun '(n, b) => EConstraint n b.

Definition element : gr a_element :=
  Case ["CONSTRAINT"; "PRIMARY"; "UNIQUE"; "FOREIGN"; "INDEX"; "KEY"; "FULLTEXT"; "SPATIAL"; "CHECK"]
    of table_constraint
  or column.

(** table-options *)
Definition value_options :=
  ["AUTOEXTEND_SIZE"; "AUTO_INCREMENT"; "AVG_ROW_LENGTH"; "KEY_BLOCK_SIZE"; "MAX_ROWS";
   "MIN_ROWS"; "STATS_SAMPLE_PAGES"].
Definition string_options :=
  ["COMMENT"; "ENGINE_ATTRIBUTE"; "PASSWORD"; "SECONDARY_ENGINE_ATTRIBUTE"; "CONNECTION";
   "COMPRESSION"; "ENCRYPTION"].
Definition table_option : gr unit :=
  Case value_options of (kw_ value_options ** optkw false ["="] ** lit_ ==> fun _ => tt) or
  Case string_options of (kw_ string_options ** optkw false ["="] ** str_ ==> fun _ => tt) or
  Case ["COLLATE"; "ENGINE"; "CHARACTER"] of
    ((Case ["CHARACTER"] of (kw_ ["CHARACTER"] ** kw_ ["SET"] ==> fun _ => tt) or
      (kw_ ["COLLATE"; "ENGINE"] ==> fun _ => tt)) **
     optkw false ["="] ** name_ ==> fun _ => tt) or
  Case ["CHECKSUM"; "DELAY_KEY_WRITE"] of
    (kw_ ["CHECKSUM"; "DELAY_KEY_WRITE"] ** optkw false ["="] ** kw_ ["0"; "1"] ==> fun _ => tt) or
  Case ["PACK_KEYS"; "STATS_AUTO_RECALC"; "STATS_PERSISTENT"] of
    (kw_ ["PACK_KEYS"; "STATS_AUTO_RECALC"; "STATS_PERSISTENT"] ** optkw false ["="] **
     kw_ ["0"; "1"; "DEFAULT"] ==> fun _ => tt) or
  Case ["DATA"; "INDEX"] of
    (kw_ ["DATA"; "INDEX"] ** kw_ ["DIRECTORY"] ** optkw false ["="] ** lit_ ==> fun _ => tt) or
  Case ["TABLESPACE"] of
    (kw_ ["TABLESPACE"] ** name_ ** opt ["STORAGE"] (kw_ ["STORAGE"] ** kw_ ["DISK"; "MEMORY"])
     ==> fun _ => tt) or
  Case ["DEFAULT"] of
    (kw_ ["DEFAULT"] **
     (Case ["CHARACTER"] of (kw_ ["CHARACTER"] ** kw_ ["SET"] ==> fun _ => tt) or
      (kw_ ["COLLATE"] ==> fun _ => tt)) ** optkw false ["="] ** name_ ==> fun _ => tt) or
  Case ["UNION"] of
    (kw_ ["UNION"] ** optkw false ["="] ** kw_ ["("] ** SepBy false table_name_ ** kw_ [")"]
     ==> fun _ => tt) or
  Case ["INSERT_METHOD"] of
    (kw_ ["INSERT_METHOD"] ** optkw false ["="] ** kw_ ["NO"; "FIRST"; "LAST"] ==> fun _ => tt) or
  (kw_ ["ROW_FORMAT"] ** optkw false ["="] **
   kw_ ["DEFAULT"; "DYNAMIC"; "FIXED"; "COMPRESSED"; "REDUNDANT"; "COMPACT"] ==> fun _ => tt).
Definition table_options :=
  While (mk_la [";"] true false) (optkw false [","] ** table_option).

(** [IF NOT EXISTS] *)
Definition if_not_exists : gr bool :=
  Case ["IF"] of (kw ["IF"] ** kw ["NOT"] ** kw ["EXISTS"] ==> fun _ => true) or
  (Eps ==> fun _ => false).

(** TABLE [IF NOT EXISTS] name ( element, ... ) table-options ; *)
Definition create_table : gr a_stmt :=
  Put ["CREATE"] ** kw ["TABLE"] ** if_not_exists ** table_name **
  kw ["("] ** SepBy true element ** kw [")"] ** table_options ** kw [";"]
  ==> fun '(_, (_, (i, ((s, t), (_, (l, _)))))) => STable (mk_atable i s t l).

(** a statement that is skipped *)
Definition create_other : gr a_stmt :=
  kw_ ["VIEW"; "TRIGGER"; "INDEX"; "DATABASE"; "UNIQUE"; "PROCEDURE"; "SERVER";
       "FUNCTION"; "USER"; "EVENT"; "SEQUENCE"; "TABLESPACE"; "ROLE"; "LOGIN"] **
  Skip ** kw_ [";"] ==> fun _ => SOther.

Definition statement : gr a_stmt :=
  kw_ ["CREATE"] ** (Case ["TABLE"] of create_table or create_other) ==> snd.

Definition script : gr (list a_stmt) := While (mk_la [] true false) statement.
