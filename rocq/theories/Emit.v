(** What the converter gets: the tokens that the validators emit for a script.  The relations
    below hold for all three dialects; from them the converter's result is determined.
    (Proof device.) *)
From Coq Require Import String Ascii List Bool Arith.
From Verif Require Import GoStr GoNum Types Grammar Ast.
Import ListNotations.
Open Scope string_scope.

(** Tokens made by the lexer: not empty, and a token that begins with a quotation mark has
    at least two characters. *)
Definition any_quote : list string := [""""; "'"; "`"].
Definition good (t : string) : Prop := t <> "" /\ (quoted any_quote t = true -> 2 <= String.length t).

Definition kwd (w t : string) : Prop := matches [w] t = true.
Definition name_tok (d : rdbms) (t : string) : Prop := legal_name d t = true /\ good t.
Definition lit_tok (d : rdbms) (t : string) : Prop := literal d t = true /\ good t.

Definition em_expr (e : list string) : Prop := exists b, balanced b /\ e = ("(" :: b ++ [")"])%list.

(** bracketed column list: names and commas *)
Definition em_names (d : rdbms) (cols : list string) (o : list string) : Prop :=
  exists l, o = ("(" :: l ++ [")"])%list /\
    Forall (fun t => t = "," \/ name_tok d t) l /\
    cols = filter (fun t => negb (t =? ",")) l.

Inductive em_ref (d : rdbms) : a_ref -> list string -> Prop :=
| er_table k t : kwd "REFERENCES" k -> name_tok d t -> em_ref d (mk_aref None t None) [k; t]
| er_columns k t cols o : kwd "REFERENCES" k -> name_tok d t -> em_names d cols o ->
    em_ref d (mk_aref None t (Some cols)) (k :: t :: o)
| er_schema k s t : kwd "REFERENCES" k -> name_tok d s -> name_tok d t ->
    em_ref d (mk_aref (Some s) t None) [k; s; "."; t]
| er_schema_columns k s t cols o : kwd "REFERENCES" k -> name_tok d s -> name_tok d t -> em_names d cols o ->
    em_ref d (mk_aref (Some s) t (Some cols)) (k :: s :: "." :: t :: o).

(** [em_item d i h o]: the constraint [i] of a column begins with the word [h] in the text, and [o] is emitted. *)
Inductive em_item (d : rdbms) : a_item -> string -> list string -> Prop :=
| ei_primary_key h p k : matches ["CHECK"; "DEFAULT"; "COLLATE"; "REFERENCES"] h = false -> kwd "PRIMARY" p ->
    k <> "," -> em_item d (IPrimary false) h [p; k]
| ei_primary_auto h p k a : matches ["CHECK"; "DEFAULT"; "COLLATE"; "REFERENCES"] h = false -> kwd "PRIMARY" p ->
    k <> "," -> matches ["AUTOINCREMENT"; "AUTO_INCREMENT"] a = true -> em_item d (IPrimary true) h [p; k; a]
| ei_auto h : matches ["AUTOINCREMENT"; "AUTO_INCREMENT"] h = true -> em_item d IAuto h [h]
| ei_notnull h k : kwd "NOT" h -> k <> "," -> em_item d INotNull h [h; k]
| ei_unique h : kwd "UNIQUE" h -> em_item d IUnique h [h]
| ei_default_lit h t : kwd "DEFAULT" h -> lit_tok d t -> em_item d (IDefault (ALit t)) h [h; t]
| ei_default_expr h e : kwd "DEFAULT" h -> em_expr e -> em_item d (IDefault (AExpr e)) h (h :: e)
| ei_check h e : kwd "CHECK" h -> em_expr e -> em_item d (ICheck e) h (h :: e)
| ei_collate h t : kwd "COLLATE" h -> t <> "," -> good t -> legal_name d t = true \/ matches ["BINARY"; "NOCASE"; "RTRIM"] t = true -> em_item d (ICollate t) h [h; t]
| ei_references h r o : kwd "REFERENCES" h -> em_ref d r o -> em_item d (IReferences r) h o
| ei_none h : matches ["CHECK"; "DEFAULT"; "COLLATE"; "REFERENCES"] h = false -> em_item d INone h [].

Inductive em_items (d : rdbms) : list a_item -> list string -> list string -> Prop :=
| eis_nil : em_items d [] [] []
| eis_cons i is h hs o os : em_item d i h o -> em_items d is hs os -> em_items d (i :: is) (h :: hs) (o ++ os).

(** type *)
Inductive em_digits : option (string * option string) -> list string -> Prop :=
| ed_none : em_digits None []
| ed_one n : n <> "," -> is_positive_integer_token n = true -> em_digits (Some (n, None)) ["("; n; ")"]
| ed_two n m : n <> "," -> m <> "," -> is_positive_integer_token n = true -> is_positive_integer_token m = true ->
    em_digits (Some (n, Some m)) ["("; n; ","; m; ")"].
(** the words with which types begin, in all dialects *)
Definition type_words : list string :=
  ["TEXT"; "NUMERIC"; "INTEGER"; "REAL"; "NONE"; "BIT"; "CHARACTER"; "VARBIT"; "VARCHAR"; "CHAR"; "DECIMAL";
   "DOUBLE"; "TIME"; "TIMESTAMP"; "BIGINT"; "INT8"; "BIGSERIAL"; "SERIAL8"; "BOOLEAN"; "BOOL"; "BOX"; "BYTEA";
   "CIDR"; "CIRCLE"; "DATE"; "FLOAT8"; "INET"; "INT"; "INT4"; "JSON"; "JSONB"; "LINE"; "LSEG"; "MACADDR";
   "MACADDR8"; "MONEY"; "PATH"; "PG_LSN"; "PG_SNAPSHOT"; "POINT"; "POLYGON"; "FLOAT4"; "SMALLINT"; "INT2";
   "SMALLSERIAL"; "SERIAL2"; "SERIAL"; "SERIAL4"; "TIMETZ"; "TIMESTAMPTZ"; "TSQUERY"; "TSVECTOR";
   "TXID_SNAPSHOT"; "UUID"; "XML"; "BINARY"; "VARBINARY"; "BLOB"; "FLOAT"; "TINYINT"; "MEDIUMINT"; "DATETIME";
   "YEAR"; "GEOMETRY"; "LINESTRING"; "MULTIPOINT"; "MULTILINESTRING"; "MULTIPOLYGON"; "GEOMETRYCOLLECTION"].
Inductive em_type : a_type -> list string -> Prop :=
| et_plain w dg o : matches type_words w = true -> em_digits dg o -> em_type (mk_atype w false dg) (w :: o)
| et_varying w v dg o : matches type_words w = true -> kwd "VARYING" v -> em_digits dg o -> em_type (mk_atype w true dg) (w :: v :: o).

(** [CONSTRAINT [name]]; without name only if one of [ws] is next in [l] *)
Inductive em_cname (d : rdbms) (ws : list string) (l : list string) : option string -> list string -> Prop :=
| ec_none : em_cname d ws l None []
| ec_anon k t l' : kwd "CONSTRAINT" k -> l = t :: l' -> matches ws t = true -> em_cname d ws l None [k]
| ec_name k t : kwd "CONSTRAINT" k -> name_tok d t -> em_cname d ws l (Some t) [k; t].

(** The words under which constraints of a column are registered (no two may be the same). *)
Definition key_ok (key : string -> string) : Prop :=
  forall w t, In w ["CHECK"; "DEFAULT"; "COLLATE"; "REFERENCES"] -> kwd w t -> key t = w.

Inductive em_column (d : rdbms) : a_column -> list string -> Prop :=
| ecol n ty c is ot oc oi hs key : name_tok d n -> em_type ty ot -> em_cname d ["CHECK"] oi c oc ->
    em_items d is hs oi -> key_ok key -> NoDup (map key hs) ->
    em_column d (mk_acolumn n ty c is) (n :: ot ++ oc ++ oi)%list.

Inductive em_body (d : rdbms) : a_body -> list string -> Prop :=
| eb_primary p k cols o : kwd "PRIMARY" p -> k <> "," -> em_names d cols o -> em_body d (BPrimary cols) (p :: k :: o)
| eb_unique k cols o : kwd "UNIQUE" k -> em_names d cols o -> em_body d (BUnique cols) (k :: o)
| eb_check k e : kwd "CHECK" k -> em_expr e -> em_body d (BCheck e) (k :: e)
| eb_foreign f k cols o r o2 : kwd "FOREIGN" f -> k <> "," -> em_names d cols o -> em_ref d r o2 ->
    em_body d (BForeign cols r) (f :: k :: o ++ o2)
| eb_none : d = PostgreSQL -> em_body d BNone []
| eb_index o : d = MySQL -> o = [")"] \/ (exists n, name_tok d n /\ o = [n; ")"]) -> em_body d BIndex o.

Inductive em_element (d : rdbms) : a_element -> list string -> Prop :=
| ee_column c o : em_column d c o -> em_element d (EColumn c) o
| ee_constraint n b oc ob : em_cname d ["PRIMARY"; "UNIQUE"; "CHECK"; "FOREIGN"] ob n oc -> em_body d b ob ->
    em_element d (EConstraint n b) (oc ++ ob).

(** elements, separated by commas *)
Inductive em_elements (d : rdbms) : list a_element -> list string -> Prop :=
| ees_one e o : em_element d e o -> em_elements d [e] o
| ees_cons e es o os : em_element d e o -> em_elements d es os -> em_elements d (e :: es) (o ++ "," :: os).

Inductive em_table (d : rdbms) : a_table -> list string -> Prop :=
| etab (i : bool) s t es c k oi os oe : kwd "CREATE" c -> kwd "TABLE" k ->
    (if i then exists i1 i2 i3, oi = [i1; i2; i3] /\ kwd "IF" i1 /\ kwd "NOT" i2 /\ i3 <> "," else oi = []) ->
    match s with
    | Some s => os = [s; "."; t] /\ name_tok d s /\ (i = false -> matches ["IF"] s = false)
    | None => os = [t] /\ (i = false -> matches ["IF"] t = false)
    end ->
    name_tok d t -> em_elements d es oe ->
    em_table d (mk_atable i s t es) (c :: k :: oi ++ os ++ "(" :: oe ++ [")"; ";"])%list.

Inductive em_script (d : rdbms) : list a_stmt -> list string -> Prop :=
| es_nil : em_script d [] []
| es_table t ss o os : em_table d t o -> em_script d ss os -> em_script d (STable t :: ss) (o ++ os)
| es_other ss os : em_script d ss os -> em_script d (SOther :: ss) os.
