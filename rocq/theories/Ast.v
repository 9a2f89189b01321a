(** What a DDL script says: an abstract syntax of statements, common to the three dialects, and
    the tables it stands for.

    The syntax keeps tokens as they are written (names with their quotes).  Nothing in this
    file refers to the model of the converter. *)
From Coq Require Import String Ascii ZArith List Bool.
From Verif Require Import GoStr Unicode GoNum Types Grammar.
Import ListNotations.
Open Scope string_scope.

(** REFERENCES [schema.]table [(columns)] *)
Record a_ref := mk_aref {
  ar_schema : option string; ar_table : string; ar_columns : option (list string) }.

(** DEFAULT literal, or DEFAULT (expr): all tokens of the expression with its brackets *)
Inductive a_default := ALit (t : string) | AExpr (l : list string).

(** The constraints of a column *)
Inductive a_item :=
| IPrimary (auto : bool)        (* PRIMARY KEY [... AUTOINCREMENT] *)
| IAuto                         (* AUTO_INCREMENT *)
| INotNull
| IUnique
| IDefault (x : a_default)
| ICheck (e : list string)
| ICollate (t : string)
| IReferences (r : a_ref)
| INone.                        (* not reported: NULL, GENERATED ..., COMMENT ... *)

(** type word, VARYING, digits *)
Record a_type := mk_atype {
  at_word : string; at_varying : bool; at_digits : option (string * option string) }.

Record a_column := mk_acolumn {
  ac_name : string; ac_type : a_type; ac_cname : option string; ac_items : list a_item }.

(** table constraints *)
Inductive a_body :=
| BPrimary (cols : list string)
| BUnique (cols : list string)
| BCheck (e : list string)
| BForeign (cols : list string) (r : a_ref)
| BNone                         (* not reported: EXCLUDE ... *)
| BIndex.                       (* not reported: INDEX, KEY, FULLTEXT, SPATIAL *)

Inductive a_element :=
| EColumn (c : a_column)
| EConstraint (name : option string) (b : a_body).

Record a_table := mk_atable {
  at_ine : bool; at_schema : option string; at_name : string; at_elements : list a_element }.

Inductive a_stmt :=
| STable (t : a_table)
| SOther.                       (* CREATE VIEW ..., skipped *)

(** ** Meaning *)

(** Quotation marks that are removed from names and strings.  (For an unknown Rdbms value
    none are.) *)
Definition name_quotes (d : rdbms) : list string :=
  match d with Other _ => [] | _ => id_quotes d end.
Definition string_quotes (d : rdbms) : list string :=
  match d with Other _ => [] | _ => str_quotes d end.

(** The text between the first and the last character. *)
Definition inner (t : string) : string := substring 1 (String.length t - 2) t.
Definition unquote (d : rdbms) (t : string) : string :=
  if quoted (name_quotes d) t then inner t else t.

Definition opt_name (d : rdbms) (o : option string) : string :=
  match o with Some t => unquote d t | None => "" end.

Definition text (l : list string) : string := fold_right append "" l.

Definition literal_value (d : rdbms) (t : string) : default_value :=
  if is_numeric_token t then
    match parse_float t with
    | Some f => DFloat f
    | None => DNil
    end
  else if quoted (string_quotes d) t then DString (inner t)
  else if go_upper t =? "NULL" then DNil
  else if go_upper t =? "TRUE" then DBool true
  else if go_upper t =? "FALSE" then DBool false
  else DString t.

Definition default_of (d : rdbms) (x : a_default) : default_value :=
  match x with
  | ALit t => literal_value d t
  | AExpr l => DString (text l)
  end.

Definition reference_of (d : rdbms) (r : a_ref) : reference :=
  mk_reference (unquote d (ar_table r)) (ar_columns r).

Definition type_of (t : a_type) : data_type :=
  let w := go_upper (at_word t) in
  let name :=
    if at_varying t then
      if w =? "BIT" then "VARBIT" else if w =? "CHARACTER" then "VARCHAR" else w ++ " VARYING"
    else w in
  match at_digits t with
  | None => mk_data_type name 0 0
  | Some (n, None) => mk_data_type name (atoi_value n) 0
  | Some (n, Some m) => mk_data_type name (atoi_value n) (atoi_value m)
  end.

(** First of the items with a value for [f]. *)
Fixpoint first_of {A B} (f : A -> option B) (l : list A) : option B :=
  match l with
  | [] => None
  | x :: l => match f x with Some b => Some b | None => first_of f l end
  end.
Definition or_else {A} (o : option A) (a : A) : A := match o with Some x => x | None => a end.

Definition constraint_of (d : rdbms) (name : option string) (l : list a_item) : constraint :=
  mk_constraint
    (opt_name d name)
    (existsb (fun i => match i with IPrimary _ => true | _ => false end) l)
    (existsb (fun i => match i with IUnique => true | _ => false end) l)
    (existsb (fun i => match i with INotNull => true | _ => false end) l)
    (existsb (fun i => match i with IPrimary true => true | IAuto => true | _ => false end) l)
    (or_else (first_of (fun i => match i with IDefault x => Some (default_of d x) | _ => None end) l) DNil)
    (or_else (first_of (fun i => match i with ICheck e => Some (text e) | _ => None end) l) "")
    (or_else (first_of (fun i => match i with ICollate t => Some (unquote d t) | _ => None end) l) "")
    (or_else (first_of (fun i => match i with IReferences r => Some (reference_of d r) | _ => None end) l)
       zero_reference).

Definition column_of (d : rdbms) (c : a_column) : column :=
  mk_column (unquote d (ac_name c)) (type_of (ac_type c)) (constraint_of d (ac_cname c) (ac_items c)).

Definition columns_of (d : rdbms) (l : list a_element) : list column :=
  flat_map (fun e => match e with EColumn c => [column_of d c] | _ => [] end) l.

Definition constraints_of (d : rdbms) (l : list a_element) : table_constraint :=
  mk_tc
    (flat_map (fun e => match e with
       EConstraint n (BPrimary cols) => [mk_pk (opt_name d n) cols] | _ => [] end) l)
    (flat_map (fun e => match e with
       EConstraint n (BUnique cols) => [mk_unique (opt_name d n) cols] | _ => [] end) l)
    (flat_map (fun e => match e with
       EConstraint n (BCheck x) => [mk_check (opt_name d n) (text x)] | _ => [] end) l)
    (flat_map (fun e => match e with
       EConstraint n (BForeign cols r) => [mk_fk (opt_name d n) cols (reference_of d r)] | _ => [] end) l).

Definition table_of (d : rdbms) (t : a_table) : table :=
  mk_table (opt_name d (at_schema t)) (unquote d (at_name t)) (at_ine t)
    (columns_of d (at_elements t)) (constraints_of d (at_elements t)).

Definition tables_of (d : rdbms) (l : list a_stmt) : list table :=
  flat_map (fun s => match s with STable t => [table_of d t] | SOther => [] end) l.
