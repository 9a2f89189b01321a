(** The JSON text of tables: internal/types/types.go (json tags) with encoding/json.Marshal of Go 1.22 (go.mod). *)
From Coq Require Import String Ascii NArith ZArith List Bool.
From Verif Require Import GoStr GoNum Types Print.
From Verif Require JsonGrammar.
Import ListNotations.
Open Scope string_scope.

(** ** JSON values and their text *)

(** A number is given by its text. *)
Inductive json :=
| JNull | JBool (b : bool) | JNumber (s : string) | JString (s : string)
| JArray (l : list json) | JObject (l : list (string * json)).

(** encoding/json appendString with escapeHTML: the characters that are escaped *)
Definition hex_digit (n : N) : string := String (ascii_of_N (if (n <? 10)%N then 48 + n else 87 + n)) "".
Definition unicode_escape (r : rune) : string :=
  "\u" ++ hex_digit (r / 4096) ++ hex_digit (r / 256 mod 16) ++ hex_digit (r / 16 mod 16) ++ hex_digit (r mod 16).
Definition short_escapes : list (rune * string) :=
  [(34, "\"""); (92, "\\"); (8, "\b"); (12, "\f"); (10, "\n"); (13, "\r"); (9, "\t")]%N.
(** the other control characters, < > & and the line separators of JavaScript *)
Definition long_escapes : list rune :=
  ([0; 1; 2; 3; 4; 5; 6; 7; 11; 14; 15; 16; 17; 18; 19; 20; 21; 22; 23; 24; 25; 26; 27; 28; 29; 30; 31] ++ [60; 62; 38; 8232; 8233])%N%list.
Definition escapes : list (rune * string) := (short_escapes ++ map (fun r => (r, unicode_escape r)) long_escapes)%list.
Definition escape (r : rune) : string :=
  match find (fun x => (fst x =? r)%N) escapes with Some (_, e) => e | None => utf8_rune r end.
(** a byte that is not part of a UTF-8 character is written like U+FFFD, here without the escape; see [valid] *)
Definition string_text (s : string) : string := """" ++ fold_right (fun r t => escape r ++ t) "" (runes_of s) ++ """".

Fixpoint separated (l : list string) : string :=
  match l with [] => "" | [x] => x | x :: r => x ++ "," ++ separated r end.
Fixpoint write (j : json) : string :=
  match j with
  | JNull => "null"
  | JBool b => if b then "true" else "false"
  | JNumber s => s
  | JString s => string_text s
  | JArray l => "[" ++ separated (map write l) ++ "]"
  | JObject l => "{" ++ separated (map (fun m => string_text (fst m) ++ ":" ++ write (snd m)) l) ++ "}"
  end.

(** ** The values of the types *)

(** strconv.AppendInt *)
Definition int_text (z : Z) : string := (if (z <? 0)%Z then "-" else "") ++ numeral_of (Z.abs_N z).
(** encoding/json floatEncoder: strconv.AppendFloat with precision -1 and format f or e, which is documented to give a number as in
    JSON (-ddd.ddd or -d.ddde+dd) from which ParseFloat gives the same number.  Nothing else is used of this text.  Infinities and NaN
    are UnsupportedValueError. *)
Definition float_texts (f : float64) (s : string) : Prop :=
  match f with FFin _ _ _ => JsonGrammar.json_number s /\ parse_float s = Some f | _ => False end.

Definition strings (l : list string) : json := JArray (map JString l).
(** a nil slice is null *)
Definition slice {A} (f : A -> json) (l : list A) : json := match l with [] => JNull | _ => JArray (map f l) end.

(** types.go:36-39 *)
Definition reference_json (r : reference) : json :=
  JObject [("table_name", JString (ref_table r));
           ("column_names", match ref_columns r with Some cs => strings cs | None => JNull end)].
(** types.go:18-22 *)
Definition type_json (t : data_type) : json :=
  JObject [("name", JString (dt_name t)); ("digit_n", JNumber (int_text (dt_n t))); ("digit_m", JNumber (int_text (dt_m t)))].
Inductive default_json : default_value -> json -> Prop :=
| dj_nil : default_json DNil JNull
| dj_float f s : float_texts f s -> default_json (DFloat f) (JNumber s)
| dj_bool b : default_json (DBool b) (JBool b)
| dj_string s : default_json (DString s) (JString s).
(** types.go:24-34 *)
Definition constraint_json (c : constraint) (x : json) : json :=
  JObject [("name", JString (c_name c)); ("is_primary_key", JBool (c_pk c)); ("is_unique", JBool (c_unique c));
           ("is_not_null", JBool (c_notnull c)); ("is_autoincrement", JBool (c_auto c)); ("default", x);
           ("check", JString (c_check c)); ("collate", JString (c_collate c)); ("references", reference_json (c_references c))].
(** types.go:12-16 *)
Inductive column_json : column -> json -> Prop :=
| column_json_intro c x : default_json (c_default (col_constraint c)) x ->
    column_json c (JObject [("name", JString (col_name c)); ("data_type", type_json (col_type c));
                            ("constraint", constraint_json (col_constraint c) x)]).
(** types.go:41-67 *)
Definition key_json (n : string) (cs : list string) : json := JObject [("name", JString n); ("column_names", strings cs)].
Definition check_json (c : check) : json := JObject [("name", JString (ck_name c)); ("expr", JString (ck_expr c))].
Definition foreign_json (f : foreign_key) : json :=
  JObject [("name", JString (fk_name f)); ("column_names", strings (fk_columns f)); ("references", reference_json (fk_references f))].
Definition constraints_json (tc : table_constraint) : json :=
  JObject [("primary_key", slice (fun k => key_json (pk_name k) (pk_columns k)) (tc_pk tc));
           ("unique", slice (fun k => key_json (uq_name k) (uq_columns k)) (tc_unique tc));
           ("check", slice check_json (tc_check tc));
           ("foreign_key", slice foreign_json (tc_fk tc))].
(** types.go:4-10 *)
Inductive table_json : table -> json -> Prop :=
| table_json_intro t cs : Forall2 column_json (t_columns t) cs ->
    table_json t (JObject [("schema", JString (t_schema t)); ("name", JString (t_name t)); ("if_not_exists", JBool (t_if_not_exists t));
                           ("columns", slice (fun c => c) cs); ("constraints", constraints_json (t_constraints t))]).
(** The text of json.Marshal for the result of Parse, a slice that is never nil; there is none if Marshal returns an error. *)
Definition marshals (ts : list table) (s : string) : Prop := exists js, Forall2 table_json ts js /\ s = write (JArray js).

(** ** Valid UTF-8 *)
Definition valid (s : string) : Prop := exists rs, Forall (fun r => is_scalar r = true) rs /\ s = utf8 rs.
Definition valid_reference (r : reference) : Prop :=
  valid (ref_table r) /\ match ref_columns r with Some cs => Forall valid cs | None => True end.
Definition valid_constraint (c : constraint) : Prop :=
  valid (c_name c) /\ match c_default c with DString s => valid s | _ => True end /\ valid (c_check c) /\ valid (c_collate c) /\
  valid_reference (c_references c).
Definition valid_column (c : column) : Prop := valid (col_name c) /\ valid (dt_name (col_type c)) /\ valid_constraint (col_constraint c).
Definition valid_constraints (tc : table_constraint) : Prop :=
  Forall (fun k => valid (pk_name k) /\ Forall valid (pk_columns k)) (tc_pk tc) /\
  Forall (fun k => valid (uq_name k) /\ Forall valid (uq_columns k)) (tc_unique tc) /\
  Forall (fun k => valid (ck_name k) /\ valid (ck_expr k)) (tc_check tc) /\
  Forall (fun k => valid (fk_name k) /\ Forall valid (fk_columns k) /\ valid_reference (fk_references k)) (tc_fk tc).
Definition valid_table (t : table) : Prop :=
  valid (t_schema t) /\ valid (t_name t) /\ Forall valid_column (t_columns t) /\ valid_constraints (t_constraints t).

(** The default values for which there is no JSON. *)
Definition no_json (v : default_value) : Prop := match v with DFloat FNaN | DFloat (FInf _) => True | _ => False end.
