(** A text for given tables: the definition of each table, written with blanks between all its parts.

    Nothing in this file refers to the models of the lexer, the validators or the converter. *)
From Coq Require Import String Ascii NArith ZArith List Bool.
From Verif Require Import GoStr GoNum Types Grammar Ast Safe Numbers Floats Layout Parts.
From Verif Require GPostgres GMysql.
Import ListNotations.
Open Scope string_scope.
Open Scope list_scope.

(** ** Pieces of the text *)

(** every piece with a blank after it *)
Definition spaced (ps : list string) : string := fold_right (fun p s => (p ++ " " ++ s)%string) "" ps.
Fixpoint commas (ls : list (list string)) : list string :=
  match ls with
  | [] => []
  | [l] => l
  | l :: ls => l ++ "," :: commas ls
  end.

(** a name between quotation marks *)
Definition quote (d : rdbms) : string := match d with MySQL => "`" | _ => """" end.
Definition in_quotes (d : rdbms) (s : string) : string := (quote d ++ s ++ quote d)%string.

(** a number in base ten *)
Fixpoint digits_of (fuel : nat) (n : N) : string :=
  match fuel with
  | O => ""
  | S k => ((if (n <? 10)%N then "" else digits_of k (n / 10)) ++ String (ascii_of_N (48 + n mod 10)) "")%string
  end.
Definition numeral_of (n : N) : string := digits_of (S (N.size_nat n)) n.

(** a float64: exactly its value, with q * 2^(-k) written as (q * 5^k) * 10^(-k) *)
Definition float_text (f : float64) : string :=
  match f with
  | FNaN => "nan"
  | FInf neg => if neg then "-inf" else "inf"
  | FFin neg q e =>
      ((if neg then "-" else "") ++
       if (e <? 0)%Z then numeral_of (q * 5 ^ Z.to_N (- e)) ++ "e-" ++ numeral_of (Z.to_N (- e))
       else numeral_of (q * 2 ^ Z.to_N e))%string
  end.

Definition names_text (cs : list string) : list string := "(" :: commas (map (fun c => [c]) cs) ++ [")"].

Definition type_text (d : rdbms) (t : data_type) : list string :=
  dt_name t ::
  (match d with PostgreSQL => if (dt_name t =? "DOUBLE")%string then ["PRECISION"] else [] | _ => [] end) ++
  (if (dt_n t =? 0)%Z then []
   else ["("; numeral_of (Z.to_N (dt_n t))] ++ (if (dt_m t =? 0)%Z then [] else [","; numeral_of (Z.to_N (dt_m t))]) ++ [")"]).

(** a character that is a quotation mark or a line feed *)
Definition mark (c : ascii) : bool := existsb (Ascii.eqb c) ["034"; "039"; "096"; "010"]%char.
Definition unmarked (s : string) : bool := forallb (fun c => negb (mark c)) (list_ascii_of_string s).

(** strings are written as literals; if this is not possible, as they are *)
Definition default_text (v : default_value) : list string :=
  match v with
  | DNil => []
  | DFloat f => ["DEFAULT"; float_text f]
  | DBool b => ["DEFAULT"; if b then "TRUE" else "FALSE"]
  | DString s => ["DEFAULT"; if unmarked s then ("'" ++ s ++ "'")%string else s]
  end.

Definition reference_text (d : rdbms) (r : reference) : list string :=
  ["REFERENCES"; in_quotes d (ref_table r)] ++ match ref_columns r with Some cs => names_text cs | None => [] end.
Definition no_reference (r : reference) : bool :=
  (ref_table r =? "")%string && match ref_columns r with None => true | Some _ => false end.
Definition cname_text (d : rdbms) (n : string) : list string :=
  if (n =? "")%string then [] else ["CONSTRAINT"; in_quotes d n].

(** the constraints of a column, NOT NULL first and REFERENCES last *)
Definition constraint_text (d : rdbms) (c : constraint) : list string :=
  cname_text d (c_name c) ++
  (if c_notnull c then ["NOT"; "NULL"] else []) ++
  (if c_pk c then ["PRIMARY"; "KEY"] ++ (match d with MySQL => [] | _ => if c_auto c then ["AUTOINCREMENT"] else [] end) else []) ++
  (if c_unique c then ["UNIQUE"] else []) ++
  (match d with MySQL => if c_auto c then ["AUTO_INCREMENT"] else [] | _ => [] end) ++
  default_text (c_default c) ++
  (if (c_check c =? "")%string then [] else ["CHECK"; c_check c]) ++
  (if (c_collate c =? "")%string then []
   else ["COLLATE"; match d with MySQL => in_quotes d (c_collate c) | _ => c_collate c end]) ++
  (if no_reference (c_references c) then [] else reference_text d (c_references c)).
Definition column_text (d : rdbms) (c : column) : list string :=
  in_quotes d (col_name c) :: type_text d (col_type c) ++ constraint_text d (col_constraint c).

Definition tc_text (d : rdbms) (tc : table_constraint) : list (list string) :=
  map (fun x => cname_text d (pk_name x) ++ ["PRIMARY"; "KEY"] ++ names_text (pk_columns x)) (tc_pk tc) ++
  map (fun x => cname_text d (uq_name x) ++ ["UNIQUE"] ++ names_text (uq_columns x)) (tc_unique tc) ++
  map (fun x => cname_text d (ck_name x) ++ ["CHECK"; ck_expr x]) (tc_check tc) ++
  map (fun x => cname_text d (fk_name x) ++ ["FOREIGN"; "KEY"] ++ names_text (fk_columns x) ++ reference_text d (fk_references x)) (tc_fk tc).

Definition table_text (d : rdbms) (t : table) : list string :=
  ["CREATE"; "TABLE"] ++
  (if t_if_not_exists t then ["IF"; "NOT"; "EXISTS"] else []) ++
  (if (t_schema t =? "")%string then [] else [in_quotes d (t_schema t); "."]) ++
  [in_quotes d (t_name t); "("] ++
  commas (map (column_text d) (t_columns t) ++ tc_text d (t_constraints t)) ++ [")"; ";"].
(** the text *)
Definition print (d : rdbms) (ts : list table) : string := spaced (flat_map (table_text d) ts).

(** ** The tables for which this is possible *)

(** a name that can be quoted: UTF-8, without quotation marks and line feeds *)
Definition name_ok (s : string) : Prop := exists rs, s = utf8 rs /\ verbatim rs = true.
(** a name as it is reported in lists of columns, where quotation marks are kept: a quoted name of the dialect, or
    a word that is not reserved *)
Definition key_ok (d : rdbms) (s : string) : Prop :=
  (exists q rs, s = (q ++ utf8 rs ++ q)%string /\ In q (id_quotes d) /\ verbatim rs = true) \/
  name_pattern s = true /\ ~ In (to_upper s) (reserved d).
Definition keys_ok (d : rdbms) (cs : list string) : Prop := cs <> [] /\ Forall (key_ok d) cs.

(** an expression in brackets, without blanks and comments *)
Definition lexeme_item (i : item) : bool := match i with IWord _ | ISym _ | IQuoted _ _ => true | _ => false end.
Definition expr_ok (d : rdbms) (s : string) : Prop :=
  exists its body, forallb lexeme_item its = true /\ layout d its = true /\ s = text_of its /\
    lexemes its = "(" :: body ++ [")"] /\ balanced body /\ double_comma (lexemes its) = false.

Definition type_words (d : rdbms) : list string :=
  match d with
  | PostgreSQL => sized_words d ++ "DOUBLE" :: GPostgres.plain_types
  | MySQL => sized_words d ++ GMysql.plain_types
  | _ => ["TEXT"; "NUMERIC"; "INTEGER"; "REAL"; "NONE"]
  end.
Definition type_ok (d : rdbms) (t : data_type) : Prop :=
  In (dt_name t) (type_words d) /\
  (dt_n t = 0%Z /\ dt_m t = 0%Z \/
   In (dt_name t) (sized_words d) /\ (0 < dt_n t < 2 ^ 63)%Z /\
   (dt_m t = 0%Z \/ In (dt_name t) (scaled_words d) /\ (0 < dt_m t < 2 ^ 63)%Z)).

Definition float_ok (f : float64) : Prop :=
  match f with FFin _ q e => is_double q e /\ normal q e | _ => True end.
Definition default_ok (d : rdbms) (v : default_value) : Prop :=
  match v with
  | DFloat f => float_ok f
  | DString s => if unmarked s then name_ok s else expr_ok d s
  | _ => True
  end.
Definition reference_ok (d : rdbms) (r : reference) : Prop :=
  name_ok (ref_table r) /\ match ref_columns r with Some cs => keys_ok d cs | None => True end.
Definition collate_ok (d : rdbms) (s : string) : Prop :=
  match d with
  | MySQL => name_ok s
  | PostgreSQL => s = ""
  | _ => s = "" \/ matches ["BINARY"; "NOCASE"; "RTRIM"] s = true
  end.
Definition constraint_ok (d : rdbms) (c : constraint) : Prop :=
  name_ok (c_name c) /\
  (c_auto c = true -> match d with MySQL => True | PostgreSQL => False | _ => c_pk c = true end) /\
  default_ok d (c_default c) /\
  (c_check c = "" \/ expr_ok d (c_check c)) /\
  collate_ok d (c_collate c) /\
  reference_ok d (c_references c) /\
  match ref_columns (c_references c) with Some (_ :: _ :: _) => False | _ => True end.
Definition column_ok (d : rdbms) (c : column) : Prop :=
  name_ok (col_name c) /\ type_ok d (col_type c) /\ constraint_ok d (col_constraint c).

Definition tc_ok (d : rdbms) (tc : table_constraint) : Prop :=
  Forall (fun x => name_ok (pk_name x) /\ keys_ok d (pk_columns x)) (tc_pk tc) /\
  Forall (fun x => name_ok (uq_name x) /\ keys_ok d (uq_columns x)) (tc_unique tc) /\
  Forall (fun x => name_ok (ck_name x) /\ expr_ok d (ck_expr x)) (tc_check tc) /\
  Forall (fun x => name_ok (fk_name x) /\ keys_ok d (fk_columns x) /\ reference_ok d (fk_references x) /\
                   (d = MySQL -> ref_columns (fk_references x) <> None)) (tc_fk tc).
Definition table_ok (d : rdbms) (t : table) : Prop :=
  name_ok (t_schema t) /\ name_ok (t_name t) /\ Forall (column_ok d) (t_columns t) /\ tc_ok d (t_constraints t) /\
  (t_columns t <> [] \/ t_constraints t <> zero_tc).
