(** Numbers, and texts that differ in numbers only. *)
From Coq Require Import String Ascii List Bool NArith ZArith.
From Verif Require Import GoStr GoNum Unicode Types Grammar Ast Spec.
Import ListNotations.
Open Scope string_scope.
Open Scope list_scope.

(** a number: something strconv.ParseFloat reads that begins with a digit, a sign or a point.  (It reads INF and NAN, too, which
    are names.)  MySQL expects 0 or 1, literally, in some table options. *)
Definition numeral_heads : list ascii := ["+"; "-"; "."; "0"; "1"; "2"; "3"; "4"; "5"; "6"; "7"; "8"; "9"]%char.
Definition number_token (d : rdbms) (t : string) : Prop :=
  (exists f, parse_float t = Some f) /\ (exists c s, t = String c s /\ In c numeral_heads) /\ (d = MySQL -> t <> "0" /\ t <> "1").
(** a positive number that fits into 64 bits *)
Definition positive (t : string) : Prop := exists n, atoi t = IOk n /\ (0 < n)%Z.

Section Numbered.
Variables (d : rdbms) (R : string -> string -> Prop).
(** the same token, or two numbers related by [R], both positive integers or none of them *)
Definition numbered (t t' : string) : Prop :=
  t' = t \/ (R t t' /\ number_token d t /\ number_token d t' /\ (positive t <-> positive t')).
(** expressions: the text of such tokens *)
Definition text_numbered (x x' : string) : Prop := exists l l', Forall2 numbered l l' /\ x = text l /\ x' = text l'.
(** a default: the same, such an expression, or what the numbers say *)
Definition default_numbered (v v' : default_value) : Prop :=
  v = v' \/ (exists x x', v = DString x /\ v' = DString x' /\ text_numbered x x') \/
  exists t t' f f', numbered t t' /\ parse_float t = Some f /\ parse_float t' = Some f' /\ v = DFloat f /\ v' = DFloat f'.
(** the digits of a type *)
Definition digit_numbered (z z' : Z) : Prop := z = z' \/ exists t t', numbered t t' /\ z = atoi_value t /\ z' = atoi_value t'.

(** In [readable] scripts (Seen.v) nothing but defaults, expressions and the digits of types may differ. *)
Definition constraint_fixed (k k' : constraint) : Prop :=
  c_name k = c_name k' /\ c_pk k = c_pk k' /\ c_unique k = c_unique k' /\ c_notnull k = c_notnull k' /\ c_auto k = c_auto k' /\
  default_numbered (c_default k) (c_default k') /\ text_numbered (c_check k) (c_check k') /\
  c_collate k = c_collate k' /\ c_references k = c_references k'.
Definition type_fixed (y y' : data_type) : Prop :=
  dt_name y = dt_name y' /\ digit_numbered (dt_n y) (dt_n y') /\ digit_numbered (dt_m y) (dt_m y').
Definition column_fixed (c c' : column) : Prop :=
  col_name c = col_name c' /\ type_fixed (col_type c) (col_type c') /\ constraint_fixed (col_constraint c) (col_constraint c').
Definition tc_fixed (x x' : table_constraint) : Prop :=
  tc_pk x = tc_pk x' /\ tc_unique x = tc_unique x' /\
  Forall2 (fun p p' => ck_name p = ck_name p' /\ text_numbered (ck_expr p) (ck_expr p')) (tc_check x) (tc_check x') /\
  tc_fk x = tc_fk x'.
Definition table_fixed (t t' : table) : Prop :=
  t_schema t = t_schema t' /\ t_name t = t_name t' /\ t_if_not_exists t = t_if_not_exists t' /\
  Forall2 column_fixed (t_columns t) (t_columns t') /\ tc_fixed (t_constraints t) (t_constraints t').

(** In others numbers may be reported in places where names and types belong. *)
Definition list_numbered (l l' : list string) : Prop := Forall2 numbered l l'.
Definition type_word_numbered (x x' : string) : Prop :=
  x = x' \/ exists t t' s, numbered t t' /\ x = (go_upper t ++ s)%string /\ x' = (go_upper t' ++ s)%string.
Definition type_numbered (y y' : data_type) : Prop :=
  type_word_numbered (dt_name y) (dt_name y') /\ digit_numbered (dt_n y) (dt_n y') /\ digit_numbered (dt_m y) (dt_m y').
Definition reference_numbered (r r' : reference) : Prop :=
  numbered (ref_table r) (ref_table r') /\
  match ref_columns r, ref_columns r' with Some l, Some l' => list_numbered l l' | None, None => True | _, _ => False end.
Definition constraint_numbered (k k' : constraint) : Prop :=
  numbered (c_name k) (c_name k') /\ c_pk k = c_pk k' /\ c_unique k = c_unique k' /\ c_notnull k = c_notnull k' /\ c_auto k = c_auto k' /\
  default_numbered (c_default k) (c_default k') /\ text_numbered (c_check k) (c_check k') /\
  numbered (c_collate k) (c_collate k') /\ reference_numbered (c_references k) (c_references k').
Definition column_numbered (c c' : column) : Prop :=
  numbered (col_name c) (col_name c') /\ type_numbered (col_type c) (col_type c') /\ constraint_numbered (col_constraint c) (col_constraint c').
Definition tc_numbered (x x' : table_constraint) : Prop :=
  Forall2 (fun p p' => numbered (pk_name p) (pk_name p') /\ list_numbered (pk_columns p) (pk_columns p')) (tc_pk x) (tc_pk x') /\
  Forall2 (fun p p' => numbered (uq_name p) (uq_name p') /\ list_numbered (uq_columns p) (uq_columns p')) (tc_unique x) (tc_unique x') /\
  Forall2 (fun p p' => numbered (ck_name p) (ck_name p') /\ text_numbered (ck_expr p) (ck_expr p')) (tc_check x) (tc_check x') /\
  Forall2 (fun p p' => numbered (fk_name p) (fk_name p') /\ list_numbered (fk_columns p) (fk_columns p') /\
    reference_numbered (fk_references p) (fk_references p')) (tc_fk x) (tc_fk x').
Definition table_numbered (t t' : table) : Prop :=
  numbered (t_schema t) (t_schema t') /\ numbered (t_name t) (t_name t') /\ t_if_not_exists t = t_if_not_exists t' /\
  Forall2 column_numbered (t_columns t) (t_columns t') /\ tc_numbered (t_constraints t) (t_constraints t').
End Numbered.

