(** Strings, and texts that differ in what strings say only. *)
From Coq Require Import String Ascii List Bool NArith.
From Verif Require Import GoStr Unicode Types Grammar Ast Spec Layout.
Import ListNotations.
Open Scope string_scope.
Open Scope list_scope.

(** a string: between two quotation marks of the dialect for strings *)
Definition string_token (d : rdbms) (t : string) : Prop :=
  exists q s, t = String q (s ++ String q "")%string /\ In (String q "") (str_quotes d).

Section Swapped.
Variables (d : rdbms) (R : string -> string -> Prop).
(** the same token, or two strings, related by [R] *)
Definition swapped (t t' : string) : Prop := t' = t \/ (R t t' /\ string_token d t /\ string_token d t').
(** expressions: the text of such tokens *)
Definition text_swapped (x x' : string) : Prop := exists l l', Forall2 swapped l l' /\ x = text l /\ x' = text l'.
(** a default: the same, such an expression, or what the strings say *)
Definition default_swapped (v v' : default_value) : Prop :=
  v = v' \/ exists x x', v = DString x /\ v' = DString x' /\
    (text_swapped x x' \/ exists t t', R t t' /\ string_token d t /\ string_token d t' /\ x = inner t /\ x' = inner t').

(** In [readable] scripts (Seen.v) nothing but defaults and expressions may differ. *)
Definition constraint_kept (k k' : constraint) : Prop :=
  c_name k = c_name k' /\ c_pk k = c_pk k' /\ c_unique k = c_unique k' /\ c_notnull k = c_notnull k' /\ c_auto k = c_auto k' /\
  default_swapped (c_default k) (c_default k') /\ text_swapped (c_check k) (c_check k') /\
  c_collate k = c_collate k' /\ c_references k = c_references k'.
Definition column_kept (c c' : column) : Prop :=
  col_name c = col_name c' /\ col_type c = col_type c' /\ constraint_kept (col_constraint c) (col_constraint c').
Definition tc_kept (x x' : table_constraint) : Prop :=
  tc_pk x = tc_pk x' /\ tc_unique x = tc_unique x' /\
  Forall2 (fun p p' => ck_name p = ck_name p' /\ text_swapped (ck_expr p) (ck_expr p')) (tc_check x) (tc_check x') /\
  tc_fk x = tc_fk x'.
Definition table_kept (t t' : table) : Prop :=
  t_schema t = t_schema t' /\ t_name t = t_name t' /\ t_if_not_exists t = t_if_not_exists t' /\
  Forall2 column_kept (t_columns t) (t_columns t') /\ tc_kept (t_constraints t) (t_constraints t').

(** In others strings may be reported in places where names and types belong. *)
Definition list_swapped (l l' : list string) : Prop := Forall2 swapped l l'.
Definition type_word_swapped (x x' : string) : Prop :=
  x = x' \/ exists t t' s, swapped t t' /\ x = (go_upper t ++ s)%string /\ x' = (go_upper t' ++ s)%string.
Definition type_swapped (y y' : data_type) : Prop :=
  type_word_swapped (dt_name y) (dt_name y') /\ dt_n y = dt_n y' /\ dt_m y = dt_m y'.
Definition reference_swapped (r r' : reference) : Prop :=
  swapped (ref_table r) (ref_table r') /\
  match ref_columns r, ref_columns r' with Some l, Some l' => list_swapped l l' | None, None => True | _, _ => False end.
Definition constraint_swapped (k k' : constraint) : Prop :=
  swapped (c_name k) (c_name k') /\ c_pk k = c_pk k' /\ c_unique k = c_unique k' /\ c_notnull k = c_notnull k' /\ c_auto k = c_auto k' /\
  default_swapped (c_default k) (c_default k') /\ text_swapped (c_check k) (c_check k') /\
  swapped (c_collate k) (c_collate k') /\ reference_swapped (c_references k) (c_references k').
Definition column_swapped (c c' : column) : Prop :=
  swapped (col_name c) (col_name c') /\ type_swapped (col_type c) (col_type c') /\ constraint_swapped (col_constraint c) (col_constraint c').
Definition tc_swapped (x x' : table_constraint) : Prop :=
  Forall2 (fun p p' => swapped (pk_name p) (pk_name p') /\ list_swapped (pk_columns p) (pk_columns p')) (tc_pk x) (tc_pk x') /\
  Forall2 (fun p p' => swapped (uq_name p) (uq_name p') /\ list_swapped (uq_columns p) (uq_columns p')) (tc_unique x) (tc_unique x') /\
  Forall2 (fun p p' => swapped (ck_name p) (ck_name p') /\ text_swapped (ck_expr p) (ck_expr p')) (tc_check x) (tc_check x') /\
  Forall2 (fun p p' => swapped (fk_name p) (fk_name p') /\ list_swapped (fk_columns p) (fk_columns p') /\
    reference_swapped (fk_references p) (fk_references p')) (tc_fk x) (tc_fk x').
Definition table_swapped (t t' : table) : Prop :=
  swapped (t_schema t) (t_schema t') /\ swapped (t_name t) (t_name t') /\ t_if_not_exists t = t_if_not_exists t' /\
  Forall2 column_swapped (t_columns t) (t_columns t') /\ tc_swapped (t_constraints t) (t_constraints t').
End Swapped.

(** ** Texts *)

(** A string begins after [a]: both '' and 'x' there are tokens of their own. *)
Definition string_begins (d : rdbms) (q : rune) (a : list rune) : Prop :=
  exists toks, lexes d (utf8 (a ++ [q; q])) (toks ++ [utf8 [q; q]]) /\ lexes d (utf8 (a ++ [q; 120%N; q])) (toks ++ [utf8 [q; 120%N; q]]).
