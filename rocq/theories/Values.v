(** Numbers in the types of columns and in DEFAULT clauses, and what is reported for them. *)
From Coq Require Import String Ascii NArith ZArith List Bool.
From Verif Require Import GoStr GoNum Types Grammar Ast Seen Numbers Floats GoFloats.
Import ListNotations.
Open Scope string_scope.

(** The columns written in a script, and those in the result. *)
Definition columns_in (stmts : list a_stmt) : list a_column :=
  flat_map (fun s => match s with
    | STable t => flat_map (fun e => match e with EColumn c => [c] | _ => [] end) (at_elements t)
    | SOther => []
    end) stmts.
Definition result_columns (ts : list table) : list column := flat_map t_columns ts.

(** n and m are the numbers written after a type *)
Definition digits_as_written (dg : option (string * option string)) (n m : Z) : Prop :=
  match dg with
  | None => n = 0%Z /\ m = 0%Z
  | Some (s, None) => positive_int s n /\ m = 0%Z
  | Some (s, Some s') => positive_int s n /\ positive_int s' m
  end.

(** What is reported for the literal [t]: the float64 nearest to a number, infinity and not-a-number for their words, a string
    without its quotation marks (an unknown dialect keeps them), nothing for NULL, true, false, and the
    words CURRENT_... as they are.  (Not said here: numbers with exponents of 100000 and more that are written with
    more than 2000 characters.) *)
Definition literal_as (d : rdbms) (t : string) (v : default_value) : Prop :=
  (forall neg hex m frac x, go_numeral t neg hex m frac x -> moderate t x ->
     exists q e, v = DFloat (FFin neg q e) /\ nearest (go_value hex m frac x) q e) /\
  (In (lower_letters t) infinity_words -> v = DFloat (FInf false)) /\
  (In (lower_letters t) minus_infinity_words -> v = DFloat (FInf true)) /\
  (lower_letters t = "nan" -> v = DFloat FNaN) /\
  (forall c s, t = String c (s ++ String c "") -> In (String c "") (str_quotes d) ->
     v = DString (match d with Other _ => t | _ => s end)) /\
  (In t ["NULL"; "null"] -> v = DNil) /\
  (In t ["TRUE"; "true"] -> v = DBool true) /\
  (In t ["FALSE"; "false"] -> v = DBool false) /\
  (In t ["CURRENT_TIME"; "current_time"; "CURRENT_DATE"; "current_date"; "CURRENT_TIMESTAMP"; "current_timestamp"] ->
     v = DString t).
(** ... and every literal is of one of these kinds. *)
Definition literal_kind (d : rdbms) (t : string) : Prop :=
  (exists neg hex m frac x, go_numeral t neg hex m frac x) \/
  In (lower_letters t) (infinity_words ++ minus_infinity_words ++ ["nan"])%list \/
  (exists c s, t = String c (s ++ String c "") /\ In (String c "") (str_quotes d)) \/
  In t ["NULL"; "null"; "TRUE"; "true"; "FALSE"; "false"; "CURRENT_TIME"; "current_time"; "CURRENT_DATE"; "current_date";
        "CURRENT_TIMESTAMP"; "current_timestamp"].

(** The DEFAULT clause among the constraints of a column (the first: a second one is an error),
    and what is reported for it; of an expression the commas before commas are left out. *)
Definition default_in (l : list a_item) : option a_default :=
  hd_error (flat_map (fun i => match i with IDefault x => [x] | _ => [] end) l).
Definition default_as (d : rdbms) (x : option a_default) (v : default_value) : Prop :=
  match x with
  | None => v = DNil
  | Some (ALit t) => literal_kind d t /\ literal_as d t v
  | Some (AExpr l) => v = DString (text (squeeze l))
  end.
