(** The definitions of the columns of a script, as lists of tokens. *)
From Coq Require Import String List.
From Verif Require Import GoStr Types Grammar Ast Spec Parts.
Import ListNotations.
Open Scope string_scope.

(** the value together with its tokens *)
Definition with_text {A} (L : list string -> option string -> list string -> A -> Prop)
  (l : list string) (nxt : option string) (o : list string) (v : list string * A) : Prop :=
  fst v = l /\ L l nxt o (snd v).
Definition columns_among (vs : list (list string * a_element)) : list (list string) :=
  flat_map (fun '(l, e) => match e with EColumn _ => [l] | _ => [] end) vs.

(** [column_texts d l cs]: [cs] are the definitions of columns in the script [l]. *)
Inductive column_texts (d : rdbms) : list string -> list (list string) -> Prop :=
| ct_nil : column_texts d [] []
| ct_other l o r cs : lang (script d) l None o [SOther] -> column_texts d r cs -> column_texts d (l ++ r) cs
| ct_table a oa es oe vs o oo r cs :
    lang (opening d) a None oa tt -> sepby (with_text (lang (element d))) true es (Some ")") oe vs ->
    lang (options d) o (Some ";") oo tt -> column_texts d r cs ->
    column_texts d (a ++ es ++ ")" :: o ++ ";" :: r) (columns_among vs ++ cs).
