(** Columns listed in constraints, and expressions (vocabulary of C35 and C36). *)
From Coq Require Import String Ascii NArith List Bool.
From Verif Require Import GoStr Types Grammar Ast Layout.
Import ListNotations.
Open Scope string_scope.
Open Scope list_scope.

(** ** Column lists: of the references of columns, of PRIMARY KEY, UNIQUE and FOREIGN KEY with its reference *)

Definition list_of {A} (o : option A) : list A := match o with Some x => [x] | None => [] end.
Definition references_in (l : list a_item) : option a_ref :=
  hd_error (flat_map (fun i => match i with IReferences r => [r] | _ => [] end) l).
Definition element_lists (e : a_element) : list (list string) :=
  match e with
  | EColumn c => match references_in (ac_items c) with Some r => list_of (ar_columns r) | None => [] end
  | _ => []
  end.
Definition primary_lists (e : a_element) : list (list string) := match e with EConstraint _ (BPrimary cols) => [cols] | _ => [] end.
Definition unique_lists (e : a_element) : list (list string) := match e with EConstraint _ (BUnique cols) => [cols] | _ => [] end.
Definition foreign_lists (e : a_element) : list (list string) :=
  match e with EConstraint _ (BForeign cols r) => cols :: list_of (ar_columns r) | _ => [] end.
Definition lists_in (stmts : list a_stmt) : list (list string) :=
  flat_map (fun s => match s with
    | STable t => flat_map element_lists (at_elements t) ++ flat_map primary_lists (at_elements t) ++
                  flat_map unique_lists (at_elements t) ++ flat_map foreign_lists (at_elements t)
    | SOther => []
    end) stmts.
(** ... in the result *)
Definition table_lists (t : table) : list (list string) :=
  flat_map (fun c => list_of (ref_columns (c_references (col_constraint c)))) (t_columns t) ++
  map pk_columns (tc_pk (t_constraints t)) ++ map uq_columns (tc_unique (t_constraints t)) ++
  flat_map (fun f => fk_columns f :: list_of (ref_columns (fk_references f))) (tc_fk (t_constraints t)).
Definition result_lists (ts : list table) : list (list string) := flat_map table_lists ts.

(** ** Expressions *)

Definition check_in (l : list a_item) : option (list string) :=
  hd_error (flat_map (fun i => match i with ICheck e => [e] | _ => [] end) l).
(** the CHECK expressions among the elements of tables *)
Definition checks_in (stmts : list a_stmt) : list (list string) :=
  flat_map (fun s => match s with
    | STable t => flat_map (fun e => match e with EConstraint _ (BCheck x) => [x] | _ => [] end) (at_elements t)
    | SOther => []
    end) stmts.
Definition result_checks (ts : list table) : list string :=
  flat_map (fun t => map ck_expr (tc_check (t_constraints t))) ts.

(** The tokens can be written without space between them: of two neighbours at least one is a symbol or quoted. *)
Definition bare (i : item) : bool := match i with IWord _ | ISym _ | IQuoted _ _ => true | _ => false end.
Definition glued (d : rdbms) (e : list string) : Prop :=
  exists l, layout d l = true /\ forallb bare l = true /\ lexemes l = e.
