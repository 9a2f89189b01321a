(** Statements that the converter reports faithfully.  The excluded ones are those for which
    the converter is wrong; for each exclusion there is a witness in Properties.v. *)
From Coq Require Import String List Bool.
From Verif Require Import GoStr Types Grammar Ast.
Import ListNotations.
Open Scope string_scope.

(** two commas in a row *)
Fixpoint double_comma (l : list string) : bool :=
  match l with
  | t :: l' => (t =? ",") && (match l' with t' :: _ => t' =? "," | [] => false end) || double_comma l'
  | [] => false
  end.
Definition safe_ref (r : a_ref) : bool := match ar_schema r with None => true | Some _ => false end.
Definition safe_item (i : a_item) : bool :=
  match i with
  | IDefault (AExpr e) => negb (double_comma e)
  | ICheck e => negb (double_comma e)
  | IReferences r => safe_ref r
  | _ => true
  end.
(** words after CONSTRAINT that are not taken as a name *)
Definition not_names : list string :=
  ["PRIMARY"; "UNIQUE"; "NOT"; "AUTOINCREMENT"; "AUTO_INCREMENT"; "DEFAULT"; "CHECK"; "REFERENCES"; "COLLATE"].
Definition safe_column (c : a_column) : bool :=
  match ac_cname c with Some t => negb (matches not_names t) | None => true end &&
  forallb safe_item (ac_items c).
Definition safe_body (b : a_body) : bool :=
  match b with
  | BCheck e => negb (double_comma e)
  | BForeign _ r => safe_ref r
  | BIndex => false
  | _ => true
  end.
Definition safe_element (e : a_element) : bool :=
  match e with
  | EColumn c => safe_column c
  | EConstraint _ b => safe_body b
  end.
(** an unnamed EXCLUDE *)
Definition silent (e : a_element) : bool :=
  match e with EConstraint None BNone => true | _ => false end.
Definition safe_table (t : a_table) : bool :=
  forallb safe_element (at_elements t) &&
  match at_elements t with e :: _ :: _ => negb (silent e) | _ => true end.
Definition safe_stmt (s : a_stmt) : bool :=
  match s with STable t => safe_table t | SOther => true end.
Definition safe (l : list a_stmt) : bool := forallb safe_stmt l.
