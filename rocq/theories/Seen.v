(** What the converter makes of a script: the statements as it sees them.  It drops a comma before
    a comma in expressions, and it takes a column's constraint name such as AUTO_INCREMENT for a
    constraint.  Statements that are not [readable] are misread altogether. *)
From Coq Require Import String List Bool.
From Verif Require Import GoStr Types Grammar Ast Safe.
Import ListNotations.
Open Scope string_scope.

Definition comma_next (l : list string) : bool := match l with t :: _ => t =? "," | [] => false end.
(** without the commas before commas *)
Fixpoint squeeze (l : list string) : list string :=
  match l with
  | t :: l' => if (t =? ",") && comma_next l' then squeeze l' else t :: squeeze l'
  | [] => []
  end.

Definition seen_item (i : a_item) : a_item :=
  match i with
  | IDefault (AExpr e) => IDefault (AExpr (squeeze e))
  | ICheck e => ICheck (squeeze e)
  | _ => i
  end.
Definition seen_column (c : a_column) : a_column :=
  let is := map seen_item (ac_items c) in
  match ac_cname c with
  | Some t =>
      if matches not_names t then mk_acolumn (ac_name c) (ac_type c) None (IAuto :: is)
      else mk_acolumn (ac_name c) (ac_type c) (Some t) is
  | None => mk_acolumn (ac_name c) (ac_type c) None is
  end.
Definition seen_body (b : a_body) : a_body :=
  match b with BCheck e => BCheck (squeeze e) | _ => b end.
Definition seen_element (e : a_element) : a_element :=
  match e with
  | EColumn c => EColumn (seen_column c)
  | EConstraint n b => EConstraint n (seen_body b)
  end.
Definition seen_table (t : a_table) : a_table :=
  mk_atable (at_ine t) (at_schema t) (at_name t) (map seen_element (at_elements t)).
Definition seen_stmt (s : a_stmt) : a_stmt :=
  match s with STable t => STable (seen_table t) | SOther => SOther end.
Definition seen (l : list a_stmt) : list a_stmt := map seen_stmt l.

(** No schema-qualified references, no INDEX elements, no unnamed EXCLUDE as first of several elements. *)
Definition readable_item (i : a_item) : bool := match i with IReferences r => safe_ref r | _ => true end.
Definition readable_body (b : a_body) : bool :=
  match b with BForeign _ r => safe_ref r | BIndex => false | _ => true end.
Definition readable_element (e : a_element) : bool :=
  match e with
  | EColumn c => forallb readable_item (ac_items c)
  | EConstraint _ b => readable_body b
  end.
Definition first_ok (es : list a_element) : bool :=
  match es with e :: _ :: _ => negb (silent e) | _ => true end.
Definition readable_table (t : a_table) : bool :=
  forallb readable_element (at_elements t) && first_ok (at_elements t).
Definition readable_stmt (s : a_stmt) : bool :=
  match s with STable t => readable_table t | SOther => true end.
Definition readable (l : list a_stmt) : bool := forallb readable_stmt l.

(** A table with at least one column, and without the names "," and ")". *)
Definition is_column (e : a_element) : bool := match e with EColumn _ => true | _ => false end.
Definition ordinary_table (d : rdbms) (t : a_table) : bool :=
  negb (contains [","; ")"] (unquote d (at_name t))) &&
  existsb is_column (at_elements t) &&
  forallb (fun e => match e with EColumn c => negb (unquote d (ac_name c) =? ",") | _ => true end) (at_elements t).
Definition ordinary (d : rdbms) (l : list a_stmt) : bool :=
  forallb (fun s => match s with STable t => ordinary_table d t | SOther => true end) l.
Definition is_index (e : a_element) : bool := match e with EConstraint _ BIndex => true | _ => false end.
Definition has_index (l : list a_stmt) : bool :=
  existsb (fun s => match s with STable t => existsb is_index (at_elements t) | SOther => false end) l.

(** a reference with a schema *)
Definition qualified (r : a_ref) : Prop := ar_schema r <> None.
Definition qualified_in (stmts : list a_stmt) : Prop := exists t, In (STable t) stmts /\
  ((exists c r, In (EColumn c) (at_elements t) /\ In (IReferences r) (ac_items c) /\ qualified r) \/
   (exists n cols r, In (EConstraint n (BForeign cols r)) (at_elements t) /\ qualified r)).
(** an EXCLUDE element without a name, before other elements *)
Definition exclude_first (stmts : list a_stmt) : Prop :=
  exists t e es, In (STable t) stmts /\ at_elements t = EConstraint None BNone :: e :: es.
