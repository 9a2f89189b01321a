(** Where the values of the result stand in its JSON text, by the names that the README gives. *)
From Coq Require Import String Ascii NArith ZArith List Bool Arith Lia.
From Verif Require Import GoStr GoNum Types Json.
Import ListNotations.
Open Scope nat_scope.
Open Scope string_scope.
Open Scope list_scope.

(** ** Paths: the member of an object with a name, the item of an array with an index *)
Inductive path_step := Member (name : string) | Item (i : nat).
Definition down (j : json) (s : path_step) : option json :=
  match j, s with
  | JObject l, Member k => option_map snd (find (fun m => (fst m =? k)%string) l)
  | JArray l, Item i => nth_error l i
  | _, _ => None
  end.
Fixpoint at_path (j : json) (p : list path_step) : option json :=
  match p with
  | [] => Some j
  | s :: p => match down j s with Some j => at_path j p | None => None end
  end.
Definition names (j : option json) : option (list string) :=
  match j with Some (JObject l) => Some (map fst l) | _ => None end.

(** The strings [l] stand at [v]. *)
Definition string_list (v : option json) (l : list string) : Prop := v = Some (JArray (map JString l)).
(** A list that is null if it is empty: what is at each of its indices, and nothing else. *)
Definition items {A} (v : list path_step -> option json) (l : list A) (f : A -> (list path_step -> option json) -> Prop) : Prop :=
  (l = [] -> v [] = Some JNull) /\
  (forall i x, nth_error l i = Some x -> f x (fun p => v (Item i :: p))) /\
  forall i, length l <= i -> v [Item i] = None.

Definition reference_at (r : reference) (v : list path_step -> option json) : Prop :=
  names (v []) = Some ["table_name"; "column_names"] /\
  v [Member "table_name"] = Some (JString (ref_table r)) /\
  match ref_columns r with
  | Some l => string_list (v [Member "column_names"]) l
  | None => v [Member "column_names"] = Some JNull
  end.
Definition default_at (x : default_value) (v : option json) : Prop :=
  match x with
  | DNil => v = Some JNull
  | DFloat f => exists s, v = Some (JNumber s) /\ parse_float s = Some f
  | DBool b => v = Some (JBool b)
  | DString s => v = Some (JString s)
  end.
Definition constraint_at (c : constraint) (v : list path_step -> option json) : Prop :=
  names (v []) = Some ["name"; "is_primary_key"; "is_unique"; "is_not_null"; "is_autoincrement"; "default"; "check"; "collate"; "references"] /\
  v [Member "name"] = Some (JString (c_name c)) /\
  v [Member "is_primary_key"] = Some (JBool (c_pk c)) /\
  v [Member "is_unique"] = Some (JBool (c_unique c)) /\
  v [Member "is_not_null"] = Some (JBool (c_notnull c)) /\
  v [Member "is_autoincrement"] = Some (JBool (c_auto c)) /\
  default_at (c_default c) (v [Member "default"]) /\
  v [Member "check"] = Some (JString (c_check c)) /\
  v [Member "collate"] = Some (JString (c_collate c)) /\
  reference_at (c_references c) (fun p => v (Member "references" :: p)).
Definition column_at (c : column) (v : list path_step -> option json) : Prop :=
  names (v []) = Some ["name"; "data_type"; "constraint"] /\
  v [Member "name"] = Some (JString (col_name c)) /\
  names (v [Member "data_type"]) = Some ["name"; "digit_n"; "digit_m"] /\
  v [Member "data_type"; Member "name"] = Some (JString (dt_name (col_type c))) /\
  v [Member "data_type"; Member "digit_n"] = Some (JNumber (int_text (dt_n (col_type c)))) /\
  v [Member "data_type"; Member "digit_m"] = Some (JNumber (int_text (dt_m (col_type c)))) /\
  constraint_at (col_constraint c) (fun p => v (Member "constraint" :: p)).
Definition key_at (n : string) (l : list string) (v : list path_step -> option json) : Prop :=
  names (v []) = Some ["name"; "column_names"] /\
  v [Member "name"] = Some (JString n) /\ string_list (v [Member "column_names"]) l.
Definition check_at (c : check) (v : list path_step -> option json) : Prop :=
  names (v []) = Some ["name"; "expr"] /\
  v [Member "name"] = Some (JString (ck_name c)) /\ v [Member "expr"] = Some (JString (ck_expr c)).
Definition foreign_at (f : foreign_key) (v : list path_step -> option json) : Prop :=
  names (v []) = Some ["name"; "column_names"; "references"] /\
  v [Member "name"] = Some (JString (fk_name f)) /\ string_list (v [Member "column_names"]) (fk_columns f) /\
  reference_at (fk_references f) (fun p => v (Member "references" :: p)).
Definition table_at (t : table) (v : list path_step -> option json) : Prop :=
  names (v []) = Some ["schema"; "name"; "if_not_exists"; "columns"; "constraints"] /\
  v [Member "schema"] = Some (JString (t_schema t)) /\
  v [Member "name"] = Some (JString (t_name t)) /\
  v [Member "if_not_exists"] = Some (JBool (t_if_not_exists t)) /\
  items (fun p => v (Member "columns" :: p)) (t_columns t) column_at /\
  names (v [Member "constraints"]) = Some ["primary_key"; "unique"; "check"; "foreign_key"] /\
  items (fun p => v (Member "constraints" :: Member "primary_key" :: p)) (tc_pk (t_constraints t)) (fun k => key_at (pk_name k) (pk_columns k)) /\
  items (fun p => v (Member "constraints" :: Member "unique" :: p)) (tc_unique (t_constraints t)) (fun k => key_at (uq_name k) (uq_columns k)) /\
  items (fun p => v (Member "constraints" :: Member "check" :: p)) (tc_check (t_constraints t)) check_at /\
  items (fun p => v (Member "constraints" :: Member "foreign_key" :: p)) (tc_fk (t_constraints t)) foreign_at.
(** The tables are the items of an array. *)
Definition tables_at (ts : list table) (j : json) : Prop :=
  (exists l, j = JArray l /\ length l = length ts) /\
  forall i t, nth_error ts i = Some t -> table_at t (fun p => at_path j (Item i :: p)).
