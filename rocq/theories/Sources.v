(** Where the strings in a table come from: each is made from the tokens in a list [L]. *)
From Coq Require Import String Ascii ZArith List Bool.
From Verif Require Import GoStr Unicode GoNum Types Grammar Ast.
Import ListNotations.
Open Scope string_scope.

(** [weave ws l o]: [o] is [l] with some tokens left out and words of [ws] put in. *)
Inductive weave (ws : list string) : list string -> list string -> Prop :=
| wv_nil : weave ws [] []
| wv_keep t l o : weave ws l o -> weave ws (t :: l) (t :: o)
| wv_drop t l o : weave ws l o -> weave ws (t :: l) o
| wv_put w l o : In w ws -> weave ws l o -> weave ws l (w :: o).

(** A comma before a comma left out. *)
Fixpoint squeeze (l : list string) : list string :=
  match l with
  | t :: l' =>
    if (t =? ",") && (match l' with t' :: _ => t' =? "," | [] => false end) then squeeze l' else t :: squeeze l'
  | [] => []
  end.

Section From.
Variables (d : rdbms) (L : list string).

(** a token, without its quotes *)
Definition name_from (x : string) : Prop := exists t, In t L /\ x = unquote d t.
(** the same, or nothing *)
Definition opt_name_from (x : string) : Prop := x = "" \/ name_from x.
(** consecutive tokens put together *)
Definition run_from (x : string) : Prop := exists u e w, L = (u ++ e ++ w)%list /\ x = text (squeeze e).
Definition number_from (n : Z) : Prop := n = 0%Z \/ exists t, In t L /\ n = atoi_value t.

(** a word in upper case; VARYING after it gives VARBIT, VARCHAR or the two words *)
Definition type_from (ty : data_type) : Prop :=
  exists t, In t L /\
  (dt_name ty = go_upper t \/
   exists v, In v L /\ go_upper v = "VARYING" /\
     dt_name ty = (if go_upper t =? "BIT" then "VARBIT" else if go_upper t =? "CHARACTER" then "VARCHAR"
                   else go_upper t ++ " VARYING")) /\
  number_from (dt_n ty) /\ number_from (dt_m ty).

Definition default_from (x : default_value) : Prop :=
  match x with
  | DNil => True
  | DFloat f => exists t, In t L /\ parse_float t = Some f
  | DBool b => exists t, In t L /\ go_upper t = if b then "TRUE" else "FALSE"
  | DString s => In s L \/ (exists t, In t L /\ quoted (string_quotes d) t = true /\ s = inner t) \/ run_from s
  end.
Definition reference_from (r : reference) : Prop :=
  opt_name_from (ref_table r) /\ match ref_columns r with Some cs => incl cs L | None => True end.
Definition constraint_from (c : constraint) : Prop :=
  opt_name_from (c_name c) /\ default_from (c_default c) /\ (c_check c = "" \/ run_from (c_check c)) /\
  opt_name_from (c_collate c) /\ reference_from (c_references c).
Definition column_from (c : column) : Prop :=
  name_from (col_name c) /\ type_from (col_type c) /\ constraint_from (col_constraint c).
Definition tc_from (tc : table_constraint) : Prop :=
  Forall (fun x => opt_name_from (pk_name x) /\ incl (pk_columns x) L) (tc_pk tc) /\
  Forall (fun x => opt_name_from (uq_name x) /\ incl (uq_columns x) L) (tc_unique tc) /\
  Forall (fun x => opt_name_from (ck_name x) /\ run_from (ck_expr x)) (tc_check tc) /\
  Forall (fun x => opt_name_from (fk_name x) /\ incl (fk_columns x) L /\ reference_from (fk_references x)) (tc_fk tc).
Definition table_from (t : table) : Prop :=
  opt_name_from (t_schema t) /\ name_from (t_name t) /\ Forall column_from (t_columns t) /\ tc_from (t_constraints t).
End From.

(** The words that the validator of a dialect puts in. *)
Definition put_in (d : rdbms) : list string :=
  match d with MySQL => ["CREATE"; "PRIMARY"; "KEY"] | _ => ["CREATE"] end.
