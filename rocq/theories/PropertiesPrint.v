(** C43: the text that is printed for tables is read as these tables. *)
From Coq Require Import String Ascii NArith ZArith List Bool.
From Verif Require Import GoStr GoNum Types Grammar Ast Spec Decide Numbers Floats Utf8 Layout Parts Print PrintFacts ListedFacts.
Import ListNotations.
Open Scope string_scope.
Open Scope list_scope.

Theorem C43_round_trip : forall d ts, In d [SQLite; PostgreSQL; MySQL] -> Forall (table_ok d) ts -> accepted (print d ts) d ts.
Proof. intros d ts K F. apply print_parse; [|exact F]. destruct K as [<-|[<-|[<-|[]]]]; exact I. Qed.
Print Assumptions C43_round_trip.

(** Different tables have different texts. *)
Theorem C43_injective : forall d ts ts', In d [SQLite; PostgreSQL; MySQL] -> Forall (table_ok d) ts -> Forall (table_ok d) ts' ->
  print d ts = print d ts' -> ts = ts'.
Proof.
  intros d ts ts' K F F' E. pose proof (C43_round_trip d ts K F) as A. pose proof (C43_round_trip d ts' K F') as A'.
  rewrite E in A. eapply ListedFacts.accepted_det; eassumption.
Qed.
Print Assumptions C43_injective.

Lemma plain_name : forall l, verbatim (map N_of_ascii l) = true -> utf8 (map N_of_ascii l) = string_of_list_ascii l -> name_ok (string_of_list_ascii l).
Proof. intros l V U. exists (map N_of_ascii l). now rewrite U. Qed.
Ltac a_name := match goal with |- name_ok ?s => apply (plain_name (list_ascii_of_string s)); reflexivity end.
Lemma plain_key : forall d s, name_pattern s && negb (contains (reserved d) (to_upper s)) = true -> key_ok d s.
Proof.
  intros d s H. apply andb_true_iff in H as [P N]. right. split; [exact P|]. intros J. apply negb_true_iff in N.
  unfold contains in N. assert (E : existsb (fun k => (k =? to_upper s)%string) (reserved d) = true) by (apply existsb_exists; exists (to_upper s); split; [exact J|apply String.eqb_refl]).
  congruence.
Qed.
Lemma quoted_key : forall d l, let q := quote d in verbatim (map N_of_ascii l) = true -> utf8 (map N_of_ascii l) = string_of_list_ascii l ->
  In (quote d) (id_quotes d) -> key_ok d (quote d ++ string_of_list_ascii l ++ quote d).
Proof. intros d l q V U I. left. exists (quote d), (map N_of_ascii l). now rewrite U. Qed.
Ltac a_key := first [apply plain_key; vm_compute; reflexivity | match goal with |- key_ok ?d _ =>
  apply (quoted_key d (list_ascii_of_string "first name")); [reflexivity|reflexivity|cbn; auto] end].
Ltac a_type := split; [vm_compute; intuition|]; first
  [ left; split; reflexivity
  | right; split; [vm_compute; intuition|]; split; [split; reflexivity|]; first [left; reflexivity|right; split; [vm_compute; intuition|split; reflexivity]] ].
Ltac ok X :=
  lazymatch goal with
  | |- Forall _ (_ :: _) => apply Forall_cons; ok X
  | |- Forall _ [] => apply Forall_nil
  | |- _ /\ _ => split; ok X
  | |- name_ok _ => a_name
  | |- key_ok _ _ => a_key
  | |- keys_ok _ _ => cbn -[keys_ok]; split; [discriminate|ok X]
  | |- expr_ok _ _ => exact X
  | |- type_ok _ _ => a_type
  | |- float_ok _ => split; [split; [reflexivity|split; discriminate]|left; discriminate]
  | |- default_ok _ _ => cbn -[name_ok expr_ok float_ok]; ok X
  | |- collate_ok _ _ => cbn -[name_ok matches]; ok X
  | |- matches _ _ = true => reflexivity
  | |- reference_ok _ _ => unfold reference_ok; cbn -[name_ok keys_ok]; ok X
  | |- constraint_ok _ _ => unfold constraint_ok; cbn -[name_ok expr_ok default_ok collate_ok reference_ok]; ok X
  | |- column_ok _ _ => unfold column_ok; cbn -[name_ok constraint_ok type_ok]; ok X
  | |- tc_ok _ _ => unfold tc_ok; cbn -[name_ok keys_ok expr_ok reference_ok]; ok X
  | |- table_ok _ _ => unfold table_ok; cbn -[name_ok column_ok tc_ok zero_tc]; ok X
  | |- _ \/ _ => first [left; ok X|right; ok X]
  | |- True => exact I
  | |- _ => first [reflexivity|discriminate|intros; (reflexivity || discriminate)]
  end.

Definition the_check : list item := [ISym 40; IWord (map N_of_ascii (list_ascii_of_string "age>-1")); ISym 41]%N.
Lemma the_check_ok : forall d, In d [SQLite; PostgreSQL; MySQL] -> expr_ok d "(age>-1)".
Proof.
  intros d D. exists the_check, ["age>-1"]. destruct D as [<-|[<-|[<-|[]]]]; (split; [reflexivity|]); (split; [vm_compute; reflexivity|]);
    (split; [reflexivity|]); (split; [reflexivity|]); (split; [|reflexivity]); (apply bal_tok; [discriminate|discriminate|apply bal_nil]).
Qed.

(** A table with a size and a scale, NOT NULL, a float64 (0.1), a literal, an expression, and all four kinds of table constraints. *)
Definition the_table (d : rdbms) (types : list data_type) : table :=
  mk_table "app" "user data" true
    (map (fun '(n, t, c) => mk_column n t c) (combine (combine ["id"; "first name"; "age"; "parent"] types)
      [ mk_constraint "k" true false true (match d with PostgreSQL => false | _ => true end) DNil "" "" zero_reference;
        mk_constraint "" false true false false (DString "it is") "" (match d with MySQL => "utf8 bin" | PostgreSQL => "" | _ => "nocase" end) zero_reference;
        mk_constraint "" false false true false (DFloat (FFin false 7205759403792794 (-56))) "(age>-1)" "" zero_reference;
        mk_constraint "" false false false false (DString "(age>-1)") "" "" (mk_reference "users" (Some ["id"])) ]))
    (mk_tc [mk_pk "pk 1" ["id"; (quote d ++ "first name" ++ quote d)%string]] [mk_unique "" ["age"]] [mk_check "ck" "(age>-1)"]
       [mk_fk "" ["parent"; "age"] (mk_reference "users" (Some ["id"; "age"]))]).
Definition the_types (d : rdbms) : list data_type :=
  match d with
  | SQLite | Other _ => [mk_data_type "INTEGER" 0 0; mk_data_type "TEXT" 0 0; mk_data_type "REAL" 0 0; mk_data_type "NUMERIC" 0 0]
  | _ => [mk_data_type "BIGINT" 0 0; mk_data_type "VARCHAR" 80 0; mk_data_type "NUMERIC" 10 2; mk_data_type "DECIMAL" 5 0]
  end%Z.
Definition the_tables (d : rdbms) : list table :=
  [the_table d (the_types d); mk_table "" "t" false [] (mk_tc [] [mk_unique "" ["x"]] [] [])].

Example C43_example : forall d, In d [SQLite; PostgreSQL; MySQL] -> Forall (table_ok d) (the_tables d).
Proof.
  intros d D. assert (X : expr_ok d "(age>-1)") by now apply the_check_ok.
  destruct D as [<-|[<-|[<-|[]]]]; (unfold the_tables, the_table, the_types; cbn -[table_ok]); ok X.
Qed.
Example C43_text : print MySQL [the_table MySQL (the_types MySQL)] =
  ("CREATE TABLE IF NOT EXISTS `app` . `user data` ( `id` BIGINT CONSTRAINT `k` NOT NULL PRIMARY KEY AUTO_INCREMENT , " ++
   "`first name` VARCHAR ( 80 ) UNIQUE DEFAULT 'it is' COLLATE `utf8 bin` , " ++
   "`age` NUMERIC ( 10 , 2 ) NOT NULL DEFAULT 10000000000000000555111512312578270211815834045410156250e-56 CHECK (age>-1) , " ++
   "`parent` DECIMAL ( 5 ) DEFAULT '(age>-1)' REFERENCES `users` ( id ) , CONSTRAINT `pk 1` PRIMARY KEY ( id , `first name` ) , " ++
   "UNIQUE ( age ) , CONSTRAINT `ck` CHECK (age>-1) , FOREIGN KEY ( parent , age ) REFERENCES `users` ( id , age ) ) ; ")%string.
Proof. vm_compute. reflexivity. Qed.
