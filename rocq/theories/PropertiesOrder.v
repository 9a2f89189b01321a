(** C59, C60: the order of the constraints of a column, and of the elements of a table. *)
From Coq Require Import String List Bool Arith Permutation.
From Verif Require Import GoStr Types Grammar Ast Emit Converter Parse Seen Spec Decide Witness Parts PartsFacts Exclude Order OrderFacts OrderResult.
Import ListNotations.
Open Scope nat_scope.
Open Scope string_scope.
Open Scope list_scope.

(** C59: the words that cannot follow a constraint of a column are those of [barred]. *)
Theorem C59_follow : forall d c, is_constraint d c -> forall x,
  (exists o v, lang (column_constraint d) c (Some x) o v) <-> matches (barred d c) x = false.
Proof. exact OrderFacts.follow. Qed.
Print Assumptions C59_follow.
(** The constraints of a column can be written in any order that does not put such a word after a constraint. *)
Theorem C59_order_partial : forall d s s' l1 v1 a oa ts1 es1 h oh cs cs' ts2 es2 o l2 v2 stmts,
  (exists o1, lang (script d) l1 None o1 v1) -> lang (opening d) a None oa tt ->
  Forall2 (an_element d) ts1 es1 -> Forall2 (an_element d) ts2 es2 -> lang (column_head d) h None oh tt ->
  Forall (is_constraint d) cs -> Permutation cs cs' -> arranged d cs -> arranged d cs' ->
  (exists oo, lang (options d) o (Some ";") oo tt) -> (exists o2, lang (script d) l2 None o2 v2) ->
  tokens d s (l1 ++ a ++ commas (ts1 ++ (h ++ concat cs) :: ts2) ++ ")" :: o ++ ";" :: l2) ->
  tokens d s' (l1 ++ a ++ commas (ts1 ++ (h ++ concat cs') :: ts2) ++ ")" :: o ++ ";" :: l2) ->
  says d s stmts -> readable stmts = true -> exists r, accepted s d r /\ accepted s' d r.
Proof. exact OrderResult.reorder. Qed.
Print Assumptions C59_order_partial.
Example C59_example : exists r, accepted "CREATE TABLE tt (aa INT, bb INT CONSTRAINT cc NOT NULL DEFAULT 1 REFERENCES uu (xx) ON DELETE CASCADE, CHECK (aa));" PostgreSQL r /\
  accepted "CREATE TABLE tt (aa INT, bb INT CONSTRAINT cc REFERENCES uu (xx) ON DELETE CASCADE NOT NULL DEFAULT 1, CHECK (aa));" PostgreSQL r.
Proof.
  eapply (C59_order_partial PostgreSQL _ _ [] [] ["CREATE"; "TABLE"; "tt"; "("] _ [["aa"; "INT"]] _ ["bb"; "INT"; "CONSTRAINT"; "cc"] _
    [["NOT"; "NULL"]; ["DEFAULT"; "1"]; ["REFERENCES"; "uu"; "("; "xx"; ")"; "ON"; "DELETE"; "CASCADE"]]
    [["REFERENCES"; "uu"; "("; "xx"; ")"; "ON"; "DELETE"; "CASCADE"]; ["NOT"; "NULL"]; ["DEFAULT"; "1"]]
    [["CHECK"; "("; "aa"; ")"]] _ [] [] []).
  - eexists. is_part (@None string).
  - is_part (@None string).
  - constructor; [|constructor]. eexists. is_part (@None string).
  - constructor; [|constructor]. eexists. is_part (@None string).
  - is_part (@None string).
  - constructor; [|constructor; [|constructor; [|constructor]]]; do 2 eexists; is_part (@None string).
  - apply (Permutation_app_comm [["NOT"; "NULL"]; ["DEFAULT"; "1"]] [_]).
  - repeat split; cbn; intros t E; congruence.
  - repeat split; cbn; intros t E; congruence.
  - eexists. is_part (Some ";").
  - eexists. is_part (@None string).
  - is_tokens.
  - is_tokens.
  - reads.
  - reflexivity.
Qed.
(** Without that condition the order matters: SQLite rejects NOT NULL after REFERENCES; in MySQL NOT NULL after CHECK, and KEY after
    UNIQUE, are not reported. *)
Definition with_constraints (cs : list (list string)) : list string := ["CREATE"; "TABLE"; "t"; "("; "a"; "INTEGER"] ++ concat cs ++ [")"; ";"].
Theorem C59_refuted :
  (exists cs cs' s s' r line, Permutation cs cs' /\ Forall (is_constraint SQLite) cs /\ tokens SQLite s (with_constraints cs) /\
    tokens SQLite s' (with_constraints cs') /\ accepted s SQLite r /\ rejected s' SQLite line "NULL") /\
  (exists cs cs' s s' r r', Permutation cs cs' /\ Forall (is_constraint MySQL) cs /\ tokens MySQL s (with_constraints cs) /\
    tokens MySQL s' (with_constraints cs') /\ accepted s MySQL r /\ accepted s' MySQL r' /\
    map (fun c => c_notnull (col_constraint c)) (flat_map t_columns r) = [true] /\ map (fun c => c_notnull (col_constraint c)) (flat_map t_columns r') = [false]) /\
  (exists cs cs' s s' r r', Permutation cs cs' /\ Forall (is_constraint MySQL) cs /\ tokens MySQL s (with_constraints cs) /\
    tokens MySQL s' (with_constraints cs') /\ accepted s MySQL r /\ accepted s' MySQL r' /\
    map (fun c => c_pk (col_constraint c)) (flat_map t_columns r) = [true] /\ map (fun c => c_pk (col_constraint c)) (flat_map t_columns r') = [false]).
Proof.
  split; [|split].
  - exists [["NOT"; "NULL"]; ["REFERENCES"; "u"]], [["REFERENCES"; "u"]; ["NOT"; "NULL"]], "CREATE TABLE t (a INTEGER NOT NULL REFERENCES u);",
      "CREATE TABLE t (a INTEGER REFERENCES u NOT NULL);". do 2 eexists.
    split; [apply perm_swap|]. split; [constructor; [|constructor; [|constructor]]; do 2 eexists; is_part (@None string)|].
    split; [is_tokens|]. split; [is_tokens|]. split; computes.
  - exists [["NOT"; "NULL"]; ["CHECK"; "("; "a"; ")"]], [["CHECK"; "("; "a"; ")"]; ["NOT"; "NULL"]], "CREATE TABLE t (a INTEGER NOT NULL CHECK (a));",
      "CREATE TABLE t (a INTEGER CHECK (a) NOT NULL);". do 2 eexists.
    split; [apply perm_swap|]. split; [constructor; [|constructor; [|constructor]]; do 2 eexists; is_part (@None string)|].
    split; [is_tokens|]. split; [is_tokens|]. split; [computes|]. split; [computes|]. split; reflexivity.
  - exists [["KEY"]; ["UNIQUE"]], [["UNIQUE"]; ["KEY"]], "CREATE TABLE t (a INTEGER KEY UNIQUE);", "CREATE TABLE t (a INTEGER UNIQUE KEY);". do 2 eexists.
    split; [apply perm_swap|]. split; [constructor; [|constructor; [|constructor]]; do 2 eexists; is_part (@None string)|].
    split; [is_tokens|]. split; [is_tokens|]. split; [computes|]. split; [computes|]. split; reflexivity.
Qed.
Print Assumptions C59_refuted.

(** C60: the constraints of a table can stand anywhere among its columns; only the order within the columns, within the UNIQUE constraints
    and so on matters. *)
Theorem C60_order_partial : forall d s s' l1 v1 a oa ts ts' es es' o l2 v2 stmts,
  (exists o1, lang (script d) l1 None o1 v1) -> lang (opening d) a None oa tt -> ts <> [] -> ts' <> [] ->
  Forall2 (an_element d) ts es -> Forall2 (an_element d) ts' es' -> regrouped es es' -> first_ok es' = true -> existsb is_index es' = false ->
  (exists oo, lang (options d) o (Some ";") oo tt) -> (exists o2, lang (script d) l2 None o2 v2) ->
  tokens d s (l1 ++ a ++ commas ts ++ ")" :: o ++ ";" :: l2) -> tokens d s' (l1 ++ a ++ commas ts' ++ ")" :: o ++ ";" :: l2) ->
  says d s stmts -> readable stmts = true -> exists r, accepted s d r /\ accepted s' d r.
Proof. exact OrderResult.regroup. Qed.
Print Assumptions C60_order_partial.
Example C60_example : exists r, accepted "CREATE TABLE t (aa INT, bb INT, UNIQUE (aa), CONSTRAINT cc CHECK (aa), EXCLUDE (aa WITH =), UNIQUE (bb));" PostgreSQL r /\
  accepted "CREATE TABLE t (CONSTRAINT cc CHECK (aa), aa INT, EXCLUDE (aa WITH =), UNIQUE (aa), UNIQUE (bb), bb INT);" PostgreSQL r.
Proof.
  pose (e1 := ["aa"; "INT"]). pose (e2 := ["bb"; "INT"]). pose (u1 := ["UNIQUE"; "("; "aa"; ")"]). pose (u2 := ["UNIQUE"; "("; "bb"; ")"]).
  pose (c := ["CONSTRAINT"; "cc"; "CHECK"; "("; "aa"; ")"]). pose (x := ["EXCLUDE"; "("; "aa"; "WITH"; "="; ")"]).
  eapply (C60_order_partial PostgreSQL _ _ [] [] ["CREATE"; "TABLE"; "t"; "("] _ [e1; e2; u1; c; x; u2] [c; e1; x; u1; u2; e2] _ _ [] [] []).
  - eexists. is_part (@None string).
  - is_part (@None string).
  - discriminate.
  - discriminate.
  - do 6 (constructor; [eexists; is_part (@None string)|]). constructor.
  - do 6 (constructor; [eexists; is_part (@None string)|]). constructor.
  - intros []; reflexivity.
  - reflexivity.
  - reflexivity.
  - eexists. is_part (Some ";").
  - eexists. is_part (@None string).
  - is_tokens.
  - is_tokens.
  - reads.
  - reflexivity.
Qed.
(** Not so if the order puts an unnamed EXCLUDE constraint of PostgreSQL first: the comma after it is reported as the name of a column. *)
Theorem C60_refuted : exists s s' ts ts' es es' r r', regrouped es es' /\ Forall2 (an_element PostgreSQL) ts es /\ Forall2 (an_element PostgreSQL) ts' es' /\
  tokens PostgreSQL s (["CREATE"; "TABLE"; "t"; "("] ++ commas ts ++ [")"; ";"]) /\ tokens PostgreSQL s' (["CREATE"; "TABLE"; "t"; "("] ++ commas ts' ++ [")"; ";"]) /\
  accepted s PostgreSQL r /\ accepted s' PostgreSQL r' /\ map col_name (flat_map t_columns r) = ["aa"] /\ map col_name (flat_map t_columns r') = [","].
Proof.
  exists "CREATE TABLE t (aa INT, EXCLUDE (aa WITH =));", "CREATE TABLE t (EXCLUDE (aa WITH =), aa INT);",
    [["aa"; "INT"]; ["EXCLUDE"; "("; "aa"; "WITH"; "="; ")"]], [["EXCLUDE"; "("; "aa"; "WITH"; "="; ")"]; ["aa"; "INT"]]. do 4 eexists.
  split; [|split; [|split]].
  2,3: do 2 (constructor; [eexists; is_part (@None string)|]); constructor.
  { intros []; reflexivity. }
  split; [is_tokens|]. split; [is_tokens|]. split; [computes|]. split; [computes|]. split; reflexivity.
Qed.
Print Assumptions C60_refuted.
