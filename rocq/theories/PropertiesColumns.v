(** C29, C33: NOT NULL in the definitions of columns, and EXCLUDE elements (what is true of the properties; see also Refuted.v). *)
From Coq Require Import String Ascii List Bool Arith.
From Verif Require Import GoStr Types Grammar Ast Converter Parse Safe Seen Spec Decide Witness Parts PartsFacts Values Columns ColumnsFacts NotNull NotNullFacts Exclude ExcludeFacts.
From Verif Require GPostgres.
Import ListNotations.
Open Scope nat_scope.
Open Scope string_scope.
Open Scope list_scope.

(** C29: a column is reported as NOT NULL if and only if the words stand in its definition, outside of brackets --
    in MySQL: and not directly after CHECK (...). *)
Theorem C29_partial : forall d ddl stmts l cs, says d ddl stmts -> readable stmts = true -> tokens d ddl l -> column_texts d l cs ->
  exists ts, accepted ddl d ts /\
  Forall2 (fun t r => c_notnull (col_constraint r) = true <-> not_null_written d t) cs (result_columns ts).
Proof. exact ColumnsFacts.notnull_texts. Qed.
Print Assumptions C29_partial.
(** Every script has its column definitions. *)
Theorem C29_texts : forall d v l o, lang (script d) l None o v -> exists cs, column_texts d l cs.
Proof. exact ColumnsFacts.texts_exist. Qed.
Print Assumptions C29_texts.
Example C29_example :
  let ddl := "CREATE VIEW v; CREATE TABLE t (id INT CHECK (id NOT NULL), n INT UNIQUE not null, UNIQUE (id));" in
  let l := ["CREATE"; "VIEW"; "v"; ";"; "CREATE"; "TABLE"; "t"; "("; "id"; "INT"; "CHECK"; "("; "id"; "NOT"; "NULL"; ")"; ",";
    "n"; "INT"; "UNIQUE"; "not"; "null"; ","; "UNIQUE"; "("; "id"; ")"; ")"; ";"] in
  let c1 := ["id"; "INT"; "CHECK"; "("; "id"; "NOT"; "NULL"; ")"] in
  let c2 := ["n"; "INT"; "UNIQUE"; "not"; "null"] in
  (exists stmts, says PostgreSQL ddl stmts /\ readable stmts = true) /\ tokens PostgreSQL ddl l /\ column_texts PostgreSQL l [c1; c2] /\
  (exists ts, accepted ddl PostgreSQL ts /\ map (fun r => c_notnull (col_constraint r)) (result_columns ts) = [false; true]).
Proof.
  split; [eexists; split; [reads|reflexivity]|]. split; [is_tokens|]. split; [|eexists; split; [computes|reflexivity]].
  apply (ct_other PostgreSQL ["CREATE"; "VIEW"; "v"; ";"] []); [is_part (@None string)|].
  eapply (ct_table PostgreSQL ["CREATE"; "TABLE"; "t"; "("] _
    ["id"; "INT"; "CHECK"; "("; "id"; "NOT"; "NULL"; ")"; ","; "n"; "INT"; "UNIQUE"; "not"; "null"; ","; "UNIQUE"; "("; "id"; ")"] _
    [(["id"; "INT"; "CHECK"; "("; "id"; "NOT"; "NULL"; ")"], EColumn _); (["n"; "INT"; "UNIQUE"; "not"; "null"], EColumn _);
     (["UNIQUE"; "("; "id"; ")"], EConstraint _ _)] [] [] [] []).
  - is_part (@None string).
  - apply (sep_cons _ true ["id"; "INT"; "CHECK"; "("; "id"; "NOT"; "NULL"; ")"]); [split; [reflexivity|is_part (Some ",")]|].
    apply (sep_cons _ true ["n"; "INT"; "UNIQUE"; "not"; "null"]); [split; [reflexivity|is_part (Some ",")]|].
    apply sep_one. split; [reflexivity|is_part (Some ")")].
  - is_part (Some ";").
  - apply ct_nil.
Qed.
Example C29_examples :
  not_null_written MySQL ["a"; "INT"; "NOT"; "NULL"; "CHECK"; "("; "a"; ")"] /\
  not_null_written MySQL ["a"; "INT"; "CHECK"; "("; "a"; ")"; "not"; "NOT"; "NULL"] /\
  ~ not_null_written MySQL ["a"; "INT"; "CHECK"; "("; "a"; ")"; "NOT"; "NULL"] /\
  not_null_written SQLite ["a"; "TEXT"; "CHECK"; "("; "a"; ")"; "NOT"; "NULL"].
Proof.
  split; [exists ["a"; "INT"], "NOT", "NULL", ["CHECK"; "()"]; do 3 (split; [reflexivity|]);
    intros (p & c & E & _); destruct p as [|? [|? p]]; try discriminate; destruct p; discriminate|].
  split; [exists ["a"; "INT"; "CHECK"; "()"; "not"], "NOT", "NULL", []; do 3 (split; [reflexivity|]);
    intros (p & c & E & _); do 5 (destruct p as [|? p]; [discriminate|]); destruct p; discriminate|].
  split; [|exists ["a"; "TEXT"; "CHECK"; "()"], "NOT", "NULL", []; repeat split].
  intros (p & a & b & q & E & A & B & C). cbn in E.
  do 4 (destruct p as [|? p]; [inversion E; subst; discriminate|]).
  destruct p as [|? p]; [|destruct p as [|? p]; [discriminate|destruct p; discriminate]].
  inversion E; subst. apply C. exists ["a"; "INT"], "CHECK". split; reflexivity.
Qed.

(** C33: an EXCLUDE element added to a table does not change the result, unless the first of several elements is an EXCLUDE
    without a name. *)
Theorem C33_partial : forall ddl ddl' l1 v1 a oa ts1 x ts2 o l2 v2 stmts,
  (exists o1, lang (script PostgreSQL) l1 None o1 v1) -> lang (opening PostgreSQL) a None oa tt ->
  Forall is_element (ts1 ++ ts2) -> ts1 ++ ts2 <> [] -> is_exclude x ->
  (exists oo, lang (options PostgreSQL) o (Some ";") oo tt) -> (exists o2, lang (script PostgreSQL) l2 None o2 v2) ->
  (forall f, hd_error (ts1 ++ x :: ts2) = Some f -> ~ is_unnamed f) ->
  tokens PostgreSQL ddl (l1 ++ a ++ commas (ts1 ++ ts2) ++ ")" :: o ++ ";" :: l2) ->
  tokens PostgreSQL ddl' (l1 ++ a ++ commas (ts1 ++ x :: ts2) ++ ")" :: o ++ ";" :: l2) ->
  says PostgreSQL ddl stmts -> readable stmts = true ->
  exists ts, accepted ddl PostgreSQL ts /\ accepted ddl' PostgreSQL ts.
Proof. exact ExcludeFacts.exclude_same. Qed.
Print Assumptions C33_partial.
Example C33_example : exists ts,
  accepted "CREATE TABLE t (id INT, n INT);" PostgreSQL ts /\
  accepted "CREATE TABLE t (id INT, EXCLUDE USING gist (id WITH x) WHERE (n), n INT);" PostgreSQL ts.
Proof.
  eapply (C33_partial _ _ [] [] ["CREATE"; "TABLE"; "t"; "("] _ [["id"; "INT"]]
    ["EXCLUDE"; "USING"; "gist"; "("; "id"; "WITH"; "x"; ")"; "WHERE"; "("; "n"; ")"] [["n"; "INT"]] [] [] []).
  - eexists. is_part (@None string).
  - is_part (@None string).
  - repeat constructor; eexists _, _; is_part (@None string).
  - discriminate.
  - eexists _, _. is_part (@None string).
  - eexists. is_part (Some ";").
  - eexists. is_part (@None string).
  - intros f E. inversion E; subst. intros (o & v & a & _ & l1 & l2 & o1 & o2 & E1 & _ & (M & E2 & _) & _).
    subst l1. cbn [app] in E1. inversion E1 as [[E3 E4]]. rewrite <- E3 in M. discriminate.
  - is_tokens.
  - is_tokens.
  - reads.
  - reflexivity.
Qed.
