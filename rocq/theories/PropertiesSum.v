(** C63: a table is the sum of its elements. *)
From Coq Require Import String List Bool Arith.
From Verif Require Import GoStr Types Grammar Ast Emit Converter Parse Seen Spec Decide Witness Parts PartsFacts Exclude Order Sum SumFacts.
Import ListNotations.
Open Scope nat_scope.
Open Scope string_scope.
Open Scope list_scope.

(** A table with the elements of two tables has their columns and constraints. *)
Theorem C63_sum_partial : forall d s s1 s2 l1 v1 a oa ts1 es1 ts2 es2 o l2 v2 stmts,
  (exists o1, lang (script d) l1 None o1 v1) -> lang (opening d) a None oa tt ->
  Forall2 (an_element d) ts1 es1 -> Forall2 (an_element d) ts2 es2 -> ts1 <> [] -> ts2 <> [] -> first_ok es2 = true ->
  (exists oo, lang (options d) o (Some ";") oo tt) -> (exists o2, lang (script d) l2 None o2 v2) ->
  tokens d s (l1 ++ a ++ commas (ts1 ++ ts2) ++ ")" :: o ++ ";" :: l2) ->
  tokens d s1 (l1 ++ a ++ commas ts1 ++ ")" :: o ++ ";" :: l2) ->
  tokens d s2 (l1 ++ a ++ commas ts2 ++ ")" :: o ++ ";" :: l2) ->
  says d s stmts -> readable stmts = true ->
  exists t1 t2, accepted s1 d (tables_of d (seen v1) ++ t1 :: tables_of d (seen v2)) /\ accepted s2 d (tables_of d (seen v1) ++ t2 :: tables_of d (seen v2)) /\
    accepted s d (tables_of d (seen v1) ++ join t1 t2 :: tables_of d (seen v2)).
Proof. exact SumFacts.sum. Qed.
Print Assumptions C63_sum_partial.
(** The same elements have the same columns and constraints in every table. *)
Theorem C63_alone_partial : forall d s s' l1 v1 a oa ts es o l2 v2 l1' v1' a' oa' o' l2' v2' stmts stmts',
  (exists o1, lang (script d) l1 None o1 v1) -> lang (opening d) a None oa tt ->
  (exists oo, lang (options d) o (Some ";") oo tt) -> (exists o2, lang (script d) l2 None o2 v2) ->
  (exists o1, lang (script d) l1' None o1 v1') -> lang (opening d) a' None oa' tt ->
  (exists oo, lang (options d) o' (Some ";") oo tt) -> (exists o2, lang (script d) l2' None o2 v2') ->
  Forall2 (an_element d) ts es -> ts <> [] ->
  tokens d s (l1 ++ a ++ commas ts ++ ")" :: o ++ ";" :: l2) -> tokens d s' (l1' ++ a' ++ commas ts ++ ")" :: o' ++ ";" :: l2') ->
  says d s stmts -> readable stmts = true -> says d s' stmts' -> readable stmts' = true ->
  exists t t', accepted s d (tables_of d (seen v1) ++ t :: tables_of d (seen v2)) /\ accepted s' d (tables_of d (seen v1') ++ t' :: tables_of d (seen v2')) /\
    t_columns t = t_columns t' /\ t_constraints t = t_constraints t'.
Proof. exact SumFacts.alone. Qed.
Print Assumptions C63_alone_partial.
(** With an unnamed EXCLUDE first (PostgreSQL) it is not so. *)
Theorem C63_refuted : exists s s1 s2 ts1 es1 ts2 es2 t1 t2 t, Forall2 (an_element PostgreSQL) ts1 es1 /\ Forall2 (an_element PostgreSQL) ts2 es2 /\ ts1 <> [] /\ ts2 <> [] /\
  tokens PostgreSQL s (["CREATE"; "TABLE"; "t"; "("] ++ commas (ts1 ++ ts2) ++ [")"; ";"]) /\
  tokens PostgreSQL s1 (["CREATE"; "TABLE"; "t"; "("] ++ commas ts1 ++ [")"; ";"]) /\
  tokens PostgreSQL s2 (["CREATE"; "TABLE"; "t"; "("] ++ commas ts2 ++ [")"; ";"]) /\
  accepted s1 PostgreSQL [t1] /\ accepted s2 PostgreSQL [t2] /\ accepted s PostgreSQL [t] /\ t <> join t1 t2.
Proof.
  exists "CREATE TABLE t (EXCLUDE (aa WITH =), aa INT);", "CREATE TABLE t (EXCLUDE (aa WITH =));", "CREATE TABLE t (aa INT);",
    [["EXCLUDE"; "("; "aa"; "WITH"; "="; ")"]]. eexists. exists [["aa"; "INT"]]. do 4 eexists.
  split; [constructor; [eexists; is_part (@None string)|constructor]|]. split; [constructor; [eexists; is_part (@None string)|constructor]|].
  split; [discriminate|]. split; [discriminate|]. split; [is_tokens|]. split; [is_tokens|]. split; [is_tokens|].
  split; [computes|]. split; [computes|]. split; [computes|]. intros E. apply (f_equal (fun t => map col_name (t_columns t))) in E. discriminate.
Qed.
Print Assumptions C63_refuted.
Example C63_example : exists t1 t2, accepted "CREATE TABLE t (a INT NOT NULL, UNIQUE (a));" MySQL [t1] /\ accepted "CREATE TABLE t (b CHAR(2), CHECK (b > 1));" MySQL [t2] /\
  accepted "CREATE TABLE t (a INT NOT NULL, UNIQUE (a), b CHAR(2), CHECK (b > 1));" MySQL [join t1 t2].
Proof.
  eapply (C63_sum_partial MySQL _ _ _ [] [] ["CREATE"; "TABLE"; "t"; "("] _ [["a"; "INT"; "NOT"; "NULL"]; ["UNIQUE"; "("; "a"; ")"]] _
    [["b"; "CHAR"; "("; "2"; ")"]; ["CHECK"; "("; "b"; ">"; "1"; ")"]] _ [] [] []).
  - eexists. is_part (@None string).
  - is_part (@None string).
  - constructor; [|constructor; [|constructor]]; eexists; is_part (@None string).
  - constructor; [|constructor; [|constructor]]; eexists; is_part (@None string).
  - discriminate.
  - discriminate.
  - reflexivity.
  - eexists. is_part (Some ";").
  - eexists. is_part (@None string).
  - is_tokens.
  - is_tokens.
  - is_tokens.
  - reads.
  - reflexivity.
Qed.
Example C63_alone_example : exists t t', accepted "CREATE TABLE t (a INT NOT NULL, UNIQUE (a));" MySQL [t] /\ accepted "CREATE TABLE IF NOT EXISTS s.u (a INT NOT NULL, UNIQUE (a)) ENGINE = x;" MySQL [t'] /\
  t_columns t = t_columns t' /\ t_constraints t = t_constraints t'.
Proof.
  eapply (C63_alone_partial MySQL _ _ [] [] ["CREATE"; "TABLE"; "t"; "("] _ [["a"; "INT"; "NOT"; "NULL"]; ["UNIQUE"; "("; "a"; ")"]] _ [] [] []
    [] [] ["CREATE"; "TABLE"; "IF"; "NOT"; "EXISTS"; "s"; "."; "u"; "("] _ ["ENGINE"; "="; "x"] [] []).
  - eexists. is_part (@None string).
  - is_part (@None string).
  - eexists. is_part (Some ";").
  - eexists. is_part (@None string).
  - eexists. is_part (@None string).
  - is_part (@None string).
  - eexists. is_part (Some ";").
  - eexists. is_part (@None string).
  - constructor; [|constructor; [|constructor]]; eexists; is_part (@None string).
  - discriminate.
  - is_tokens.
  - is_tokens.
  - reads.
  - reflexivity.
  - reads.
  - reflexivity.
Qed.
