(** C61: clauses that are not reported. *)
From Coq Require Import String List Bool Arith.
From Verif Require Import GoStr Types Grammar Ast Emit Converter Parse Seen Spec Decide Witness Parts PartsFacts Exclude Order Clauses ClausesFacts.
Import ListNotations.
Open Scope nat_scope.
Open Scope string_scope.
Open Scope list_scope.

(** Clauses of a constraint of a column: ON DELETE ..., ON CONFLICT ..., INCLUDE (...), NOT ENFORCED, ... *)
Theorem C61_column_clause_partial : forall d s s' l1 v1 a oa ts1 es1 h oh cs1 r p q cs2 ts2 es2 o l2 v2,
  (exists o1, lang (script d) l1 None o1 v1) -> lang (opening d) a None oa tt ->
  Forall2 (an_element d) ts1 es1 -> Forall2 (an_element d) ts2 es2 -> lang (column_head d) h None oh tt ->
  Forall (is_constraint d) cs1 -> clause_in (column_clauses d) r p q -> Forall (is_constraint d) cs2 ->
  arranged d (cs1 ++ (r ++ q) :: cs2) -> arranged d (cs1 ++ (r ++ p ++ q) :: cs2) -> NoDup (map (kind d) (map (hd "") (cs1 ++ (r ++ q) :: cs2))) ->
  (exists oo, lang (options d) o (Some ";") oo tt) -> (exists o2, lang (script d) l2 None o2 v2) ->
  tokens d s (l1 ++ a ++ commas (ts1 ++ (h ++ concat (cs1 ++ (r ++ q) :: cs2)) :: ts2) ++ ")" :: o ++ ";" :: l2) ->
  tokens d s' (l1 ++ a ++ commas (ts1 ++ (h ++ concat (cs1 ++ (r ++ p ++ q) :: cs2)) :: ts2) ++ ")" :: o ++ ";" :: l2) -> same_result d s s'.
Proof. exact ClausesFacts.column_clause. Qed.
Print Assumptions C61_column_clause_partial.
(** Clauses of table constraints, and time zones. *)
Theorem C61_element_clause : forall d s s' l1 v1 a oa ts1 es1 r p q ts2 es2 o l2 v2,
  (exists o1, lang (script d) l1 None o1 v1) -> lang (opening d) a None oa tt ->
  Forall2 (an_element d) ts1 es1 -> clause_in (element_clauses d) r p q -> Forall2 (an_element d) ts2 es2 ->
  (exists oo, lang (options d) o (Some ";") oo tt) -> (exists o2, lang (script d) l2 None o2 v2) ->
  tokens d s (l1 ++ a ++ commas (ts1 ++ (r ++ q) :: ts2) ++ ")" :: o ++ ";" :: l2) ->
  tokens d s' (l1 ++ a ++ commas (ts1 ++ (r ++ p ++ q) :: ts2) ++ ")" :: o ++ ";" :: l2) -> same_result d s s'.
Proof. exact ClausesFacts.element_clause. Qed.
Print Assumptions C61_element_clause.
(** Constraints of a column that are not reported: NULL, GENERATED ..., COMMENT ..., ... *)
Theorem C61_constraint_partial : forall d s s' l1 v1 a oa ts1 es1 h oh cs1 c cs2 ts2 es2 o l2 v2,
  (exists o1, lang (script d) l1 None o1 v1) -> lang (opening d) a None oa tt ->
  Forall2 (an_element d) ts1 es1 -> Forall2 (an_element d) ts2 es2 -> lang (column_head d) h None oh tt ->
  Forall (is_constraint d) cs1 -> unreported d c -> Forall (is_constraint d) cs2 ->
  arranged d (cs1 ++ c :: cs2) -> arranged d (cs1 ++ cs2) -> NoDup (map (kind d) (map (hd "") (cs1 ++ c :: cs2))) ->
  (exists oo, lang (options d) o (Some ";") oo tt) -> (exists o2, lang (script d) l2 None o2 v2) ->
  tokens d s (l1 ++ a ++ commas (ts1 ++ (h ++ concat (cs1 ++ c :: cs2)) :: ts2) ++ ")" :: o ++ ";" :: l2) ->
  tokens d s' (l1 ++ a ++ commas (ts1 ++ (h ++ concat (cs1 ++ cs2)) :: ts2) ++ ")" :: o ++ ";" :: l2) -> same_result d s s'.
Proof. exact ClausesFacts.no_constraint. Qed.
Print Assumptions C61_constraint_partial.
(** Without the conditions on the words that follow, a clause can make a difference: in MySQL, NOT NULL after CHECK (..) is not reported,
    after CHECK (..) ENFORCED it is. *)
Theorem C61_refuted : exists r p cs2 s s' ts ts', clause_in (column_clauses MySQL) r p [] /\ Forall (is_constraint MySQL) cs2 /\
  tokens MySQL s (["CREATE"; "TABLE"; "t"; "("; "a"; "INT"] ++ concat (r :: cs2) ++ [")"; ";"]) /\
  tokens MySQL s' (["CREATE"; "TABLE"; "t"; "("; "a"; "INT"] ++ concat ((r ++ p) :: cs2) ++ [")"; ";"]) /\
  accepted s MySQL ts /\ accepted s' MySQL ts' /\
  map (fun c => c_notnull (col_constraint c)) (flat_map t_columns ts) = [false] /\ map (fun c => c_notnull (col_constraint c)) (flat_map t_columns ts') = [true].
Proof.
  exists ["CHECK"; "("; "a"; ")"], ["ENFORCED"], [["NOT"; "NULL"]], "CREATE TABLE t (a INT CHECK (a) NOT NULL);", "CREATE TABLE t (a INT CHECK (a) ENFORCED NOT NULL);".
  do 2 eexists. split.
  { eexists. split; [right; left; reflexivity|]. cbn [k_before k_clause k_after]. split; [|split]; eexists; is_part (@None string). }
  split; [constructor; [|constructor]; do 2 eexists; is_part (@None string)|].
  split; [is_tokens|]. split; [is_tokens|]. split; [computes|]. split; [computes|]. split; reflexivity.
Qed.
Print Assumptions C61_refuted.
Example C61_example : same_result SQLite "CREATE TABLE t (a TEXT, b INTEGER DEFAULT 1 PRIMARY KEY AUTOINCREMENT REFERENCES u, CHECK (a));"
  "CREATE TABLE t (a TEXT, b INTEGER DEFAULT 1 PRIMARY KEY DESC ON CONFLICT FAIL AUTOINCREMENT REFERENCES u, CHECK (a));".
Proof.
  eapply (C61_column_clause_partial SQLite _ _ [] [] ["CREATE"; "TABLE"; "t"; "("] _ [["a"; "TEXT"]] _ ["b"; "INTEGER"] _
    [["DEFAULT"; "1"]] ["PRIMARY"; "KEY"] ["DESC"; "ON"; "CONFLICT"; "FAIL"] ["AUTOINCREMENT"] [["REFERENCES"; "u"]] [["CHECK"; "("; "a"; ")"]] _ [] [] []).
  - eexists. is_part (@None string).
  - is_part (@None string).
  - constructor; [|constructor]. eexists. is_part (@None string).
  - constructor; [|constructor]. eexists. is_part (@None string).
  - is_part (@None string).
  - constructor; [|constructor]. do 2 eexists. is_part (@None string).
  - eexists. split; [left; reflexivity|]. cbn [k_before k_clause k_after]. split; [|split]; eexists; is_part (@None string).
  - constructor; [|constructor]. do 2 eexists. is_part (@None string).
  - repeat split; cbn; intros t E; congruence.
  - repeat split; cbn; intros t E; congruence.
  - repeat constructor; cbn; intuition discriminate.
  - eexists. is_part (Some ";").
  - eexists. is_part (@None string).
  - is_tokens.
  - is_tokens.
Qed.
Example C61_element_example : same_result MySQL "CREATE TABLE t (a TIMESTAMP(3), UNIQUE INDEX (a));" "CREATE TABLE t (a TIMESTAMP(3), UNIQUE INDEX idx USING BTREE (a));" /\
  same_result PostgreSQL "CREATE TABLE t (aa TIMESTAMP(3) NOT NULL, UNIQUE (aa));" "CREATE TABLE t (aa TIMESTAMP(3) WITH TIME ZONE NOT NULL, UNIQUE (aa));".
Proof.
  split.
  - eapply (C61_element_clause MySQL _ _ [] [] ["CREATE"; "TABLE"; "t"; "("] _ [["a"; "TIMESTAMP"; "("; "3"; ")"]] _
      ["UNIQUE"; "INDEX"] ["idx"; "USING"; "BTREE"] ["("; "a"; ")"] [] [] [] [] []).
    + eexists. is_part (@None string).
    + is_part (@None string).
    + constructor; [|constructor]. eexists. is_part (@None string).
    + eexists. split; [do 3 right; left; reflexivity|]. cbn [k_before k_clause k_after]. split; [|split]; eexists; is_part (@None string).
    + constructor.
    + eexists. is_part (Some ";").
    + eexists. is_part (@None string).
    + is_tokens.
    + is_tokens.
  - eapply (C61_element_clause PostgreSQL _ _ [] [] ["CREATE"; "TABLE"; "t"; "("] _ [] []
      ["aa"; "TIMESTAMP"; "("; "3"; ")"] ["WITH"; "TIME"; "ZONE"] ["NOT"; "NULL"] [["UNIQUE"; "("; "aa"; ")"]] _ [] [] []).
    + eexists. is_part (@None string).
    + is_part (@None string).
    + constructor.
    + eexists. split; [do 4 right; left; reflexivity|]. cbn [k_before k_clause k_after]. split; [|split]; eexists; is_part (@None string).
    + constructor; [|constructor]. eexists. is_part (@None string).
    + eexists. is_part (Some ";").
    + eexists. is_part (@None string).
    + is_tokens.
    + is_tokens.
Qed.
Example C61_constraint_example : same_result MySQL "CREATE TABLE t (a INT NOT NULL COMMENT 'x' AUTO_INCREMENT);" "CREATE TABLE t (a INT NOT NULL AUTO_INCREMENT);".
Proof.
  eapply (C61_constraint_partial MySQL _ _ [] [] ["CREATE"; "TABLE"; "t"; "("] _ [] [] ["a"; "INT"] _ [["NOT"; "NULL"]] ["COMMENT"; "'x'"] [["AUTO_INCREMENT"]] [] [] [] [] []).
  - eexists. is_part (@None string).
  - is_part (@None string).
  - constructor.
  - constructor.
  - is_part (@None string).
  - constructor; [|constructor]. do 2 eexists. is_part (@None string).
  - eexists. is_part (@None string).
  - constructor; [|constructor]. do 2 eexists. is_part (@None string).
  - repeat split; cbn; intros t E; congruence.
  - repeat split; cbn; intros t E; congruence.
  - repeat constructor; cbn; intuition discriminate.
  - eexists. is_part (Some ";").
  - eexists. is_part (@None string).
  - is_tokens.
  - is_tokens.
Qed.
