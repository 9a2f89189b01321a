(** C62: TEMP and IF NOT EXISTS. *)
From Coq Require Import String List Bool Arith.
From Verif Require Import GoStr Types Grammar Ast Emit Converter Parse Seen Spec Decide Witness Parts PartsFacts Header HeaderFacts.
Import ListNotations.
Open Scope nat_scope.
Open Scope string_scope.
Open Scope list_scope.

(** TEMP or TEMPORARY after CREATE (SQLite) does not matter, whatever follows. *)
Theorem C62_temporary : forall d s s' l1 v1 c t X, d <> PostgreSQL -> d <> MySQL -> (exists o1, lang (script d) l1 None o1 v1) -> kwd "CREATE" c ->
  matches ["TEMP"; "TEMPORARY"] t = true -> (forall x, hd_error X = Some x -> matches ["TEMP"; "TEMPORARY"] x = false) ->
  tokens d s (l1 ++ c :: X) -> tokens d s' (l1 ++ c :: t :: X) -> alike d s s'.
Proof. exact HeaderFacts.temporary. Qed.
Print Assumptions C62_temporary.
(** A text with IF NOT EXISTS is rejected, with the same token, exactly if it is rejected without. *)
Theorem C62_rejected : forall d s s' l1 v1 c t i m e X, (exists o1, lang (script d) l1 None o1 v1) ->
  kwd "CREATE" c -> kwd "TABLE" t -> kwd "IF" i -> kwd "NOT" m -> kwd "EXISTS" e -> no_if X ->
  tokens d s (l1 ++ c :: t :: X) -> tokens d s' (l1 ++ c :: t :: i :: m :: e :: X) ->
  ((exists stmts, says d s stmts) <-> (exists stmts, says d s' stmts)) /\
  forall near, (exists line, rejected s d line near) <-> (exists line, rejected s' d line near).
Proof.
  exact (fun d s s' l1 v1 c t i m e X S C T I M E N K K' =>
    conj (HeaderFacts.if_says d s s' l1 v1 c t i m e X S C T I M E N K K') (HeaderFacts.if_rejected d s s' l1 v1 c t i m e X S C T I M E N K K')).
Qed.
Print Assumptions C62_rejected.
(** The only difference in the result is the field IfNotExists of that table. *)
Theorem C62_if_not_exists_partial : forall d s s' l1 v1 c t i m e X stmts, (exists o1, lang (script d) l1 None o1 v1) ->
  kwd "TABLE" t -> kwd "IF" i -> kwd "NOT" m -> kwd "EXISTS" e -> no_if X ->
  tokens d s (l1 ++ c :: t :: X) -> tokens d s' (l1 ++ c :: t :: i :: m :: e :: X) -> says d s stmts -> readable stmts = true ->
  exists tb ts, t_if_not_exists tb = false /\ accepted s d (tables_of d (seen v1) ++ tb :: ts) /\ accepted s' d (tables_of d (seen v1) ++ if_not_exists tb :: ts).
Proof. exact HeaderFacts.if_accepted. Qed.
Print Assumptions C62_if_not_exists_partial.
(** After a reference with a schema, the following table is read as columns, with IF NOT EXISTS as other columns. *)
Theorem C62_refuted : exists s s' l1 v1 X ts ts', (exists o1, lang (script SQLite) l1 None o1 v1) /\ no_if X /\
  tokens SQLite s (l1 ++ "CREATE" :: "TABLE" :: X) /\ tokens SQLite s' (l1 ++ "CREATE" :: "TABLE" :: "IF" :: "NOT" :: "EXISTS" :: X) /\
  accepted s SQLite ts /\ accepted s' SQLite ts' /\ map t_if_not_exists ts = [false] /\ map t_if_not_exists ts' = [false] /\
  map col_name (flat_map t_columns ts) = ["a"; "u"; "CREATE"; "("] /\ map col_name (flat_map t_columns ts') <> map col_name (flat_map t_columns ts).
Proof.
  exists "CREATE TABLE t (a INTEGER REFERENCES s.u); CREATE TABLE v (b TEXT);", "CREATE TABLE t (a INTEGER REFERENCES s.u); CREATE TABLE IF NOT EXISTS v (b TEXT);".
  exists ["CREATE"; "TABLE"; "t"; "("; "a"; "INTEGER"; "REFERENCES"; "s"; "."; "u"; ")"; ";"]. eexists. exists ["v"; "("; "b"; "TEXT"; ")"; ";"].
  do 2 eexists. split; [eexists; is_part (@None string)|]. split; [intros x E; injection E as <-; reflexivity|].
  split; [is_tokens|]. split; [is_tokens|]. split; [computes|]. split; [computes|]. cbn. repeat split; congruence.
Qed.
Print Assumptions C62_refuted.
Example C62_temporary_example : alike SQLite "CREATE TABLE t (a TEXT); create table u (b INTEGER" "CREATE TABLE t (a TEXT); create TEMPORARY table u (b INTEGER".
Proof.
  eapply (C62_temporary SQLite _ _ ["CREATE"; "TABLE"; "t"; "("; "a"; "TEXT"; ")"; ";"] _ "create" "TEMPORARY" ["table"; "u"; "("; "b"; "INTEGER"]);
    [discriminate|discriminate|eexists; is_part (@None string)|reflexivity|reflexivity| |is_tokens|is_tokens].
  intros x E. injection E as <-. reflexivity.
Qed.
Example C62_rejected_example :
  (exists line, rejected "CREATE TABLE t (a INT) 1;" MySQL line "1") /\ (exists line, rejected "CREATE TABLE IF NOT EXISTS t (a INT) 1;" MySQL line "1").
Proof.
  assert (A : exists line, rejected "CREATE TABLE t (a INT) 1;" MySQL line "1") by (eexists; computes). split; [exact A|].
  assert (N : no_if ["t"; "("; "a"; "INT"; ")"; "1"; ";"]) by (intros x E; injection E as <-; reflexivity).
  assert (K : tokens MySQL "CREATE TABLE t (a INT) 1;" ([] ++ "CREATE" :: "TABLE" :: ["t"; "("; "a"; "INT"; ")"; "1"; ";"])) by is_tokens.
  assert (K' : tokens MySQL "CREATE TABLE IF NOT EXISTS t (a INT) 1;" ([] ++ "CREATE" :: "TABLE" :: "IF" :: "NOT" :: "EXISTS" :: ["t"; "("; "a"; "INT"; ")"; "1"; ";"])) by is_tokens.
  assert (S : exists o1, lang (script MySQL) [] None o1 []) by (eexists; is_part (@None string)).
  exact (proj1 (proj2 (C62_rejected MySQL _ _ [] [] "CREATE" "TABLE" "IF" "NOT" "EXISTS" _ S eq_refl eq_refl eq_refl eq_refl eq_refl N K K') "1") A).
Qed.
Example C62_example : exists tb ts, t_if_not_exists tb = false /\
  accepted "CREATE TABLE tt (aa INT); CREATE TABLE uu (bb TEXT NOT NULL);" PostgreSQL (tables_of PostgreSQL [STable (mk_atable false None "tt" [EColumn (mk_acolumn "aa" (mk_atype "INT" false None) None [])])] ++ tb :: ts) /\
  accepted "CREATE TABLE tt (aa INT); CREATE TABLE if not exists uu (bb TEXT NOT NULL);" PostgreSQL
    (tables_of PostgreSQL [STable (mk_atable false None "tt" [EColumn (mk_acolumn "aa" (mk_atype "INT" false None) None [])])] ++ if_not_exists tb :: ts).
Proof.
  eapply (C62_if_not_exists_partial PostgreSQL _ _ ["CREATE"; "TABLE"; "tt"; "("; "aa"; "INT"; ")"; ";"]
    [STable (mk_atable false None "tt" [EColumn (mk_acolumn "aa" (mk_atype "INT" false None) None [])])] "CREATE" "TABLE" "if" "not" "exists"
    ["uu"; "("; "bb"; "TEXT"; "NOT"; "NULL"; ")"; ";"]);
    [eexists; is_part (@None string)|reflexivity..| |is_tokens|is_tokens|reads|reflexivity].
  intros x E. injection E as <-. reflexivity.
Qed.
