(** C50: the reserved words. *)
From Coq Require Import String List Bool.
From Verif Require Import GoStr Types Grammar Ast Parse Spec Decide Witness Parts PartsFacts Names DocWords.
From Verif Require DocFacts GrammarFacts.
Import ListNotations.
Open Scope string_scope.
Open Scope list_scope.

(** A word is legal as a name exactly if it is not a reserved word of the dialect, in any mixture of upper and lower case; but for
    the words that the library overlooks and the words of the standard that it adds for PostgreSQL (DocWords.v). *)
Theorem C50_names : forall d w, word w ->
  (legal d w <-> (~ In (to_upper w) (documented d) \/ In (to_upper w) (overlooked d)) /\ ~ In (to_upper w) (excessive d)).
Proof. exact DocFacts.legal_words. Qed.
Print Assumptions C50_names.
(** In all texts, whatever is not legal as a name is rejected as the name of a table, at that place, *)
Theorem C50_table : forall d ddl s1 v1 c b w rest,
  (exists o1, lang (script d) s1 None o1 v1) -> matches ["CREATE"] c = true -> matches ["TABLE"] b = true ->
  ~ legal d w -> w <> "IF" -> w <> "if" ->
  tokens d ddl (s1 ++ c :: b :: w :: rest) -> exists line, rejected ddl d line w.
Proof. exact DocFacts.illegal_table. Qed.
Print Assumptions C50_table.
(** and at the beginning of an element of a table, if it is none of the words with which other elements begin. *)
Theorem C50_column : forall d ddl s1 v1 a oa p w rest,
  (exists o1, lang (script d) s1 None o1 v1) -> lang (opening d) a None oa tt -> before d p ->
  ~ legal d w -> ~ In w (element_starts d) ->
  tokens d ddl (s1 ++ a ++ p ++ w :: rest) -> exists line, rejected ddl d line w.
Proof. exact DocFacts.illegal_column. Qed.
Print Assumptions C50_column.

(** The word INFILE is reserved in MySQL; MATERIALIZED is a keyword of SQLite; DATA is no reserved word in PostgreSQL. *)
Theorem C50_refuted :
  (exists ddl t, In "INFILE" (documented MySQL) /\ accepted ddl MySQL [t] /\ t_name t = "infile") /\
  (exists ddl t, In "MATERIALIZED" (documented SQLite) /\ accepted ddl SQLite [t] /\ t_name t = "materialized") /\
  (exists ddl line, ~ In "DATA" (documented PostgreSQL) /\ rejected ddl PostgreSQL line "data").
Proof.
  repeat split.
  - exists "CREATE TABLE infile (aa INT);". eexists. split; [apply GrammarFacts.contains_spec; reflexivity|]. split; [computes|reflexivity].
  - exists "CREATE TABLE materialized (aa INTEGER);". eexists. split; [apply GrammarFacts.contains_spec; reflexivity|]. split; [computes|reflexivity].
  - exists "CREATE TABLE data (aa INT);". eexists. split; [intros C; apply GrammarFacts.contains_spec in C; discriminate|computes].
Qed.
Print Assumptions C50_refuted.

Ltac decide_legal := first [apply DocFacts.not_legal; reflexivity | apply C50_names; [apply DocFacts.pattern_word; reflexivity|];
  split; [first [left; intros C; apply GrammarFacts.contains_spec in C; discriminate | right; apply GrammarFacts.contains_spec; reflexivity]
         |intros C; apply GrammarFacts.contains_spec in C; discriminate]].
Example C50_examples :
  legal MySQL "infile" /\ ~ legal MySQL "Outfile" /\ legal PostgreSQL "Fetch" /\ ~ legal PostgreSQL "user" /\ legal SQLite "user" /\
  ~ legal SQLite "vacuum".
Proof. split; [|split; [|split; [|split; [|split]]]]; decide_legal. Qed.
Example C50_text_examples :
  (exists line, rejected "CREATE VIEW v; CREATE TABLE vacuum (a TEXT);" SQLite line "vacuum") /\
  (exists line, rejected "CREATE TABLE t (a TEXT,);" SQLite line ")").
Proof.
  split.
  - eapply (C50_table SQLite _ ["CREATE"; "VIEW"; "v"; ";"] _ "CREATE" "TABLE" "vacuum" ["("; "a"; "TEXT"; ")"; ";"]); [eexists; is_part (@None string)|reflexivity..|decide_legal|discriminate|discriminate|is_tokens].
  - eapply (C50_column SQLite _ [] _ ["CREATE"; "TABLE"; "t"; "("] _ ["a"; "TEXT"; ","] ")" [";"]).
    + eexists. is_part (@None string).
    + is_part (@None string).
    + right. exists ["a"; "TEXT"]. do 2 eexists. split; [reflexivity|]. apply sep_one. is_part (Some ",").
    + decide_legal.
    + intros C. apply GrammarFacts.contains_spec in C. discriminate.
    + is_tokens.
Qed.
