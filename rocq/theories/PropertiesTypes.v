(** C11, C46, C47: keywords are no names; the types of the dialects; PRIMARY KEY, UNIQUE and AUTO_INCREMENT in the definitions of columns. *)
From Coq Require Import String Ascii List Bool Arith ZArith.
From Verif Require Import GoStr Types Grammar Ast Converter Parse Safe Seen Spec Decide Witness Parts PartsFacts Values Columns ColumnsFacts NotNull Names TypeNames TypeFacts Flags FlagsFacts.
Import ListNotations.
Open Scope nat_scope.
Open Scope string_scope.
Open Scope list_scope.

(** C11: the common keywords of SQL, in any mixture of upper and lower case, are not legal as names; *)
Theorem C11_keywords : forall d t, keyword t -> ~ legal d t.
Proof. exact TypeFacts.keyword_illegal. Qed.
Print Assumptions C11_keywords.
(** as the name of a table, the error is at the keyword, *)
Theorem C11_keyword_table : forall d ddl s1 v1 c b w rest,
  (exists o1, lang (script d) s1 None o1 v1) -> matches ["CREATE"] c = true -> matches ["TABLE"] b = true -> keyword w ->
  tokens d ddl (s1 ++ c :: b :: w :: rest) -> exists line, rejected ddl d line w.
Proof. exact TypeFacts.keyword_table. Qed.
Print Assumptions C11_keyword_table.
(** and as the name of a column, too. *)
Theorem C11_keyword_column : forall d ddl s1 v1 a oa p w rest,
  (exists o1, lang (script d) s1 None o1 v1) -> lang (opening d) a None oa tt -> before d p -> keyword w -> ~ In w constraint_starts ->
  tokens d ddl (s1 ++ a ++ p ++ w :: rest) -> exists line, rejected ddl d line w.
Proof. exact TypeFacts.keyword_column. Qed.
Print Assumptions C11_keyword_column.
Example C11_keyword_examples :
  (exists line, rejected "CREATE VIEW v; CREATE TABLE Select (a INT);" MySQL line "Select") /\
  (exists line, rejected "CREATE TABLE t (a TEXT, Unique TEXT);" SQLite line "Unique").
Proof.
  split.
  - eapply (C11_keyword_table MySQL _ ["CREATE"; "VIEW"; "v"; ";"] _ "CREATE" "TABLE" "Select" ["("; "a"; "INT"; ")"; ";"]); [eexists; is_part (@None string)|reflexivity..| |is_tokens].
    apply GrammarFacts.contains_spec. reflexivity.
  - eapply (C11_keyword_column SQLite _ [] _ ["CREATE"; "TABLE"; "t"; "("] _ ["a"; "TEXT"; ","] "Unique" ["TEXT"; ")"; ";"]).
    + eexists. is_part (@None string).
    + is_part (@None string).
    + right. exists ["a"; "TEXT"]. do 2 eexists. split; [reflexivity|]. apply sep_one. is_part (Some ",").
    + apply GrammarFacts.contains_spec. reflexivity.
    + intros C. apply GrammarFacts.contains_spec in C. discriminate.
    + is_tokens.
Qed.

(** C46: the type of a column is one of the listed words; it is reported in upper case. *)
Theorem C46_reported_partial : forall d ddl stmts l cs, says d ddl stmts -> readable stmts = true -> tokens d ddl l -> column_texts d l cs ->
  exists ts, accepted ddl d ts /\
  Forall2 (fun t r => exists n w q T, t = n :: w :: q /\ is_type d T w /\ dt_name (col_type r) = type_reported d T q) cs (result_columns ts).
Proof. exact TypeFacts.types_reported. Qed.
Print Assumptions C46_reported_partial.
(** Beyond [readable] it is false: *)
Theorem C46_refuted : exists ddl ts t c, accepted ddl PostgreSQL ts /\ In t ts /\ In c (t_columns t) /\
  forall T q, In T (type_names PostgreSQL) -> dt_name (col_type c) <> type_reported PostgreSQL T q.
Proof.
  exists "CREATE TABLE t (EXCLUDE (id WITH x), id INT);". do 3 eexists. split; [computes|]. split; [left; reflexivity|]. split; [left; reflexivity|].
  intros T q I E. change (dt_name _) with "ID" in E. unfold type_reported in E.
  assert (N : T = "ID" -> False) by (intros ->; apply GrammarFacts.contains_spec in I; discriminate).
  repeat match type of E with _ = (if ?b then _ else _) => destruct b | _ = match ?x with _ => _ end => destruct x end; try discriminate; auto.
Qed.
Print Assumptions C46_refuted.
(** Another word in its place is an error at that word. *)
Theorem C46_unknown : forall d ddl s1 v1 a oa p n w rest,
  (exists o1, lang (script d) s1 None o1 v1) -> lang (opening d) a None oa tt -> before d p -> cmem (name_class d) n = true ->
  (forall T, ~ is_type d T w) -> tokens d ddl (s1 ++ a ++ p ++ n :: w :: rest) -> exists line, rejected ddl d line w.
Proof. exact TypeFacts.type_unknown. Qed.
Print Assumptions C46_unknown.
(** Each of the listed words is a type. *)
Definition of_type (T : string) : list table :=
  [mk_table "" "t" false [mk_column "x" (mk_data_type T 0%Z 0%Z) zero_constraint] zero_tc].
Theorem C46_listed : forall d T w, In d [SQLite; PostgreSQL; MySQL] -> is_type d T w ->
  accepted (append "CREATE TABLE t (x " (append w (match d, T with PostgreSQL, "DOUBLE" => " PRECISION);" | _, _ => ");" end))) d (of_type T).
Proof.
  intros d T w D [I W]. assert (X : w = T \/ w = to_lower T) by auto. clear W.
  destruct D as [<-|[<-|[<-|[]]]]; cbn [type_names In] in I; repeat (destruct I as [<-|I]; [destruct X as [-> | ->]; computes|]); contradiction.
Qed.
Print Assumptions C46_listed.

Example C46_unknown_example : exists line, rejected "CREATE TABLE t (id INT, b Text);" MySQL line "Text".
Proof.
  eapply (C46_unknown MySQL _ [] _ ["CREATE"; "TABLE"; "t"; "("] _ ["id"; "INT"; ","] "b" "Text" [")"; ";"]).
  - eexists. is_part (@None string).
  - is_part (@None string).
  - right. exists ["id"; "INT"]. do 2 eexists. split; [reflexivity|]. apply sep_one. is_part (Some ",").
  - reflexivity.
  - intros T [I W]. cbn [type_names In] in I. repeat (destruct I as [<-|I]; [destruct W as [W|W]; discriminate|]). contradiction.
  - is_tokens.
Qed.

(** C47: a column is reported as PRIMARY KEY, UNIQUE or AUTO_INCREMENT exactly if its definition has the words outside brackets. *)
Theorem C47_partial : forall d ddl stmts l cs, says d ddl stmts -> readable stmts = true -> tokens d ddl l -> column_texts d l cs ->
  exists ts, accepted ddl d ts /\ Forall2 (flags d) cs (result_columns ts).
Proof. exact FlagsFacts.flags_texts. Qed.
Print Assumptions C47_partial.

(** the hypotheses of C46 and C47 hold of the example of README.md *)
Definition readme : string :=
"CREATE TABLE users (
        id INT AUTO_INCREMENT PRIMARY KEY,
        email VARCHAR(50) NOT NULL UNIQUE,
        username VARCHAR(50),
        password TEXT NOT NULL,
        created_at TIMESTAMP NOT NULL DEFAULT CURRENT_TIMESTAMP,
        updated_at TIMESTAMP NOT NULL DEFAULT CURRENT_TIMESTAMP ON UPDATE CURRENT_TIMESTAMP
    );".
Definition readme_columns : list (list string) :=
  [["id"; "INT"; "AUTO_INCREMENT"; "PRIMARY"; "KEY"]; ["email"; "VARCHAR"; "("; "50"; ")"; "NOT"; "NULL"; "UNIQUE"];
   ["username"; "VARCHAR"; "("; "50"; ")"]; ["password"; "TEXT"; "NOT"; "NULL"];
   ["created_at"; "TIMESTAMP"; "NOT"; "NULL"; "DEFAULT"; "CURRENT_TIMESTAMP"];
   ["updated_at"; "TIMESTAMP"; "NOT"; "NULL"; "DEFAULT"; "CURRENT_TIMESTAMP"; "ON"; "UPDATE"; "CURRENT_TIMESTAMP"]].
Fixpoint commas (l : list (list string)) : list string :=
  match l with [] => [] | [x] => x | x :: l' => x ++ "," :: commas l' end.
Definition readme_tokens := ["CREATE"; "TABLE"; "users"; "("] ++ commas readme_columns ++ [")"; ";"].
Example C47_example :
  (exists stmts, says MySQL readme stmts /\ readable stmts = true) /\ tokens MySQL readme readme_tokens /\
  column_texts MySQL readme_tokens readme_columns /\
  (exists ts, accepted readme MySQL ts /\
    map (fun r => (c_pk (col_constraint r), c_unique (col_constraint r), c_auto (col_constraint r))) (result_columns ts) =
      [(true, false, true); (false, true, false); (false, false, false); (false, false, false); (false, false, false); (false, false, false)] /\
    map (fun r => dt_name (col_type r)) (result_columns ts) = ["INT"; "VARCHAR"; "VARCHAR"; "TEXT"; "TIMESTAMP"; "TIMESTAMP"]).
Proof.
  split; [eexists; split; [reads|reflexivity]|]. split; [is_tokens|]. split; [|eexists; split; [computes|split; reflexivity]].
  eapply (ct_table MySQL ["CREATE"; "TABLE"; "users"; "("] _ (commas readme_columns) _
    [(["id"; "INT"; "AUTO_INCREMENT"; "PRIMARY"; "KEY"], EColumn _);
     (["email"; "VARCHAR"; "("; "50"; ")"; "NOT"; "NULL"; "UNIQUE"], EColumn _);
     (["username"; "VARCHAR"; "("; "50"; ")"], EColumn _);
     (["password"; "TEXT"; "NOT"; "NULL"], EColumn _);
     (["created_at"; "TIMESTAMP"; "NOT"; "NULL"; "DEFAULT"; "CURRENT_TIMESTAMP"], EColumn _);
     (["updated_at"; "TIMESTAMP"; "NOT"; "NULL"; "DEFAULT"; "CURRENT_TIMESTAMP"; "ON"; "UPDATE"; "CURRENT_TIMESTAMP"], EColumn _)] [] [] [] []).
  - is_part (@None string).
  - unfold readme_columns.
    apply (sep_cons _ true ["id"; "INT"; "AUTO_INCREMENT"; "PRIMARY"; "KEY"]); [split; [reflexivity|is_part (Some ",")]|].
    apply (sep_cons _ true ["email"; "VARCHAR"; "("; "50"; ")"; "NOT"; "NULL"; "UNIQUE"]); [split; [reflexivity|is_part (Some ",")]|].
    apply (sep_cons _ true ["username"; "VARCHAR"; "("; "50"; ")"]); [split; [reflexivity|is_part (Some ",")]|].
    apply (sep_cons _ true ["password"; "TEXT"; "NOT"; "NULL"]); [split; [reflexivity|is_part (Some ",")]|].
    apply (sep_cons _ true ["created_at"; "TIMESTAMP"; "NOT"; "NULL"; "DEFAULT"; "CURRENT_TIMESTAMP"]); [split; [reflexivity|is_part (Some ",")]|].
    apply sep_one. split; [reflexivity|is_part (Some ")")].
  - is_part (Some ";").
  - apply ct_nil.
Qed.

(** A constraint can have AUTO_INCREMENT as its name; then the column is reported as AUTO_INCREMENT, in PostgreSQL too. *)
Theorem C47_refuted : exists ddl stmts ts, says PostgreSQL ddl stmts /\ readable stmts = true /\ accepted ddl PostgreSQL ts /\
  map (fun r => c_auto (col_constraint r)) (result_columns ts) = [true].
Proof. exists "CREATE TABLE t (x INT CONSTRAINT auto_increment NOT NULL);". do 2 eexists. split; [reads|]. split; [reflexivity|]. split; [computes|reflexivity]. Qed.
Print Assumptions C47_refuted.
