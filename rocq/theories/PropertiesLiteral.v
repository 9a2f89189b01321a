(** C71: other strings. *)
From Coq Require Import String Ascii List Bool Arith NArith ZArith.
From Verif Require Import GoStr GoNum Types Lexer Grammar Converter Parse Ast Safe Seen Spec Decide Witness PartsFacts Layout Meaning
  Literal LiteralFacts LiteralConvert LiteralRead LiteralText Utf8.
Import ListNotations.
Open Scope nat_scope.
Open Scope string_scope.

(** What stands in a string may be replaced by anything else, in any text, script or not.  Whether it is a script does not depend on it ... *)
Theorem C71_scripts : forall d R ddl ddl' toks toks', lexes d ddl toks -> lexes d ddl' toks' ->
  Forall2 (swapped d R) toks toks' ->
  ((exists stmts, says d ddl stmts) <-> (exists stmts, says d ddl' stmts)).
Proof. exact LiteralFacts.swapped_scripts. Qed.
Print Assumptions C71_scripts.
(** ... nor where the error is: at the same line, at the token that is there now. *)
Theorem C71_rejected : forall d R ddl ddl' toks toks' line near, lexes d ddl toks -> lexes d ddl' toks' ->
  Forall2 (swapped d R) toks toks' -> rejected ddl d line near -> exists near', rejected ddl' d line near' /\ swapped d R near near'.
Proof. exact LiteralFacts.swapped_rejected. Qed.
Print Assumptions C71_rejected.
(** ... nor whether the call returns. *)
Theorem C71_diverges : forall d R ddl ddl' toks toks', lexes d ddl toks -> lexes d ddl' toks' ->
  Forall2 (swapped d R) toks toks' -> diverges ddl d -> diverges ddl' d.
Proof. exact LiteralConvert.swapped_diverges. Qed.
Print Assumptions C71_diverges.
(** The tables are the same but for these strings, wherever they are reported. *)
Theorem C71_tables : forall d R ddl ddl' toks toks' ts, lexes d ddl toks -> lexes d ddl' toks' ->
  Forall2 (swapped d R) toks toks' -> accepted ddl d ts ->
  exists ts', accepted ddl' d ts' /\ Forall2 (table_swapped d R) ts ts'.
Proof. exact LiteralConvert.swapped_accepted. Qed.
Print Assumptions C71_tables.
(** In [readable] scripts (Seen.v) these are defaults and expressions only: names, types, flags, columns and references stay. *)
Theorem C71_names_partial : forall d R ddl ddl' l l' stmts, tokens d ddl l -> tokens d ddl' l' -> Forall2 (swapped d R) l l' ->
  says d ddl stmts -> readable stmts = true ->
  exists ts ts', accepted ddl d ts /\ accepted ddl' d ts' /\ Forall2 (table_kept d R) ts ts'.
Proof. exact LiteralRead.swapped_tables. Qed.
Print Assumptions C71_names_partial.
(** Such texts are those in which what stands between two marks is replaced, wherever a string begins, or else both texts cannot be
    divided into tokens and are rejected for the same reason.  (Contents without line breaks and quotation marks.) *)
Theorem C71_text_partial : forall d a q body body' b, scalars a -> is_scalar q = true -> scalars b -> In (utf8 [q]) (str_quotes d) ->
  string_begins d q a -> verbatim body = true -> verbatim body' = true ->
  let ddl := utf8 (a ++ q :: body ++ q :: b) in let ddl' := utf8 (a ++ q :: body' ++ q :: b) in
  (exists toks toks', lexes d ddl toks /\ lexes d ddl' toks' /\ Forall2 (swapped d (fun _ _ => True)) toks toks') \/
  (exists line near, rejected ddl d line near /\ rejected ddl' d line near).
Proof. exact LiteralText.swapped_any. Qed.
Print Assumptions C71_text_partial.
(** Where there are two kinds of marks, they may be exchanged.  ([layout]: Layout.v.) *)
Theorem C71_marks_partial : forall d a q body q' body' b, In (utf8 [q]) (str_quotes d) -> In (utf8 [q']) (str_quotes d) ->
  layout d (a ++ IQuoted q body :: b) = true -> layout d (a ++ IQuoted q' body' :: b) = true ->
  exists toks toks', lexes d (text_of (a ++ IQuoted q body :: b)) toks /\ lexes d (text_of (a ++ IQuoted q' body' :: b)) toks' /\
    Forall2 (swapped d (fun _ _ => True)) toks toks'.
Proof. exact LiteralText.swapped_text. Qed.
Print Assumptions C71_marks_partial.

Definition c71_one : string := "CREATE TABLE t (aa TEXT DEFAULT 'x' NOT NULL, bb TEXT CHECK (bb <> 'y'), CHECK (aa > 'z'));".
Definition c71_two : string := "CREATE TABLE t (aa TEXT DEFAULT ''); DROP TABLE t; --' NOT NULL, bb TEXT CHECK (bb <> 'y'), CHECK (aa > 'z'));".
Definition c71_three : string := "CREATE TABLE t (aa TEXT DEFAULT '); DROP TABLE t; --' NOT NULL, bb TEXT CHECK (bb <> '*/ ) PRIMARY KEY'), CHECK (aa > ''));".
Ltac is_string :=
  match goal with |- string_token _ (String ?b ?r) => exists b, (substring 0 (String.length r - 1) r); split; [reflexivity|cbn; tauto] end.
Ltac all_swapped :=
  repeat first [apply Forall2_nil | apply Forall2_cons; [first [left; reflexivity|right; split; [exact I|split; is_string]]|]].
Example C71_example : exists l l' stmts, tokens SQLite c71_one l /\ tokens SQLite c71_three l' /\
  Forall2 (swapped SQLite (fun _ _ => True)) l l' /\ says SQLite c71_one stmts /\ readable stmts = true /\ l <> l'.
Proof.
  do 3 eexists. split; [is_tokens|]. split; [is_tokens|]. split; [all_swapped|].
  split; [reads|]. split; [reflexivity|discriminate].
Qed.
Example C71_result : exists ts, accepted c71_three SQLite ts /\
  map (fun t => (t_name t, map (fun c => (col_name c, c_notnull (col_constraint c), c_default (col_constraint c), c_check (col_constraint c))) (t_columns t),
    map ck_expr (tc_check (t_constraints t)))) ts =
  [("t", [("aa", true, DString "); DROP TABLE t; --", ""); ("bb", false, DNil, "(bb<>'*/ ) PRIMARY KEY')")], ["(aa>'')"])].
Proof. eexists. split; [computes|reflexivity]. Qed.
(** A string that ends earlier is another text. *)
Example C71_early : rejected c71_two SQLite 1 "DROP".
Proof. computes. Qed.
(** Where the error is does not depend on the string, which may be the token it is found at. *)
Definition c71_bad : string := "CREATE TABLE t (aa INTEGER,
  bb 'x');".
Definition c71_worse : string := "CREATE TABLE t (aa INTEGER,
  bb ""INTEGER"");".
Example C71_bad : exists toks toks', lexes MySQL c71_bad toks /\ lexes MySQL c71_worse toks' /\
  Forall2 (swapped MySQL (fun _ _ => True)) toks toks' /\ rejected c71_bad MySQL 2 "'x'" /\ rejected c71_worse MySQL 2 """INTEGER""".
Proof.
  do 2 eexists. split; [exists 1000; vm_compute; reflexivity|]. split; [exists 1000; vm_compute; reflexivity|]. split; [all_swapped|].
  split; computes.
Qed.
Definition c71_laid (body : list rune) : list item :=
  [IWord (runes_of "x"); ISpace 32%N] ++ IQuoted 39%N body :: [ISym 59%N].
Example C71_laid : layout SQLite (c71_laid (runes_of "it (")) = true /\ layout SQLite (c71_laid []) = true /\
  text_of (c71_laid (runes_of "it (")) = "x 'it (';".
Proof. repeat split; vm_compute; reflexivity. Qed.

(** A string may begin right after an operator, and not in a comment or another string. *)
Example C71_begins : string_begins SQLite 39%N (runes_of "CHECK (a >*") /\ string_begins MySQL 34%N (runes_of "/* ' */ x # '
 y") /\ ~ string_begins SQLite 39%N (runes_of "a -- b ").
Proof.
  split; [exists ["CHECK"; "("; "a"; ">*"]; split; exists 1000; vm_compute; reflexivity|].
  split; [exists ["x"; String "010" ""; "y"]; split; exists 1000; vm_compute; reflexivity|].
  intros (toks & A & _). apply LexicalFacts.lexed_scan in A. vm_compute in A. injection A as A.
  destruct toks as [|t [|u toks]]; discriminate.
Qed.

(** That names and types do not depend on strings is false of scripts that are not readable: the name of a column is
    what the string of the CHECK says. *)
Definition c71_strange : string := "CREATE TABLE t (id INT REFERENCES s.u CHECK ( 'x' 'y' 'z' 'w'));".
Definition c71_stranger : string := "CREATE TABLE t (id INT REFERENCES s.u CHECK ( 'x' 'y' 'z' 'v'));".
Theorem C71_refuted : exists toks toks' ts ts', lexes PostgreSQL c71_strange toks /\ lexes PostgreSQL c71_stranger toks' /\
  Forall2 (swapped PostgreSQL (fun _ _ => True)) toks toks' /\ accepted c71_strange PostgreSQL ts /\ accepted c71_stranger PostgreSQL ts' /\
  map (fun t => map col_name (t_columns t)) ts = [["id"; "u"; "'w'"]] /\
  map (fun t => map col_name (t_columns t)) ts' = [["id"; "u"; "'v'"]].
Proof.
  do 4 eexists. split; [exists 1000; vm_compute; reflexivity|]. split; [exists 1000; vm_compute; reflexivity|]. split; [all_swapped|].
  split; [computes|]. split; [computes|]. split; reflexivity.
Qed.
Print Assumptions C71_refuted.
