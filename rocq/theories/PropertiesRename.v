(** C48, C49: other names, and names quoted in another way. *)
From Coq Require Import String Ascii List Bool Arith ZArith.
From Verif Require Import GoStr GoNum Types Lexer Grammar Converter Parse Ast Safe Seen Spec Decide Witness PartsFacts Names
  GrammarFacts Enclosed NamesFacts Rename RenameVerdict RenameFacts RenameConvert Meaning.
Import ListNotations.
Open Scope nat_scope.
Open Scope string_scope.

(** Names may be replaced: any occurrence of a legal name that is no word of the grammar by any other such name, in any text,
    script or not.  Whether it is a script does not depend on them ... *)
Theorem C48_scripts : forall d R ddl ddl' toks toks', lexes d ddl toks -> lexes d ddl' toks' ->
  Forall2 (renamed d R) toks toks' ->
  ((exists stmts, says d ddl stmts) <-> (exists stmts, says d ddl' stmts)).
Proof. exact RenameVerdict.renamed_scripts. Qed.
Print Assumptions C48_scripts.
(** ... nor where the error is: at the same line, at the token that is there now. *)
Theorem C48_rejected : forall d R ddl ddl' toks toks' line near, lexes d ddl toks -> lexes d ddl' toks' ->
  Forall2 (renamed d R) toks toks' -> rejected ddl d line near -> exists near', rejected ddl' d line near' /\ renamed d R near near'.
Proof. exact RenameVerdict.renamed_rejected. Qed.
Print Assumptions C48_rejected.
(** ... nor whether the call returns. *)
Theorem C48_diverges : forall d R ddl ddl' toks toks', lexes d ddl toks -> lexes d ddl' toks' ->
  Forall2 (renamed d R) toks toks' -> diverges ddl d -> diverges ddl' d.
Proof. exact RenameConvert.renamed_diverges. Qed.
Print Assumptions C48_diverges.
(** The tables are the same but for these names. *)
Theorem C48_tables : forall d R ddl ddl' toks toks' ts, lexes d ddl toks -> lexes d ddl' toks' ->
  Forall2 (renamed d R) toks toks' -> accepted ddl d ts ->
  exists ts', accepted ddl' d ts' /\ Forall2 (table_renamed d R (type_renamed d R)) ts ts'.
Proof. exact RenameConvert.renamed_accepted. Qed.
Print Assumptions C48_tables.
(** The types are the same in [readable] scripts (Seen.v); in others names are reported as types (C46_refuted). *)
Theorem C48_types_partial : forall d R ddl ddl' l l' stmts, tokens d ddl l -> tokens d ddl' l' -> Forall2 (renamed d R) l l' ->
  says d ddl stmts -> readable stmts = true ->
  exists ts ts', accepted ddl d ts /\ accepted ddl' d ts' /\ Forall2 (table_renamed d R eq) ts ts'.
Proof. exact RenameFacts.renamed_tables. Qed.
Print Assumptions C48_types_partial.

(** Nothing is known about the names: they may be the same, or name columns that do not exist. *)
Definition c48_one : string := "CREATE TABLE t (aa INTEGER, bb TEXT REFERENCES u (cc), PRIMARY KEY (aa), CHECK (aa > bb));".
Definition c48_two : string := "CREATE TABLE ""x y"" (same INTEGER, same TEXT REFERENCES ""x y"" (`no such`), PRIMARY KEY (nowhere), CHECK (p > p));".
Ltac is_name :=
  split;
  [ apply legal_spec; [vm_compute; reflexivity|
    let H := fresh in intro H; first [discriminate H|
      match goal with |- exists q s, String ?b ?r = _ => exists b, (substring 0 (String.length r - 1) r); reflexivity end]]
  | let H := fresh in intro H; apply contains_spec in H; vm_compute in H; discriminate ].
Example C48_example : exists l l' stmts, tokens SQLite c48_one l /\ tokens SQLite c48_two l' /\
  Forall2 (renamed SQLite (fun _ _ => True)) l l' /\ says SQLite c48_one stmts /\ readable stmts = true /\ l <> l'.
Proof.
  do 3 eexists. split; [is_tokens|]. split; [is_tokens|]. split.
  - repeat first [apply Forall2_nil | apply Forall2_cons; [first [left; reflexivity|right; split; [exact I|split; is_name]]|]].
  - split; [reads|]. split; [reflexivity|discriminate].
Qed.
Example C48_result : exists ts, accepted c48_two SQLite ts /\
  map (fun t => (t_name t, map col_name (t_columns t), map pk_columns (tc_pk (t_constraints t)))) ts = [("x y", ["same"; "same"], [["nowhere"]])].
Proof. eexists. split; [computes|reflexivity]. Qed.
(** Here a name is reported as a type. *)
Definition c48_strange : string := "CREATE TABLE t (EXCLUDE (id WITH x), id INT);".
Definition c48_stranger : string := "CREATE TABLE t (EXCLUDE (nr WITH x), nr INT);".
Example C48_strange : exists toks toks' ts ts', lexes PostgreSQL c48_strange toks /\ lexes PostgreSQL c48_stranger toks' /\
  Forall2 (renamed PostgreSQL (fun _ _ => True)) toks toks' /\ accepted c48_strange PostgreSQL ts /\ accepted c48_stranger PostgreSQL ts' /\
  map (fun t => map (fun c => (col_name c, dt_name (col_type c))) (t_columns t)) ts = [[(",", "ID")]] /\
  map (fun t => map (fun c => (col_name c, dt_name (col_type c))) (t_columns t)) ts' = [[(",", "NR")]].
Proof.
  do 4 eexists. split; [exists 1000; vm_compute; reflexivity|]. split; [exists 1000; vm_compute; reflexivity|]. split.
  - repeat first [apply Forall2_nil | apply Forall2_cons; [first [left; reflexivity|right; split; [exact I|split; is_name]]|]].
  - split; [computes|]. split; [computes|]. split; reflexivity.
Qed.
Definition c48_bad : string := "CREATE TABLE t (aa INTEGER,
  bb what);".
Definition c48_worse : string := "CREATE TABLE t (aa INTEGER,
  aa ""an other"");".
Example C48_bad : exists toks toks', lexes SQLite c48_bad toks /\ lexes SQLite c48_worse toks' /\
  Forall2 (renamed SQLite (fun _ _ => True)) toks toks' /\
  rejected c48_bad SQLite 2 "what" /\ rejected c48_worse SQLite 2 """an other""".
Proof.
  do 2 eexists. split; [exists 1000; vm_compute; reflexivity|]. split; [exists 1000; vm_compute; reflexivity|]. split.
  - repeat first [apply Forall2_nil | apply Forall2_cons; [first [left; reflexivity|right; split; [exact I|split; is_name]]|]].
  - split; computes.
Qed.

(** A name may be quoted in another way or not at all.  What is said of names is the same; Columns and the texts of expressions
    are as they are written. *)
Theorem C49_tables : forall d ddl ddl' toks toks' ts, lexes d ddl toks -> lexes d ddl' toks' ->
  Forall2 (renamed d (same_name d)) toks toks' -> accepted ddl d ts ->
  exists ts', accepted ddl' d ts' /\ Forall2 (table_requoted d (type_renamed d (same_name d))) ts ts'.
Proof. exact RenameConvert.requoted_accepted. Qed.
Print Assumptions C49_tables.
(** The types are the same in [readable] scripts (Seen.v). *)
Theorem C49_types_partial : forall d ddl ddl' l l' stmts, tokens d ddl l -> tokens d ddl' l' -> Forall2 (renamed d (same_name d)) l l' ->
  says d ddl stmts -> readable stmts = true ->
  exists ts ts', accepted ddl d ts /\ accepted ddl' d ts' /\ Forall2 (table_requoted d eq) ts ts'.
Proof. exact RenameFacts.requoted_tables. Qed.
Print Assumptions C49_types_partial.
(** Any text: *)
Theorem C49_rejected : forall d ddl ddl' toks toks' line near, lexes d ddl toks -> lexes d ddl' toks' ->
  Forall2 (renamed d (same_name d)) toks toks' -> rejected ddl d line near ->
  exists near', rejected ddl' d line near' /\ renamed d (same_name d) near near'.
Proof. intros d. exact (RenameVerdict.renamed_rejected d (same_name d)). Qed.
Print Assumptions C49_rejected.

Definition c49_one : string := "CREATE TABLE t (aa INT REFERENCES u (cc), bb TEXT DEFAULT (aa), UNIQUE (bb));".
Definition c49_two : string := "CREATE TABLE ""t"" (""aa"" INT REFERENCES ""u"" (""cc""), bb TEXT DEFAULT (""aa""), UNIQUE (""bb""));".
Example C49_example : exists l l' stmts, tokens PostgreSQL c49_one l /\ tokens PostgreSQL c49_two l' /\
  Forall2 (renamed PostgreSQL (same_name PostgreSQL)) l l' /\ says PostgreSQL c49_one stmts /\ readable stmts = true /\ l <> l'.
Proof.
  do 3 eexists. split; [is_tokens|]. split; [is_tokens|]. split.
  - repeat first [apply Forall2_nil | apply Forall2_cons; [first [left; reflexivity|right; split; [reflexivity|split; is_name]]|]].
  - split; [reads|]. split; [reflexivity|discriminate].
Qed.
(** That the tables are the same is false: lists of columns are reported with the marks. *)
Theorem C49_refuted :
  (exists ts ts', accepted "CREATE TABLE t (a TEXT, UNIQUE (a));" SQLite ts /\ accepted "CREATE TABLE t (a TEXT, UNIQUE (""a""));" SQLite ts' /\ ts <> ts') /\
  (exists ts ts', accepted "CREATE TABLE t (aa TEXT, UNIQUE (aa));" PostgreSQL ts /\
     accepted "CREATE TABLE t (aa TEXT, UNIQUE (""aa""));" PostgreSQL ts' /\ ts <> ts') /\
  (exists ts ts', accepted "CREATE TABLE t (a TEXT, UNIQUE (a));" MySQL ts /\ accepted "CREATE TABLE t (a TEXT, UNIQUE (`a`));" MySQL ts' /\ ts <> ts').
Proof. repeat split; do 2 eexists; (split; [computes|split; [computes|discriminate]]). Qed.
Print Assumptions C49_refuted.
