(** C10: the letter case of keywords. *)
From Coq Require Import String Ascii List Bool Arith ZArith.
From Verif Require Import GoStr GoNum Types Lexer Grammar Converter Parse Ast Safe Seen Spec Decide Witness PartsFacts
  Recase RecaseFacts DocWords Cased Respell CasedConvert MarkRead Meaning.
Import ListNotations.
Open Scope nat_scope.
Open Scope string_scope.

(** Every script has keywords: [marked] is [lang] with marks. *)
Theorem C10_keywords : forall d ddl stmts, says d ddl stmts <->
  exists l ks, tokens d ddl l /\ marked (script d) l None stmts ks.
Proof. exact RecaseFacts.says_iff_marked. Qed.
Print Assumptions C10_keywords.

(** A script with its keywords in another case is a script, and stands for the same tables.  Missing: keywords that are
    reported as they are written (collations of SQLite, CURRENT_...), for which the property is false. *)
Theorem C10_script_partial : forall d ddl ddl' l l' stmts ks,
  tokens d ddl l -> tokens d ddl' l' -> marked (script d) l None stmts ks -> recased ks l l' ->
  exists stmts', says d ddl' stmts' /\ tables_of d stmts' = tables_of d stmts /\ safe stmts' = safe stmts.
Proof. exact RecaseFacts.recased_script. Qed.
Print Assumptions C10_script_partial.

(** The call returns the same tables.  Missing: also the statements that are not [readable] (Seen.v). *)
Theorem C10_tables_partial : forall d ddl ddl' l l' stmts ks,
  tokens d ddl l -> tokens d ddl' l' -> marked (script d) l None stmts ks -> recased ks l l' -> readable stmts = true ->
  exists ts, accepted ddl d ts /\ accepted ddl' d ts.
Proof. exact RecaseFacts.recased_tables. Qed.
Print Assumptions C10_tables_partial.

Definition c10_upper : string := "CREATE TABLE t (a INT PRIMARY KEY, Key_1 DOUBLE(5, 2) DEFAULT TRUE CHECK (a OR b), CHECK (x));".
Definition c10_mixed : string := "create TABLE t (a int PRIMARY key, Key_1 double(5, 2) default true check (a OR b), CHECK (x));".
Example C10_example : exists l l' stmts ks, tokens MySQL c10_upper l /\ tokens MySQL c10_mixed l' /\
  marked (script MySQL) l None stmts ks /\ recased ks l l' /\ readable stmts = true /\ l <> l' /\
  List.length (filter (fun b => b) ks) = 16.
Proof.
  do 4 eexists. split; [is_tokens|]. split; [is_tokens|].
  split; [eapply (mread_marked 1000); vm_compute; reflexivity|]. split.
  - repeat first [apply rc_same | apply rc_case; [vm_compute; tauto|] | apply rc_nil].
  - split; [reflexivity|]. split; [discriminate|]. reflexivity.
Qed.

(** The words in SQLite's COLLATE and after DEFAULT are keywords whose case shows in the tables. *)
Theorem C10_refuted :
  (exists ts ts', accepted "CREATE TABLE t (a TEXT COLLATE NOCASE);" SQLite ts /\
     accepted "CREATE TABLE t (a TEXT COLLATE nocase);" SQLite ts' /\ ts <> ts') /\
  (forall d, exists ts ts', accepted "CREATE TABLE t (id TEXT DEFAULT CURRENT_DATE);" d ts /\
     accepted "CREATE TABLE t (id TEXT DEFAULT current_date);" d ts' /\ ts <> ts').
Proof.
  split; [do 2 eexists; split; [computes|split; [computes|discriminate]]|].
  intros d; destruct d; do 2 eexists; (split; [computes|split; [computes|discriminate]]).
Qed.
Print Assumptions C10_refuted.

(** Any text, script or not, with words (keywords, types and names) written in the other case: it is a script or not as before ... *)
Theorem C10_any_script : forall d ddl ddl' toks toks', lexes d ddl toks -> lexes d ddl' toks' ->
  Forall2 respelled toks toks' ->
  ((exists stmts, says d ddl stmts) <-> (exists stmts, says d ddl' stmts)).
Proof. exact Respell.respelled_scripts. Qed.
Print Assumptions C10_any_script.
(** ... it has the same tables, up to letter case, with the same types ... *)
Theorem C10_any_tables : forall d ddl ddl' toks toks' ts, lexes d ddl toks -> lexes d ddl' toks' ->
  Forall2 respelled toks toks' -> accepted ddl d ts ->
  exists ts', accepted ddl' d ts' /\ Forall2 table_cased ts ts'.
Proof. exact CasedConvert.respelled_accepted. Qed.
Print Assumptions C10_any_tables.
(** ... the error is in the same place ... *)
Theorem C10_any_rejected : forall d ddl ddl' toks toks' line near, lexes d ddl toks -> lexes d ddl' toks' ->
  Forall2 respelled toks toks' -> rejected ddl d line near ->
  exists near', rejected ddl' d line near' /\ respelled near near'.
Proof. exact Respell.respelled_rejected. Qed.
Print Assumptions C10_any_rejected.
(** ... and it makes the call run forever if it did before. *)
Theorem C10_any_diverges : forall d ddl ddl' toks toks', lexes d ddl toks -> lexes d ddl' toks' ->
  Forall2 respelled toks toks' -> diverges ddl d -> diverges ddl' d.
Proof. exact CasedConvert.respelled_diverges. Qed.
Print Assumptions C10_any_diverges.

Ltac is_word := do 2 eexists; split; [reflexivity|split; [vm_compute; tauto|vm_compute; repeat (apply Forall_cons; [tauto|]); apply Forall_nil]].
Ltac is_respelled := first [left; reflexivity | right; match goal with |- exists w, _ /\ (?t = _ \/ _) /\ _ =>
  let u := eval vm_compute in (to_upper t) in exists u end; split; [is_word|split; vm_compute; tauto]].
Ltac all_respelled := repeat (apply Forall2_cons; [is_respelled|]); apply Forall2_nil.
Definition c10_bad : string := "CREATE TABLE t (a INTEGER,
  PRIMARY UNIQUE (a));".
Definition c10_bad' : string := "create TABLE T (A integer,
  primary unique (a));".
Example C10_any_example : exists toks toks', lexes SQLite c10_bad toks /\ lexes SQLite c10_bad' toks' /\
  Forall2 respelled toks toks' /\ toks <> toks' /\ rejected c10_bad SQLite 2 "UNIQUE" /\ rejected c10_bad' SQLite 2 "unique".
Proof.
  do 2 eexists. split; [exists 1000; vm_compute; reflexivity|]. split; [exists 1000; vm_compute; reflexivity|].
  split; [all_respelled|]. split; [discriminate|]. split; computes.
Qed.
Definition c10_any : string := "CREATE TABLE s.t (a INTEGER DEFAULT NULL CHECK (a IS NOT NULL), b TEXT COLLATE NOCASE REFERENCES ""Par"" (id), UNIQUE (a, b));".
Definition c10_any' : string := "create table S.t (a integer default null check (a is not null), b text collate nocase references ""Par"" (ID), unique (A, b));".
Example C10_any_tables_example : exists toks toks' ts ts', lexes SQLite c10_any toks /\ lexes SQLite c10_any' toks' /\
  Forall2 respelled toks toks' /\ accepted c10_any SQLite ts /\ accepted c10_any' SQLite ts' /\ ts <> ts' /\ List.length ts = 1.
Proof.
  do 4 eexists. split; [exists 1000; vm_compute; reflexivity|]. split; [exists 1000; vm_compute; reflexivity|].
  split; [all_respelled|]. split; [computes|]. split; [computes|]. split; [discriminate|reflexivity].
Qed.

(** Keywords in mixed case are not recognised. *)
Example C10_mixed_case : rejected "Create TABLE t (a INTEGER);" SQLite 1 "Create".
Proof. computes. Qed.
