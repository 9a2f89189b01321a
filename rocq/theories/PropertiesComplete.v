(** C68: an error at the end of the text means that the text is incomplete. *)
From Coq Require Import String Ascii List Arith Lia.
From Verif Require Import GoStr Types Lexer Ast Spec Witness CompleteFacts.
Import ListNotations.
Open Scope nat_scope.
Open Scope string_scope.
Open Scope list_scope.

Definition blank_line : string := String "010" (String "010" "").
(** Something can be added after a blank line so that the text is a script of the dialect. *)
Definition can_be_completed (d : rdbms) (ddl : string) : Prop := exists more stmts, says d (ddl ++ blank_line ++ more)%string stmts.

Theorem C68_complete_partial : forall d ddl line near toks, rejected ddl d line near -> lexes d ddl toks -> ~ In "<EOF>" toks ->
  (near = "<EOF>" <-> can_be_completed d ddl).
Proof.
  intros d ddl line near toks H L N. split.
  - intros ->. exact (CompleteFacts.completed d ddl line toks H L N).
  - intros (more & stmts & S). exact (CompleteFacts.incomplete d ddl more line near toks stmts H L S).
Qed.
Print Assumptions C68_complete_partial.
Theorem C68_incomplete : forall d ddl line near toks, rejected ddl d line near -> lexes d ddl toks -> can_be_completed d ddl -> near = "<EOF>".
Proof. intros d ddl line near toks H L (more & stmts & S). exact (CompleteFacts.incomplete d ddl more line near toks stmts H L S). Qed.
Print Assumptions C68_incomplete.
(** <EOF> can also be a word of the text. *)
Theorem C68_refuted : exists d ddl line toks, rejected ddl d line "<EOF>" /\ lexes d ddl toks /\ ~ can_be_completed d ddl.
Proof.
  exists SQLite, "CREATE TABLE <EOF> (a TEXT", 1. eexists. split; [computes|]. split; [exists 500; vm_compute; reflexivity|].
  intros (more & stmts & S). revert S. apply (CompleteFacts.stuck_computed SQLite _ 100); vm_compute; reflexivity.
Qed.
Print Assumptions C68_refuted.

Example C68_example : exists toks, let ddl := "CREATE TABLE t (a INTEGER, PRIMARY" in
  rejected ddl SQLite 1 "<EOF>" /\ lexes SQLite ddl toks /\ ~ In "<EOF>" toks /\ can_be_completed SQLite ddl.
Proof.
  eexists. cbv zeta. match goal with |- ?A /\ ?B /\ ?C /\ _ => assert (X : A) by computes end. split; [exact X|].
  match goal with |- ?B /\ ?C /\ _ => assert (Y : B) by (exists 500; vm_compute; reflexivity) end. split; [exact Y|].
  match goal with |- ?C /\ _ => assert (Z : C) by (intros H; repeat (destruct H as [H|H]; [discriminate|]); exact H) end. split; [exact Z|].
  now apply (C68_complete_partial _ _ _ _ _ X Y Z).
Qed.
Example C68_wrong_example : exists toks, let ddl := "CREATE TABLE t (a INTEGER, PRIMARY a" in
  rejected ddl SQLite 1 "a" /\ lexes SQLite ddl toks /\ ~ can_be_completed SQLite ddl.
Proof.
  eexists. cbv zeta. match goal with |- ?A /\ ?B /\ _ => assert (X : A) by computes end. split; [exact X|].
  match goal with |- ?B /\ _ => assert (Y : B) by (exists 500; vm_compute; reflexivity) end. split; [exact Y|].
  intros H. pose proof (C68_incomplete _ _ _ _ _ X Y H). discriminate.
Qed.
