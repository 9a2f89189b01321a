(** C02: which texts Parse does not return from. *)
From Coq Require Import String List Bool.
From Verif Require Import GoStr Types Grammar Ast Parse Seen Spec Hang Decide Witness PartsFacts.
From Verif Require HangFacts.
Import ListNotations.
Open Scope string_scope.
Open Scope list_scope.

(** Parse does not return if, at a place where anything in brackets may follow, a bracket is opened and not closed
    any more ([hangs], Hang.v). *)
Theorem C02_open_bracket : forall d ddl l, tokens d ddl l -> hangs d l -> diverges ddl d.
Proof. exact HangFacts.hangs_diverges. Qed.
Print Assumptions C02_open_bracket.
(** Otherwise it does not return for some scripts that are not [readable] (Seen.v) only. *)
Theorem C02_diverges : forall d ddl, diverges ddl d ->
  exists l, tokens d ddl l /\ (hangs d l \/ exists stmts, says d ddl stmts /\ readable stmts = false).
Proof. exact HangFacts.diverges_hangs. Qed.
Print Assumptions C02_diverges.
(** So for all texts but those, the texts from which Parse does not return are known. *)
Theorem C02_exact_partial : forall d ddl l, tokens d ddl l -> (forall stmts, says d ddl stmts -> readable stmts = true) ->
  (diverges ddl d <-> hangs d l).
Proof. exact HangFacts.diverges_iff_hangs. Qed.
Print Assumptions C02_exact_partial.
(** C12, C13, C14: the texts that are rejected, if they can be divided into tokens. *)
Theorem C12_C13_C14_rejected : forall d ddl l, tokens d ddl l ->
  ((exists line near, rejected ddl d line near) <-> ~ hangs d l /\ ~ exists stmts, says d ddl stmts).
Proof. exact HangFacts.rejected_iff. Qed.
Print Assumptions C12_C13_C14_rejected.

(** No end without a closing bracket; but no hanging in a statement that is skipped or where only columns may follow. *)
Example C02_hang_examples :
  hangs SQLite ["CREATE"; "TABLE"; "t"; "("; "a"; "INTEGER"; "CHECK"; "("; "a"; "("; "b"; ")"; ";"] /\
  hangs PostgreSQL ["CREATE"; "TABLE"; "t"; "("; "EXCLUDE"; "("; "a"] /\
  hangs MySQL ["CREATE"; "TABLE"; "t"; "("; "a"; "INT"; "DEFAULT"; "("; ")"; ","; "CHECK"; "("] /\
  ~ hangs SQLite ["CREATE"; "VIEW"; "v"; "AS"; "("; "("; ";"] /\
  ~ hangs MySQL ["CREATE"; "TABLE"; "t"; "("; "a"; "INT"; "("] /\
  ~ hangs SQLite ["CREATE"; "TABLE"; "t"; "("; "("].
Proof.
  repeat split; first [HangFacts.hanging|HangFacts.unhanging].
Qed.
Example C02_diverges_example : diverges "CREATE TABLE t (a INTEGER CHECK (a (b);" SQLite /\
  accepted "CREATE VIEW v AS ((;" SQLite [] /\
  rejected "CREATE TABLE t ((" SQLite 1 "(" /\
  ~ exists stmts, says SQLite "CREATE TABLE t ((" stmts.
Proof.
  split; [|split; [|split]].
  - eapply C02_open_bracket; [is_tokens|HangFacts.hanging].
  - computes.
  - computes.
  - intros [stmts H]. no_script H.
Qed.
