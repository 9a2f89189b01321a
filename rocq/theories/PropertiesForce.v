(** C52: ParseForce and texts that one of the dialects accepts. *)
From Coq Require Import String Ascii List Bool Arith.
From Verif Require Import GoStr GoNum Types Parse Spec Witness.
From Verif Require ForceFacts.
Import ListNotations.
Open Scope nat_scope.
Open Scope string_scope.

(** A text that a dialect accepts is accepted.  Missing: texts that make the call run forever in a dialect that is tried before. *)
Theorem C52_accepts_partial : forall ddl d ts, In d [SQLite; PostgreSQL; MySQL] -> accepted ddl d ts ->
  (forall d', In d' [SQLite; PostgreSQL; MySQL] -> ~ diverges ddl d') ->
  exists d' ts', In d' [SQLite; PostgreSQL; MySQL] /\ accepted ddl d' ts' /\ force_returns ddl ts' None.
Proof. exact ForceFacts.force_accepts. Qed.
Print Assumptions C52_accepts_partial.

(** Exactly when ParseForce runs forever. *)
Theorem C52_forever : forall ddl, (forall fuel, ParseForce fuel ddl = NoFuel) <->
  exists before d after, [SQLite; PostgreSQL; MySQL] = (before ++ d :: after)%list /\ diverges ddl d /\
    forall d', In d' before -> exists line near, rejected ddl d' line near.
Proof. exact ForceFacts.force_forever. Qed.
Print Assumptions C52_forever.

Definition c52_text : string := "CREATE TABLE t (a INT);".
Example C52_example : exists ts, accepted c52_text MySQL ts /\ (forall d', In d' [SQLite; PostgreSQL; MySQL] -> ~ diverges c52_text d').
Proof.
  eexists. split; [computes|]. intros d' [<-|[<-|[<-|[]]]] D; specialize (D 100); vm_compute in D; discriminate.
Qed.

(** The comment of MySQL is not a comment in SQLite: the call runs forever. *)
Definition c52_mysql : string := "CREATE TABLE t (
  a INTEGER CHECK (
    a > 0 # not (yet (always
  )
);".
Theorem C52_refuted : exists ddl ts, accepted ddl MySQL ts /\ forall fuel, ParseForce fuel ddl = NoFuel.
Proof.
  exists c52_mysql. eexists. split; [computes|]. apply C52_forever. exists [], SQLite, [PostgreSQL; MySQL].
  split; [reflexivity|]. split; [computes|]. intros d' [].
Qed.
Print Assumptions C52_refuted.
