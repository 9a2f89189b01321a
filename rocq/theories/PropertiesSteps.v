(** C67: how long a call can run before it returns. *)
From Coq Require Import String List Arith Lia.
From Verif Require Import GoStr Types Lexer Parse Spec Witness StepsFacts.
Import ListNotations.
Open Scope nat_scope.
Open Scope string_scope.
Open Scope list_scope.

(** [Parse n]: no loop is passed more than [n] times and no call is nested deeper than [n]. *)
Definition bound (ddl : string) : nat := 4 * List.length (runes_of ddl) + 9.

Theorem C67_returns : forall d ddl ts err n, bound ddl <= n -> (returns ddl d ts err <-> Parse n ddl d = Returns ts err).
Proof. exact StepsFacts.returns_within. Qed.
Print Assumptions C67_returns.
(** A call that has not returned by then never returns. *)
Theorem C67_forever : forall d ddl n, bound ddl <= n -> (diverges ddl d <-> Parse n ddl d = NoFuel).
Proof. exact StepsFacts.diverges_beyond. Qed.
Print Assumptions C67_forever.
Theorem C67_force : forall ddl ts err n, bound ddl <= n -> (force_returns ddl ts err <-> ParseForce n ddl = Returns ts err).
Proof. exact StepsFacts.force_within. Qed.
Print Assumptions C67_force.
(** In bytes *)
Theorem C67_bytes : forall ddl, bound ddl <= 4 * String.length ddl + 9.
Proof. intros ddl. unfold bound. pose proof (StepsFacts.runes_count ddl). lia. Qed.
Print Assumptions C67_bytes.

(** 40 passes are too few for this text, and its bound suffices. *)
Example C67_example : let ddl := "CREATE TABLE t (a INT KEY DEFAULT ((((1)))));" in
  Parse 40 ddl MySQL = NoFuel /\ bound ddl = 189 /\ exists ts, ts <> [] /\ returns ddl MySQL ts None /\ Parse (bound ddl) ddl MySQL = Returns ts None.
Proof.
  split; [vm_compute; reflexivity|]. split; [vm_compute; reflexivity|]. eexists.
  match goal with |- _ /\ ?A /\ _ => assert (X : A) by computes end.
  split; [discriminate|]. split; [exact X|]. apply C67_returns; [apply le_n|exact X].
Qed.
Example C67_forever_example : let ddl := "CREATE TABLE t (a INTEGER REFERENCES s.u (b));" in Parse (bound ddl) ddl SQLite = NoFuel /\ diverges ddl SQLite.
Proof. split; [vm_compute; reflexivity|]. apply (C67_forever _ _ _ (le_n _)). vm_compute. reflexivity. Qed.
Example C67_force_example : let ddl := "CREATE TABLE t (a INT KEY);" in exists ts, ts <> [] /\ ParseForce (bound ddl) ddl = Returns ts None /\ force_returns ddl ts None.
Proof.
  eexists. match goal with |- _ /\ ?A /\ _ => assert (X : A) by (vm_compute; reflexivity) end.
  split; [discriminate|]. split; [exact X|]. apply (C67_force _ _ _ _ (le_n _)). exact X.
Qed.
