(** ParseForce without fuel. *)
From Coq Require Import String List Arith Lia.
From Verif Require Import GoStr GoNum Types Parse Spec Pipe ParseFacts NoPanic Decide Witness.
Import ListNotations.

(** The dialects in the order in which ParseForce tries them. *)
Definition dialects : list rdbms := [SQLite; PostgreSQL; MySQL].

Lemma returns_le : forall ddl d ts err, returns ddl d ts err ->
  exists n0, forall n, n0 <= n -> Parse n ddl d = Returns ts err.
Proof.
  intros ddl d ts err [n0 H]. exists n0. intros n L.
  destruct (Parse_mono n0 n ddl d L); congruence.
Qed.
Lemma returns_error : forall ddl d ts e, returns ddl d ts (Some e) -> ts = [].
Proof. intros ddl d ts e H. apply returns_stage in H. now inversion H. Qed.

Lemma force_loop_ok : forall ddl before d after ts, accepted ddl d ts ->
  (forall d', In d' before -> exists line near, rejected ddl d' line near) ->
  exists n0, forall n, n0 <= n -> parse_force_loop n ddl (before ++ d :: after) None = Returns ts None.
Proof.
  intros ddl before d after ts A. induction before as [|b before IH]; intros B; cbn [app parse_force_loop].
  - apply returns_le in A as [n0 A]. exists n0. intros n L. now rewrite A.
  - destruct IH as [n1 IH]; [intros; apply B; now right|].
    destruct (B b (or_introl eq_refl)) as (line & near & R). apply returns_le in R as [n2 R].
    exists (max n1 n2). intros n L. rewrite R by lia. apply IH. lia.
Qed.
Lemma force_loop_none : forall ddl ls,
  (forall d', In d' ls -> exists line near, rejected ddl d' line near) ->
  exists n0, forall n, n0 <= n -> parse_force_loop n ddl ls None = Returns [] None.
Proof.
  intros ddl ls. induction ls as [|b ls IH]; intros B; cbn [parse_force_loop].
  - exists 0. auto.
  - destruct IH as [n1 IH]; [intros; apply B; now right|].
    destruct (B b (or_introl eq_refl)) as (line & near & R). apply returns_le in R as [n2 R].
    exists (max n1 n2). intros n L. rewrite R by lia. apply IH. lia.
Qed.

(** [first_accepting ddl d ts]: [d] is the first dialect that accepts the text, with the tables [ts]. *)
Definition first_accepting (ddl : string) (d : rdbms) (ts : list table) : Prop :=
  exists before after, dialects = (before ++ d :: after)%list /\ accepted ddl d ts /\
    forall d', In d' before -> exists line near, rejected ddl d' line near.
Definition none_accepting (ddl : string) : Prop :=
  forall d, In d dialects -> exists line near, rejected ddl d line near.

Theorem force_iff : forall ddl ts err, force_returns ddl ts err <->
  err = None /\ ((exists d, first_accepting ddl d ts) \/ (ts = [] /\ none_accepting ddl)).
Proof.
  intros ddl ts err. split.
  - intros [fuel H]. unfold ParseForce in H. apply force_loop_nil in H as [-> H]. split; auto.
    assert (X : forall ls, Forall (fun d' => exists e, Parse fuel ddl d' = Returns [] (Some e)) ls ->
       forall d', In d' ls -> exists line near, rejected ddl d' line near).
    { intros ls F d' I. rewrite Forall_forall in F. destruct (F d' I) as [[line near] E]. exists line, near. now exists fuel. }
    destruct H as [(ls1 & d & ls2 & E & P & F)|[-> F]].
    + left. exists d, ls1, ls2. split; auto. split; [now exists fuel|]. now apply X.
    + right. split; auto. intros d I. now apply (X _ F).
  - intros [-> [(d & before & after & E & A & B)|[-> B]]]; unfold force_returns, ParseForce; fold dialects.
    + rewrite E. destruct (force_loop_ok ddl before d after ts A B) as [n H]. exists n. now apply H.
    + destruct (force_loop_none ddl dialects B) as [n H]. exists n. now apply H.
Qed.
