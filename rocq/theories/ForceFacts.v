(** ParseForce and texts that make the call run forever. *)
From Coq Require Import String List Arith Lia.
From Verif Require Import GoStr GoNum Types Parse Spec Pipe ParseFacts NoPanic Decide Witness Force.
From Verif Require RenameConvert.
Import ListNotations.
Open Scope list_scope.

Lemma cases : forall ddl d, (exists ts, accepted ddl d ts) \/ (exists line near, rejected ddl d line near) \/ diverges ddl d.
Proof.
  intros ddl d. destruct (returns_or_diverges d ddl) as [(ts & [e|] & R)|D]; auto.
  - right. left. apply RenameConvert.rejected_nil in R. eauto.
  - left. eauto.
Qed.
Lemma diverges_not : forall ddl d, diverges ddl d -> forall ts err, ~ returns ddl d ts err.
Proof. intros ddl d D ts err [n H]. rewrite D in H. discriminate. Qed.

Theorem force_accepts : forall ddl d ts, In d dialects -> accepted ddl d ts ->
  (forall d', In d' dialects -> ~ diverges ddl d') ->
  exists d' ts', In d' dialects /\ accepted ddl d' ts' /\ force_returns ddl ts' None.
Proof.
  intros ddl d ts I A D.
  assert (X : exists before d' after ts', dialects = before ++ d' :: after /\ accepted ddl d' ts' /\
    forall x, In x before -> exists line near, rejected ddl x line near).
  { clear - I A D. revert I D. generalize dialects. induction l as [|x l IH]; intros I D; [contradiction|].
    destruct (cases ddl x) as [[ts' B]|[R|V]].
    - exists [], x, l, ts'. repeat split; auto. intros y [].
    - destruct IH as (before & d' & after & ts' & -> & B & F).
      + destruct I as [<-|I]; auto. destruct R as (line & near & R). exfalso. pose proof (returns_det _ _ _ _ _ _ A R) as [_ E]. discriminate.
      + intros y Y. apply D. now right.
      + exists (x :: before), d', after, ts'. repeat split; auto. intros y [<-|Y]; auto.
    - exfalso. apply (D x); auto. now left. }
  destruct X as (before & d' & after & ts' & E & B & F). exists d', ts'. split; [rewrite E; apply in_or_app; right; now left|]. split; auto.
  apply force_iff. split; auto. left. exists d', before, after. auto.
Qed.

Lemma loop_forever : forall ddl l, (forall n, parse_force_loop n ddl l None = NoFuel) <->
  exists before d after, l = before ++ d :: after /\ diverges ddl d /\ forall d', In d' before -> exists line near, rejected ddl d' line near.
Proof.
  intros ddl l. split.
  - induction l as [|d l IH]; intros H; [specialize (H 0); discriminate|].
    destruct (cases ddl d) as [[ts A]|[R|V]].
    + exfalso. destruct A as [n A]. specialize (H n). cbn in H. rewrite A in H. discriminate.
    + pose proof R as (line & near & R'). apply returns_le in R' as [n0 R'].
      destruct IH as (before & d' & after & -> & B & F).
      * intros n. specialize (H (max n n0)) as X. cbn in X. rewrite R' in X by lia.
        assert (Y : forall m k ls, m <= k -> parse_force_loop k ddl ls None = NoFuel -> parse_force_loop m ddl ls None = NoFuel).
        { clear. intros m k ls L. induction ls as [|x ls IH]; cbn; auto. destruct (Parse_mono m k ddl x L) as [E|E]; rewrite E; auto.
          destruct (Parse m ddl x) as [ts [e|]| |]; auto. }
        eapply Y; [|exact X]. lia.
      * exists (d :: before), d', after. repeat split; auto. intros y [<-|Y]; auto.
    + exists [], d, l. repeat split; auto. intros y [].
  - intros (before & d & after & -> & D & F) n. induction before as [|x before IH]; cbn.
    + now rewrite D.
    + destruct (F x (or_introl eq_refl)) as (line & near & [k R]).
      destruct (Nat.le_gt_cases n k) as [L|L].
      * destruct (Parse_mono n k ddl x L) as [E|E]; [now rewrite E|]. rewrite <- E, R. apply IH. intros y Y. apply F. now right.
      * destruct (Parse_mono k n ddl x) as [E|E]; [lia|congruence|]. rewrite E, R. apply IH. intros y Y. apply F. now right.
Qed.
Theorem force_forever : forall ddl, (forall fuel, ParseForce fuel ddl = NoFuel) <->
  exists before d after, dialects = before ++ d :: after /\ diverges ddl d /\ forall d', In d' before -> exists line near, rejected ddl d' line near.
Proof. intros ddl. apply loop_forever. Qed.
