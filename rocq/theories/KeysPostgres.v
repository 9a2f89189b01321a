(** Keys and references have columns in PostgreSQL scripts. *)
From Coq Require Import String Ascii List Bool.
From Verif Require Import GoStr Types Grammar GrammarFacts Ast Keys GPostgres.
Import ListNotations.
Open Scope nat_scope.
Open Scope string_scope.
Open Scope list_scope.

Lemma some_columns : forall l nxt o v, lang columns l nxt o v -> v <> [].
Proof. intros l nxt o v H. unfold columns in H. pieces. cbn [lang] in H0. now apply sep_some in H0. Qed.
Lemma item_ok : forall l nxt o v, lang column_constraint l nxt o v -> item_listed v.
Proof.
  intros l nxt o v H. unfold column_constraint, c_primary, c_notnull, c_null, c_unique, c_check, c_default, c_references, c_generated, opt in H. pieces; try exact I.
  all: unfold item_listed, ref_listed; cbn [ar_columns]; discriminate.
Qed.
Lemma constraint_ok : forall l nxt o v, lang table_constraint l nxt o v -> element_listed v.
Proof.
  intros l nxt o v H. unfold table_constraint, t_primary, t_unique, t_check, t_foreign, t_exclude, opt in H. pieces; cbn [element_listed body_listed]; try exact I.
  all: repeat match goal with X : lang columns _ _ _ _ |- _ => apply some_columns in X end; auto.
  all: split; [assumption|]; unfold ref_listed; cbn [ar_columns]; congruence.
Qed.
Lemma element_ok : forall l nxt o v, lang element l nxt o v -> element_listed v.
Proof.
  intros l nxt o v H. unfold element in H. destruct H as [H|H]; [eapply constraint_ok; eauto|]. unfold column in H. pieces. apply items_listed.
  match goal with X : lang column_constraints _ _ _ _ |- _ => destruct X as (hs & S & _) end. eapply star_all; [|exact S]. exact item_ok.
Qed.
Lemma statement_ok : forall l nxt o v, lang statement l nxt o v -> stmt_listed v.
Proof.
  intros l nxt o v H. unfold statement, create_table, create_other in H. pieces; cbn [stmt_listed at_elements]; try exact I.
  match goal with X : lang (SepBy _ element) _ _ _ _ |- _ => cbn [lang] in X; eapply sep_all; [|exact X]; exact element_ok end.
Qed.
Lemma script_ok : forall l nxt o v, lang script l nxt o v -> Forall stmt_listed v.
Proof. intros l nxt o v (hs & S). eapply star_all; [|exact S]. exact statement_ok. Qed.
