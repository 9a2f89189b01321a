(** Foreign keys and references of columns have columns in MySQL scripts. *)
From Coq Require Import String Ascii List Bool.
From Verif Require Import GoStr Types Grammar GrammarFacts Ast Keys GMysql.
Import ListNotations.
Open Scope nat_scope.
Open Scope string_scope.
Open Scope list_scope.

Definition foreign_listed (e : a_element) : Prop :=
  match e with
  | EColumn c => forall r, In (IReferences r) (ac_items c) -> ref_listed r
  | EConstraint _ (BForeign l _) => l <> []
  | EConstraint _ _ => True
  end.
Definition stmt_foreign (s : a_stmt) : Prop := match s with STable t => Forall foreign_listed (at_elements t) | SOther => True end.

Lemma some_columns : forall l nxt o v, lang columns l nxt o v -> v <> [].
Proof. intros l nxt o v H. unfold columns in H. pieces. cbn [lang] in H0. now apply sep_some in H0. Qed.
Lemma item_ok : forall l nxt o v, lang column_constraint l nxt o v -> item_listed v.
Proof.
  intros l nxt o v H. unfold column_constraint in H. repeat (destruct H as [H|H]).
  all: try (destruct H as (a & -> & _); exact I).
  all: try (unfold c_references, opt in H; pieces; unfold item_listed, ref_listed; cbn [ar_columns]; discriminate).
  all: try (match type of H with lang ?g _ _ _ _ => unfold g in H end; pieces; exact I).
Qed.
Lemma constraint_ok : forall l nxt o v, lang table_constraint l nxt o v -> foreign_listed v.
Proof.
  intros l nxt o v H. unfold table_constraint in H. destruct H as ([n b] & -> & H). destruct H as (? & ? & ? & ? & _ & _ & _ & H). cbn [snd] in H.
  repeat (destruct H as [H|H]).
  all: try (destruct H as (a & -> & _); repeat (match goal with |- foreign_listed (EConstraint _ (let '(_, _) := ?p in _)) => destruct p end); exact I).
  all: try (unfold t_foreign in H; pieces; cbn [foreign_listed]; repeat match goal with X : lang columns _ _ _ _ |- _ => apply some_columns in X end; auto).
  all: try (match type of H with lang ?g _ _ _ _ => unfold g in H end; pieces; exact I).
Qed.
Lemma element_ok : forall l nxt o v, lang element l nxt o v -> foreign_listed v.
Proof.
  intros l nxt o v H. unfold element in H. repeat (destruct H as [H|H]); try (eapply constraint_ok; exact H). unfold column in H. pieces. apply items_listed.
  match goal with X : lang column_constraints _ _ _ _ |- _ => destruct X as (hs & S & _) end. eapply star_all; [|exact S]. exact item_ok.
Qed.
Lemma statement_ok : forall l nxt o v, lang statement l nxt o v -> stmt_foreign v.
Proof.
  intros l nxt o v H. unfold statement, create_table, create_other in H. pieces; cbn [stmt_foreign at_elements]; try exact I.
  all: match goal with X : lang (SepBy _ element) _ _ _ _ |- _ => cbn [lang] in X; eapply sep_all; [|exact X]; exact element_ok end.
Qed.
Lemma script_ok : forall l nxt o v, lang script l nxt o v -> Forall stmt_foreign v.
Proof. intros l nxt o v (hs & S). eapply star_all; [|exact S]. exact statement_ok. Qed.
