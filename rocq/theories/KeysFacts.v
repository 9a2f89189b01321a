(** Reported keys and references have columns, except in MySQL. *)
From Coq Require Import String Ascii NArith ZArith List Bool Arith Lia.
From Verif Require Import GoStr Types Grammar Ast Spec Seen Meaning Conv ListedFacts ValuesFacts Keys.
From Verif Require KeysSqlite KeysPostgres KeysMysql.
Import ListNotations.
Open Scope nat_scope.
Open Scope string_scope.
Open Scope list_scope.

(** Every key has columns, and no list of columns of a reference is empty. *)
Definition keys_listed (t : table) : Prop :=
  (forall k, In k (tc_pk (t_constraints t)) -> pk_columns k <> []) /\
  (forall k, In k (tc_unique (t_constraints t)) -> uq_columns k <> []) /\
  (forall k, In k (tc_fk (t_constraints t)) -> fk_columns k <> [] /\ ref_columns (fk_references k) <> Some []) /\
  (forall c, In c (t_columns t) -> ref_columns (c_references (col_constraint c)) <> Some []).

Lemma stmts_listed : forall d l o v, d <> MySQL -> lang (script d) l None o v -> Forall stmt_listed v.
Proof. intros [] l o v N H; cbn [script] in H; try contradiction; first [eapply KeysSqlite.script_ok; exact H|eapply KeysPostgres.script_ok; exact H]. Qed.
Lemma refs_listed : forall d is, Forall item_listed is ->
  ref_columns (or_else (first_of (fun i => match i with IReferences r => Some (reference_of d r) | _ => None end) is) zero_reference) <> Some [].
Proof.
  intros d is F. induction F as [|i is H F IH]; [discriminate|]. destruct i; cbn [first_of or_else]; try exact IH.
  unfold item_listed, ref_listed in H. unfold reference_of. cbn [ref_columns]. exact H.
Qed.
Theorem keys_have_columns : forall ddl d stmts ts, d <> MySQL -> says d ddl stmts -> readable stmts = true -> accepted ddl d ts ->
  forall t, In t ts -> keys_listed t.
Proof.
  intros ddl d stmts ts N S R A t I. assert (E : ts = tables_of d (seen stmts)) by (eapply accepted_det; [exact A|]; now apply says_seen). subst ts.
  apply in_flat_map in I as (s & I & J). apply in_map_iff in I as (s' & <- & I). destruct s' as [a|]; [|contradiction]. destruct J as [<-|[]].
  destruct S as (l & out & T & L). pose proof (stmts_listed _ _ _ _ N L) as F. rewrite Forall_forall in F. specialize (F _ I). cbn [stmt_listed] in F.
  rewrite Forall_forall in F. unfold keys_listed. cbn [table_of t_constraints t_columns seen_table at_elements constraints_of tc_pk tc_unique tc_fk].
  assert (B : forall n b, In (EConstraint n b) (map seen_element (at_elements a)) -> body_listed b).
  { intros n b X. apply in_map_iff in X as (e & E & X). destruct e as [c|n' b']; [discriminate|]. injection E as <- <-. specialize (F _ X). cbn in F. now destruct b'. }
  split; [|split; [|split]].
  - intros k K. apply in_flat_map in K as (e & X & K). destruct e as [c|n b]; [contradiction|]. destruct b; try contradiction. destruct K as [<-|[]]. exact (B _ _ X).
  - intros k K. apply in_flat_map in K as (e & X & K). destruct e as [c|n b]; [contradiction|]. destruct b; try contradiction. destruct K as [<-|[]]. exact (B _ _ X).
  - intros k K. apply in_flat_map in K as (e & X & K). destruct e as [c|n b]; [contradiction|]. destruct b; try contradiction. destruct K as [<-|[]]. exact (B _ _ X).
  - intros c K. apply in_flat_map in K as (e & X & K). destruct e as [c'|n b]; [|contradiction]. destruct K as [<-|[]].
    apply in_map_iff in X as (e & E & X). destruct e as [c|n b]; [|discriminate]. injection E as <-. specialize (F _ X). cbn in F.
    cbn [column_of col_constraint constraint_of c_references]. rewrite items_seen by reflexivity.
    erewrite first_of_seen with (g := fun i => match i with IReferences r => Some (reference_of d r) | _ => None end) by now intros [| | | |[]| | | |].
    apply refs_listed. apply Forall_forall. intros i Q. destruct i; try exact Logic.I. now apply F.
Qed.

Theorem foreign_have_columns : forall ddl d stmts ts, says d ddl stmts -> readable stmts = true -> accepted ddl d ts ->
  forall t, In t ts -> (forall k, In k (tc_fk (t_constraints t)) -> fk_columns k <> []) /\
    (forall c, In c (t_columns t) -> ref_columns (c_references (col_constraint c)) <> Some []).
Proof.
  intros ddl d stmts ts S R A t I. assert (M : d = MySQL \/ d <> MySQL) by (destruct d; auto; right; discriminate). destruct M as [->|M].
  2: { destruct (keys_have_columns ddl d stmts ts M S R A t I) as (_ & _ & K & C). split; auto. intros k Q. now apply K. }
  assert (E : ts = tables_of MySQL (seen stmts)) by (eapply accepted_det; [exact A|]; now apply says_seen). subst ts.
  apply in_flat_map in I as (s & I & J). apply in_map_iff in I as (s' & <- & I). destruct s' as [a|]; [|contradiction]. destruct J as [<-|[]].
  destruct S as (l & out & T & L). cbn [script] in L. pose proof (KeysMysql.script_ok _ _ _ _ L) as F. rewrite Forall_forall in F. specialize (F _ I). cbn [KeysMysql.stmt_foreign] in F.
  rewrite Forall_forall in F. cbn [table_of t_constraints t_columns seen_table at_elements constraints_of tc_fk]. split.
  - intros k K. apply in_flat_map in K as (e & X & K). destruct e as [c|n b]; [contradiction|]. destruct b; try contradiction. destruct K as [<-|[]].
    apply in_map_iff in X as (e & E & X). destruct e as [c|n' b']; [discriminate|]. injection E as <- E. destruct b'; try discriminate E. injection E as <- <-. exact (F _ X).
  - intros c K. apply in_flat_map in K as (e & X & K). destruct e as [c'|n b]; [|contradiction]. destruct K as [<-|[]].
    apply in_map_iff in X as (e & E & X). destruct e as [c|n b]; [|discriminate]. injection E as <-. specialize (F _ X). cbn in F.
    cbn [column_of col_constraint constraint_of c_references]. rewrite items_seen by reflexivity.
    erewrite first_of_seen with (g := fun i => match i with IReferences r => Some (reference_of MySQL r) | _ => None end) by now intros [| | | |[]| | | |].
    apply refs_listed. apply Forall_forall. intros i Q. destruct i; try exact Logic.I. now apply F.
Qed.
