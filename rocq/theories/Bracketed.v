(** Reported expressions stand in brackets. *)
From Coq Require Import String Ascii NArith ZArith List Bool Arith Lia.
From Verif Require Import GoStr Types Grammar Ast Spec Emit Seen Meaning Conv Text Values ValuesFacts ListedFacts.
Import ListNotations.
Open Scope nat_scope.
Open Scope string_scope.
Open Scope list_scope.

Definition bracketed (s : string) : Prop := exists s', s = ("(" ++ s' ++ ")")%string.

Lemma squeeze_end : forall b, exists b', squeeze (b ++ [")"]) = b' ++ [")"].
Proof.
  induction b as [|t b [b' IH]]; [exists []; reflexivity|]. cbn [app squeeze]. destruct ((t =? ",") && comma_next (b ++ [")"])).
  - exists b'. exact IH.
  - exists (t :: b'). cbn [app]. now rewrite IH.
Qed.
Lemma append_assoc3 : forall a b c : string, ((a ++ b) ++ c)%string = (a ++ (b ++ c))%string.
Proof. induction a as [|x a IH]; intros b c; [reflexivity|]. cbn [append]. now rewrite IH. Qed.
Lemma text_end : forall b, text (b ++ [")"]) = (text b ++ ")")%string.
Proof. induction b as [|t b IH]; [reflexivity|]. cbn [app]. unfold text in *. cbn [fold_right]. rewrite IH. now rewrite append_assoc3. Qed.
Lemma expr_bracketed : forall e, em_expr e -> bracketed (text (squeeze e)).
Proof.
  intros e (b & _ & ->). cbn [squeeze]. change ("(" =? ",") with false. cbn [andb]. destruct (squeeze_end b) as [b' ->].
  exists (text b'). unfold text. cbn [fold_right]. fold (text (b' ++ [")"])). now rewrite text_end.
Qed.
Lemma items_check : forall d is hs o, em_items d is hs o ->
  let s := or_else (first_of (fun i => match i with ICheck e => Some (text (squeeze e)) | _ => None end) is) "" in
  bracketed s \/ (s = "" /\ forall e, ~ In (ICheck e) is).
Proof.
  intros d is hs o H. induction H as [|i is h hs o os H1 H2 IH]; [right; split; [reflexivity|auto]|].
  destruct H1; cbn [first_of or_else]; try (destruct IH as [IH|[IH N]]; [left; exact IH|right; split; [exact IH|]; intros x1 [E1|I1]; [discriminate E1|now apply (N x1)]]).
  left. now apply expr_bracketed.
Qed.
Lemma elements_check : forall d es o, em_elements d es o -> forall n e, In (EConstraint n (BCheck e)) es -> em_expr e.
Proof.
  assert (X : forall d x o, em_element d x o -> forall n e, x = EConstraint n (BCheck e) -> em_expr e).
  { intros d x o H n e ->. inversion H as [|? ? ? ? _ B]; subst. inversion B; subst. assumption. }
  intros d es o H. induction H as [x o H|x es o os H Hs IH]; intros n e I.
  - destruct I as [I|[]]. eapply X; eauto.
  - destruct I as [I|I]; [eapply X; eauto|eauto].
Qed.
Lemma script_check : forall d stmts o, em_script d stmts o -> forall t n e, In (STable t) stmts -> In (EConstraint n (BCheck e)) (at_elements t) -> em_expr e.
Proof.
  intros d stmts o H. induction H as [|t ss o os H Hs IH|ss os Hs IH]; intros t' n e I J.
  - contradiction.
  - destruct I as [I|I]; [|eauto]. injection I as <-. inversion H; subst. cbn [at_elements] in J. eapply elements_check; eauto.
  - destruct I as [I|I]; [discriminate|eauto].
Qed.

Theorem column_checks : forall ddl d stmts ts, says d ddl stmts -> readable stmts = true -> accepted ddl d ts ->
  Forall2 (fun c r => bracketed (c_check (col_constraint r)) \/ (c_check (col_constraint r) = "" /\ forall e, ~ In (ICheck e) (ac_items c)))
    (columns_in stmts) (result_columns ts).
Proof.
  intros ddl d stmts ts S R A. match goal with |- Forall2 ?Q _ _ => destruct (columns_reported Q d ddl stmts) as (ts' & A' & F); auto end.
  - intros c o E _. inversion E as [n ty cn is ot oc oi hs key _ _ _ I _ _]; subst.
    cbn [column_of col_constraint constraint_of c_check]. rewrite items_seen by reflexivity.
    erewrite first_of_seen with (g := fun i => match i with ICheck e => Some (text (squeeze e)) | _ => None end) by now intros [| | | |[]| | | |].
    cbn [ac_items]. eapply items_check; exact I.
  - rewrite (accepted_det _ _ _ _ A A'). exact F.
Qed.
Theorem table_checks : forall ddl d stmts ts, says d ddl stmts -> readable stmts = true -> accepted ddl d ts ->
  forall t k, In t ts -> In k (tc_check (t_constraints t)) -> bracketed (ck_expr k).
Proof.
  intros ddl d stmts ts S R A t k I K. assert (E : ts = tables_of d (seen stmts)) by (eapply accepted_det; [exact A|]; now apply says_seen). subst ts.
  apply in_flat_map in I as (s & I & J). apply in_map_iff in I as (s' & <- & I). destruct s' as [a|]; [|contradiction]. destruct J as [<-|[]].
  cbn [table_of t_constraints seen_table at_elements constraints_of tc_check] in K. apply in_flat_map in K as (e & E & K).
  apply in_map_iff in E as (e' & <- & E). destruct e' as [c|n b]; [contradiction|]. destruct b; try contradiction. destruct K as [<-|[]].
  cbn [ck_expr]. apply expr_bracketed. destruct S as (l & out & T & L). eapply script_check; eauto using lang_em, tokens_good.
Qed.
