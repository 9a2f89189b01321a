(** Every reported expression ends with a bracket. *)
From Coq Require Import String Ascii NArith ZArith List Bool Arith Lia.
From Verif Require Import GoStr Types Converter Spec Pipe Values.
From Verif Require SourcesFacts Utf8.
Import ListNotations.
Open Scope nat_scope.
Open Scope string_scope.
Open Scope c_scope.

Definition closed (s : string) : Prop := exists s', s = (s' ++ ")")%string.

Definition gives {A} (P : A -> Prop) (m : C A) : Prop := forall l a r, m l = COk a r -> P a.
Lemma gives_bind : forall A B (P : A -> Prop) (Q : B -> Prop) (m : C A) (f : A -> C B), gives P m -> (forall a, P a -> gives Q (f a)) -> gives Q (cbind m f).
Proof. intros A B P Q m f M F l b r H. unfold cbind in H. destruct (m l) as [a r1| |] eqn:E; try discriminate. eapply F; [eapply M, E|exact H]. Qed.
Lemma gives_step : forall A B (Q : B -> Prop) (m : C A) (f : A -> C B), (forall a, gives Q (f a)) -> gives Q (cbind m f).
Proof. intros A B Q m f F. apply gives_bind with (P := fun _ => True); [intros l a r _; exact I|auto]. Qed.
Lemma gives_ret : forall A (P : A -> Prop) a, P a -> gives P (cret a).
Proof. intros A P a H l b r E. injection E as <- _. exact H. Qed.
Lemma gives_fuel : forall A (P : A -> Prop), gives P cfuel.
Proof. intros A P l a r H. discriminate. Qed.
Lemma gives_if : forall A (P : A -> Prop) (b : bool) m m', gives P m -> gives P m' -> gives P (if b then m else m').
Proof. intros A P []; auto. Qed.

Lemma gives_expr : forall n, gives closed (convertExpr n).
Proof.
  intros n l s r H. unfold convertExpr, cbind in H. destruct (cnext l) as [o r1| |]; try discriminate.
  destruct (convertExprAux n r1) as [e r2| |] eqn:E; try discriminate. apply SourcesFacts.expr_aux_run in E as (p & r3 & -> & _ & _).
  cbn [cnext String.eqb Ascii.eqb Bool.eqb andb] in H. injection H as <- _. exists (o ++ e)%string. now rewrite Utf8.append_assoc.
Qed.
Definition open_or_closed (c : constraint) : Prop := c_check c = "" \/ closed (c_check c).
Ltac gs := match goal with
  | |- gives _ (cbind (cmatch _) _) => apply gives_step; intros ?
  | |- gives _ (cbind cnext _) => apply gives_step; intros ?
  | |- gives _ (if _ then _ else _) => apply gives_if
  | |- gives _ cfuel => apply gives_fuel
  | |- gives _ (cret _) => apply gives_ret
  end.
Lemma gives_aux : forall n d c, open_or_closed c -> gives open_or_closed (convertConstraintAux n d c).
Proof.
  induction n as [|n IH]; intros d c O; cbn [convertConstraintAux]; [gs|].
  repeat gs; auto; try (apply IH; exact O); try (apply gives_step; intros x; apply IH; exact O).
  eapply gives_bind; [apply gives_expr|]. intros x X. apply IH. right. exact X.
Qed.
Lemma gives_constraint : forall n d, gives open_or_closed (convertConstraint n d).
Proof.
  intros n d. unfold convertConstraint. gs. eapply gives_bind with (P := open_or_closed); [|intros; now apply gives_aux].
  repeat gs; try (left; reflexivity). apply gives_step. intros x. gs. left. reflexivity.
Qed.
Definition column_closed (c : column) : Prop := open_or_closed (col_constraint c).
Lemma gives_column : forall n d, gives column_closed (convertColumnDefinition n d).
Proof.
  intros n d. unfold convertColumnDefinition. do 2 (apply gives_step; intros ?). eapply gives_bind; [apply gives_constraint|]. intros c K. gs. exact K.
Qed.
Definition checks_closed (tc : table_constraint) : Prop := Forall (fun k => closed (ck_expr k)) (tc_check tc).
Lemma gives_tc : forall n d tc, checks_closed tc -> gives checks_closed (convertTableConstraint n d tc).
Proof.
  intros n d tc F. unfold convertTableConstraint. gs. apply gives_step. intros name.
  repeat gs; auto.
  - apply gives_step. intros ls. gs. exact F.
  - apply gives_step. intros ls. gs. exact F.
  - eapply gives_bind; [apply gives_expr|]. intros e E. gs. apply Forall_app. split; [exact F|]. constructor; [exact E|constructor].
  - do 2 (apply gives_step; intros ?). gs. exact F.
Qed.
Definition both_closed (p : list column * table_constraint) : Prop := Forall column_closed (fst p) /\ checks_closed (snd p).
Lemma gives_loop : forall n d cols tc, both_closed (cols, tc) -> gives both_closed (table_definition_loop n d cols tc).
Proof.
  induction n as [|n IH]; intros d cols tc F; cbn [table_definition_loop]; [gs|]. gs. gs; [gs; exact F|]. gs.
  eapply gives_bind with (P := both_closed).
  - gs.
    + eapply gives_bind; [apply gives_tc; apply F|]. intros tc' T. gs. split; [apply F|exact T].
    + eapply gives_bind; [apply gives_column|]. intros c K. gs. split; [|apply F]. cbn [fst]. apply Forall_app. split; [apply F|]. constructor; [exact K|constructor].
  - intros [cols' tc'] X. gs. gs; [gs; exact X|]. gs. now apply IH.
Qed.
Definition table_closed (t : table) : Prop := Forall column_closed (t_columns t) /\ checks_closed (t_constraints t).
Lemma gives_table : forall n d, gives table_closed (convertTable n d).
Proof.
  intros n d. unfold convertTable. do 3 gs. apply gives_step. intros _. apply gives_step. intros [sc tn].
  eapply gives_bind with (P := both_closed).
  - unfold convertTableDefinition. gs. eapply gives_bind; [apply gives_loop; split; constructor|]. intros p X. gs. gs. exact X.
  - intros [cs tc] X. gs. apply gives_step. intros _. gs. exact X.
Qed.
Lemma gives_convert : forall n d, gives (Forall table_closed) (convert n d).
Proof.
  induction n as [|n IH]; intros d; cbn [convert]; [gs|]. intros l ts r H. destruct l as [|t l]; [injection H as <- _; constructor|].
  revert H. apply (gives_bind _ _ table_closed (Forall table_closed) (convertTable n d)); [apply gives_table|]. intros x X.
  eapply gives_bind; [apply IH|]. intros xs Xs. gs. constructor; assumption.
Qed.
Theorem expressions_closed : forall ddl d ts, accepted ddl d ts ->
  (forall c, In c (result_columns ts) -> c_check (col_constraint c) = "" \/ closed (c_check (col_constraint c))) /\
  (forall t k, In t ts -> In k (tc_check (t_constraints t)) -> closed (ck_expr k)).
Proof.
  intros ddl d ts H. apply returns_stage in H. inversion H as [| |toks rest out ts' L V [n [r C]]]; subst. apply gives_convert in C. rewrite Forall_forall in C. split.
  - intros c I. apply in_flat_map in I as (t & I & J). destruct (C _ I) as [F _]. rewrite Forall_forall in F. exact (F _ J).
  - intros t k I K. destruct (C _ I) as [_ F]. unfold checks_closed in F. rewrite Forall_forall in F. exact (F _ K).
Qed.
