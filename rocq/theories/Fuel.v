(** More fuel does not change a result. *)
From Coq Require Import String Ascii List Bool Arith Lia.
From Verif Require Import GoStr GoNum Types Lexer VBase Exec Grammar GrammarFacts Converter Parse.
From Verif Require VSqlite GSqlite ESqlite VPostgres GPostgres EPostgres VMysql GMysql EMysql.
Import ListNotations.
Open Scope string_scope.

(** ** Validators *)
Section Validators.
Open Scope v_scope.

Definition ele {A} (r r' : eres A) : Prop := r = EFuel \/ r' = r.
Definition ple {A} (p q : V A) : Prop := forall l, ele (exec p l) (exec q l).

Lemma ple_refl : forall A (p : V A), ple p p.
Proof. intros A p l. now right. Qed.
Lemma ple_trans : forall A (p q r : V A), ple p q -> ple q r -> ple p r.
Proof.
  intros A p q r H K l. destruct (H l) as [->|E]; [now left|].
  destruct (K l) as [E'|E']; [left|right]; congruence.
Qed.
Lemma ple_bind : forall A B (p q : V A) (f g : A -> V B),
  ple p q -> (forall a, ple (f a) (g a)) -> ple (bind p f) (bind q g).
Proof.
  intros A B p q f g H K l. rewrite !exec_bind. destruct (H l) as [->| ->]; [now left|].
  destruct (exec p l) as [a r o|r| |]; cbn [ebind]; try (now right).
  destruct (K a r) as [->| ->]; [now left|now right].
Qed.
Lemma ple_if : forall A (c : V bool) (p p' q q' : V A),
  ple p p' -> ple q q' -> ple (If c Then p Else q) (If c Then p' Else q').
Proof. intros. apply ple_bind; [apply ple_refl|]. now intros []. Qed.
Lemma ple_fuel : forall A (p : V A), ple OutOfFuel p.
Proof. intros A p l. now left. Qed.

Lemma brackets_mono : forall keep n, ple (validateBracketsAux n keep) (validateBracketsAux (S n) keep).
Proof.
  intros keep. induction n as [|n IH]; [apply ple_fuel|].
  cbn [validateBracketsAux]. cbn [validateBracketsAux] in IH.
  apply ple_if; [apply ple_refl|]. apply ple_if.
  - unfold brackets_around. repeat (apply ple_bind; [|intros _]); auto using ple_refl.
  - apply ple_bind; [apply ple_refl|auto].
Qed.

Lemma skip_mono : forall n b, ple (skip_statement n b) (skip_statement (S n) b).
Proof.
  induction n as [|n IH]; intros b; [apply ple_fuel|].
  cbn [skip_statement]. cbn [skip_statement] in IH.
  apply ple_if; [apply ple_refl|]. apply ple_bind; [apply ple_refl|]. intros [|].
  - apply ple_if; apply ple_bind; auto using ple_refl.
  - destruct b; apply ple_if; auto using ple_refl; apply ple_bind; auto using ple_refl.
Qed.

Lemma prog_mono : forall A (g : gr A) n, ple (prog g n) (prog g (S n)).
Proof.
  induction g; intros n; cbn [prog]; try apply ple_refl.
  - unfold validateBrackets, brackets_around.
    repeat (apply ple_bind; [|intros _]); auto using ple_refl, brackets_mono.
  - apply skip_mono.
  - apply ple_bind; auto.
  - apply IHg.
  - apply ple_if; auto.
  - induction n as [|n IH]; [apply ple_fuel|].
    cbn [while_loop]. cbn [while_loop] in IH. apply ple_if; [|apply ple_refl]. apply ple_bind; auto.
  - generalize (@nil string). induction n as [|n IH]; intros ls; [apply ple_fuel|].
    cbn [whileu_loop]. cbn [whileu_loop] in IH. apply ple_if; [|apply ple_refl].
    apply ple_bind; [apply ple_refl|]. intros t. destruct (contains ls (key t)); [apply ple_refl|].
    apply ple_bind; auto.
  - induction n as [|n IH]; [apply ple_fuel|].
    cbn [sep_loop]. cbn [sep_loop] in IH. apply ple_bind; auto. intros _.
    apply ple_if; auto. apply ple_refl.
Qed.

Lemma prog_mono_le : forall A (g : gr A) n m, n <= m -> ple (prog g n) (prog g m).
Proof.
  intros A g n m H. induction H; [apply ple_refl|]. eapply ple_trans; [eassumption|apply prog_mono].
Qed.
End Validators.

(** ** Error positions *)

(** The number of line breaks before the last [k] other tokens of [l]. *)
Fixpoint nls_before (k : nat) (l : list string) : nat :=
  match l with
  | [] => 0
  | t :: l' =>
    if is_nl t then S (nls_before k l')
    else if (List.length (strip l) <=? k)%nat then 0 else nls_before k l'
  end.

(** The line of an error with [k] tokens left.  A line break at the very start is not counted
    (validator.go:50-52). *)
Definition line_of (l : list string) (k : nat) : nat :=
  1 + nls_before k (match l with t :: l' => if is_nl t then l' else l | [] => [] end).

Lemma strip_length : forall l, List.length (strip l) <= List.length l.
Proof.
  induction l as [|t l IH]; cbn; auto. destruct (is_nl t); cbn; fold (strip l); lia.
Qed.

Lemma nls_before_split : forall pre l, clean l ->
  nls_before (List.length (strip l)) (pre ++ l) = count_nl pre.
Proof.
  induction pre as [|t pre IH]; intros l C.
  - destruct l as [|t l]; auto. cbn [clean] in C. cbn [app nls_before]. rewrite C, Nat.leb_refl. reflexivity.
  - cbn [app nls_before]. unfold count_nl. cbn [filter]. destruct (is_nl t) eqn:E.
    + cbn [List.length]. f_equal. now apply IH.
    + replace (List.length (strip (t :: pre ++ l)) <=? List.length (strip l))%nat with false.
      * now apply IH.
      * symmetry. apply Nat.leb_gt. cbn [strip filter]. rewrite E. cbn [negb List.length].
        fold (strip (pre ++ l)). rewrite strip_app, app_length. lia.
Qed.

Definition result_of (l : list string) (e : eres unit) : validate_result :=
  match e with
  | EOk _ _ out => ValidateOk out
  | EErr rest => ValidateErr (mk_verror (line_of l (List.length rest)) (tok (hd_error rest)))
  | EPanic => ValidatePanic
  | EFuel => ValidateOutOfFuel
  end.

Lemma vinit_rest : forall l,
  exists pre, (match l with t :: l' => if is_nl t then l' else l | [] => [] end)
              = (pre ++ v_rest (vinit l))%list /\ v_line (vinit l) = 1 + count_nl pre.
Proof.
  intros [|t l]; [exists []; auto|]. unfold vinit, is_nl. destruct (t =? NL) eqn:E.
  - unfold vnext. cbn [v_rest v_line v_result]. destruct (skip_nl l 1) as [l' n] eqn:F. cbn [snd v_rest v_line].
    apply skip_nl_spec in F as [C (pre & -> & -> & S)]. exists pre. auto.
  - exists []. auto.
Qed.

Theorem validate_with_eq : forall p l, validate_with p l = result_of l (exec p (strip l)).
Proof.
  intros p l. unfold validate_with.
  pose proof (run_exec _ p (vinit l) (vinit_clean l)) as H. rewrite vinit_strip in H.
  destruct (run p (vinit l)) as [a st|e| |], (exec p (strip l)) as [a' rest out|rest| |];
    simpl in H; try contradiction; auto.
  - destruct H as (_ & _ & M). destruct M as [_ (pre & _ & _ & E)].
    rewrite E, vinit_result. reflexivity.
  - destruct H as (st' & out & [C (pre & R & L & _)] & <- & ->). cbn [result_of]. f_equal. f_equal.
    destruct (vinit_rest l) as (pre0 & R0 & L0). unfold line_of. rewrite R0, R, app_assoc.
    rewrite nls_before_split by assumption. rewrite L, L0, count_nl_app. lia.
Qed.

(** ** The converter *)
Section Conv.
Definition cle {A} (m m' : C A) : Prop := forall l, m l = COutOfFuel \/ m' l = m l.
Open Scope c_scope.

Lemma cle_refl : forall A (m : C A), cle m m.
Proof. intros A m l. now right. Qed.
Lemma cle_fuel : forall A (m : C A), cle cfuel m.
Proof. intros A m l. now left. Qed.
Lemma cle_trans : forall A (p q r : C A), cle p q -> cle q r -> cle p r.
Proof.
  intros A p q r H K l. destruct (H l) as [->|E]; [now left|].
  destruct (K l) as [E'|E']; [left|right]; congruence.
Qed.
Lemma cle_bind : forall A B (p q : C A) (f g : A -> C B),
  cle p q -> (forall a, cle (f a) (g a)) -> cle (cbind p f) (cbind q g).
Proof.
  intros A B p q f g H K l. unfold cbind. destruct (H l) as [->| ->]; [now left|].
  destruct (p l); try (now right). apply K.
Qed.
Lemma cle_if : forall A (b : bool) (p p' q q' : C A),
  cle p p' -> cle q q' -> cle (if b then p else q) (if b then p' else q').
Proof. now intros A []. Qed.

Ltac cle_step :=
  first
  [ apply cle_refl
  | assumption
  | match goal with H : forall _, _ |- _ => apply H end
  | apply cle_bind; [|intros]
  | apply cle_if
  | match goal with |- cle (match ?x with _ => _ end) (match ?x with _ => _ end) => destruct x end ].

Lemma names_mono : forall n ls, cle (column_names_loop n ls) (column_names_loop (S n) ls).
Proof.
  induction n as [|n IH]; intros ls; [apply cle_fuel|].
  cbn [column_names_loop]. cbn [column_names_loop] in IH. repeat cle_step.
Qed.
Lemma expr_mono : forall n, cle (convertExprAux n) (convertExprAux (S n)).
Proof.
  induction n as [|n IH]; [apply cle_fuel|].
  cbn [convertExprAux]. cbn [convertExprAux] in IH. repeat cle_step.
Qed.
Lemma expr_mono' : forall n, cle (convertExpr n) (convertExpr (S n)).
Proof. intros. pose proof (expr_mono n). unfold convertExpr. repeat cle_step. Qed.
Lemma names_mono' : forall n, cle (convertCommaSeparatedColumnNames n) (convertCommaSeparatedColumnNames (S n)).
Proof. intros. pose proof (names_mono n). unfold convertCommaSeparatedColumnNames. repeat cle_step. Qed.
Lemma reference_mono : forall n d, cle (convertReference n d) (convertReference (S n) d).
Proof. intros. pose proof (names_mono' n). unfold convertReference. repeat cle_step. Qed.
Lemma default_mono : forall n d, cle (convertDefaultValue n d) (convertDefaultValue (S n) d).
Proof. intros. pose proof (expr_mono' n). unfold convertDefaultValue. repeat cle_step. Qed.

Lemma constraint_aux_mono : forall n d c, cle (convertConstraintAux n d c) (convertConstraintAux (S n) d c).
Proof.
  induction n as [|n IH]; intros d c; [apply cle_fuel|].
  pose proof (reference_mono n d). pose proof (default_mono n d). pose proof (expr_mono' n).
  remember (S n) as m. cbn [convertConstraintAux]. subst m. repeat cle_step.
Qed.
Lemma column_mono : forall n d, cle (convertColumnDefinition n d) (convertColumnDefinition (S n) d).
Proof.
  intros. pose proof (constraint_aux_mono n d).
  unfold convertColumnDefinition, convertConstraint. repeat cle_step.
Qed.
Lemma tconstraint_mono : forall n d tc, cle (convertTableConstraint n d tc) (convertTableConstraint (S n) d tc).
Proof.
  intros. pose proof (names_mono' n). pose proof (expr_mono' n). pose proof (reference_mono n d).
  unfold convertTableConstraint. repeat cle_step.
Qed.
Lemma tdef_mono : forall n d cols tc,
  cle (table_definition_loop n d cols tc) (table_definition_loop (S n) d cols tc).
Proof.
  induction n as [|n IH]; intros d cols tc; [apply cle_fuel|].
  pose proof (column_mono n d). pose proof (tconstraint_mono n d).
  remember (S n) as m. cbn [table_definition_loop]. subst m. repeat cle_step.
Qed.
Lemma table_mono : forall n d, cle (convertTable n d) (convertTable (S n) d).
Proof.
  intros. pose proof (tdef_mono n d). unfold convertTable, convertTableDefinition. repeat cle_step.
Qed.
Lemma convert_mono : forall n d, cle (convert n d) (convert (S n) d).
Proof.
  induction n as [|n IH]; intros d; [apply cle_fuel|].
  pose proof (table_mono n d). remember (S n) as m. cbn [convert]. subst m.
  intros [|t l]; [now right|].
  assert (X : cle (t0 <- convertTable n d;; ts <- convert n d;; cret (t0 :: ts))
                  (t0 <- convertTable (S n) d;; ts <- convert (S n) d;; cret (t0 :: ts))).
  { repeat cle_step. }
  apply X.
Qed.
Lemma convert_mono_le : forall n m d, n <= m -> cle (convert n d) (convert m d).
Proof.
  intros n m d H. induction H; [apply cle_refl|]. eapply cle_trans; [eassumption|apply convert_mono].
Qed.
End Conv.
