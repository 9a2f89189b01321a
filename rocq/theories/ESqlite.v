(** The SQLite validator is equivalent to the parser of the SQLite grammar. *)
From Coq Require Import String Ascii List Bool Arith Lia.
From Verif Require Import GoStr GoNum Types Lexer VBase Words Exec Grammar GrammarFacts Equiv Ast.
From Verif Require VSqlite GSqlite.
Import ListNotations.
Open Scope string_scope.
Open Scope v_scope.

Ltac norm := unfold opt, optkw; cbn [prog].

Lemma e_name : forall P n, eqh P (VSqlite.validateName true) (prog GSqlite.name n).
Proof. intros. apply eqh_refl. Qed.
#[local] Hint Resolve e_name : eqv.
Lemma e_column_name : forall P n, eqh P (VSqlite.validateColumnName true) (prog GSqlite.name n).
Proof. exact e_name. Qed.
#[local] Hint Resolve e_column_name : eqv.

Lemma e_table_name : forall P n, eqh P (VSqlite.validateTableName true) (prog GSqlite.table_name n).
Proof. intros. unfold VSqlite.validateTableName, GSqlite.table_name. norm. eqv. Qed.
#[local] Hint Resolve e_table_name : eqv.

Lemma e_names : forall P n, eqh P (VSqlite.validateCommaSeparatedColumnNames n true) (prog (SepBy true GSqlite.name) n).
Proof.
  intros. apply equiv_eqh. cbn [prog].
  apply sep_equiv with (f := fun n => VSqlite.validateCommaSeparatedColumnNames n true)
    (body := fun _ => VSqlite.validateColumnName true); intros; reflexivity || apply equiv_refl.
Qed.
#[local] Hint Resolve e_names : eqv.

Lemma e_expr : forall P n, eqh P (VSqlite.validateExpr n true) (prog GSqlite.expr n).
Proof. intros. apply eqh_refl. Qed.
#[local] Hint Resolve e_expr : eqv.

Lemma e_conflict : forall P n, eqh P VSqlite.validateConflictClause (prog GSqlite.conflict_clause n).
Proof. intros. unfold VSqlite.validateConflictClause, GSqlite.conflict_clause. norm. eqv. Qed.
#[local] Hint Resolve e_conflict : eqv.

Lemma e_primary : forall P n, eqh P VSqlite.validateConstraintPrimaryKey (prog GSqlite.c_primary n).
Proof. intros. unfold VSqlite.validateConstraintPrimaryKey, GSqlite.c_primary. norm. eqv. Qed.
Lemma e_notnull : forall P n, eqh P VSqlite.validateConstraintNotNull (prog GSqlite.c_notnull n).
Proof. intros. unfold VSqlite.validateConstraintNotNull, GSqlite.c_notnull. norm. eqv. Qed.
Lemma e_unique : forall P n, eqh P VSqlite.validateConstraintUnique (prog GSqlite.c_unique n).
Proof. intros. unfold VSqlite.validateConstraintUnique, GSqlite.c_unique. norm. eqv. Qed.
Lemma e_check : forall P n, eqh P (VSqlite.validateConstraintCheck n) (prog GSqlite.c_check n).
Proof. intros. unfold VSqlite.validateConstraintCheck, GSqlite.c_check. norm. eqv. Qed.
Lemma e_literal : forall P n, eqh P VSqlite.validateLiteralValue (prog (One true (CLit SQLite)) n).
Proof. intros. apply eqh_refl. Qed.
#[local] Hint Resolve e_literal : eqv.
Lemma e_default : forall P n, eqh P (VSqlite.validateConstraintDefault n) (prog GSqlite.c_default n).
Proof.
  intros. unfold VSqlite.validateConstraintDefault, GSqlite.c_default. norm. eqv.
Qed.
Lemma e_collate : forall P n, eqh P VSqlite.validateConstraintCollate (prog GSqlite.c_collate n).
Proof. intros. unfold VSqlite.validateConstraintCollate, GSqlite.c_collate. norm. eqv. Qed.
#[local] Hint Resolve e_primary e_notnull e_unique e_check e_default e_collate : eqv.


Lemma e_fk_action : forall P n,
  eqh P (If matchTokenNext false ["SET"] Then validateToken false ["NULL"; "DEFAULT"]
         Else If matchTokenNext false ["CASCADE"; "RESTRICT"] Then ret tt
         Else If matchTokenNext false ["NO"] Then validateToken false ["ACTION"]
         Else syntaxError) (prog GSqlite.fk_action n).
Proof.
  intros. unfold GSqlite.fk_action. norm. eqv. apply eqh_must; [reflexivity|]. eqv.
Qed.
#[local] Hint Resolve e_fk_action : eqv.

Lemma e_ref_options : forall n P,
  eqh P (VSqlite.validateConstraintReferencesAux n) (prog GSqlite.ref_options n).
Proof.
  unfold GSqlite.ref_options. cbn [prog].
  induction n as [|n IH]; intros P; [apply eqh_refl|].
  cbn [while_loop VSqlite.validateConstraintReferencesAux]. unfold GSqlite.ref_option at 2. norm.
  apply (eqh_loop _ ["ON"] ["MATCH"; "NOT"; "DEFERRABLE"]).
  apply eqh_next_seq; [reflexivity| |].
  { apply eqh_assoc_r. apply eqh_must; [reflexivity|]. apply eqh_seq; auto with eqv. }
  apply (eqh_loop _ ["MATCH"] ["NOT"; "DEFERRABLE"]).
  apply eqh_next_seq; [reflexivity| |].
  { eqv. }
  apply eqh_case; [reflexivity| |apply eqh_refl].
  apply eqh_assoc_r. apply eqh_seq; [eqv|]. apply eqh_assoc_r. eqv.
Qed.
#[local] Hint Resolve e_ref_options : eqv.

Lemma e_ref_options_col : forall n P,
  eqh P (VSqlite.validateConstraintReferencesAux n)
    (prog GSqlite.ref_options n ;; If look_la (next_in ["NOT"]) Then syntaxError Else ret tt).
Proof.
  intros n P l HP. rewrite (e_ref_options n P l HP). apply while_notnext.
  intros o. apply la_incl. reflexivity.
Qed.
#[local] Hint Resolve e_ref_options_col : eqv.

Lemma e_references : forall P n, eqh P (VSqlite.validateConstraintReferences n) (prog GSqlite.c_references n).
Proof.
  intros. unfold VSqlite.validateConstraintReferences, GSqlite.c_references. norm. eqv.
Qed.
Lemma e_generated : forall P n, eqh P (VSqlite.validateConstraintGenerated n) (prog GSqlite.c_generated n).
Proof.
  intros. unfold VSqlite.validateConstraintGenerated, GSqlite.c_generated. norm. eqv.
Qed.
#[local] Hint Resolve e_references e_generated : eqv.

Lemma e_column_constraint : forall n,
  eqh (fun o => la_mem (next_in GSqlite.constraint_words) o = true)
    (VSqlite.validateColumnConstraint n) (prog GSqlite.column_constraint n).
Proof.
  intros. unfold VSqlite.validateColumnConstraint, GSqlite.column_constraint. cbn [prog].
  do 7 (apply eqh_case; [reflexivity|auto with eqv|]).
  apply eqh_assume_true; [reflexivity| |auto with eqv].
  intros o H. unfold GSqlite.constraint_words in H. decompose [and] H. drop_words. assumption.
Qed.

Lemma e_column_constraints_aux : forall n ls P,
  eqh P (VSqlite.validateColumnConstraintsAux n ls)
    (whileu_loop (prog GSqlite.column_constraint) (next_in GSqlite.constraint_words) to_upper n ls).
Proof.
  induction n as [|n IH]; intros ls P; [apply eqh_refl|].
  cbn [VSqlite.validateColumnConstraintsAux whileu_loop].
  apply (eqh_case _ P GSqlite.constraint_words); [reflexivity| |apply eqh_refl].
  intros l [HP H]. cbn [bind exec token].
  destruct (contains ls (to_upper (tok (hd_error l)))); [reflexivity|].
  rewrite !exec_bind, (e_column_constraint n l H).
  destruct (exec (prog GSqlite.column_constraint n) l); cbn [ebind]; auto. f_equal. now apply (IH _ top).
Qed.

Lemma e_column_constraints : forall n P,
  eqh P (VSqlite.validateColumnConstraints n)
    (prog GSqlite.constraint_name n ;; prog GSqlite.column_constraints n).
Proof.
  intros. unfold VSqlite.validateColumnConstraints, GSqlite.constraint_name, GSqlite.column_constraints.
  norm. apply eqh_seq; [eqv|]. apply e_column_constraints_aux.
Qed.
#[local] Hint Resolve e_column_constraints : eqv.

Lemma e_type : forall n P, eqh P VSqlite.validateColumnType (prog GSqlite.type_name n).
Proof. intros. apply eqh_refl. Qed.
#[local] Hint Resolve e_type : eqv.

(** ( column, ... ) followed by something *)
Lemma e_columns : forall P n (k k' : V unit), eqh top k k' ->
  eqh P (validateToken true ["("] ;; VSqlite.validateCommaSeparatedColumnNames n true ;;
         validateToken true [")"] ;; k) (prog GSqlite.columns n ;; k').
Proof.
  intros. unfold GSqlite.columns. cbn [prog]. apply eqh_assoc_r, eqh_seq; [apply eqh_refl|].
  apply eqh_assoc_r, eqh_seq; [apply e_names|]. apply eqh_seq; [apply eqh_refl|assumption].
Qed.

Lemma e_t_primary : forall P n, eqh P (VSqlite.validateTableConstraintPrimaryKey n) (prog GSqlite.t_primary n).
Proof.
  intros. unfold VSqlite.validateTableConstraintPrimaryKey, GSqlite.t_primary. cbn [prog].
  do 2 (apply eqh_seq; [eqv|]). apply e_columns. eqv.
Qed.
Lemma e_t_unique : forall P n, eqh P (VSqlite.validateTableConstraintUnique n) (prog GSqlite.t_unique n).
Proof.
  intros. unfold VSqlite.validateTableConstraintUnique, GSqlite.t_unique. cbn [prog].
  apply eqh_seq; [eqv|]. apply e_columns. eqv.
Qed.
Lemma e_t_check : forall P n, eqh P (VSqlite.validateTableConstraintCheck n) (prog GSqlite.t_check n).
Proof. intros. unfold VSqlite.validateTableConstraintCheck, GSqlite.t_check. norm. eqv. Qed.
Lemma e_t_foreign : forall P n, eqh P (VSqlite.validateTableConstraintForeignKey n) (prog GSqlite.t_foreign n).
Proof.
  intros. unfold VSqlite.validateTableConstraintForeignKey, GSqlite.t_foreign. norm.
  do 2 (apply eqh_seq; [eqv|]). apply e_columns. eqv.
Qed.
#[local] Hint Resolve e_t_primary e_t_unique e_t_check : eqv.

Lemma e_table_constraint : forall P n, eqh P (VSqlite.validateTableConstraint n) (prog GSqlite.table_constraint n).
Proof.
  intros. unfold VSqlite.validateTableConstraint, GSqlite.table_constraint, GSqlite.constraint_name. norm.
  apply eqh_seq; [eqv|].
  do 3 (apply eqh_case; [reflexivity|auto with eqv|]).
  unfold GSqlite.t_foreign at 1. cbn [prog]. apply eqh_last; [reflexivity|]. apply (e_t_foreign _ n).
Qed.
#[local] Hint Resolve e_table_constraint : eqv.

Lemma e_element : forall P n, eqh P (VSqlite.validateColumnDefinition n) (prog GSqlite.element n).
Proof.
  intros. unfold VSqlite.validateColumnDefinition, GSqlite.element, GSqlite.column. norm. eqv.
Qed.

Lemma e_elements : forall P n, eqh P (VSqlite.validateColumnDefinitions n) (prog (SepBy true GSqlite.element) n).
Proof.
  intros. apply equiv_eqh. cbn [prog].
  apply sep_equiv with (f := VSqlite.validateColumnDefinitions)
    (body := VSqlite.validateColumnDefinition); intros; try reflexivity.
  apply eqh_equiv, e_element.
Qed.
#[local] Hint Resolve e_elements : eqv.

Lemma e_table_options : forall P n, eqh P VSqlite.validateTableOptions (prog GSqlite.table_options n).
Proof.
  intros. unfold VSqlite.validateTableOptions, GSqlite.table_options. norm.
  apply eqh_eof.
  { intros l [_ E]. destruct l; [reflexivity|discriminate]. }
  eqv.
Qed.
#[local] Hint Resolve e_table_options : eqv.

Lemma e_if_not_exists : forall P n, eqh P VSqlite.validateIfNotExists (prog GSqlite.if_not_exists n).
Proof. intros. unfold VSqlite.validateIfNotExists, GSqlite.if_not_exists. norm. eqv. Qed.
#[local] Hint Resolve e_if_not_exists : eqv.

Lemma e_create_table : forall P n, eqh P (VSqlite.validateCreateTable n) (prog GSqlite.create_table n).
Proof.
  intros. unfold VSqlite.validateCreateTable, VSqlite.validateTableDefinition, GSqlite.create_table.
  cbn [prog fold_right]. do 4 (apply eqh_seq; [eqv|]).
  repeat first [apply eqh_assoc_l | apply eqh_seq; [eqv|]]. eqv.
Qed.
Lemma e_create_other : forall P n, eqh P (VSqlite.validateCreateOther n) (prog GSqlite.create_other n).
Proof. intros. apply eqh_refl. Qed.
#[local] Hint Resolve e_create_table e_create_other : eqv.

Lemma e_statement : forall P n, eqh P (VSqlite.validateDdl n) (prog GSqlite.statement n).
Proof. intros. unfold VSqlite.validateDdl, GSqlite.statement. norm. eqv. Qed.

Theorem validate_prog : forall n, equiv (VSqlite.validate n) (prog GSqlite.script n).
Proof.
  apply script_equiv with (body := VSqlite.validateDdl); intros; try reflexivity.
  apply eqh_equiv, e_statement.
Qed.
