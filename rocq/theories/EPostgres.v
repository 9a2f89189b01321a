(** The PostgreSQL validator is equivalent to the parser of the PostgreSQL grammar. *)
From Coq Require Import String Ascii List Bool Arith Lia.
From Verif Require Import GoStr GoNum Types Lexer VBase Words Exec Grammar GrammarFacts Equiv Ast.
From Verif Require VPostgres GPostgres.
Import ListNotations.
Open Scope string_scope.
Open Scope v_scope.

Ltac norm := unfold opt, optkw; cbn [prog].

Lemma e_name : forall P n, eqh P (VPostgres.validateName true) (prog GPostgres.name n).
Proof. intros. apply eqh_refl. Qed.
Lemma e_name_ : forall P n, eqh P (VPostgres.validateName false) (prog GPostgres.name_ n).
Proof. intros. apply eqh_refl. Qed.
Lemma e_column_name : forall P n, eqh P (VPostgres.validateColumnName true) (prog GPostgres.name n).
Proof. exact e_name. Qed.
#[local] Hint Resolve e_name e_name_ e_column_name : eqv.

Lemma e_table_name : forall P n, eqh P (VPostgres.validateTableName true) (prog GPostgres.table_name n).
Proof.
  intros. unfold VPostgres.validateTableName, GPostgres.table_name. norm.
  apply eqh_seq; [eqv|]. apply eqh_case; [reflexivity| |apply eqh_refl].
  apply eqh_seq; [|eqv]. apply eqh_next_set. intros o H. apply H.
Qed.
#[local] Hint Resolve e_table_name : eqv.

Lemma e_names : forall P n, eqh P (VPostgres.validateCommaSeparatedColumnNames n true) (prog (SepBy true GPostgres.name) n).
Proof.
  intros. apply equiv_eqh. cbn [prog].
  apply sep_equiv with (f := fun n => VPostgres.validateCommaSeparatedColumnNames n true)
    (body := fun _ => VPostgres.validateColumnName true); intros; reflexivity || apply equiv_refl.
Qed.
Lemma e_names_ : forall P n, eqh P (VPostgres.validateCommaSeparatedColumnNames n false) (prog (SepBy false GPostgres.name_) n).
Proof.
  intros. apply equiv_eqh. cbn [prog].
  apply sep_equiv with (f := fun n => VPostgres.validateCommaSeparatedColumnNames n false)
    (body := fun _ => VPostgres.validateColumnName false); intros; reflexivity || apply equiv_refl.
Qed.
#[local] Hint Resolve e_names e_names_ : eqv.

Lemma e_expr : forall P n, eqh P (VPostgres.validateExpr n true) (prog GPostgres.expr n).
Proof. intros. apply eqh_refl. Qed.
#[local] Hint Resolve e_expr : eqv.

Lemma e_pos : forall P n, eqh P VPostgres.validatePositiveInteger (prog (One true CPos) n).
Proof. intros. apply eqh_refl. Qed.
#[local] Hint Resolve e_pos : eqv.
Lemma e_digits1 : forall P n, eqh P VPostgres.validateTypeDigitN (prog GPostgres.digits1 n).
Proof. intros. unfold VPostgres.validateTypeDigitN, GPostgres.digits1. norm. eqv. Qed.
Lemma e_digits1' : forall P n, eqh P VPostgres.validateTypeDigitP (prog GPostgres.digits1 n).
Proof. exact e_digits1. Qed.
Lemma e_digits2 : forall P n, eqh P VPostgres.validateTypeDigitPS (prog GPostgres.digits2 n).
Proof. intros. unfold VPostgres.validateTypeDigitPS, GPostgres.digits2. norm. eqv. Qed.
#[local] Hint Resolve e_digits1 e_digits1' e_digits2 : eqv.

Lemma e_type : forall P n, eqh P VPostgres.validateColumnType (prog GPostgres.type_name n).
Proof.
  intros. unfold VPostgres.validateColumnType, GPostgres.type_name. norm.
  do 5 (apply eqh_next; [reflexivity|eqv|]).
  apply eqh_words with (ex := (["BIT"; "CHARACTER"] ++ ["VARBIT"; "VARCHAR"; "CHAR"] ++
    ["NUMERIC"; "DECIMAL"] ++ ["DOUBLE"] ++ ["TIME"; "TIMESTAMP"])%list); [|reflexivity|reflexivity].
  intros o H. decompose [and] H. now rewrite !la_app, !orb_false_iff.
Qed.
#[local] Hint Resolve e_type : eqv.

Lemma e_index_parameters : forall P n, eqh P (VPostgres.validateIndexParameters n) (prog GPostgres.index_parameters n).
Proof. intros. unfold VPostgres.validateIndexParameters, GPostgres.index_parameters. norm. eqv. Qed.
#[local] Hint Resolve e_index_parameters : eqv.

Lemma e_primary : forall P n, eqh P (VPostgres.validateConstraintPrimaryKey n) (prog GPostgres.c_primary n).
Proof. intros. unfold VPostgres.validateConstraintPrimaryKey, GPostgres.c_primary. norm. eqv. Qed.
Lemma e_notnull : forall P n, eqh P VPostgres.validateConstraintNotNull (prog GPostgres.c_notnull n).
Proof. intros. unfold VPostgres.validateConstraintNotNull, GPostgres.c_notnull. norm. eqv. Qed.
Lemma e_null : forall P n, eqh P VPostgres.validateConstraintNull (prog GPostgres.c_null n).
Proof. intros. apply eqh_refl. Qed.
Lemma e_unique : forall P n, eqh P (VPostgres.validateConstraintUnique n) (prog GPostgres.c_unique n).
Proof. intros. unfold VPostgres.validateConstraintUnique, GPostgres.c_unique. norm. eqv. Qed.
Lemma e_check : forall P n, eqh P (VPostgres.validateConstraintCheck n) (prog GPostgres.c_check n).
Proof. intros. unfold VPostgres.validateConstraintCheck, GPostgres.c_check, GPostgres.no_inherit. norm. eqv. Qed.
Lemma e_literal : forall P n, eqh P VPostgres.validateLiteralValue (prog (One true (CLit PostgreSQL)) n).
Proof. intros. apply eqh_refl. Qed.
#[local] Hint Resolve e_literal : eqv.
Lemma e_default : forall P n, eqh P (VPostgres.validateConstraintDefault n) (prog GPostgres.c_default n).
Proof. intros. unfold VPostgres.validateConstraintDefault, GPostgres.c_default. norm. eqv. Qed.
#[local] Hint Resolve e_primary e_notnull e_null e_unique e_check e_default : eqv.

Lemma e_fk_action : forall P n,
  eqh P (If matchTokenNext false ["SET"] Then validateToken false ["NULL"; "DEFAULT"]
         Else If matchTokenNext false ["CASCADE"; "RESTRICT"] Then ret tt
         Else If matchTokenNext false ["NO"] Then validateToken false ["ACTION"]
         Else syntaxError) (prog GPostgres.fk_action n).
Proof.
  intros. unfold GPostgres.fk_action. norm. eqv. apply eqh_must; [reflexivity|]. eqv.
Qed.
#[local] Hint Resolve e_fk_action : eqv.

Lemma e_ref_options : forall n P,
  eqh P (VPostgres.validateConstraintReferencesAux n) (prog GPostgres.ref_options n).
Proof.
  unfold GPostgres.ref_options. cbn [prog].
  induction n as [|n IH]; intros P; [apply eqh_refl|].
  cbn [while_loop VPostgres.validateConstraintReferencesAux]. unfold GPostgres.ref_option at 2. norm.
  apply (eqh_loop _ ["ON"] ["MATCH"]).
  apply eqh_next_seq; [reflexivity| |].
  { apply eqh_assoc_r. eqv. }
  apply eqh_next_seq; [reflexivity| |apply eqh_refl].
  eqv.
Qed.
#[local] Hint Resolve e_ref_options : eqv.

Lemma e_references : forall P n, eqh P (VPostgres.validateConstraintReferences n) (prog GPostgres.c_references n).
Proof.
  intros. unfold VPostgres.validateConstraintReferences, GPostgres.c_references. norm. eqv.
Qed.
Lemma e_generated : forall P n, eqh P (VPostgres.validateConstraintGenerated n) (prog GPostgres.c_generated n).
Proof.
  intros. unfold VPostgres.validateConstraintGenerated, GPostgres.c_generated, GPostgres.sequence_options. norm.
  apply eqh_seq; [eqv|].
  apply eqh_next; [reflexivity| |].
  { apply eqh_seq; [eqv|]. apply eqh_next; [reflexivity|eqv|].
    apply eqh_brackets; eqv; apply (ret tt). }
  apply eqh_next; [reflexivity|eqv|].
  apply eqh_must; [reflexivity|eqv].
Qed.
#[local] Hint Resolve e_references e_generated : eqv.

Lemma e_column_constraint : forall n,
  eqh (fun o => la_mem (next_in GPostgres.constraint_words) o = true)
    (VPostgres.validateColumnConstraint n) (prog GPostgres.column_constraint n).
Proof.
  intros. unfold VPostgres.validateColumnConstraint, GPostgres.column_constraint. cbn [prog].
  do 7 (apply eqh_case; [reflexivity|auto with eqv|]).
  apply eqh_assume_true; [reflexivity| |auto with eqv].
  intros o H. unfold GPostgres.constraint_words in H. decompose [and] H. drop_words. assumption.
Qed.

Lemma e_column_constraints_aux : forall n ls P,
  eqh P (VPostgres.validateColumnConstraintsAux n ls)
    (whileu_loop (prog GPostgres.column_constraint) (next_in GPostgres.constraint_words)
       GPostgres.constraint_key n ls).
Proof.
  induction n as [|n IH]; intros ls P; [apply eqh_refl|].
  cbn [VPostgres.validateColumnConstraintsAux whileu_loop].
  apply (eqh_case _ P GPostgres.constraint_words); [reflexivity| |apply eqh_refl].
  intros l [HP H]. cbn [bind exec token matchToken]. unfold GPostgres.constraint_key.
  destruct (matches ["NOT"] (tok (hd_error l))).
  - destruct (contains ls "NULL"); [reflexivity|].
    rewrite !exec_bind, (e_column_constraint n l H).
    destruct (exec (prog GPostgres.column_constraint n) l); cbn [ebind]; auto. f_equal. now apply (IH _ top).
  - destruct (contains ls (to_upper (tok (hd_error l)))); [reflexivity|].
    rewrite !exec_bind, (e_column_constraint n l H).
    destruct (exec (prog GPostgres.column_constraint n) l); cbn [ebind]; auto. f_equal. now apply (IH _ top).
Qed.

Lemma e_column_constraints : forall n P,
  eqh P (VPostgres.validateColumnConstraints n)
    (prog GPostgres.constraint_name n ;; prog GPostgres.column_constraints n).
Proof.
  intros. unfold VPostgres.validateColumnConstraints, GPostgres.constraint_name, GPostgres.column_constraints.
  norm. apply eqh_seq; [eqv|]. apply e_column_constraints_aux.
Qed.
#[local] Hint Resolve e_column_constraints : eqv.

(** ( column, ... ) followed by something *)
Lemma e_columns : forall P n (k k' : V unit), eqh top k k' ->
  eqh P (validateToken true ["("] ;; VPostgres.validateCommaSeparatedColumnNames n true ;;
         validateToken true [")"] ;; k) (prog GPostgres.columns n ;; k').
Proof.
  intros. unfold GPostgres.columns. cbn [prog]. apply eqh_assoc_r, eqh_seq; [apply eqh_refl|].
  apply eqh_assoc_r, eqh_seq; [apply e_names|]. apply eqh_seq; [apply eqh_refl|assumption].
Qed.

Lemma e_t_primary : forall P n, eqh P (VPostgres.validateTableConstraintPrimaryKey n) (prog GPostgres.t_primary n).
Proof.
  intros. unfold VPostgres.validateTableConstraintPrimaryKey, GPostgres.t_primary. cbn [prog].
  do 2 (apply eqh_seq; [eqv|]). apply e_columns. eqv.
Qed.
Lemma e_t_unique : forall P n, eqh P (VPostgres.validateTableConstraintUnique n) (prog GPostgres.t_unique n).
Proof.
  intros. unfold VPostgres.validateTableConstraintUnique, GPostgres.t_unique. cbn [prog].
  apply eqh_seq; [eqv|]. apply e_columns. eqv.
Qed.
Lemma e_t_check : forall P n, eqh P (VPostgres.validateTableConstraintCheck n) (prog GPostgres.t_check n).
Proof. intros. unfold VPostgres.validateTableConstraintCheck, GPostgres.t_check, GPostgres.no_inherit. norm. eqv. Qed.
Lemma e_t_foreign : forall P n, eqh P (VPostgres.validateTableConstraintForeignKey n) (prog GPostgres.t_foreign n).
Proof.
  intros. unfold VPostgres.validateTableConstraintForeignKey, GPostgres.t_foreign. norm.
  do 2 (apply eqh_seq; [eqv|]). apply e_columns. eqv.
Qed.
Lemma e_t_exclude : forall P n, eqh P (VPostgres.validateTableConstraintExclude n) (prog GPostgres.t_exclude n).
Proof. intros. unfold VPostgres.validateTableConstraintExclude, GPostgres.t_exclude. norm. eqv. Qed.
#[local] Hint Resolve e_t_primary e_t_unique e_t_check e_t_foreign : eqv.

Lemma e_table_constraint : forall P n, eqh P (VPostgres.validateTableConstraint n) (prog GPostgres.table_constraint n).
Proof.
  intros. unfold VPostgres.validateTableConstraint, GPostgres.table_constraint, GPostgres.constraint_name. norm.
  apply eqh_seq; [eqv|].
  do 4 (apply eqh_case; [reflexivity|auto with eqv|]).
  unfold GPostgres.t_exclude at 1. cbn [prog]. apply eqh_last; [reflexivity|]. apply (e_t_exclude _ n).
Qed.
#[local] Hint Resolve e_table_constraint : eqv.

Lemma e_element : forall P n, eqh P (VPostgres.validateColumnDefinition n) (prog GPostgres.element n).
Proof.
  intros. unfold VPostgres.validateColumnDefinition, GPostgres.element, GPostgres.column. norm. eqv.
Qed.

Lemma e_elements : forall P n, eqh P (VPostgres.validateColumnDefinitions n) (prog (SepBy true GPostgres.element) n).
Proof.
  intros. apply equiv_eqh. cbn [prog].
  apply sep_equiv with (f := VPostgres.validateColumnDefinitions)
    (body := VPostgres.validateColumnDefinition); intros; try reflexivity.
  apply eqh_equiv, e_element.
Qed.
#[local] Hint Resolve e_elements : eqv.

Lemma e_table_option : forall P n, eqh P (VPostgres.validateTableOption n) (prog GPostgres.table_option n).
Proof.
  intros. unfold VPostgres.validateTableOption, GPostgres.table_option. norm.
  do 5 (apply eqh_case; [reflexivity|apply eqh_refl|]).
  apply eqh_last; [reflexivity|apply eqh_refl].
Qed.
#[local] Hint Resolve e_table_option : eqv.

Lemma e_table_options : forall n P, eqh P (VPostgres.validateTableOptions n) (prog GPostgres.table_options n).
Proof.
  unfold GPostgres.table_options. cbn [prog].
  induction n as [|n IH]; intros P; [apply eqh_refl|].
  cbn [while_loop VPostgres.validateTableOptions]. norm.
  apply eqh_until. apply eqh_assoc_r. apply eqh_seq; [|eqv].
  apply eqh_case; [reflexivity| |apply eqh_refl].
  apply eqh_next_known. intros o H. apply H.
Qed.
#[local] Hint Resolve e_table_options : eqv.

Lemma e_if_not_exists : forall P n, eqh P VPostgres.validateIfNotExists (prog GPostgres.if_not_exists n).
Proof.
  intros. unfold VPostgres.validateIfNotExists, GPostgres.if_not_exists. norm.
  apply eqh_next; [reflexivity|eqv|]. apply eqh_notnext. intros o H. apply H.
Qed.
#[local] Hint Resolve e_if_not_exists : eqv.

Lemma e_create_table : forall P n, eqh P (VPostgres.validateCreateTable n) (prog GPostgres.create_table n).
Proof.
  intros. unfold VPostgres.validateCreateTable, VPostgres.validateTableDefinition, GPostgres.create_table.
  cbn [prog fold_right]. do 4 (apply eqh_seq; [eqv|]).
  repeat first [apply eqh_assoc_l | apply eqh_seq; [eqv|]]. eqv.
Qed.
Lemma e_create_other : forall P n, eqh P (VPostgres.validateCreateOther n) (prog GPostgres.create_other n).
Proof. intros. apply eqh_refl. Qed.
#[local] Hint Resolve e_create_table e_create_other : eqv.

Lemma e_statement : forall P n, eqh P (VPostgres.validateDdl n) (prog GPostgres.statement n).
Proof. intros. unfold VPostgres.validateDdl, GPostgres.statement. norm. eqv. Qed.

Theorem validate_prog : forall n, equiv (VPostgres.validate n) (prog GPostgres.script n).
Proof.
  apply script_equiv with (body := VPostgres.validateDdl); intros; try reflexivity.
  apply eqh_equiv, e_statement.
Qed.
