(** The MySQL validator is equivalent to the parser of the MySQL grammar. *)
From Coq Require Import String Ascii List Bool Arith Lia.
From Verif Require Import GoStr GoNum Types Lexer VBase Words Exec Grammar GrammarFacts Equiv Ast.
From Verif Require VMysql GMysql.
Import ListNotations.
Open Scope string_scope.
Open Scope v_scope.

Ltac norm := unfold opt, optkw, GMysql.str_, GMysql.lit_; cbn [prog].

Lemma e_nm : forall P n keep, eqh P (VMysql.validateName keep) (prog (One keep (CName MySQL)) n).
Proof. intros. apply eqh_refl. Qed.
Lemma e_name : forall P n, eqh P (VMysql.validateName true) (prog GMysql.name n).
Proof. intros. apply eqh_refl. Qed.
Lemma e_name_ : forall P n, eqh P (VMysql.validateName false) (prog GMysql.name_ n).
Proof. intros. apply eqh_refl. Qed.
Lemma e_column_name : forall P n, eqh P (VMysql.validateColumnName true) (prog GMysql.name n).
Proof. exact e_name. Qed.
#[local] Hint Resolve e_nm e_name e_name_ e_column_name : eqv.
Lemma e_str : forall P keep, eqh P (VMysql.validateStringValue keep) (one keep (CStr MySQL)).
Proof. intros. apply eqh_refl. Qed.
Lemma e_lit : forall P keep, eqh P (VMysql.validateLiteralValue keep) (one keep (CLit MySQL)).
Proof. intros. apply eqh_refl. Qed.
Lemma e_pos : forall P keep, eqh P (VMysql.validatePositiveInteger keep) (one keep CPos).
Proof. intros. apply eqh_refl. Qed.
#[local] Hint Resolve e_str e_lit e_pos : eqv.

Lemma e_table_name : forall P n, eqh P (VMysql.validateTableName true) (prog GMysql.table_name n).
Proof. intros. unfold VMysql.validateTableName, GMysql.table_name. norm. eqv. Qed.
Lemma e_table_name_ : forall P n, eqh P (VMysql.validateTableName false) (prog GMysql.table_name_ n).
Proof. intros. unfold VMysql.validateTableName, GMysql.table_name_. norm. eqv. Qed.
#[local] Hint Resolve e_table_name e_table_name_ : eqv.

Lemma e_names : forall P n, eqh P (VMysql.validateCommaSeparatedColumnNames n true) (prog (SepBy true GMysql.name) n).
Proof.
  intros. apply equiv_eqh. cbn [prog].
  apply sep_equiv with (f := fun n => VMysql.validateCommaSeparatedColumnNames n true)
    (body := fun _ => VMysql.validateColumnName true); intros; reflexivity || apply equiv_refl.
Qed.
Lemma e_table_names : forall P n,
  eqh P (VMysql.validateCommaSeparatedTableNames n false) (prog (SepBy false GMysql.table_name_) n).
Proof.
  intros. apply equiv_eqh. cbn [prog].
  apply sep_equiv with (f := fun n => VMysql.validateCommaSeparatedTableNames n false)
    (body := fun _ => VMysql.validateTableName false); intros; try reflexivity.
  apply eqh_equiv, e_table_name_.
Qed.
#[local] Hint Resolve e_names e_table_names : eqv.

Lemma e_expr : forall P n keep, eqh P (VMysql.validateExpr n keep) (prog (Brackets keep) n).
Proof. intros. apply eqh_refl. Qed.
Lemma e_expr' : forall P n, eqh P (VMysql.validateExpr n true) (prog GMysql.expr n).
Proof. intros. apply eqh_refl. Qed.
#[local] Hint Resolve e_expr e_expr' : eqv.

Lemma e_digits1 : forall P n, eqh P (VMysql.validateTypeDigitN true) (prog GMysql.digits1 n).
Proof. intros. unfold VMysql.validateTypeDigitN, GMysql.digits1. norm. eqv. Qed.
Lemma e_digits1' : forall P n, eqh P (VMysql.validateTypeDigitP true) (prog GMysql.digits1 n).
Proof. exact e_digits1. Qed.
Lemma e_digits2 : forall P n, eqh P (VMysql.validateTypeDigitPS true) (prog GMysql.digits2 n).
Proof. intros. unfold VMysql.validateTypeDigitPS, GMysql.digits2. norm. eqv. Qed.
#[local] Hint Resolve e_digits1 e_digits1' e_digits2 : eqv.

Lemma e_key_part : forall P n keep,
  eqh P ((If matchToken ["("] Then VMysql.validateExpr n false
          Else
            VMysql.validateName keep ;;
            VMysql.validateTypeDigitN false) ;;
         skipOpt false ["ASC"; "DESC"]) (prog (GMysql.key_part keep) n).
Proof.
  intros. unfold GMysql.key_part, VMysql.validateTypeDigitN. norm.
  apply eqh_seq; [|eqv]. apply eqh_case; [reflexivity|eqv|]. apply eqh_seq; [eqv|].
  apply eqh_next; [reflexivity| |eqv]. eqv.
Qed.

Lemma e_keys_aux : forall n P keep,
  eqh P (VMysql.validateIndexKeysAux n keep) (prog (SepBy keep (GMysql.key_part keep)) n).
Proof.
  cbn [prog]. induction n as [|n IH]; intros P keep; [apply eqh_refl|].
  cbn [VMysql.validateIndexKeysAux sep_loop]. intros l HP.
  symmetry. rewrite exec_bind, <- (e_key_part top n keep l I), <- exec_bind, bind_assoc. symmetry. revert l HP. apply eqh_seq; [eqv|]. apply eqh_seq; [eqv|].
  intros l _. rewrite !exec_bind. destruct (exec (matchTokenNext keep [","]) l) as [[]|r| |]; cbn [ebind]; auto.
  f_equal. now apply (IH top).
Qed.
#[local] Hint Resolve e_keys_aux : eqv.
Lemma e_keys : forall P n keep, eqh P (VMysql.validateIndexKeys n keep) (prog (GMysql.keys keep) n).
Proof. intros. unfold VMysql.validateIndexKeys, GMysql.keys. norm. eqv. Qed.
#[local] Hint Resolve e_keys : eqv.

Lemma e_type : forall P n, eqh P VMysql.validateColumnType (prog GMysql.type_name n).
Proof.
  intros. unfold VMysql.validateColumnType, GMysql.type_name. norm.
  do 4 (apply eqh_next; [reflexivity|eqv|]).
  apply eqh_words with (ex := (GMysql.char_types ++ GMysql.number_types ++ GMysql.int_types ++
    GMysql.time_types)%list); [|reflexivity|reflexivity].
  intros o H. decompose [and] H. now rewrite !la_app, !orb_false_iff.
Qed.
#[local] Hint Resolve e_type : eqv.

Lemma e_skip_word : forall P n ws, matches ws EOF = false ->
  eqh P (skipOpt false ws) (prog (GMysql.skip_word ws) n).
Proof. intros. unfold GMysql.skip_word. norm. now apply eqh_skipOpt_notnext. Qed.

Lemma e_primary : forall P n, eqh P VMysql.validateConstraintPrimaryKey (prog GMysql.c_primary n).
Proof.
  intros. unfold VMysql.validateConstraintPrimaryKey, GMysql.c_primary. cbn [prog].
  apply eqh_case; [reflexivity| |apply eqh_refl].
  intros l HP.
  pose proof (eqh_next_known _ ["KEY"] (fun o (H : P o /\ la_mem (next_in ["KEY"]) o = true) => proj2 H) l HP) as X.
  cbn in X |- *. rewrite X. reflexivity.
Qed.
Lemma e_notnull : forall P n, eqh P VMysql.validateConstraintNotNull (prog GMysql.c_notnull n).
Proof. intros. apply eqh_refl. Qed.
Lemma e_null : forall P n, eqh P VMysql.validateConstraintNull (prog GMysql.c_null n).
Proof. intros. apply eqh_refl. Qed.
Lemma e_unique : forall P n, eqh P VMysql.validateConstraintUnique (prog GMysql.c_unique n).
Proof.
  intros. unfold VMysql.validateConstraintUnique, GMysql.c_unique. norm.
  apply eqh_seq; [eqv|]. now apply (e_skip_word _ n).
Qed.
Lemma e_check0 : forall P n, eqh P (VMysql.validateConstraintCheck n) (prog GMysql.check n).
Proof.
  intros. unfold VMysql.validateConstraintCheck, GMysql.check. norm.
  do 2 (apply eqh_seq; [eqv|]). apply eqh_seq; [now apply (e_skip_word _ n)|eqv].
Qed.
Lemma e_check : forall P n, eqh P (VMysql.validateConstraintCheck n) (prog GMysql.c_check n).
Proof. exact e_check0. Qed.
Lemma e_default : forall P n, eqh P (VMysql.validateConstraintDefault n) (prog GMysql.c_default n).
Proof. intros. unfold VMysql.validateConstraintDefault, GMysql.c_default. norm. eqv. Qed.
Lemma e_collate : forall P n, eqh P VMysql.validateConstraintCollate (prog GMysql.c_collate n).
Proof. intros. apply eqh_refl. Qed.
#[local] Hint Resolve e_primary e_notnull e_null e_unique e_check e_default e_collate : eqv.

Lemma e_fk_action : forall P n,
  eqh P (If matchTokenNext false ["SET"] Then validateToken false ["NULL"; "DEFAULT"]
         Else If matchTokenNext false ["CASCADE"; "RESTRICT"] Then ret tt
         Else If matchTokenNext false ["NO"] Then validateToken false ["ACTION"]
         Else syntaxError) (prog GMysql.fk_action n).
Proof.
  intros. unfold GMysql.fk_action. norm. eqv. apply eqh_must; [reflexivity|]. eqv.
Qed.
#[local] Hint Resolve e_fk_action : eqv.

Lemma e_ref_options : forall n P,
  eqh P (VMysql.validateConstraintReferencesAux n) (prog GMysql.ref_options n).
Proof.
  unfold GMysql.ref_options. cbn [prog].
  induction n as [|n IH]; intros P; [apply eqh_refl|].
  cbn [while_loop VMysql.validateConstraintReferencesAux]. unfold GMysql.ref_option at 2. norm.
  apply (eqh_loop _ ["ON"] ["MATCH"]).
  apply eqh_next_seq; [reflexivity| |].
  { apply eqh_assoc_r. eqv. }
  apply eqh_next_seq; [reflexivity| |apply eqh_refl].
  eqv.
Qed.
#[local] Hint Resolve e_ref_options : eqv.

Lemma e_references : forall P n, eqh P (VMysql.validateConstraintReferences n) (prog GMysql.c_references n).
Proof.
  intros. unfold VMysql.validateConstraintReferences, GMysql.c_references. norm. eqv.
Qed.
Lemma e_generated : forall P n, eqh P (VMysql.validateConstraintGenerated n) (prog GMysql.c_generated n).
Proof. intros. unfold VMysql.validateConstraintGenerated, GMysql.c_generated. norm. eqv. Qed.
Lemma e_comment : forall P n, eqh P VMysql.validateConstraintComment (prog GMysql.c_comment n).
Proof. intros. apply eqh_refl. Qed.
Lemma e_format : forall P n, eqh P VMysql.validateConstraintColumnFormat (prog GMysql.c_format n).
Proof. intros. apply eqh_refl. Qed.
Lemma e_engine : forall P n, eqh P VMysql.validateConstraintEngineAttribute (prog GMysql.c_engine n).
Proof. intros. unfold VMysql.validateConstraintEngineAttribute, GMysql.c_engine. norm. eqv. Qed.
Lemma e_storage : forall P n, eqh P VMysql.validateConstraintStorage (prog GMysql.c_storage n).
Proof. intros. apply eqh_refl. Qed.
Lemma e_auto : forall P n, eqh P VMysql.validateConstraintAutoincrement (prog GMysql.c_auto n).
Proof. intros. apply eqh_refl. Qed.
#[local] Hint Resolve e_references e_generated e_comment e_format e_engine e_storage e_auto : eqv.

Lemma e_column_constraint : forall P n,
  eqh P (VMysql.validateColumnConstraint n) (prog GMysql.column_constraint n).
Proof.
  intros. unfold VMysql.validateColumnConstraint, GMysql.column_constraint. cbn [prog].
  do 14 (apply eqh_case; [reflexivity|auto with eqv|]).
  now apply eqh_must1.
Qed.

Lemma exec_entry : forall t l, exec (VMysql.constraint_entry (tok (hd_error (t :: l)))) (t :: l) =
  EOk (GMysql.constraint_key t) (t :: l) [].
Proof.
  intros t l. unfold VMysql.constraint_entry, GMysql.constraint_key.
  rewrite (exec_if _ _ _ _ _ _ (exec_matchToken ["NOT"] (t :: l) eq_refl)).
  cbn [hd_error la_mem next_in la_words la_neg tok]. rewrite xorb_false_r.
  destruct (matches ["NOT"] t); [reflexivity|].
  rewrite (exec_if _ _ _ _ _ _ (exec_matchToken ["PRIMARY"; "KEY"] (t :: l) eq_refl)).
  cbn [hd_error la_mem next_in la_words la_neg tok]. rewrite xorb_false_r.
  destruct (matches ["PRIMARY"; "KEY"] t); [reflexivity|].
  rewrite (exec_if _ _ _ _ _ _ (exec_matchToken ["GENERATED"; "AS"] (t :: l) eq_refl)).
  cbn [hd_error la_mem next_in la_words la_neg tok]. rewrite xorb_false_r.
  destruct (matches ["GENERATED"; "AS"] t); reflexivity.
Qed.

Lemma e_column_constraints_aux : forall n ls P,
  eqh P (VMysql.validateColumnConstraintsAux n ls)
    (whileu_loop (prog GMysql.column_constraint) (next_in GMysql.constraint_words)
       GMysql.constraint_key n ls).
Proof.
  induction n as [|n IH]; intros ls P; [apply eqh_refl|].
  cbn [VMysql.validateColumnConstraintsAux whileu_loop].
  apply (eqh_case _ P GMysql.constraint_words); [reflexivity| |apply eqh_refl].
  intros [|t l] [HP H]; [discriminate|]. cbn [bind exec token].
  rewrite exec_bind, exec_entry. cbn [ebind]. rewrite epre_nil. cbn [hd_error tok].
  destruct (contains ls (GMysql.constraint_key t)); [reflexivity|].
  rewrite !exec_bind, (e_column_constraint top n (t :: l) I).
  destruct (exec (prog GMysql.column_constraint n) (t :: l)); cbn [ebind]; auto. f_equal. now apply (IH _ top).
Qed.

Lemma e_constraint_name : forall P n ws, matches ws EOF = false ->
  eqh P (If matchTokenNext true ["CONSTRAINT"] Then
           If matchToken ws Then ret tt Else VMysql.validateName true
         Else ret tt) (prog (GMysql.constraint_name ws) n).
Proof.
  intros. unfold GMysql.constraint_name. norm. apply eqh_next; [reflexivity| |apply eqh_refl].
  apply eqh_case; [assumption| |apply eqh_refl]. apply eqh_isnext. now intros o [_ X].
Qed.

Lemma e_column_constraints : forall n P,
  eqh P (VMysql.validateColumnConstraints n)
    (prog (GMysql.constraint_name ["CHECK"]) n ;; prog GMysql.column_constraints n).
Proof.
  intros. unfold VMysql.validateColumnConstraints.
  apply eqh_seq; [now apply e_constraint_name|]. apply e_column_constraints_aux.
Qed.
#[local] Hint Resolve e_column_constraints : eqv.

Lemma e_index_type : forall P n,
  eqh P (If matchToken ["USING"] Then VMysql.validateIndexType Else ret tt) (prog GMysql.index_type n).
Proof. intros. unfold GMysql.index_type, VMysql.validateIndexType. norm. eqv. Qed.
#[local] Hint Resolve e_index_type : eqv.

Lemma e_index_options : forall n P,
  eqh P (VMysql.validateIndexOption n) (prog GMysql.index_options n).
Proof.
  unfold GMysql.index_options. cbn [prog].
  induction n as [|n IH]; intros P; [apply eqh_refl|].
  cbn [while_loop VMysql.validateIndexOption]. unfold GMysql.index_option at 2. norm.
  apply (eqh_loop _ ["KEY_BLOCK_SIZE"] ["USING"; "WITH"; "COMMENT"; "VISIBLE"; "INVISIBLE";
                  "ENGINE_ATTRIBUTE"; "SECONDARY_ENGINE_ATTRIBUTE"]).
  apply eqh_next_seq; [reflexivity| |].
  { apply eqh_assoc_r. eqv. }
  apply (eqh_loop _ ["USING"] ["WITH"; "COMMENT"; "VISIBLE"; "INVISIBLE";
                  "ENGINE_ATTRIBUTE"; "SECONDARY_ENGINE_ATTRIBUTE"]).
  apply eqh_case; [reflexivity| |].
  { unfold VMysql.validateIndexType. apply eqh_seq; [apply eqh_refl|]. apply IH. }
  apply (eqh_loop _ ["WITH"] ["COMMENT"; "VISIBLE"; "INVISIBLE";
                  "ENGINE_ATTRIBUTE"; "SECONDARY_ENGINE_ATTRIBUTE"]).
  apply eqh_next_seq; [reflexivity| |].
  { apply eqh_assoc_r. eqv. }
  apply (eqh_loop _ ["COMMENT"] ["VISIBLE"; "INVISIBLE";
                  "ENGINE_ATTRIBUTE"; "SECONDARY_ENGINE_ATTRIBUTE"]).
  apply eqh_next_seq; [reflexivity| |].
  { eqv. }
  apply (eqh_loop _ ["VISIBLE"; "INVISIBLE"]
                  ["ENGINE_ATTRIBUTE"; "SECONDARY_ENGINE_ATTRIBUTE"]).
  apply eqh_next; [reflexivity|eqv|].
  apply eqh_next_seq; [reflexivity| |apply eqh_refl].
  apply eqh_assoc_r. eqv.
Qed.
#[local] Hint Resolve e_index_options : eqv.

Lemma e_t_primary : forall P n, eqh P (VMysql.validateTableConstraintPrimaryKey n) (prog GMysql.t_primary n).
Proof. intros. unfold VMysql.validateTableConstraintPrimaryKey, GMysql.t_primary. norm. eqv. Qed.

Lemma e_name_or_keys : forall P n keep,
  eqh P (If matchToken ["("] Then ret tt Else VMysql.validateName keep) (prog (GMysql.name_or_keys keep) n).
Proof.
  intros. unfold GMysql.name_or_keys. norm. apply eqh_case; [reflexivity| |eqv].
  apply eqh_isnext. now intros o [_ X].
Qed.
#[local] Hint Resolve e_name_or_keys : eqv.

Lemma e_t_unique : forall P n, eqh P (VMysql.validateTableConstraintUnique n) (prog GMysql.t_unique n).
Proof. intros. unfold VMysql.validateTableConstraintUnique, GMysql.t_unique. norm. eqv. Qed.

(** ( column, ... ) followed by something *)
Lemma e_columns : forall P n (k k' : V unit), eqh top k k' ->
  eqh P (validateToken true ["("] ;; VMysql.validateCommaSeparatedColumnNames n true ;;
         validateToken true [")"] ;; k) (prog GMysql.columns n ;; k').
Proof.
  intros. unfold GMysql.columns. cbn [prog]. apply eqh_assoc_r, eqh_seq; [apply eqh_refl|].
  apply eqh_assoc_r, eqh_seq; [apply e_names|]. apply eqh_seq; [apply eqh_refl|assumption].
Qed.

Lemma e_t_foreign : forall P n, eqh P (VMysql.validateTableConstraintForeignKey n) (prog GMysql.t_foreign n).
Proof.
  intros. unfold VMysql.validateTableConstraintForeignKey, GMysql.t_foreign. cbn [prog].
  do 3 (apply eqh_seq; [eqv|]). apply e_columns. eqv.
Qed.
Lemma e_t_check : forall P n, eqh P (VMysql.validateTableConstraintCheck n) (prog GMysql.t_check n).
Proof. exact e_check0. Qed.
Lemma e_t_index : forall P n, eqh P (VMysql.validateTableConstraintIndex n) (prog GMysql.t_index n).
Proof.
  intros. unfold VMysql.validateTableConstraintIndex, GMysql.t_index. norm.
  apply eqh_seq; [eqv|]. apply eqh_seq; [|eqv].
  apply eqh_case; [reflexivity| |apply e_name_or_keys].
  apply eqh_isnext. now intros o [_ X].
Qed.
#[local] Hint Resolve e_t_primary e_t_unique e_t_check e_t_foreign e_t_index : eqv.

Lemma e_table_constraint : forall P n, eqh P (VMysql.validateTableConstraint n) (prog GMysql.table_constraint n).
Proof.
  intros. unfold VMysql.validateTableConstraint, VMysql.validateTableConstraintAux,
    GMysql.table_constraint, GMysql.t_fulltext.
  norm. apply eqh_seq; [now apply e_constraint_name|].
  do 5 (apply eqh_case; [reflexivity|auto with eqv|]).
  apply eqh_must; [reflexivity|]. eqv.
Qed.
#[local] Hint Resolve e_table_constraint : eqv.

Lemma e_element : forall P n, eqh P (VMysql.validateColumnDefinition n) (prog GMysql.element n).
Proof.
  intros. unfold VMysql.validateColumnDefinition, GMysql.element, GMysql.column. cbn [prog].
  eqv.
Qed.

Lemma e_elements : forall P n, eqh P (VMysql.validateColumnDefinitions n) (prog (SepBy true GMysql.element) n).
Proof.
  intros. apply equiv_eqh. cbn [prog].
  apply sep_equiv with (f := VMysql.validateColumnDefinitions)
    (body := VMysql.validateColumnDefinition); intros; try reflexivity.
  apply eqh_equiv, e_element.
Qed.
#[local] Hint Resolve e_elements : eqv.

Lemma e_table_option : forall P n, eqh P (VMysql.validateTableOption n) (prog GMysql.table_option n).
Proof.
  intros. unfold VMysql.validateTableOption, GMysql.table_option,
    VMysql.validateTableOptionCommonLiteral, VMysql.validateTableOptionCommonString,
    VMysql.validateTableOptionCommonName, VMysql.validateTableOptionCommon01,
    VMysql.validateTableOptionCommon01Default, VMysql.validateTableOptionDirectory,
    VMysql.validateTableOptionTablespace, VMysql.validateTableOptionDefault,
    VMysql.validateTableOptionUnion, VMysql.validateTableOptionInsertMethod,
    VMysql.validateTableOptionRowFormat. norm.
  apply eqh_case; [reflexivity|apply eqh_seq; [apply eqh_next_known; now intros o [_ X]|eqv]|].
  apply eqh_case; [reflexivity|apply eqh_seq; [apply eqh_next_known; now intros o [_ X]|eqv]|].
  apply eqh_case; [reflexivity|eqv|].
  apply eqh_case; [reflexivity|apply eqh_seq; [apply eqh_next_known; now intros o [_ X]|eqv]|].
  apply eqh_case; [reflexivity|apply eqh_seq; [apply eqh_next_known; now intros o [_ X]|eqv]|].
  do 2 (apply eqh_case; [reflexivity|eqv|]).
  apply eqh_case; [reflexivity| |].
  { apply eqh_seq; [eqv|]. apply eqh_seq; [|eqv]. apply eqh_next; [reflexivity|eqv|].
    apply eqh_must1; reflexivity. }
  do 2 (apply eqh_case; [reflexivity|eqv|]).
  apply eqh_last; [reflexivity|]. eqv.
Qed.
#[local] Hint Resolve e_table_option : eqv.

Lemma e_table_options : forall n P, eqh P (VMysql.validateTableOptions n) (prog GMysql.table_options n).
Proof.
  unfold GMysql.table_options. cbn [prog].
  induction n as [|n IH]; intros P; [apply eqh_refl|].
  cbn [while_loop VMysql.validateTableOptions]. norm.
  apply eqh_until. apply eqh_assoc_r. eqv.
Qed.
#[local] Hint Resolve e_table_options : eqv.

Lemma e_if_not_exists : forall P n, eqh P VMysql.validateIfNotExists (prog GMysql.if_not_exists n).
Proof. intros. unfold VMysql.validateIfNotExists, GMysql.if_not_exists. norm. eqv. Qed.
#[local] Hint Resolve e_if_not_exists : eqv.

Lemma e_create_table : forall P n, eqh P (VMysql.validateCreateTable n) (prog GMysql.create_table n).
Proof.
  intros. unfold VMysql.validateCreateTable, VMysql.validateTableDefinition, GMysql.create_table.
  cbn [prog fold_right]. do 4 (apply eqh_seq; [eqv|]).
  repeat first [apply eqh_assoc_l | apply eqh_seq; [eqv|]]. eqv.
Qed.
Lemma e_create_other : forall P n, eqh P (VMysql.validateCreateOther n) (prog GMysql.create_other n).
Proof. intros. apply eqh_refl. Qed.
#[local] Hint Resolve e_create_table e_create_other : eqv.

Lemma e_statement : forall P n, eqh P (VMysql.validateDdl n) (prog GMysql.statement n).
Proof. intros. unfold VMysql.validateDdl, GMysql.statement. norm. eqv. Qed.

Theorem validate_prog : forall n, equiv (VMysql.validate n) (prog GMysql.script n).
Proof.
  apply script_equiv with (body := VMysql.validateDdl); intros; try reflexivity.
  apply eqh_equiv, e_statement.
Qed.
