(** The forms of README.md for PostgreSQL, with the changes, are accepted. *)
From Coq Require Import String List Bool Arith Lia.
From Verif Require Import GoStr GoNum Types VBase Exec Grammar GrammarFacts Ast Emit Parse Safe Seen Spec Readme ReadmeFacts.
From Verif Require GPostgres ReadmePostgres.
Import ListNotations.
Open Scope nat_scope.
Open Scope string_scope.
Open Scope list_scope.
Open Scope form_scope.
Open Scope gr_scope.
Import ReadmePostgres.

Lemma clauses : forall F, sub any F (reference_clauses) GPostgres.ref_options.
Proof. intros. go. Qed.
(** a table name without schema *)
Lemma plain_name : forall F, sub (fun p => fst p = None) F name GPostgres.table_name.
Proof.
  intros F. apply sub_map. apply (sub_empty_r _ _ any (fun o => o = None)); [go|now apply sub_none|]. intros a b _ ->. reflexivity.
Qed.
Lemma qualified : forall F, sub any F (maybe (name ;; word ".") ;; name) GPostgres.table_name.
Proof.
  intros F. apply sub_map_any. apply sub_form with (f' := choice [name; name ;; word "." ;; name]); [|go].
  intros l (l1 & l2 & -> & [->|L] & L2); [left; exact L2|right; left]. apply seq_out. exists l1, l2. auto.
Qed.
Lemma references : forall F, sub (fun i => readable_item i = true) F (word "REFERENCES" ;; name ;; maybe (within name) ;; reference_clauses) GPostgres.c_references.
Proof.
  intros F. apply sub_map. eapply sub_weak; [apply sub_seq_snd; [go|]; apply sub_seq_fst; [apply plain_name|go]| |exact (fun _ x => x)].
  intros (a & [s t] & o & x) E. cbn in E. subst s. reflexivity.
Qed.
Lemma item : sub (fun i => readable_item i = true) any (column_constraint true) GPostgres.column_constraint.
Proof.
  repeat apply sub_choice; try apply sub_choice_nil.
  9: do 6 apply sub_right; apply sub_left; apply references.
  1: apply sub_left.
  2: do 3 apply sub_right; apply sub_left.
  3: do 1 apply sub_right; apply sub_left.
  4: do 2 apply sub_right; apply sub_left.
  5: do 4 apply sub_right; apply sub_left.
  6: do 5 apply sub_right; apply sub_left.
  7-8: do 7 apply sub_right.
  all: apply sub_map_all; [intros; repeat match goal with x : (_ * _)%type |- _ => destruct x end; reflexivity|].
  all: try go.
  apply sub_form with (f' := word "GENERATED" ;; choice [word "ALWAYS" ;; word "AS" ;; word "IDENTITY" ;; maybe brackets;
    word "BY" ;; word "DEFAULT" ;; word "AS" ;; word "IDENTITY" ;; maybe brackets]); [|go].
  apply seq_mono; [auto|]. intros l (l1 & l2 & -> & [L|[L|[]]] & L2); [left; now exists l1, l2|right; left]. apply seq_out. now exists l1, l2.
Qed.
Lemma items : forall F, sub (Forall (fun i => readable_item i = true)) F (distinct kind (fun _ _ => false) (column_constraint true)) GPostgres.column_constraints.
Proof.
  intros F. apply sub_distinct; [fill| |].
  - eapply starts_kind with (ws := GPostgres.constraint_words); [|vm_compute; reflexivity]. start.
  - intros l nxt L _. now apply item.
Qed.
Lemma column_element : sub (fun e => readable_element e = true /\ is_column e) ends (column true) GPostgres.element.
Proof.
  apply sub_right, sub_map. apply (sub_seq _ _ any (fun x : a_type * (option string * list a_item) => Forall (fun i => readable_item i = true) (snd (snd x))) _ ends any); [go| |intros; exact I|].
  - apply (sub_seq _ _ any (fun x : option string * list a_item => Forall (fun i => readable_item i = true) (snd x)) _ ends any); [go| |intros; exact I|auto].
    repeat apply sub_choice; try apply sub_choice_nil.
    + apply (sub_empty_l _ _ any (Forall (fun i => readable_item i = true)) _ ends any); [now apply sub_none|apply sub_whileu_nil|intros; exact I|auto].
    + apply (sub_seq _ _ any (Forall (fun i => readable_item i = true)) _ ends any); [go|apply items; auto|intros; exact I|auto].
  - intros n [t [c l]] _ H. cbn in H. split; [|exact I]. cbn. now apply forallb_Forall.
Qed.
Lemma constraint_element : sub (fun e => readable_element e = true) ends (table_constraint) GPostgres.element.
Proof.
  apply sub_left, sub_map. apply (sub_seq _ _ any (fun b => readable_body b = true) _ ends any); [go| |intros; exact I|auto].
  repeat apply sub_choice; try apply sub_choice_nil.
  1: apply sub_left. 2: apply sub_right, sub_left. 3: do 2 apply sub_right; apply sub_left. 4: do 4 apply sub_right. 5: do 3 apply sub_right; apply sub_left.
  1-4: apply sub_map_all; [intros; repeat match goal with x : (_ * _)%type |- _ => destruct x end; reflexivity|go].
  apply sub_map. eapply sub_weak; [do 4 (apply sub_seq_snd; [go|]); apply sub_seq_fst; [apply plain_name|go]| |exact (fun _ x => x)].
  intros (a & b & c & d & [s t] & o & x) E. cbn in E. subst s. reflexivity.
Qed.
Lemma no_if : forall l nxt, not_if table_name l -> match hdr l nxt with Some t => matches ["IF"] t = false | None => True end.
Proof.
  intros l nxt (L & N1 & N2). destruct l as [|t l].
  - exfalso. assert (X : filled table_name) by fill. now apply (X [] L).
  - cbn [hdr]. apply not_true_is_false. intros M. apply matches_spec in M as (u & [<-|[]] & [->| ->]); cbn in *; congruence.
Qed.
Lemma heads : forall F, sub any F (table true) (GPostgres.if_not_exists ** GPostgres.table_name).
Proof.
  intros F. apply sub_choice; [|apply sub_choice; [|apply sub_choice_nil]].
  - apply sub_seq_any; [go|apply qualified].
  - apply (sub_empty_l _ _ any any _ _ (fun n => match n with Some t => matches ["IF"] t = false | None => True end)); try (intros; exact I).
    + apply sub_right, sub_map_any. apply sub_notnext; [exact I|auto].
    + eapply sub_form; [|apply qualified]. intros l [L _]. exact L.
    + intros l n L _. now apply no_if.
Qed.
Lemma statements : sub stmt_ok any (statement true) GPostgres.statement.
Proof.
  apply sub_form with (f' := word "CREATE" ;; word "TABLE" ;; table true ;;
    word "(" ;; (listed (column true) ;; maybe (word "," ;; listed table_constraint)) ;; word ")" ;; many table_option ;; word ";").
  { unfold statement. do 3 (apply seq_mono; [auto|]). apply seq_within. }
  apply sub_map. apply (sub_seq _ _ any stmt_ok _ any any); [go| |intros; exact I|auto].
  apply sub_left, sub_map. eapply sub_weak; [apply sub_empty_snd; [now apply sub_put|apply sub_seq_snd; [go|]; apply sub_assoc_snd; apply sub_seq_snd; [apply heads|]; apply sub_seq_snd; [go|]]| |exact (fun _ x => x)].
  - apply (sub_seq _ _ body_ok any (fun x => body_ok (fst x)) any ends).
    + apply sub_listed_app; [apply column_element|apply constraint_element|now left].
    + go.
    + intros l n (l1 & l2 & -> & [->| ->] & _) _; now right.
    + auto.
  - intros (a & b & i & [s t] & c & vs & r) H. now apply body_readable.
Qed.
Theorem script_postgres : forall parts, Forall (statement true) parts ->
  exists out stmts, lang GPostgres.script (concat parts) None out stmts /\ readable stmts = true /\ Forall (fun s => exists t, s = STable t) stmts /\
    List.length stmts = List.length parts.
Proof. intros parts H. apply (parts_script parts (statement true) GPostgres.statement); [fill|apply statements|exact H]. Qed.
