(** The forms of README.md for SQLite, with the changes, are accepted. *)
From Coq Require Import String List Bool Arith Lia.
From Verif Require Import GoStr GoNum Types VBase Exec Grammar GrammarFacts Ast Emit Parse Safe Seen Spec Readme ReadmeFacts.
From Verif Require GSqlite ReadmeSqlite.
Import ListNotations.
Open Scope nat_scope.
Open Scope string_scope.
Open Scope list_scope.
Open Scope form_scope.
Open Scope gr_scope.
Import ReadmeSqlite.

Definition no_not (n : option string) : Prop := match n with Some t => matches ["NOT"] t = false | None => True end.
Lemma clauses : forall F, sub any F (reference_clauses true) GSqlite.ref_options.
Proof. intros. go. Qed.
(** a table name without schema *)
Lemma plain_name : forall F, sub (fun p => fst p = None) F name GSqlite.table_name.
Proof.
  intros F. apply sub_map. apply (sub_empty_r _ _ any (fun o => o = None)); [go|now apply sub_none|]. intros a b _ ->. reflexivity.
Qed.
Lemma qualified : forall F, sub any F (maybe (name ;; word ".") ;; name) GSqlite.table_name.
Proof.
  intros F. apply sub_map_any. apply sub_form with (f' := choice [name; name ;; word "." ;; name]); [|go].
  intros l (l1 & l2 & -> & [->|L] & L2); [left; exact L2|right; left]. apply seq_out. exists l1, l2. auto.
Qed.
Lemma references : sub (fun i => readable_item i = true) no_not (word "REFERENCES" ;; name ;; maybe (within name) ;; reference_clauses true) GSqlite.c_references.
Proof.
  apply sub_map. apply (sub_seq _ _ any (fun x : (option string * string) * (option (string * (string * string)) * (list unit * unit)) => fst (fst x) = None) _ no_not any).
  - go.
  - apply (sub_seq _ _ (fun p => fst p = None) any _ no_not any).
    + apply plain_name.
    + apply (sub_seq _ _ any any _ no_not any); try (intros; exact I).
      * go.
      * apply (sub_empty_r _ _ any any); try (intros; exact I). { apply clauses. } apply sub_notnext; [exact I|]. auto.
    + intros; exact I.
    + intros a b E _. exact E.
  - intros; exact I.
  - intros a [[s t] [o [x y]]] _ E. cbn in E. subst s. reflexivity.
Qed.
Definition plain_items : list form :=
  [word "PRIMARY" ;; word "KEY" ;; maybe (one_of ["DESC"; "ASC"]) ;; maybe conflict_clause ;; maybe (word "AUTOINCREMENT");
   word "UNIQUE" ;; maybe conflict_clause;
   word "NOT" ;; word "NULL" ;; maybe conflict_clause;
   word "CHECK" ;; brackets;
   word "DEFAULT" ;; choice [literal_value; brackets];
   word "COLLATE" ;; one_of ["BINARY"; "NOCASE"; "RTRIM"];
   word "GENERATED" ;; word "ALWAYS" ;; word "AS" ;; brackets ;; maybe (one_of ["STORED"; "VIRTUAL"]);
   word "AS" ;; brackets ;; maybe (one_of ["STORED"; "VIRTUAL"])].
Lemma items_are : forall l, column_constraint true l -> choice plain_items l \/ (word "REFERENCES" ;; name ;; maybe (within name) ;; reference_clauses true) l.
Proof. intros l L. unfold column_constraint in L. unfold plain_items. cbn [choice] in *. tauto. Qed.
Lemma plain_item : sub (fun i => readable_item i = true) any (choice plain_items) GSqlite.column_constraint.
Proof.
  repeat apply sub_choice; try apply sub_choice_nil.
  1: apply sub_left.
  2: do 2 apply sub_right; apply sub_left.
  3: do 1 apply sub_right; apply sub_left.
  4: do 3 apply sub_right; apply sub_left.
  5: do 4 apply sub_right; apply sub_left.
  6: do 5 apply sub_right; apply sub_left.
  7-8: do 7 apply sub_right.
  all: apply sub_map_all; [intros; repeat match goal with x : (_ * _)%type |- _ => destruct x end; reflexivity|].
  all: try go.
  apply sub_form with (f' := (word "GENERATED" ;; word "ALWAYS") ;; word "AS" ;; brackets ;; maybe (one_of ["STORED"; "VIRTUAL"])); [apply seq_in|go].
Qed.
Lemma ref_item : sub (fun i => readable_item i = true) no_not (word "REFERENCES" ;; name ;; maybe (within name) ;; reference_clauses true) GSqlite.column_constraint.
Proof. do 6 apply sub_right; apply sub_left; apply references. Qed.
Lemma items : forall F : option string -> Prop, (forall n, F n -> ends n) -> sub (Forall (fun i => readable_item i = true)) F (distinct (fun w => w) clash (column_constraint true)) GSqlite.column_constraints.
Proof.
  intros F FE. apply sub_distinct; [fill|intros; reflexivity|]. intros l nxt L N. apply items_are in L as [L|L]; [now apply plain_item|]. apply ref_item; [exact L|].
  destruct N as [N|(t & b & -> & N)]; [apply FE in N as [->| ->]; reflexivity|]. cbn [no_not].
  destruct L as (l1 & l2 & -> & [->| ->] & _); unfold clash in N; cbn [app first_of] in N; cbn in N.
  all: apply not_true_is_false; intros M; apply matches_spec in M as (u & [<-|[]] & M); destruct M as [->| ->]; discriminate N.
Qed.
Lemma column_element : sub (fun e => readable_element e = true /\ is_column e) ends (column true) GSqlite.element.
Proof.
  apply sub_right, sub_map. apply (sub_seq _ _ any (fun x : a_type * (option string * list a_item) => Forall (fun i => readable_item i = true) (snd (snd x))) _ ends any); [go| |intros; exact I|].
  - apply (sub_seq _ _ any (fun x : option string * list a_item => Forall (fun i => readable_item i = true) (snd x)) _ ends any); [go| |intros; exact I|auto].
    repeat apply sub_choice; try apply sub_choice_nil.
    + apply (sub_empty_l _ _ any (Forall (fun i => readable_item i = true)) _ ends any); [now apply sub_none|apply sub_whileu_nil|intros; exact I|auto].
    + apply (sub_seq _ _ any (Forall (fun i => readable_item i = true)) _ ends any); [go|apply items; auto|intros; exact I|auto].
  - intros n [t [c l]] _ H. cbn in H. split; [|exact I]. cbn. now apply forallb_Forall.
Qed.
Lemma constraint_element : sub (fun e => readable_element e = true) ends (table_constraint true) GSqlite.element.
Proof.
  apply sub_left, sub_map. apply (sub_seq _ _ any (fun b => readable_body b = true) _ ends any); [go| |intros; exact I|auto].
  repeat apply sub_choice; try apply sub_choice_nil.
  1: apply sub_left. 2: apply sub_right, sub_left. 3: do 2 apply sub_right; apply sub_left. 4: do 3 apply sub_right.
  1-3: apply sub_map_all; [intros; repeat match goal with x : (_ * _)%type |- _ => destruct x end; reflexivity|go].
  apply sub_map. eapply sub_weak; [do 4 (apply sub_seq_snd; [go|]); apply sub_seq_fst; [apply plain_name|go]| |exact (fun _ x => x)].
  intros (a & b & c & d & [s t] & o & x) E. cbn in E. subst s. reflexivity.
Qed.
Lemma statements : sub stmt_ok any (statement true) GSqlite.statement.
Proof.
  apply sub_form with (f' := word "CREATE" ;; word "TABLE" ;; maybe (words ["IF"; "NOT"; "EXISTS"]) ;; (maybe (name ;; word ".") ;; name) ;;
    word "(" ;; (listed (column true) ;; maybe (word "," ;; listed (table_constraint true))) ;; word ")" ;; table_options true ;; word ";").
  { unfold statement. do 3 (apply seq_mono; [auto|]). intros l L. apply seq_in in L. revert l L. apply seq_mono; [auto|]. apply seq_within. }
  apply sub_map.
  apply (sub_seq _ _ any (fun x : option string * a_stmt => stmt_ok (snd x)) _ any any); [go| |intros; exact I|intros a [b c] _ H; exact H].
  apply (sub_empty_l _ _ any stmt_ok _ any any); [now apply sub_none| |intros; exact I|auto].
  apply sub_left, sub_map. eapply sub_weak; [apply sub_empty_snd; [now apply sub_put|do 4 (apply sub_seq_snd; [go || apply qualified|])]| |exact (fun _ x => x)].
  - apply (sub_seq _ _ body_ok any (fun x => body_ok (fst x)) any ends).
    + apply sub_listed_app; [apply column_element|apply constraint_element|now left].
    + go.
    + intros l n (l1 & l2 & -> & [->| ->] & _) _; now right.
    + auto.
  - intros (a & b & i & [s t] & c & vs & r) H. now apply body_readable.
Qed.
Theorem script_sqlite : forall parts, Forall (statement true) parts ->
  exists out stmts, lang GSqlite.script (concat parts) None out stmts /\ readable stmts = true /\ Forall (fun s => exists t, s = STable t) stmts /\
    List.length stmts = List.length parts.
Proof. intros parts H. apply (parts_script parts (statement true) GSqlite.statement); [fill|apply statements|exact H]. Qed.
