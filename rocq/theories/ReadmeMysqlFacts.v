(** The forms of README.md for MySQL, with the changes, are accepted. *)
From Coq Require Import String List Bool Arith Lia.
From Verif Require Import GoStr GoNum Types VBase Exec Grammar GrammarFacts Ast Emit Parse Safe Seen Spec Readme ReadmeFacts.
From Verif Require GMysql ReadmeMysql.
Import ListNotations.
Open Scope nat_scope.
Open Scope string_scope.
Open Scope list_scope.
Open Scope form_scope.
Open Scope gr_scope.
Import ReadmeMysql.

Definition not_next (ws : list string) (n : option string) : Prop := match n with Some t => matches ws t = false | None => True end.
Definition is_next (ws : list string) (n : option string) : Prop := match n with Some t => matches ws t = true | None => False end.
Lemma ends_not : forall n ws, ends n -> matches ws "," = false -> matches ws ")" = false -> not_next ws n.
Proof. intros n ws [->| ->]; auto. Qed.
Lemma clauses : forall F, sub any F reference_clauses GMysql.ref_options.
Proof. intros. go. Qed.
Lemma plain_name : forall F, sub (fun p => fst p = None) F name GMysql.table_name.
Proof.
  intros F. apply sub_map. apply (sub_empty_r _ _ any (fun o => o = None)); [go|now apply sub_none|]. intros a b _ ->. reflexivity.
Qed.
Lemma qualified : forall F, sub any F (maybe (name ;; word ".") ;; name) GMysql.table_name.
Proof.
  intros F. apply sub_map_any. apply sub_form with (f' := choice [name; name ;; word "." ;; name]); [|go].
  intros l (l1 & l2 & -> & [->|L] & L2); [left; exact L2|right; left]. apply seq_out. exists l1, l2. auto.
Qed.
Definition item_ok (i : a_item) : Prop := readable_item i = true.
Definition plain_items : list form :=
  [maybe (word "PRIMARY") ;; word "KEY";
   word "AUTO_INCREMENT";
   word "NOT" ;; word "NULL";
   word "NULL";
   word "DEFAULT" ;; choice [value; brackets];
   word "VISIBLE";
   word "INVISIBLE";
   word "COMMENT" ;; text;
   word "COLLATE" ;; collation_name true;
   word "COLUMN_FORMAT" ;; one_of ["FIXED"; "DYNAMIC"; "DEFAULT"];
   word "ENGINE_ATTRIBUTE" ;; equals ;; text;
   word "SECONDARY_ENGINE_ATTRIBUTE" ;; equals ;; text;
   word "STORAGE" ;; one_of ["DISK"; "MEMORY"];
   maybe (words ["GENERATED"; "ALWAYS"]) ;; word "AS" ;; brackets;
   word "VIRTUAL";
   word "STORED"].
Lemma items_are : forall l, column_constraint true l ->
  choice plain_items l \/ (word "UNIQUE" ;; maybe (word "KEY")) l \/ check l \/ (word "REFERENCES" ;; name ;; within name ;; reference_clauses) l.
Proof. intros l L. unfold column_constraint in L. unfold plain_items. cbn [choice] in *. tauto. Qed.
Ltac shape := intros; repeat match goal with x : (_ * _)%type |- _ => destruct x end; reflexivity.
Lemma c_primary : forall F, sub item_ok F (maybe (word "PRIMARY") ;; word "KEY") GMysql.c_primary.
Proof.
  intros F. eapply sub_form; [apply maybe_split|]. apply sub_choice; [|apply sub_choice; [|apply sub_choice_nil]].
  - apply sub_left, sub_map_all; [shape|go].
  - apply sub_right, sub_map_all; [shape|go].
Qed.
Tactic Notation "nth" integer(n) := do n apply sub_right; apply sub_left.
Lemma plain_item : sub item_ok any (choice plain_items) GMysql.column_constraint.
Proof.
  repeat apply sub_choice; try apply sub_choice_nil.
  1: apply sub_left, c_primary.
  1: nth 13. 2: nth 1. 3: nth 2. 4: nth 5. 5-6: do 14 apply sub_right. 7: nth 9. 8: nth 6. 9: nth 10. 10-11: nth 11. 12: nth 12. 13: nth 8. 14-15: do 14 apply sub_right.
  all: apply sub_map_all; [shape|go].
Qed.
Lemma unique_key : forall F : option string -> Prop, (forall n, F n -> not_next ["KEY"] n) -> sub item_ok F (word "UNIQUE" ;; maybe (word "KEY")) GMysql.column_constraint.
Proof.
  intros F N. nth 3. apply sub_map_all; [shape|]. apply sub_seq_any; [go|]. apply sub_maybe; [|go]. apply sub_right, sub_notnext; [exact I|exact N].
Qed.
Lemma unique_key_2 : forall F, sub item_ok F (word "UNIQUE" ;; word "KEY") GMysql.column_constraint.
Proof. intros F. nth 3. apply sub_map_all; [shape|go]. Qed.
Lemma check_enforced : forall F, sub any F (word "CHECK" ;; brackets ;; maybe (word "NOT") ;; word "ENFORCED") GMysql.check.
Proof.
  intros F. apply sub_map_any. do 2 (apply sub_seq_any; [go|]).
  eapply sub_form; [apply maybe_split|]. apply sub_choice; [|apply sub_choice; [go|apply sub_choice_nil]].
  apply (sub_empty_l _ _ any any _ F (not_next ["NOT"])); try (intros; exact I).
  - apply sub_right, sub_notnext; [exact I|auto].
  - go.
  - intros l n [->| ->] _; reflexivity.
Qed.
Lemma check_plain : forall F : option string -> Prop, (forall n, F n -> not_next ["NOT"] n) -> sub any F (word "CHECK" ;; brackets) GMysql.check.
Proof.
  intros F N. apply sub_map_any. apply sub_seq_any; [go|]. apply sub_form with (f' := brackets ;; nothing).
  { intros l L. exists l, []. rewrite app_nil_r. repeat split; auto. }
  apply sub_seq_any; [go|]. apply (sub_empty_l _ _ any any _ F F); try (intros; exact I).
  - apply sub_right, sub_notnext; [exact I|exact N].
  - go.
  - intros l n -> X. exact X.
Qed.
Lemma check_split : forall l, check l -> (word "CHECK" ;; brackets) l \/ (word "CHECK" ;; brackets ;; maybe (word "NOT") ;; word "ENFORCED") l.
Proof.
  intros l (l1 & l2 & -> & L1 & l3 & l4 & -> & L3 & [->|L4]); [left|right].
  - rewrite app_nil_r. now exists l1, l3.
  - exists l1, (l3 ++ l4). repeat split; auto. now exists l3, l4.
Qed.
Lemma references : forall F, sub item_ok F (word "REFERENCES" ;; name ;; within name ;; reference_clauses) GMysql.column_constraint.
Proof.
  intros F. nth 7. apply sub_map. eapply sub_weak; [apply sub_seq_snd; [go|]; apply sub_seq_fst; [apply plain_name|go]| |exact (fun _ x => x)].
  intros (a & [s t] & o & x) E. cbn in E. subst s. reflexivity.
Qed.
Lemma word_upper : forall w l, word w l -> to_upper (to_upper w) = to_upper w -> to_upper (to_lower w) = to_upper w -> exists t, l = [t] /\ to_upper t = to_upper w.
Proof. intros w l [->| ->] U V; eauto. Qed.
Lemma not_upper : forall t w, to_upper t <> w -> to_upper (to_upper w) = w -> to_upper (to_lower w) = w -> matches [w] t = false.
Proof. intros t w N U V. apply not_true_is_false. intros M. apply matches_spec in M as (u & [<-|[]] & [->| ->]); congruence. Qed.
Lemma items : forall F : option string -> Prop, (forall n, F n -> ends n) -> sub (Forall item_ok) F column_constraints GMysql.column_constraints.
Proof.
  intros F FE. apply sub_distinct; [fill| |].
  - eapply starts_kind with (ws := GMysql.constraint_words); [|vm_compute; reflexivity]. start.
  - intros l nxt L N. apply items_are in L as [L|[L|[L|L]]].
    + now apply plain_item.
    + destruct L as (l1 & l2 & -> & L1 & [->|L2]).
      * apply (unique_key (not_next ["KEY"])); [auto|exists l1, []; repeat split; auto; now left|].
        destruct N as [N|(t & b & -> & N)]; [apply ends_not; auto|]. cbn [not_next].
        destruct (word_upper _ _ L1) as (u & -> & U); [reflexivity|reflexivity|]. unfold clash in N. cbn [app first_of] in N. rewrite U in N. cbn in N.
        apply not_upper; [|reflexivity|reflexivity]. intros E. rewrite E in N. discriminate N.
      * apply (unique_key_2 any); [now exists l1, l2|exact I].
    + apply check_split in L as [L|L].
      * destruct (check_plain (not_next ["NOT"])) with (l := l) (nxt := nxt) as (o & v & X & Y); auto.
        -- destruct N as [N|(t & b & -> & N)]; [apply ends_not; auto|]. cbn [not_next].
           destruct L as (l1 & l2 & -> & L1 & e & _ & ->). destruct (word_upper _ _ L1) as (u & -> & U); [reflexivity|reflexivity|].
           unfold clash in N. cbn [app first_of] in N. change (u :: "(" :: e ++ [")"]) with ((u :: "(" :: e) ++ [")"]) in N. rewrite U, last_last in N. cbn in N.
           apply not_upper; [|reflexivity|reflexivity]. intros E. rewrite E in N. discriminate N.
        -- exists o, (ICheck v). split; [|reflexivity]. do 4 right; left. exists v. auto.
      * destruct (check_enforced any) with (l := l) (nxt := nxt) as (o & v & X & Y); auto; [exact I|].
        exists o, (ICheck v). split; [|reflexivity]. do 4 right; left. exists v. auto.
    + now apply (references any).
Qed.
Lemma check_first : forall l n, begins_with_check column_constraints l -> is_next ["CHECK"] (hdr l n).
Proof.
  intros l n [(items & -> & Z & L & _) E]. destruct items as [|i items]; [now elim Z|]. inversion L; subst.
  destruct i as [|t i]; [exfalso; assert (X : filled (column_constraint true)) by fill; now apply (X [] H1)|].
  cbn [concat app hdr is_next]. cbn in E.
  assert (X : starts GMysql.constraint_words (column_constraint true)) by start. destruct (X _ _ H1) as (w & W & T).
  apply matches_spec. exists "CHECK". split; [now left|]. cbn in W. repeat (destruct W as [<-|W]; [destruct T as [->| ->]; cbn in E; try discriminate; auto|]). destruct W.
Qed.
Lemma column_element : sub (fun e => readable_element e = true /\ is_column e) ends (column true) GMysql.element.
Proof.
  apply sub_right, sub_map. apply (sub_seq _ _ any (fun x : a_type * (option string * list a_item) => Forall item_ok (snd (snd x))) _ ends any); [go| |intros; exact I|].
  - apply (sub_seq _ _ any (fun x : option string * list a_item => Forall item_ok (snd x)) _ ends any); [go| |intros; exact I|auto].
    apply sub_choice; [|apply sub_choice; [|apply sub_choice; [|apply sub_choice_nil]]].
    + apply (sub_empty_l _ _ any (Forall item_ok) _ ends any); [apply sub_right; go|apply sub_whileu_nil|intros; exact I|auto].
    + apply (sub_empty_l _ _ any (Forall item_ok) _ ends any); [apply sub_right; go|apply items; auto|intros; exact I|auto].
    + apply (sub_seq _ _ any (Forall item_ok) _ ends (is_next ["CHECK"])).
      * apply sub_left, sub_map_any. apply (sub_seq _ _ any any _ (is_next ["CHECK"]) any); try (intros; exact I).
        -- go.
        -- apply sub_maybe; [apply sub_left, sub_map_any, sub_isnext; [exact I|auto]|apply sub_right; go].
      * eapply sub_form; [|apply items; auto]. intros l [L _]. exact L.
      * intros l n L _. now apply check_first.
      * auto.
  - intros n [t [c l]] _ H. cbn in H. split; [|exact I]. cbn. now apply forallb_Forall.
Qed.
Definition table_words := ["PRIMARY"; "UNIQUE"; "FOREIGN"; "CHECK"].
Lemma cname : sub any (is_next table_words) (maybe constraint_name) (GMysql.constraint_name table_words).
Proof.
  apply sub_maybe; [apply sub_right; go|]. apply sub_left, sub_map_any. apply (sub_seq _ _ any any _ (is_next table_words) any); try (intros; exact I); [go|].
  apply sub_maybe; [apply sub_left, sub_map_any, sub_isnext; [exact I|auto]|apply sub_right; go].
Qed.
Lemma keys : forall F k, sub any F key_parts (GMysql.keys k).
Proof. intros F k. go. Qed.
Lemma open_bracket : forall (f : form) l n, (key_parts ;; f) l -> is_next ["("] (hdr l n).
Proof. intros f l n L. apply seq_within in L as (a & b & -> & [->| ->] & _); reflexivity. Qed.
Lemma name_or : forall F : option string -> Prop, (forall n, F n -> is_next ["("] n) -> sub any F (maybe name) (GMysql.name_or_keys false).
Proof. intros F N. apply sub_maybe; [apply sub_left, sub_isnext; [exact I|exact N]|apply sub_right; go]. Qed.
Lemma constraint_element : sub (fun e => readable_element e = true) ends (table_constraint true) GMysql.element.
Proof.
  apply sub_choice; [apply sub_choice_nil|]. apply sub_choice; [apply sub_choice_nil|]. apply sub_choice; [|apply sub_choice_nil].
  apply sub_left, sub_map. apply (sub_seq _ _ any (fun b => readable_body b = true) _ ends (is_next table_words)); [apply cname| | |auto].
  2: { intros l n L _. assert (X : starts table_words (choice
       [word "PRIMARY" ;; word "KEY" ;; maybe index_type ;; key_parts ;; many index_option;
        word "UNIQUE" ;; maybe (one_of ["INDEX"; "KEY"]) ;; (maybe (name ;; maybe index_type)) ;; key_parts ;; many index_option;
        word "CHECK" ;; brackets ;; nothing;
        word "FOREIGN" ;; word "KEY" ;; maybe name ;; within (listed name) ;; word "REFERENCES" ;; name ;; key_parts ;; reference_clauses])) by start.
    destruct l as [|t l]; [exfalso; repeat destruct L as [L|L]; try (destruct L as (l1 & l2 & E & [->| ->] & _); discriminate E); destruct L|].
    destruct (X _ _ L) as (w & W & T). cbn [hdr is_next]. apply matches_spec. exists w. tauto. }
  apply sub_choice; [|apply sub_choice; [|apply sub_choice; [|apply sub_choice; [|apply sub_choice_nil]]]].
  - apply sub_left, sub_map_all; [shape|go].
  - nth 1. apply sub_map_all; [shape|]. do 2 (apply sub_seq_any; [go|]).
    apply sub_form with (f' := choice [key_parts ;; many index_option; name ;; maybe index_type ;; key_parts ;; many index_option]).
    { intros l L. apply maybe_split in L as [L|[L|[]]]; [left; exact L|right; left]. now apply seq_out. }
    apply sub_choice; [|apply sub_choice; [|apply sub_choice_nil]].
    + apply (sub_empty_l _ _ any any _ ends (is_next ["("])); try (intros; exact I).
      * apply sub_left, sub_isnext; [exact I|auto].
      * apply (sub_empty_l _ _ any any _ ends any); try (intros; exact I); go.
      * intros l n L _. eapply open_bracket, L.
    + apply sub_seq_any; [apply sub_right; go|go].
  - nth 3. apply sub_map_all; [shape|]. apply sub_form with (f' := word "CHECK" ;; brackets); [|apply check_plain; intros n N; now apply ends_not].
    apply seq_mono; [auto|]. intros l (l1 & l2 & -> & L & ->). now rewrite app_nil_r.
  - nth 2. apply sub_map. eapply sub_weak; [do 2 (apply sub_seq_snd; [go|]); eapply sub_seq_snd_next with (F1 := is_next ["("]); [apply name_or; auto|do 2 (apply sub_seq_snd; [go|]); apply sub_seq_fst; [apply plain_name|go]|]| |exact (fun _ x => x)].
    + intros l n L _. apply seq_within in L as (a & b & -> & [->| ->] & _); reflexivity.
    + intros (a & b & c & d & e & [s t] & o & x) E. cbn in E. subst s. reflexivity.
Qed.
Lemma options : sub any any (table_option true) (optkw false [","] ** GMysql.table_option).
Proof.
  assert (D : forall f : form, sub any any (maybe (word "DEFAULT") ;; f) (optkw false [","] ** GMysql.table_option) <-> sub any any (choice [f; word "DEFAULT" ;; f]) (optkw false [","] ** GMysql.table_option)).
  { intros f. split; intros H; eapply sub_form; [|exact H| |exact H]; [|apply maybe_split].
    intros l [L|[L|[]]]; [exists [], l; repeat split; auto; now left|]. destruct L as (l1 & l2 & -> & L1 & L2). exists l1, l2. repeat split; auto. now right. }
  repeat apply sub_choice; try apply sub_choice_nil.
  4,6: apply D.
  all: go.
Qed.
Lemma statements : sub stmt_ok any (statement true) GMysql.statement.
Proof.
  apply sub_form with (f' := word "CREATE" ;; word "TABLE" ;; maybe (words ["IF"; "NOT"; "EXISTS"]) ;; (maybe (name ;; word ".") ;; name) ;;
    word "(" ;; (listed (column true) ;; maybe (word "," ;; listed (table_constraint true))) ;; word ")" ;; many (table_option true) ;; word ";").
  { unfold statement. do 3 (apply seq_mono; [auto|]). intros l L. apply seq_in in L. revert l L. apply seq_mono; [auto|]. apply seq_within. }
  apply sub_map. apply (sub_seq _ _ any stmt_ok _ any any); [go| |intros; exact I|auto].
  apply sub_left, sub_map. eapply sub_weak; [apply sub_empty_snd; [now apply sub_put|do 4 (apply sub_seq_snd; [go || apply qualified|])]| |exact (fun _ x => x)].
  - apply (sub_seq _ _ body_ok any (fun x => body_ok (fst x)) any ends).
    + apply sub_listed_app; [apply column_element|apply constraint_element|now left].
    + apply sub_seq_any; [go|]. apply sub_seq_any; [|go]. apply sub_while_any; [fill|apply options].
    + intros l n (l1 & l2 & -> & [->| ->] & _) _; now right.
    + auto.
  - intros (a & b & i & [s t] & c & vs & r) H. now apply body_readable.
Qed.
Theorem script_mysql : forall parts, Forall (statement true) parts ->
  exists out stmts, lang GMysql.script (concat parts) None out stmts /\ readable stmts = true /\ Forall (fun s => exists t, s = STable t) stmts /\
    List.length stmts = List.length parts.
Proof. intros parts H. apply (parts_script parts (statement true) GMysql.statement); [fill|apply statements|exact H]. Qed.
