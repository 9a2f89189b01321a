(** The changed grammars are parts of those of README.md, and means to show that a token list is of a form. *)
From Coq Require Import String List Bool Arith Lia.
From Verif Require Import GoStr GoNum Types Grammar Ast Parse Seen Spec Meaning Witness Readme ReadmeFacts.
From Verif Require ReadmeSqlite ReadmePostgres ReadmeMysql.
Import ListNotations.
Open Scope nat_scope.
Open Scope string_scope.
Open Scope list_scope.
Open Scope form_scope.

Definition within_form (f g : form) : Prop := forall l, f l -> g l.
Lemma in_same : forall f, within_form f f. Proof. intros f l L. exact L. Qed.
Lemma in_seq : forall f f' g g', within_form f f' -> within_form g g' -> within_form (f ;; g) (f' ;; g').
Proof. intros f f' g g' H K. exact (seq_mono f f' g g' H K). Qed.
Lemma in_maybe : forall f g, within_form f g -> within_form (maybe f) (maybe g).
Proof. intros f g H l [L|L]; [now left|right; now apply H]. Qed.
Lemma in_choice : forall f g fs gs, within_form f g -> within_form (choice fs) (choice gs) -> within_form (choice (f :: fs)) (choice (g :: gs)).
Proof. intros f g fs gs H K l [L|L]; [left; now apply H|right; now apply K]. Qed.
Lemma in_many : forall f g, within_form f g -> within_form (many f) (many g).
Proof. intros f g H l L. induction L; constructor; auto. Qed.
Lemma in_listed : forall f g, within_form f g -> within_form (listed f) (listed g).
Proof. intros f g H l L. induction L; [apply listed_one|apply listed_cons]; auto. Qed.
Lemma in_within : forall f g, within_form f g -> within_form (within f) (within g).
Proof. intros f g H. apply in_seq; [apply in_same|]. apply in_seq; [exact H|apply in_same]. Qed.
Lemma in_none : forall g, within_form (choice []) g. Proof. intros g l []. Qed.
Lemma in_left : forall f g gs, within_form f g -> within_form f (choice (g :: gs)).
Proof. intros f g gs H l L. left. auto. Qed.
Lemma in_right : forall f g gs, within_form f (choice gs) -> within_form f (choice (g :: gs)).
Proof. intros f g gs H l L. right. now apply H. Qed.
Lemma distinct_many : forall kind clash f g, within_form f g -> within_form (distinct kind clash f) (many g).
Proof.
  intros kind clash f g H l (items & -> & _ & L & _). induction L; cbn [concat]; [constructor|]. apply many_cons; auto.
Qed.
(** the first one has a name *)
Lemma distinct_named : forall kind clash f g n, within_form f g -> within_form (maybe n ;; distinct kind clash f) (many (maybe n ;; g)).
Proof.
  intros kind clash f g n H l (l1 & l2 & -> & N & items & -> & Z & L & _). destruct items as [|i items]; [now elim Z|]. inversion L; subst. cbn [concat]. rewrite app_assoc.
  apply many_cons; [exists l1, i; auto|]. clear Z L H2. induction H3; cbn [concat]; [constructor|]. apply many_cons; auto. exists [], x. repeat split; auto. now left.
Qed.
Ltac narrow :=
  lazymatch goal with
  | |- within_form ?f ?f => apply in_same
  | |- within_form (choice []) _ => apply in_none
  | |- within_form (seq _ _) (seq _ _) => apply in_seq; narrow
  | |- within_form (maybe _) (maybe _) => apply in_maybe; narrow
  | |- within_form (within _) (within _) => apply in_within; narrow
  | |- within_form (many _) (many _) => apply in_many; narrow
  | |- within_form (listed _) (listed _) => apply in_listed; narrow
  | |- within_form (choice (_ :: _)) (choice (_ :: _)) => apply in_choice; narrow
  | |- _ => idtac
  end.

Theorem within_sqlite : within_form (ReadmeSqlite.statement true) (ReadmeSqlite.statement false).
Proof.
  assert (R : within_form (ReadmeSqlite.reference_clauses true) (ReadmeSqlite.reference_clauses false)).
  { unfold ReadmeSqlite.reference_clauses. narrow. cbn iota. intros l L.
    destruct L as [[->| ->]|[[->| ->]|[L|[]]]]; [left|left|left|left|right; now left]; (eexists; split; [|reflexivity]; vm_compute; reflexivity). }
  assert (I : within_form (ReadmeSqlite.column_constraint true) (ReadmeSqlite.column_constraint false)).
  { unfold ReadmeSqlite.column_constraint. narrow. exact R. }
  unfold ReadmeSqlite.statement. cbn iota. narrow.
  - unfold ReadmeSqlite.column. cbn iota. narrow. intros l [->|[L|[]]]; [constructor|]. revert l L. apply distinct_named. exact I.
  - unfold ReadmeSqlite.table_constraint. narrow. exact R.
  - unfold ReadmeSqlite.table_options. cbn iota. intros l [->|[L|[L|[]]]].
    + exists [], []. repeat split; now left.
    + exists l, []. rewrite app_nil_r. repeat split; [now right|now left].
    + exists [], l. repeat split; [now left|now right].
  - intros l L. now right.
Qed.
Theorem within_postgres : within_form (ReadmePostgres.statement true) (ReadmePostgres.statement false).
Proof.
  assert (I : within_form (ReadmePostgres.column_constraint true) (ReadmePostgres.column_constraint false)).
  { unfold ReadmePostgres.column_constraint. cbn iota. narrow. }
  unfold ReadmePostgres.statement. narrow.
  - unfold ReadmePostgres.table. cbn iota. intros l [L|[L|[]]]; [destruct L as (a & b & -> & A & B); exists a, b; repeat split; auto; now right|].
    exists [], l. repeat split; [now left|apply L].
  - unfold ReadmePostgres.column. cbn iota. narrow. intros l [->|[L|[]]]; [constructor|]. revert l L. apply distinct_named. exact I.
Qed.
Theorem within_mysql : within_form (ReadmeMysql.statement true) (ReadmeMysql.statement false).
Proof.
  assert (C : within_form (ReadmeMysql.collation_name true) (ReadmeMysql.collation_name false)) by (intros l L; now left).
  assert (I : within_form (ReadmeMysql.column_constraint true) (ReadmeMysql.column_constraint false)).
  { unfold ReadmeMysql.column_constraint. narrow. exact C. }
  unfold ReadmeMysql.statement. narrow.
  - unfold ReadmeMysql.column. cbn iota. narrow. intros l [->|[L|[L|[]]]]; [constructor| |].
    + revert l L. apply distinct_many, in_left, I.
    + destruct L as (a & b & -> & A & (items & -> & Z & L & _) & E). destruct items as [|i items]; [now elim Z|]. inversion L; subst. cbn [concat]. rewrite app_assoc.
      apply many_cons.
      * right; left. exists a, i. repeat split; auto.
        assert (E' : first_of i = "CHECK").
        { destruct i as [|t i]; [|exact E]. exfalso. assert (X : filled (ReadmeMysql.column_constraint true)) by fill. now apply (X [] H1). }
        assert (S : forall w f, (word w ;; f) i -> to_upper (to_upper w) = to_upper w -> to_upper (to_lower w) = to_upper w -> to_upper w = "CHECK").
        { intros w f (l1 & l2 & -> & [->| ->] & _) U V; cbn in E'; congruence. }
        assert (S1 : forall w, word w i -> to_upper (to_upper w) = to_upper w -> to_upper (to_lower w) = to_upper w -> to_upper w = "CHECK").
        { intros w [->| ->] U V; cbn in E'; congruence. }
        unfold ReadmeMysql.column_constraint in H1. cbn [choice] in H1.
        repeat (destruct H1 as [H1|H1]; [try exact H1; exfalso; first [apply S in H1; [discriminate H1|reflexivity|reflexivity] | apply S1 in H1; [discriminate H1|reflexivity|reflexivity]
          | apply maybe_split in H1 as [H1|[H1|[]]]; first [apply S in H1; [discriminate H1|reflexivity|reflexivity] | apply S1 in H1; [discriminate H1|reflexivity|reflexivity]
             | cbn [words] in H1; apply seq_out in H1; apply S in H1; [discriminate H1|reflexivity|reflexivity]]]|]); try destruct H1.
      * clear Z L E H1. induction H2; cbn [concat]; [constructor|]. apply many_cons; auto. left. now apply I.
  - unfold ReadmeMysql.table_constraint. cbn iota. narrow.
    + intros l [->|(a & b & -> & A & B)]; [exists [], []; repeat split; now left|]. exists a, b. repeat split; auto. now right.
    + intros l ->. now left.
  - unfold ReadmeMysql.table_option. narrow; exact C.
Qed.

Lemma script_accepted : forall d ddl parts, tokens d ddl (concat parts) ->
  (exists out stmts, lang (script d) (concat parts) None out stmts /\ readable stmts = true /\ Forall (fun s => exists t, s = STable t) stmts /\
    List.length stmts = List.length parts) ->
  exists ts, accepted ddl d ts /\ List.length ts = List.length parts.
Proof.
  intros d ddl parts T (o & stmts & L & R & S & N). assert (Y : says d ddl stmts) by (exists (concat parts), o; auto).
  pose proof (says_seen d ddl stmts Y R) as A. eexists. split; [exact A|]. rewrite (table_count _ _ _ _ A Y R), <- N. clear -S.
  induction S as [|s l [t ->] _ IH]; cbn; auto.
Qed.

(** ** Concrete token lists *)
Lemma eat_start : forall f l, (f ;; nothing) l -> f l.
Proof. intros f l (a & b & -> & A & ->). now rewrite app_nil_r. Qed.
Lemma eat_end : nothing []. Proof. reflexivity. Qed.
Lemma eat_word : forall w (g : form) t l, (t = to_upper w \/ t = to_lower w) -> g l -> (word w ;; g) (t :: l).
Proof. intros w g t l E G. exists [t], l. repeat split; auto. destruct E as [->| ->]; [now left|now right]. Qed.
Lemma eat_token : forall k (g : form) t l, k t = true -> g l -> (token k ;; g) (t :: l).
Proof. intros k g t l E G. exists [t], l. repeat split; auto. exists t. auto. Qed.
Lemma eat_nothing : forall (g : form) l, g l -> (nothing ;; g) l.
Proof. intros g l G. exists [], l. repeat split; auto. Qed.
Lemma eat_none : forall f (g : form) l, g l -> (maybe f ;; g) l.
Proof. intros f g l G. exists [], l. repeat split; auto. now left. Qed.
Lemma eat_some : forall f g l, (f ;; g) l -> (maybe f ;; g) l.
Proof. intros f g l (a & b & -> & A & B). exists a, b. repeat split; auto. now right. Qed.
Lemma eat_here : forall f fs g l, (f ;; g) l -> (choice (f :: fs) ;; g) l.
Proof. intros f fs g l (a & b & -> & A & B). exists a, b. repeat split; auto. now left. Qed.
Lemma eat_there : forall f fs g l, (choice fs ;; g) l -> (choice (f :: fs) ;; g) l.
Proof. intros f fs g l (a & b & -> & A & B). exists a, b. repeat split; auto. now right. Qed.
Lemma eat_seq : forall f g h l, (f ;; g ;; h) l -> ((f ;; g) ;; h) l.
Proof. exact seq_in. Qed.
Lemma eat_stop : forall f (g : form) l, g l -> (many f ;; g) l.
Proof. intros f g l G. exists [], l. repeat split; auto. constructor. Qed.
Lemma eat_more : forall f g l, (f ;; many f ;; g) l -> (many f ;; g) l.
Proof. intros f g l (a & b & -> & A & c & d & -> & C & D). exists (a ++ c), d. rewrite app_assoc. repeat split; auto. now constructor. Qed.
Lemma eat_last : forall f g l, (f ;; g) l -> (listed f ;; g) l.
Proof. intros f g l (a & b & -> & A & B). exists a, b. repeat split; auto. now constructor. Qed.
Lemma eat_comma : forall f g l, (f ;; word "," ;; listed f ;; g) l -> (listed f ;; g) l.
Proof.
  intros f g l (a & b & -> & A & c & d & -> & C & e & h & -> & E & H). exists (a ++ "," :: e), h.
  destruct C as [->| ->]; cbn [app]; rewrite <- app_assoc; repeat split; auto; now apply listed_cons.
Qed.
Lemma eat_brackets : forall e (g : form) l, balanced e -> g l -> (brackets ;; g) ("(" :: e ++ ")" :: l).
Proof. intros e g l E G. exists ("(" :: e ++ [")"]), l. cbn [app]. rewrite <- app_assoc. repeat split; auto. exists e. auto. Qed.
Lemma eat_not_if : forall f g l, filled f -> hd "" l <> "IF" -> hd "" l <> "if" -> (f ;; g) l -> (ReadmePostgres.not_if f ;; g) l.
Proof.
  intros f g l F N1 N2 (a & b & -> & A & B). exists a, b. repeat split; auto; destruct a; auto; now elim (F _ A).
Qed.
Lemma eat_distinct : forall kind clash f (g : form) items r l, l = concat items ++ r -> items <> [] -> Forall f items ->
  NoDup (map (fun i => kind (first_of i)) items) -> apart clash items -> g r -> (distinct kind clash f ;; g) l.
Proof. intros kind clash f g items r l -> Z L D S G. exists (concat items), r. repeat split; auto. exists items. auto. Qed.
Lemma eat_check : forall (g : form) items r l, l = concat items ++ r -> first_of l = "CHECK" -> items <> [] -> Forall (ReadmeMysql.column_constraint true) items ->
  NoDup (map (fun i => ReadmeMysql.kind (first_of i)) items) -> apart ReadmeMysql.clash items -> g r ->
  (ReadmeMysql.begins_with_check ReadmeMysql.column_constraints ;; g) l.
Proof.
  intros g items r l -> E Z L D S G. exists (concat items), r. repeat split; auto; [exists items; auto|].
  destruct items as [|[|t i] items]; [now elim Z| |exact E]. inversion L; subst. exfalso.
  assert (X : filled (ReadmeMysql.column_constraint true)) by fill. now apply (X [] H1).
Qed.

Ltac flat := repeat (apply bal_tok; [discriminate|discriminate|]); apply bal_nil.
Ltac differ := vm_compute; repeat (apply NoDup_cons; [intros H; repeat (destruct H as [H|H]; [discriminate H|]); destruct H|]); apply NoDup_nil.
(** The constraints of a column are given as a local definition [list (list string)]. *)
Ltac eat :=
  lazymatch goal with
  | |- nothing [] => apply eat_end
  | |- (word _ ;; _)%form _ => apply eat_word; [first [left; reflexivity|right; reflexivity]|eat]
  | |- (token _ ;; _)%form _ => apply eat_token; [vm_compute; reflexivity|eat]
  | |- (nothing ;; _)%form _ => apply eat_nothing; eat
  | |- (brackets ;; _)%form ("(" :: ?a :: ")" :: _) => apply (eat_brackets [a]); [flat|eat]
  | |- (brackets ;; _)%form ("(" :: ?a :: ?b :: ?c :: ")" :: _) => apply (eat_brackets [a; b; c]); [flat|eat]
  | |- (maybe _ ;; _)%form _ => first [apply eat_some; solve [eat] | apply eat_none; eat]
  | |- (choice (_ :: _) ;; _)%form _ => first [apply eat_here; solve [eat] | apply eat_there; eat]
  | |- ((_ ;; _) ;; _)%form _ => apply eat_seq; eat
  | |- (many _ ;; _)%form _ => first [apply eat_more; solve [eat] | apply eat_stop; eat]
  | |- (listed _ ;; _)%form _ => first [apply eat_comma; solve [eat] | apply eat_last; eat]
  | |- (one_of _ ;; _)%form _ => unfold one_of; cbn [map]; eat
  | |- (words _ ;; _)%form _ => cbn [words]; eat
  | |- ((if _ then _ else _) ;; _)%form _ => cbn iota; eat
  | |- (distinct _ _ _ ;; _)%form _ =>
      match goal with
      | it := ?i : list (list string) |- _ =>
          eapply (eat_distinct _ _ _ _ i); [cbn [concat app]; reflexivity|discriminate|repeat (apply Forall_cons; [eat|]); apply Forall_nil|differ|vm_compute; tauto|solve [eat]]
      end
  | |- (ReadmeMysql.begins_with_check _ ;; _)%form _ =>
      match goal with
      | it := ?i : list (list string) |- _ =>
          eapply (eat_check _ i); [cbn [concat app]; reflexivity|reflexivity|discriminate|repeat (apply Forall_cons; [eat|]); apply Forall_nil|differ|vm_compute; tauto|solve [eat]]
      end
  | |- (ReadmePostgres.not_if _ ;; _)%form _ => apply eat_not_if; [fill|discriminate|discriminate|eat]
  | |- (?f ;; _)%form _ => let h := head_form f in unfold h; eat
  | |- _ => apply eat_start; eat
  end.
