From Coq Require Import String List Bool Arith Lia.
From Verif Require Import GoStr Types VBase Exec Grammar GrammarFacts Ast Emit Enclosed Converter Parse Spec Pipe Meaning Witness Decide Local LayoutFacts Parts PartsFacts Safe Seen ColumnsFacts Exclude.
From Verif Require GPostgres Read.
Import ListNotations.
Open Scope nat_scope.
Open Scope string_scope.
Open Scope gr_scope.
Open Scope list_scope.

Lemma element_free : nxtfree (element PostgreSQL) = true.
Proof. vm_compute. reflexivity. Qed.
Definition elem (t : list string) (e : a_element) : Prop := exists o, lang (element PostgreSQL) t None o e.
Lemma elem_any : forall t e nxt, elem t e -> exists o, lang (element PostgreSQL) t nxt o e.
Proof. intros t e nxt [o H]. exists o. eapply nxtfree_lang; [exact element_free|exact H]. Qed.

Lemma elements_of : forall ts vs nxt, Forall2 elem ts vs -> ts <> [] -> exists o, lang (elements PostgreSQL) (commas ts) nxt o vs.
Proof.
  intros ts vs nxt H. induction H as [|t e ts vs H1 H2 IH]; intros N; [now elim N|].
  destruct ts as [|t' ts].
  - inversion H2; subst. destruct (elem_any _ _ nxt H1) as [o X]. exists o. now apply sep_one.
  - destruct IH as [o2 Y]; [discriminate|]. destruct (elem_any _ _ (Some ",") H1) as [o X]. exists (o ++ kept true [","] ++ o2)%list. apply (sep_cons _ true t); auto.
Qed.
Lemma elements_are : forall ts, Forall is_element ts -> exists vs, Forall2 elem ts vs.
Proof.
  intros ts H. induction H as [|t ts (o & v & H) _ (vs & IH)]; [exists []; constructor|]. exists (v :: vs). constructor; auto. exists o. exact H.
Qed.
Lemma exclude_elem : forall x, is_exclude x -> exists n, elem x (EConstraint n BNone) /\ (~ is_unnamed x -> n <> None).
Proof.
  intros x (o & [n b] & H). exists n. assert (b = BNone) as ->.
  { destruct H as (l1 & l2 & o1 & o2 & _ & _ & _ & a & E & _). exact E. }
  split.
  - exists o. left. exists (n, BNone). split; auto. destruct H as (l1 & l2 & o1 & o2 & -> & -> & H1 & H2). apply lang_seq; auto. now do 4 right.
  - intros U ->. apply U. destruct H as (l1 & l2 & o1 & o2 & -> & -> & H1 & H2).
    destruct H1 as [(a & E & _)|(a & _ & -> & ->)]; [discriminate|]. exists o2, BNone. exact H2.
Qed.
Lemma silent_unnamed : forall t e, elem t e -> silent e = true -> is_unnamed t.
Proof.
  intros t e [o H] S. destruct e as [|[n|] []]; try discriminate.
  destruct H as [H|H].
  - destruct H as ((n & b) & E & l1 & l2 & o1 & o2 & -> & -> & H1 & H2). inversion E; subst. cbn [fst snd] in *.
    destruct H1 as [(a & C & _)|(a & _ & -> & ->)]; [discriminate|].
    do 4 (destruct H2 as [(? & C & _)|H2]; [repeat match type of C with context [let (_, _) := ?y in _] => destruct y end; discriminate|]).
    exists o2, BNone. exact H2.
  - destruct H as ((? & ? & ? & ?) & E & _). discriminate.
Qed.

Theorem exclude_same : forall ddl ddl' l1 v1 a oa ts1 x ts2 o l2 v2 stmts,
  (exists o1, lang (script PostgreSQL) l1 None o1 v1) -> lang (opening PostgreSQL) a None oa tt ->
  Forall is_element (ts1 ++ ts2)%list -> (ts1 ++ ts2)%list <> [] -> is_exclude x ->
  (exists oo, lang (options PostgreSQL) o (Some ";") oo tt) -> (exists o2, lang (script PostgreSQL) l2 None o2 v2) ->
  (forall f, hd_error (ts1 ++ x :: ts2) = Some f -> ~ is_unnamed f) ->
  tokens PostgreSQL ddl (l1 ++ a ++ commas (ts1 ++ ts2) ++ ")" :: o ++ ";" :: l2) ->
  tokens PostgreSQL ddl' (l1 ++ a ++ commas (ts1 ++ x :: ts2) ++ ")" :: o ++ ";" :: l2) ->
  says PostgreSQL ddl stmts -> readable stmts = true ->
  exists ts, accepted ddl PostgreSQL ts /\ accepted ddl' PostgreSQL ts.
Proof.
  intros ddl ddl' l1 v1 a oa ts1 x ts2 o l2 v2 stmts [o1 S1] A F N X [oo O] [o2 S2] Fst T T' Sy Sa.
  apply opening_value in A as (i & s & n & A). apply elements_are in F as (vs & F). apply Forall2_app_inv_l in F as (vs1 & vs2 & F1 & F2 & ->).
  apply exclude_elem in X as (nm & X & XN).
  assert (B : forall ts vs, Forall2 elem ts vs -> ts <> [] -> exists out, lang (script PostgreSQL) (l1 ++ a ++ commas ts ++ ")" :: o ++ ";" :: l2) None out (v1 ++ STable (mk_atable i s n vs) :: v2)).
  { intros ts vs G NE. destruct (elements_of _ _ (Some ")") G NE) as [oe E].
    pose proof (table_of_parts _ _ _ _ _ _ _ _ _ _ _ _ _ None A E O) as H.
    destruct (statement_cons _ _ _ _ _ H) as (y & z & Q). rewrite Q in H. apply script_one in H. rewrite <- Q in H.
    eexists. replace (l1 ++ a ++ commas ts ++ ")" :: o ++ ";" :: l2)%list with (l1 ++ (a ++ commas ts ++ ")" :: o ++ [";"]) ++ l2)%list.
    2:{ rewrite <- !app_assoc. cbn [app]. now rewrite <- !app_assoc. }
    eapply script_app; [exact S1|]. eapply (script_app _ _ _ _ [_]); [exact H|exact S2]. }
  destruct (B _ _ (Forall2_app F1 F2) N) as [out H].
  assert (G : Forall2 elem (ts1 ++ x :: ts2) (vs1 ++ EConstraint nm BNone :: vs2)) by (apply Forall2_app; auto).
  destruct (B _ _ G) as [out' H']; [now destruct ts1|].
  assert (Sy1 : says PostgreSQL ddl (v1 ++ STable (mk_atable i s n (vs1 ++ vs2)) :: v2)) by (eexists _, _; eauto).
  assert (Sy2 : says PostgreSQL ddl' (v1 ++ STable (mk_atable i s n (vs1 ++ EConstraint nm BNone :: vs2)) :: v2)) by (eexists _, _; eauto).
  rewrite (says_det _ _ _ _ Sy Sy1) in Sa.
  assert (Sa2 : readable (v1 ++ STable (mk_atable i s n (vs1 ++ EConstraint nm BNone :: vs2)) :: v2) = true).
  { unfold readable in *. rewrite forallb_app in *. cbn [forallb readable_stmt] in *. apply andb_true_iff in Sa as [Sa1 Sa]. apply andb_true_iff in Sa as [Sa Sa3].
    rewrite Sa1, Sa3, andb_true_r. cbn [andb]. unfold readable_table, first_ok in *. cbn [at_elements] in *. apply andb_true_iff in Sa as [Sa _].
    rewrite forallb_app in Sa |- *. cbn [forallb readable_element readable_body andb]. rewrite Sa. cbn [andb].
    assert (Y : match vs1 ++ EConstraint nm BNone :: vs2 with e :: _ => silent e = false | [] => True end).
    { destruct G as [|t e ts vs G1 G2]; auto. apply not_true_iff_false. intros C. eapply Fst; [reflexivity|]. eapply silent_unnamed; eauto. }
    destruct (vs1 ++ EConstraint nm BNone :: vs2)%list as [|e [|e' r]]; auto. now rewrite Y. }
  exists (tables_of PostgreSQL (seen (v1 ++ STable (mk_atable i s n (vs1 ++ vs2)) :: v2))). split; [now apply says_seen|].
  replace (tables_of PostgreSQL (seen (v1 ++ STable (mk_atable i s n (vs1 ++ vs2)) :: v2))) with (tables_of PostgreSQL (seen (v1 ++ STable (mk_atable i s n (vs1 ++ EConstraint nm BNone :: vs2)) :: v2))).
  - now apply says_seen.
  - unfold tables_of, seen. rewrite !map_app, !flat_map_app. f_equal. cbn [map flat_map seen_stmt seen_table at_elements at_schema at_name at_ine]. f_equal. f_equal. unfold table_of. cbn [at_elements at_schema at_name at_ine].
    unfold columns_of, constraints_of, seen_table. cbn [at_elements at_schema at_name at_ine]. rewrite !map_app, !flat_map_app. cbn [map flat_map app seen_element seen_body]. reflexivity.
Qed.
