(** What is emitted for a PostgreSQL script.  (Proof device.) *)
From Coq Require Import String Ascii List Bool Arith.
From Verif Require Import GoStr GoNum Types Grammar GrammarFacts Ast Emit Derive GPostgres.
Import ListNotations.
Open Scope nat_scope.
Open Scope string_scope.

Local Notation d := PostgreSQL.

Ltac go := repeat (lang_step; subst; cbn [app fst snd] in *); repeat good_step; cbn [app].

Lemma em_name : forall l nxt o v, Forall good l -> lang name l nxt o v -> name_tok d v /\ o = [v].
Proof. intros l nxt o v G H. unfold name in H. go. split; auto. split; auto. Qed.

Ltac nm := match goal with H : lang name _ _ _ _ |- _ => apply em_name in H as [? ?]; [subst|assumption] end.

Lemma em_columns : forall l nxt o v, Forall good l -> lang columns l nxt o v -> em_names d v o.
Proof.
  intros l nxt o v G H. unfold columns in H. go. apply sym_eq in M, M0; auto. subst.
  cbn [lang] in H0. eapply sep_names in H0 as [F E]; [|apply em_name|eassumption]. 
  eexists. split; [reflexivity|]. split; eauto.
Qed.
Ltac cols := match goal with H : lang columns _ _ _ _ |- _ => apply em_columns in H; [|assumption] end.

Lemma em_table_name : forall l nxt o v, Forall good l -> lang table_name l nxt o v ->
  match fst v with
  | None => o = [snd v] /\ name_tok d (snd v) /\ hdr l nxt = Some (snd v)
  | Some s => o = [s; "."; snd v] /\ name_tok d s /\ name_tok d (snd v) /\ hdr l nxt = Some s
  end.
Proof.
  intros l nxt o v G H. unfold table_name, opt in H. lang_step. lang_step. subst. good_step.
  apply em_name in H as X; auto. destruct X as [N ->].
  assert (LG : l0 = [s]) by apply H. subst l0.
  clear H. lang_step; go; auto. apply sym_eq in M; auto. subst. nm. auto.
Qed.
Ltac tname := match goal with H : lang table_name _ _ _ _ |- _ =>
  apply em_table_name in H; [|assumption]; cbn [fst snd] in H end.

Lemma em_expr_ : forall l nxt o v, lang expr l nxt o v -> Emit.em_expr v /\ o = v.
Proof. intros l nxt o v H. unfold expr in H. go. split; auto. exists b. auto. Qed.
Ltac ex := match goal with H : lang expr _ _ _ _ |- _ => apply em_expr_ in H as [? ?]; subst end.

Ltac hd := match goal with H : _ :: _ = _ |- _ => inversion H; subst; clear H end; repeat good_step.
Ltac nw := eapply not_word; [eassumption|reflexivity].
Ltac nc := eapply not_comma; [eassumption|reflexivity].
Ltac tw := eapply words_in; [eassumption|reflexivity].

Lemma em_constraint : forall t l nxt o v, Forall good (t :: l) -> lang column_constraint (t :: l) nxt o v ->
  em_item d v t o.
Proof.
  intros t l nxt o v G H. unfold column_constraint in H.
  lang_step; [|lang_step; [|lang_step; [|lang_step; [|lang_step; [|lang_step; [|lang_step]]]]]].
  - unfold c_primary in H. go; hd. apply ei_primary_key; auto; [nw|nc].
  - unfold c_notnull in H. go; hd. apply ei_notnull; auto. nc.
  - assert (X : matches ["CHECK"; "DEFAULT"; "COLLATE"; "REFERENCES"] t = false).
    { eapply head_not; [exact H|reflexivity]. }
    unfold c_null in H. lang_step. subst v. lang_step. now apply ei_none.
  - unfold c_unique in H. go; hd. apply ei_unique; auto.
  - unfold c_check in H. go; hd. ex. rewrite app_nil_r. now apply ei_check.
  - unfold c_default in H. go; hd.
    + ex. now apply ei_default_expr.
    + apply ei_default_lit; auto. split; assumption.
  - unfold c_references, opt in H. go; hd; tname; destruct p as [sc tn]; cbn [fst snd] in *;
      (apply ei_references; [assumption|]).
    + nm. repeat match goal with M : matches _ _ = true |- _ => apply sym_eq in M; [subst|reflexivity|reflexivity] end.
      apply (ref_intro d _ _ _ _ (Some _)); [assumption|destruct sc; tauto|now apply one_column].
    + apply (ref_intro d _ _ _ _ None); [assumption|destruct sc; tauto|reflexivity].
  - assert (X : matches ["CHECK"; "DEFAULT"; "COLLATE"; "REFERENCES"] t = false).
    { eapply head_not; [exact H|reflexivity]. }
    unfold c_generated in H. lang_step. subst v. lang_step. now apply ei_none.
Qed.

Lemma em_cname_ : forall ws os l nxt o v, Forall good l -> lang constraint_name l nxt o v -> em_cname d ws os v o.
Proof.
  intros ws os l nxt o v G H. unfold constraint_name, opt in H. go.
  - nm. now apply ec_name.
  - apply ec_none.
Qed.
Ltac cn := match goal with H : lang constraint_name _ _ _ _ |- _ => eapply em_cname_ in H; [|assumption] end.

Lemma em_digits1 : forall l nxt o v, lang digits1 l nxt o v -> em_digits v o.
Proof.
  intros l nxt o v H. unfold digits1, opt in H. go; [|constructor].
  repeat match goal with M : matches [_] _ = true |- _ => apply sym_eq in M; [subst|reflexivity|reflexivity] end.
  constructor; [intros ->; discriminate|assumption].
Qed.
Lemma em_digits2 : forall l nxt o v, lang digits2 l nxt o v -> em_digits v o.
Proof.
  intros l nxt o v H. unfold digits2, opt in H. go; try constructor;
  repeat match goal with M : matches [_] _ = true |- _ => apply sym_eq in M; [subst|reflexivity|reflexivity] end;
  constructor; first [assumption|intros ->; discriminate].
Qed.

Lemma em_type_ : forall l nxt o v, lang type_name l nxt o v -> Emit.em_type v o.
Proof.
  intros l nxt o v H. unfold type_name, optkw, opt in H. go;
  try match goal with H : lang digits1 _ _ _ _ |- _ => apply em_digits1 in H end;
  try match goal with H : lang digits2 _ _ _ _ |- _ => apply em_digits2 in H end;
  rewrite ?app_nil_r; cbn [is_some];
  first [ apply et_plain; [tw|first [assumption|constructor]] | apply et_varying; [tw|assumption|assumption] ].
Qed.

Lemma key_ok_pg : key_ok constraint_key.
Proof.
  intros w t I K. apply matches_one in K. cbn in I. destruct I as [<-|[<-|[<-|[<-|[]]]]]; destruct K as [->| ->]; reflexivity.
Qed.

Lemma em_column_ : forall l nxt o v, Forall good l -> lang column l nxt o v -> em_element d v o.
Proof.
  intros l nxt o v G H. unfold column in H. lang_step. lang_step. lang_step. lang_step. subst. repeat good_step.
  nm. apply ee_column.
  match goal with H : lang type_name _ _ _ _ |- _ => apply em_type_ in H end.
  match goal with H : lang column_constraints _ _ _ _ |- _ => destruct H as (hs & S & ND) end.
  eapply star_items in S; [|exact em_constraint|assumption].
  cn. match goal with |- em_column _ _ (_ ++ ?a ++ ?b ++ ?c) => cbn [app]; eapply ecol with (ot := a) (oc := b) (oi := c) end;
    eauto using key_ok_pg.
Qed.

Lemma em_tconstraint : forall l nxt o v, Forall good l -> lang table_constraint l nxt o v -> em_element d v o.
Proof.
  intros l nxt o v G H. unfold table_constraint in H. lang_step. lang_step. subst. good_step. cn.
  eapply ee_constraint; [eassumption|]. clear H.
  lang_step; [|lang_step; [|lang_step; [|lang_step]]].
  - unfold t_primary in H0. go. cols. rewrite ?app_nil_r. apply eb_primary; auto. nc.
  - unfold t_unique in H0. go. cols. rewrite ?app_nil_r. apply eb_unique; auto.
  - unfold t_check in H0. go. ex. rewrite app_nil_r. now apply eb_check.
  - unfold t_foreign, opt in H0. go; tname; destruct p as [sc tn];
    match goal with H : lang columns ?l _ ?o ?v |- em_body _ (BForeign ?v _) _ => apply em_columns in H; [|assumption] end;
      try cols; rewrite ?app_nil_r; (apply eb_foreign; [assumption|nc|assumption|]).
    + apply (ref_intro d _ _ _ _ (Some _)); try assumption; try reflexivity. destruct sc; cbn [fst snd] in *; tauto.
    + rewrite <- (app_nil_r (_ :: _)). apply (ref_intro d _ _ _ _ None); try assumption; try reflexivity. destruct sc; cbn [fst snd] in *; tauto.
  - unfold t_exclude in H0. lang_step. subst. lang_step. now apply eb_none.
Qed.

Lemma em_element_ : forall l nxt o v, nxt = Some "," \/ nxt = Some ")" -> Forall good l -> lang element l nxt o v -> em_element d v o.
Proof. intros l nxt o v _ G H. unfold element in H. lang_step; eauto using em_column_, em_tconstraint. Qed.

Ltac sn := repeat match goal with
  | H : _ /\ _ |- _ => destruct H
  | M : context [hdr (_ ++ _)%list _] |- _ => rewrite hdr_app in M
  | H : hdr ?l ?n = _, M : context [hdr ?l ?n] |- _ => rewrite H in M
  end; subst; repeat match goal with |- _ /\ _ => split end; auto; try discriminate.

Lemma em_stmt : forall l nxt o v, Forall good l -> lang statement l nxt o v ->
  match v with STable t => em_table d t o | SOther => o = [] end.
Proof.
  intros l nxt o v G H. unfold statement, create_other in H. go.
  - unfold create_table, if_not_exists, opt in *. go; tname; destruct p as [sc tn];
      match goal with H : lang (SepBy _ _) _ _ _ _ |- _ => cbn [lang] in H; eapply sep_elements in H; [|exact em_element_| |assumption] end;
      repeat match goal with M : matches [?w] _ = true |- _ =>
        let r := eval compute in (to_lower w =? w) in lazymatch r with true => apply sym_eq in M; [subst|reflexivity|reflexivity] end end;
      try reflexivity.
    + match goal with |- em_table _ _ (_ :: ?k :: ?i1 :: ?i2 :: ?i3 :: ?os ++ "(" :: ?oe ++ _) =>
        apply (etab d true sc tn _ "CREATE" k [i1; i2; i3] os oe);
          [reflexivity|assumption|exists i1, i2, i3; repeat split; auto; nc| | |assumption] end;
      destruct sc as [sc|]; cbn [fst snd] in *; sn.
    + match goal with |- em_table _ _ (_ :: ?k :: ?os ++ "(" :: ?oe ++ _) =>
        apply (etab d false sc tn _ "CREATE" k [] os oe);
          [reflexivity|assumption|reflexivity| | |assumption] end;
      destruct sc as [sc|]; cbn [fst snd] in *; sn.
  - reflexivity.
Qed.

Theorem em_script_ : forall l nxt o v, Forall good l -> lang script l nxt o v -> em_script d v o.
Proof. intros l nxt o v G (hs & H). eapply star_script; [exact em_stmt|exact G|exact H]. Qed.
