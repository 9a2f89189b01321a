(** What is emitted for a MySQL script.  (Proof device.) *)
From Coq Require Import String Ascii List Bool Arith.
From Verif Require Import GoStr GoNum Types Grammar GrammarFacts Ast Emit Derive GMysql.
Import ListNotations.
Open Scope nat_scope.
Open Scope string_scope.

Local Notation d := MySQL.

Ltac go := repeat (lang_step; subst; cbn [app fst snd] in *); repeat good_step; cbn [app].

Lemma em_name : forall l nxt o v, Forall good l -> lang name l nxt o v -> name_tok d v /\ o = [v].
Proof. intros l nxt o v G H. unfold name in H. go. split; auto. split; auto. Qed.

Ltac nm := match goal with H : lang name _ _ _ _ |- _ => apply em_name in H as [? ?]; [subst|assumption] end.

Lemma em_columns : forall l nxt o v, Forall good l -> lang columns l nxt o v -> em_names d v o.
Proof.
  intros l nxt o v G H. unfold columns in H. go. apply sym_eq in M, M0; auto. subst.
  cbn [lang] in H0. eapply sep_names in H0 as [F E]; [|apply em_name|eassumption]. 
  eexists. split; [reflexivity|]. split; eauto.
Qed.
Ltac cols := match goal with H : lang columns _ _ _ _ |- _ => apply em_columns in H; [|assumption] end.

Lemma em_keys : forall l nxt o v, Forall good l -> lang (keys true) l nxt o v -> em_names d v o.
Proof.
  intros l nxt o v G H. unfold keys in H. go. apply sym_eq in M, M0; auto. subst.
  match goal with H : lang (SepBy _ _) _ _ _ _ |- _ => cbn [lang] in H; rename H into S end.
  match goal with S : sepby _ _ ?l _ ?o ?v |- _ =>
    assert (X : Forall (fun t => t = "," \/ name_tok d t) o /\ some_of v = filter (fun t => negb (t =? ",")) o) end.
  { match goal with G : Forall good ?l, S : sepby _ _ ?l _ _ _ |- _ => clear - G S; rename G into GG end.
    assert (K : forall l nxt o v, Forall good l -> lang (key_part true) l nxt o v ->
      match v with Some n => o = [n] /\ name_tok d n | None => o = [] end).
    { clear. intros l nxt o v G H. unfold key_part in H. go.
      - reflexivity.
      - split; auto. split; auto. }
    assert (N : forall v, name_tok d v -> (v =? ",") = false).
    { intros v [L _]. apply String.eqb_neq. intros ->. discriminate. }
    induction S as [l11 nx o v L|l11 l12 nx o1 o2 v vs L S IH].
    - apply K in L; auto. destruct v as [n|]; [destruct L as [-> L]|subst]; cbn; auto. rewrite (N n L). cbn. auto.
    - repeat good_step. match goal with H : Forall good l12 |- _ => destruct (IH H) as [IH1 IH2] end.
      apply K in L; auto. destruct v as [n|]; [destruct L as [-> L]|subst]; cbn [kept app filter some_of flat_map String.eqb Ascii.eqb Bool.eqb negb].
      + rewrite (N n L). cbn [negb]. fold (some_of vs). rewrite IH2. auto.
      + fold (some_of vs). rewrite IH2. auto. }
  destruct X as [X1 X2]. eexists. split; [reflexivity|]. split; eauto.
Qed.
Ltac kys := match goal with H : lang (keys true) _ _ _ _ |- _ => apply em_keys in H; [|assumption] end.

Lemma em_table_name : forall l nxt o v, Forall good l -> lang table_name l nxt o v ->
  match fst v with
  | None => o = [snd v] /\ name_tok d (snd v) 
  | Some s => o = [s; "."; snd v] /\ name_tok d s /\ name_tok d (snd v) 
  end.
Proof.
  intros l nxt o v G H. unfold table_name, opt in H. lang_step. lang_step. subst. good_step.
  apply em_name in H as X; auto. destruct X as [N ->].
  assert (LG : l0 = [s]) by apply H. subst l0.
  clear H. lang_step; go; auto. apply sym_eq in M; auto. subst. nm. auto.
Qed.
Ltac tname := match goal with H : lang table_name _ _ _ _ |- _ =>
  apply em_table_name in H; [|assumption]; cbn [fst snd] in H end.

Lemma em_expr_ : forall l nxt o v, lang expr l nxt o v -> Emit.em_expr v /\ o = v.
Proof. intros l nxt o v H. unfold expr in H. go. split; auto. exists b. auto. Qed.
Ltac ex := match goal with H : lang expr _ _ _ _ |- _ => apply em_expr_ in H as [? ?]; subst end.

Ltac hd := match goal with H : _ :: _ = _ |- _ => inversion H; subst; clear H end; repeat good_step.
Ltac nw := eapply not_word; [eassumption|reflexivity].
Ltac nc := eapply not_comma; [eassumption|reflexivity].
Ltac tw := eapply words_in; [eassumption|reflexivity].

Lemma em_constraint : forall t l nxt o v, Forall good (t :: l) -> lang column_constraint (t :: l) nxt o v ->
  em_item d v t o.
Proof.
  intros t l nxt o v G H. unfold column_constraint in H.
  assert (Z : forall g : gr a_item, quiet g = true -> lang g (t :: l) nxt o v -> v = INone ->
    forallb (la_is (next_in ["CHECK"; "DEFAULT"; "COLLATE"; "REFERENCES"]) false) (look g [FAny; FEof]) = true ->
    em_item d v t o).
  { intros g Q L -> K. rewrite (quiet_out _ g Q _ _ _ _ L). apply ei_none. eapply head_not; eauto. }
  destruct H as [H|[H|[H|[H|[H|[H|[H|[H|[H|[H|[H|[H|[H|[H|H]]]]]]]]]]]]]].
  - assert (X : matches ["CHECK"; "DEFAULT"; "COLLATE"; "REFERENCES"] t = false).
    { eapply head_not; [exact H|reflexivity]. }
    unfold c_primary in H. go.
    + apply ei_primary_key; [exact X|reflexivity|discriminate].
    + apply ei_primary_key; auto. nc.
  - unfold c_notnull in H. go; hd. apply ei_notnull; auto. nc.
  - apply (Z c_null); auto. now destruct H as (a & -> & _).
  - unfold c_unique in H. go; hd. apply ei_unique; auto.
  - unfold c_check, check in H. go; hd. ex. rewrite app_nil_r. now apply ei_check.
  - unfold c_default in H. go; hd.
    + ex. now apply ei_default_expr.
    + apply ei_default_lit; auto. split; assumption.
  - unfold c_collate in H. go; hd. nm. apply ei_collate; auto; [|apply H0|left; apply H0].
    intros ->. destruct H0. discriminate.
  - unfold c_references, opt in H. go; hd; tname; destruct p as [sc tn]; cbn [fst snd] in *;
      (apply ei_references; [assumption|]).
    + nm. repeat match goal with M : matches _ _ = true |- _ => apply sym_eq in M; [subst|reflexivity|reflexivity] end.
      apply (ref_intro d _ _ _ _ (Some _)); [assumption|destruct sc; tauto|now apply one_column].
    + apply (ref_intro d _ _ _ _ None); [assumption|destruct sc; tauto|reflexivity].
  - apply (Z c_generated); auto. now destruct H as (a & -> & _).
  - apply (Z c_comment); auto. now destruct H as (a & -> & _).
  - apply (Z c_format); auto. now destruct H as (a & -> & _).
  - apply (Z c_engine); auto. now destruct H as (a & -> & _).
  - apply (Z c_storage); auto. now destruct H as (a & -> & _).
  - unfold c_auto in H. go; hd. apply ei_auto. eapply matches_from; [|eassumption]. cbn; auto.
  - apply (Z _) in H; auto. now destruct H as (a & -> & _).
Qed.

Lemma em_item_check : forall i h o, em_item d i h o -> matches ["CHECK"] h = true -> exists o', o = h :: o'.
Proof.
  assert (K : forall h, matches ["CHECK"] h = true -> matches ["CHECK"; "DEFAULT"; "COLLATE"; "REFERENCES"] h = true).
  { intros h H. eapply matches_from; [|exact H]. cbn; auto. }
  intros i h o E C. inversion E; subst; eauto; try (apply K in C; congruence).
  apply matches_one in C. unfold kwd in *. destruct C as [->| ->]; discriminate.
Qed.

Lemma em_cname_ : forall ws ws' l2 nxt os l o v, Forall good l -> lang (constraint_name ws) l (hdr l2 nxt) o v ->
  (forall t, hdr l2 nxt = Some t -> matches ws t = true -> exists l', os = t :: l') ->
  (forall t, matches ws t = true -> matches ws' t = true) ->
  em_cname d ws' os v o.
Proof.
  intros ws ws' l2 nxt os l o v G H HD SUB. unfold constraint_name in H. go.
  - destruct (hdr l2 nxt) as [t|] eqn:E; [|contradiction]. destruct (HD t eq_refl M) as [l' ->]. eapply ec_anon; eauto.
  - nm. now apply ec_name.
  - apply ec_none.
Qed.

Lemma em_digits1 : forall l nxt o v, lang digits1 l nxt o v -> em_digits v o.
Proof.
  intros l nxt o v H. unfold digits1, opt in H. go; [|constructor].
  repeat match goal with M : matches [_] _ = true |- _ => apply sym_eq in M; [subst|reflexivity|reflexivity] end.
  constructor; [intros ->; discriminate|assumption].
Qed.
Lemma em_digits2 : forall l nxt o v, lang digits2 l nxt o v -> em_digits v o.
Proof.
  intros l nxt o v H. unfold digits2, opt in H. go; try constructor;
  repeat match goal with M : matches [_] _ = true |- _ => apply sym_eq in M; [subst|reflexivity|reflexivity] end;
  constructor; first [assumption|intros ->; discriminate].
Qed.

Lemma em_type_ : forall l nxt o v, lang type_name l nxt o v -> Emit.em_type v o.
Proof.
  intros l nxt o v H. unfold type_name, optkw, opt in H. go;
  try match goal with H : lang digits1 _ _ _ _ |- _ => apply em_digits1 in H end;
  try match goal with H : lang digits2 _ _ _ _ |- _ => apply em_digits2 in H end;
  rewrite ?app_nil_r; (apply et_plain; [tw|first [assumption|constructor]]).
Qed.

Lemma key_ok_mysql : key_ok constraint_key.
Proof.
  intros w t I K. apply matches_one in K. cbn in I. destruct I as [<-|[<-|[<-|[<-|[]]]]]; destruct K as [->| ->]; reflexivity.
Qed.

Lemma em_column_ : forall l nxt o v, nxt = Some "," \/ nxt = Some ")" -> Forall good l -> lang column l nxt o v ->
  em_element d v o.
Proof.
  intros l nxt o v NX G H. unfold column in H. lang_step. lang_step. lang_step. lang_step. subst. repeat good_step.
  nm. apply ee_column.
  match goal with H : lang type_name _ _ _ _ |- _ => apply em_type_ in H end.
  match goal with H : lang column_constraints _ _ _ _ |- _ => destruct H as (hs & S & ND) end.
  assert (S' := S). eapply star_items in S'; [|exact em_constraint|assumption].
  match goal with |- em_column _ _ (_ ++ ?a ++ ?b ++ ?c) => cbn [app]; eapply ecol with (ot := a) (oc := b) (oi := c) end;
    eauto using key_ok_mysql.
  match goal with H : lang (constraint_name _) _ _ _ _ |- _ => eapply em_cname_; [|exact H| |auto]; [assumption|] end.
  intros t HD C. inversion S; subst; cbn [hdr] in HD.
  - destruct NX as [->| ->]; inversion HD; subst; discriminate.
  - inversion HD; subst. inversion S'; subst.
    match goal with E : em_item _ _ _ _ |- _ => apply em_item_check in E as [o' ->]; auto end.
    cbn [app] in *. eauto.
Qed.

Ltac syms := repeat match goal with M : matches [?w] _ = true |- _ =>
  let r := eval compute in (to_lower w =? w) in lazymatch r with true => apply sym_eq in M; [subst|reflexivity|reflexivity] end end.

Definition body : gr a_body :=
  Case ["PRIMARY"] of t_primary or
  Case ["UNIQUE"] of t_unique or
  Case ["FOREIGN"] of t_foreign or
  Case ["CHECK"] of t_check or
  Case ["INDEX"; "KEY"] of t_index or
  t_fulltext.

Lemma em_body_ : forall l nxt o v, Forall good l -> lang body l nxt o v -> em_body d v o /\
  forall t, hdr l nxt = Some t -> matches ["PRIMARY"; "UNIQUE"; "FOREIGN"; "CHECK"] t = true -> exists l', o = t :: l'.
Proof.
  intros l nxt o v G H. destruct H as [H|[H|[H|[H|[H|H]]]]].
  - unfold t_primary in H. go. kys. rewrite ?app_nil_r. split; [apply eb_primary; auto; nc|].
    cbn [hdr]. intros t T. inversion T; subst. eauto.
  - unfold t_unique in H. go. kys. rewrite ?app_nil_r. split; [apply eb_unique; auto|].
    cbn [hdr]. intros t T. inversion T; subst. eauto.
  - unfold t_foreign in H. go. tname. kys. cols. rewrite ?app_nil_r. destruct p as [sc tn]. split.
    + apply eb_foreign; [assumption|nc|assumption|]. apply (ref_intro d _ _ _ _ (Some _)); try assumption.
    + cbn [hdr]. intros t T. inversion T; subst. eauto.
  - unfold t_check, check in H. go. ex. rewrite app_nil_r. split; [now apply eb_check|].
    cbn [hdr]. intros t T. inversion T; subst. eauto.
  - assert (X : forall t, hdr l nxt = Some t -> matches ["PRIMARY"; "UNIQUE"; "FOREIGN"; "CHECK"] t = false).
    { intros t T. pose proof (eats_lang _ t_index l nxt o v eq_refl H). destruct l as [|t' l]; [congruence|].
      inversion T; subst. eapply head_not; [exact H|reflexivity]. }
    split; [|intros t T M; rewrite (X t T) in M; discriminate]. clear X. unfold t_index, keys, name_or_keys in H. go; syms; (apply eb_index; [reflexivity|now left]).
  - assert (X : forall t, hdr l nxt = Some t -> matches ["PRIMARY"; "UNIQUE"; "FOREIGN"; "CHECK"] t = false).
    { intros t T. pose proof (eats_lang _ t_fulltext l nxt o v eq_refl H). destruct l as [|t' l]; [congruence|].
      inversion T; subst. eapply head_not; [exact H|reflexivity]. }
    split; [|intros t T M; rewrite (X t T) in M; discriminate]. clear X. unfold t_fulltext, keys, name_or_keys in H. go; syms;
      (apply eb_index; [reflexivity|]); [now left|right]. eexists. split; [split; eassumption|reflexivity].
Qed.

Lemma em_tconstraint : forall l nxt o v, Forall good l -> lang table_constraint l nxt o v -> em_element d v o.
Proof.
  intros l nxt o v G H. unfold table_constraint in H. fold body in H. lang_step. lang_step. subst. good_step.
  match goal with H : lang body _ _ _ _ |- _ => apply em_body_ in H as [E HD]; [|assumption] end.
  eapply ee_constraint; [|eassumption].
  eapply em_cname_; [|exact H|exact HD|]; [assumption|].
  intros t M. apply matches_In in M as (w & I & M). eapply matches_from; [|exact M]. cbn in *. tauto.
Qed.

Lemma em_element_ : forall l nxt o v, nxt = Some "," \/ nxt = Some ")" -> Forall good l -> lang element l nxt o v -> em_element d v o.
Proof. intros l nxt o v N G H. unfold element in H. lang_step; eauto using em_column_, em_tconstraint. Qed.

Lemma legal_if : forall t, legal_name d t = true -> matches ["IF"] t = false.
Proof.
  intros t L. destruct (matches ["IF"] t) eqn:M; auto. apply matches_one in M as [->| ->]; discriminate.
Qed.
Lemma name_if : forall t, name_tok d t -> matches ["IF"] t = false.
Proof. intros t [L _]. now apply legal_if. Qed.

Lemma em_stmt : forall l nxt o v, Forall good l -> lang statement l nxt o v ->
  match v with STable t => em_table d t o | SOther => o = [] end.
Proof.
  intros l nxt o v G H. unfold statement, create_other in H. go.
  - unfold create_table, if_not_exists, opt in *. go; tname; destruct p as [sc tn];
      match goal with H : lang (SepBy _ _) _ _ _ _ |- _ => cbn [lang] in H; eapply sep_elements in H; [|exact em_element_| |assumption] end;
      repeat match goal with M : matches [?w] _ = true |- _ =>
        let r := eval compute in (to_lower w =? w) in lazymatch r with true => apply sym_eq in M; [subst|reflexivity|reflexivity] end end;
      try reflexivity.
    + match goal with |- em_table _ _ (_ :: ?k :: ?i1 :: ?i2 :: ?i3 :: ?os ++ "(" :: ?oe ++ _) =>
        apply (etab d true sc tn _ "CREATE" k [i1; i2; i3] os oe);
          [reflexivity|assumption|exists i1, i2, i3; repeat split; auto; nc| | |assumption] end;
      destruct sc as [sc|]; cbn [fst snd] in *; intuition auto using name_if.
    + match goal with |- em_table _ _ (_ :: ?k :: ?os ++ "(" :: ?oe ++ _) =>
        apply (etab d false sc tn _ "CREATE" k [] os oe);
          [reflexivity|assumption|reflexivity| | |assumption] end;
      destruct sc as [sc|]; cbn [fst snd] in *; intuition auto using name_if.
  - reflexivity.
Qed.

Theorem em_script_ : forall l nxt o v, Forall good l -> lang script l nxt o v -> em_script d v o.
Proof. intros l nxt o v G (hs & H). eapply star_script; [exact em_stmt|exact G|exact H]. Qed.
