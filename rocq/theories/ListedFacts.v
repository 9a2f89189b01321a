(** Column lists and expressions in the result. *)
From Coq Require Import String Ascii NArith List Bool Arith Lia.
From Verif Require Import GoStr Types Utf8 Grammar Ast Emit Converter Parse Safe Seen Spec Meaning Witness Layout LayoutFacts Values ValuesFacts Listed.
Import ListNotations.
Open Scope nat_scope.
Open Scope string_scope.
Open Scope list_scope.

Lemma flat_map_flat_map : forall A B C (f : A -> list B) (g : B -> list C) l, flat_map g (flat_map f l) = flat_map (fun x => flat_map g (f x)) l.
Proof. induction l as [|x l IH]; cbn; auto. now rewrite flat_map_app, IH. Qed.
Lemma map_flat_map : forall A B C (f : A -> list B) (g : B -> C) l, map g (flat_map f l) = flat_map (fun x => map g (f x)) l.
Proof. induction l as [|x l IH]; cbn; auto. now rewrite map_app, IH. Qed.
Lemma flat_map_ext' : forall A B (f g : A -> list B) l, (forall x, f x = g x) -> flat_map f l = flat_map g l.
Proof. induction l as [|x l IH]; intros H; cbn; auto. now rewrite H, IH. Qed.

Lemma first_of_hd : forall A B C (f : A -> list B) (g : A -> option C) (h : B -> C) l, (forall x, g x = option_map h (hd_error (f x))) ->
  first_of g l = option_map h (hd_error (flat_map f l)).
Proof.
  intros A B C f g h l H. induction l as [|x l IH]; cbn [first_of flat_map]; auto. rewrite H. destruct (f x); cbn; auto.
Qed.

Theorem lists_result : forall d stmts, result_lists (tables_of d stmts) = lists_in stmts.
Proof.
  intros d stmts. unfold result_lists, lists_in, tables_of. rewrite flat_map_flat_map. apply flat_map_ext'. intros [t|]; auto.
  cbn [flat_map]. rewrite app_nil_r. unfold table_lists, table_of. cbn [t_columns t_constraints]. unfold columns_of, constraints_of.
  cbn [tc_pk tc_unique tc_fk]. rewrite !map_flat_map, !flat_map_flat_map.
  f_equal; [|f_equal; [|f_equal]]; apply flat_map_ext'.
  - intros [c|n b]; auto. cbn [flat_map]. rewrite app_nil_r. unfold element_lists, column_of, constraint_of. cbn [col_constraint c_references].
    rewrite (first_of_hd _ _ _ (fun i => match i with IReferences r => [r] | _ => [] end) _ (reference_of d)) by now intros [].
    fold (references_in (ac_items c)). destruct (references_in (ac_items c)); reflexivity.
  - intros [c|n []]; reflexivity.
  - intros [c|n []]; reflexivity.
  - intros [c|n []]; auto. cbn [flat_map]. now rewrite app_nil_r.
Qed.

(** a name is the same with and without its quotation marks only if it has none *)
Lemma unquote_same : forall d t, unquote d t = t <-> quoted (name_quotes d) t = false.
Proof.
  intros d t. unfold unquote. destruct (quoted (name_quotes d) t) eqn:Q; [|tauto]. split; [|discriminate].
  intros E. exfalso. apply (f_equal String.length) in E. unfold inner in E.
  assert (X : forall s n m, String.length (substring n m s) <= m).
  { induction s as [|c s IH]; intros n m; cbn; destruct n, m; cbn; auto; try lia. specialize (IH 0 m). lia. }
  specialize (X t 1 (String.length t - 2)). destruct t as [|c t]; [discriminate|]. cbn [String.length] in *. lia.
Qed.
Lemma flat_map_map : forall A B C (f : A -> B) (g : B -> list C) l, flat_map g (map f l) = flat_map (fun x => g (f x)) l.
Proof. induction l as [|x l IH]; cbn; auto. now rewrite IH. Qed.
Lemma lists_seen : forall stmts, lists_in (seen stmts) = lists_in stmts.
Proof.
  intros stmts. unfold lists_in, seen. rewrite flat_map_map. apply flat_map_ext'. intros [t|]; auto.
  cbn [seen_stmt seen_table at_elements]. rewrite !flat_map_map. f_equal; [|f_equal; [|f_equal]]; apply flat_map_ext'.
  - intros [[n t' cn is]|n b]; auto. unfold seen_element, element_lists, references_in.
    replace (flat_map (fun i => match i with IReferences r => [r] | _ => [] end) (ac_items (seen_column (mk_acolumn n t' cn is))))
      with (flat_map (fun i => match i with IReferences r => [r] | _ => [] end) is); auto.
    assert (X : flat_map (fun i => match i with IReferences r => [r] | _ => [] end) is = flat_map (fun i => match i with IReferences r => [r] | _ => [] end) (map seen_item is)).
    { rewrite flat_map_map. apply flat_map_ext'. now intros [| | | |[]| | | |]. }
    unfold seen_column. cbn [ac_cname ac_items]. destruct cn as [x|]; auto. destruct (matches not_names x); auto.
  - now intros [c|n []].
  - now intros [c|n []].
  - now intros [c|n []].
Qed.
Theorem lists_reported : forall d ddl stmts, says d ddl stmts -> readable stmts = true ->
  exists ts, accepted ddl d ts /\ result_lists ts = lists_in stmts /\
  Forall2 (fun c r => col_name r = unquote d (ac_name c)) (columns_in stmts) (result_columns ts) /\
  forall t, unquote d t = t <-> quoted (name_quotes d) t = false.
Proof.
  intros d ddl stmts H S. exists (tables_of d (seen stmts)). split; [now apply says_seen|]. split; [rewrite <- lists_seen; apply lists_result|]. split; [|apply unquote_same].
  rewrite columns_result, columns_seen, map_map. clear. induction (columns_in stmts) as [|c l IH]; constructor; auto.
  cbn [column_of col_name]. f_equal. unfold seen_column. destruct (ac_cname c) as [x|]; auto. now destruct (matches not_names x).
Qed.

(** ** Expressions *)

Lemma glued_text : forall l, forallb bare l = true -> text (lexemes l) = text_of l.
Proof.
  unfold text_of, lexemes, chars. induction l as [|i l IH]; intros B; [reflexivity|]. cbn [forallb] in B. apply andb_true_iff in B as [B1 B2].
  cbn [flat_map]. rewrite utf8_app, <- IH by auto. destruct i; try discriminate; reflexivity.
Qed.
Theorem glued_inj : forall d e e', glued d e -> glued d e' -> text e = text e' -> e = e'.
Proof.
  intros d e e' (l & L & B & <-) (l' & L' & B' & <-) E. rewrite !glued_text in E by auto.
  pose proof (layout_tokens_are _ _ L) as T. pose proof (layout_tokens_are _ _ L') as T'. rewrite <- E in T'. eapply tokens_det; eauto.
Qed.

Lemma check_reported : forall d c, c_check (col_constraint (column_of d c)) = or_else (option_map text (check_in (ac_items c))) "".
Proof.
  intros d c. cbn [column_of col_constraint constraint_of c_check].
  now rewrite (first_of_hd _ _ _ (fun i => match i with ICheck e => [e] | _ => [] end) _ text) by now intros [].
Qed.
Lemma checks_result : forall d stmts, result_checks (tables_of d stmts) = map text (checks_in stmts).
Proof.
  intros d stmts. unfold result_checks, checks_in, tables_of. rewrite flat_map_flat_map, map_flat_map. apply flat_map_ext'. intros [t|]; auto.
  cbn [flat_map]. rewrite app_nil_r. unfold table_of. cbn [t_constraints constraints_of tc_check]. rewrite !map_flat_map.
  apply flat_map_ext'. intros [c|n []]; reflexivity.
Qed.
Lemma default_reported : forall d c, c_default (col_constraint (column_of d c)) = or_else (option_map (default_of d) (default_in (ac_items c))) DNil.
Proof.
  intros d c. cbn [column_of col_constraint constraint_of c_default].
  now rewrite (first_of_hd _ _ _ (fun i => match i with IDefault x => [x] | _ => [] end) _ (default_of d)) by now intros [].
Qed.

Lemma accepted_det : forall ddl d ts ts', accepted ddl d ts -> accepted ddl d ts' -> ts = ts'.
Proof. intros ddl d ts ts' A B. now destruct (returns_det _ _ _ _ _ _ A B). Qed.
(** texts with the same result have the same expressions, as far as they can be written without space *)
Theorem same_checks : forall d ddl ddl' stmts stmts' ts, says d ddl stmts -> safe stmts = true -> says d ddl' stmts' -> safe stmts' = true ->
  accepted ddl d ts -> accepted ddl' d ts ->
  Forall2 (fun c c' =>
    (forall e e', check_in (ac_items c) = Some e -> check_in (ac_items c') = Some e' -> glued d e -> glued d e' -> e = e') /\
    (forall e e', default_in (ac_items c) = Some (AExpr e) -> default_in (ac_items c') = Some (AExpr e') -> glued d e -> glued d e' -> e = e'))
    (columns_in stmts) (columns_in stmts') /\
  Forall2 (fun e e' => glued d e -> glued d e' -> e = e') (checks_in stmts) (checks_in stmts').
Proof.
  intros d ddl ddl' stmts stmts' ts H S H' S' A A'.
  apply (accepted_det _ _ _ _ (says_tables _ _ _ H S)) in A. apply (accepted_det _ _ _ _ (says_tables _ _ _ H' S')) in A'. subst ts. split.
  - assert (E : map (column_of d) (columns_in stmts) = map (column_of d) (columns_in stmts')) by (rewrite <- !columns_result; now rewrite A').
    clear - E. revert E. generalize (columns_in stmts') as l'. induction (columns_in stmts) as [|c l IH]; intros [|c' l'] E; inversion E; subst; constructor; auto.
    split; intros e e' X X' G G'; apply (glued_inj d); auto.
    + pose proof (check_reported d c) as R. pose proof (check_reported d c') as R'. rewrite X in R. rewrite X' in R'. cbn in R, R'. congruence.
    + pose proof (default_reported d c) as R. pose proof (default_reported d c') as R'. rewrite X in R. rewrite X' in R'. cbn in R, R'. congruence.
  - assert (E : map text (checks_in stmts) = map text (checks_in stmts')) by (rewrite <- !(checks_result d); now rewrite A').
    clear - E. revert E. generalize (checks_in stmts') as l'. induction (checks_in stmts) as [|c l IH]; intros [|c' l'] E; inversion E; subst; constructor; auto.
    intros. now apply (glued_inj d).
Qed.
