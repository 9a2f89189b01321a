(** A table is the sum of its elements. *)
From Coq Require Import String List Bool Arith.
From Verif Require Import GoStr Types Grammar Ast Parse Seen Spec Meaning Parts PartsFacts Exclude Order OrderResult Sum.
Import ListNotations.
Open Scope nat_scope.
Open Scope string_scope.
Open Scope list_scope.

Lemma table_join : forall d i s n es1 es2, table_of d (seen_table (mk_atable i s n (es1 ++ es2))) =
  join (table_of d (seen_table (mk_atable i s n es1))) (table_of d (seen_table (mk_atable i s n es2))).
Proof.
  intros. unfold seen_table, table_of, join, columns_of, constraints_of. cbn [at_ine at_schema at_name at_elements t_schema t_name t_if_not_exists t_columns t_constraints tc_pk tc_unique tc_check tc_fk].
  now rewrite !map_app, !flat_map_app.
Qed.
Lemma tables_at : forall d v1 t v2, tables_of d (seen (v1 ++ STable t :: v2)) = tables_of d (seen v1) ++ table_of d (seen_table t) :: tables_of d (seen v2).
Proof. intros. unfold tables_of, seen. now rewrite map_app, flat_map_app. Qed.

Theorem sum : forall d s s1 s2 l1 v1 a oa ts1 es1 ts2 es2 o l2 v2 stmts,
  (exists o1, lang (script d) l1 None o1 v1) -> lang (opening d) a None oa tt ->
  Forall2 (an_element d) ts1 es1 -> Forall2 (an_element d) ts2 es2 -> ts1 <> [] -> ts2 <> [] -> first_ok es2 = true ->
  (exists oo, lang (options d) o (Some ";") oo tt) -> (exists o2, lang (script d) l2 None o2 v2) ->
  tokens d s (l1 ++ a ++ commas (ts1 ++ ts2) ++ ")" :: o ++ ";" :: l2) ->
  tokens d s1 (l1 ++ a ++ commas ts1 ++ ")" :: o ++ ";" :: l2) ->
  tokens d s2 (l1 ++ a ++ commas ts2 ++ ")" :: o ++ ";" :: l2) ->
  says d s stmts -> readable stmts = true ->
  exists t1 t2, accepted s1 d (tables_of d (seen v1) ++ t1 :: tables_of d (seen v2)) /\ accepted s2 d (tables_of d (seen v1) ++ t2 :: tables_of d (seen v2)) /\
    accepted s d (tables_of d (seen v1) ++ join t1 t2 :: tables_of d (seen v2)).
Proof.
  intros d s s1 s2 l1 v1 a oa ts1 es1 ts2 es2 o l2 v2 stmts S1 A F1 F2 N1 N2 K O S2 T T1 T2 Sy R.
  destruct (with_table d l1 v1 a oa o l2 v2 S1 A O S2) as (i & sc & n & B).
  destruct (B _ _ F1 N1) as [o1 H1], (B _ _ F2 N2) as [o2 H2].
  destruct (B _ _ (Forall2_app F1 F2)) as [o3 H3]; [destruct ts1; [congruence|discriminate]|].
  assert (Y : says d s (v1 ++ STable (mk_atable i sc n (es1 ++ es2)) :: v2)) by (eexists _, _; eauto).
  assert (Y1 : says d s1 (v1 ++ STable (mk_atable i sc n es1) :: v2)) by (eexists _, _; eauto).
  assert (Y2 : says d s2 (v1 ++ STable (mk_atable i sc n es2) :: v2)) by (eexists _, _; eauto).
  rewrite (says_det _ _ _ _ Sy Y) in R. pose proof R as R'. rewrite readable_mid in R'. apply andb_true_iff in R' as [R' R2]. apply andb_true_iff in R' as [R1 R'].
  unfold readable_table in R'. cbn [at_elements] in R'. apply andb_true_iff in R' as [RF RK]. rewrite forallb_app in RF. apply andb_true_iff in RF as [RF1 RF2].
  exists (table_of d (seen_table (mk_atable i sc n es1))), (table_of d (seen_table (mk_atable i sc n es2))). split; [|split].
  - rewrite <- tables_at. apply says_seen; [exact Y1|]. rewrite readable_mid, R1, R2. unfold readable_table. cbn [at_elements]. rewrite RF1.
    destruct es1 as [|e [|e' es1]]; auto. cbn [app first_ok] in *. now rewrite RK.
  - rewrite <- tables_at. apply says_seen; [exact Y2|]. rewrite readable_mid, R1, R2. unfold readable_table. cbn [at_elements]. now rewrite RF2, K.
  - rewrite <- table_join, <- tables_at. now apply says_seen.
Qed.
(** The elements are reported alike in every table. *)
Theorem alone : forall d s s' l1 v1 a oa ts es o l2 v2 l1' v1' a' oa' o' l2' v2' stmts stmts',
  (exists o1, lang (script d) l1 None o1 v1) -> lang (opening d) a None oa tt ->
  (exists oo, lang (options d) o (Some ";") oo tt) -> (exists o2, lang (script d) l2 None o2 v2) ->
  (exists o1, lang (script d) l1' None o1 v1') -> lang (opening d) a' None oa' tt ->
  (exists oo, lang (options d) o' (Some ";") oo tt) -> (exists o2, lang (script d) l2' None o2 v2') ->
  Forall2 (an_element d) ts es -> ts <> [] ->
  tokens d s (l1 ++ a ++ commas ts ++ ")" :: o ++ ";" :: l2) -> tokens d s' (l1' ++ a' ++ commas ts ++ ")" :: o' ++ ";" :: l2') ->
  says d s stmts -> readable stmts = true -> says d s' stmts' -> readable stmts' = true ->
  exists t t', accepted s d (tables_of d (seen v1) ++ t :: tables_of d (seen v2)) /\ accepted s' d (tables_of d (seen v1') ++ t' :: tables_of d (seen v2')) /\
    t_columns t = t_columns t' /\ t_constraints t = t_constraints t'.
Proof.
  intros d s s' l1 v1 a oa ts es o l2 v2 l1' v1' a' oa' o' l2' v2' stmts stmts' S1 A O S2 S1' A' O' S2' F N T T' Sy R Sy' R'.
  destruct (with_table d l1 v1 a oa o l2 v2 S1 A O S2) as (i & sc & n & B). destruct (B _ _ F N) as [o1 H1].
  destruct (with_table d l1' v1' a' oa' o' l2' v2' S1' A' O' S2') as (i' & sc' & n' & B'). destruct (B' _ _ F N) as [o1' H1'].
  assert (Y : says d s (v1 ++ STable (mk_atable i sc n es) :: v2)) by (eexists _, _; eauto).
  assert (Y' : says d s' (v1' ++ STable (mk_atable i' sc' n' es) :: v2')) by (eexists _, _; eauto).
  rewrite (says_det _ _ _ _ Sy Y) in R. rewrite (says_det _ _ _ _ Sy' Y') in R'.
  exists (table_of d (seen_table (mk_atable i sc n es))), (table_of d (seen_table (mk_atable i' sc' n' es))).
  split; [|split]; [rewrite <- tables_at; now apply says_seen|rewrite <- tables_at; now apply says_seen|split; reflexivity].
Qed.
