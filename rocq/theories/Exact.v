(** The converter reports a script faithfully only if it is [safe]. *)
From Coq Require Import String Ascii List Bool Arith Lia.
From Verif Require Import GoStr GoNum Types Grammar GrammarFacts Ast Emit Safe Seen Converter Fuel Conv Odd.
Import ListNotations.
Open Scope nat_scope. Open Scope string_scope. Open Scope c_scope. Open Scope list_scope.

(** ** Readable statements *)

Lemma text_length : forall l t, String.length (text (t :: l)) = String.length t + String.length (text l).
Proof.
  intros l t. unfold text. cbn [fold_right]. generalize (fold_right append "" l). intros s.
  induction t as [|c t IH]; cbn; auto.
Qed.
Lemma squeeze_le : forall l, String.length (text (squeeze l)) <= String.length (text l).
Proof.
  induction l as [|t l IH]; [auto|]. cbn [squeeze]. rewrite text_length.
  destruct ((t =? ",")%string && comma_next l); [lia|]. rewrite text_length. lia.
Qed.
Lemma squeeze_lt : forall l, double_comma l = true -> String.length (text (squeeze l)) < String.length (text l).
Proof.
  induction l as [|t l IH]; [discriminate|]. cbn [double_comma squeeze]. fold (comma_next l). intros H.
  rewrite text_length. pose proof (squeeze_le l) as L. destruct ((t =? ",")%string && comma_next l) eqn:E.
  - apply andb_true_iff in E as [->%String.eqb_eq _]. cbn [String.length]. lia.
  - rewrite text_length. specialize (IH H). lia.
Qed.
Lemma squeeze_text : forall l, text (squeeze l) = text l -> double_comma l = false.
Proof.
  intros l H. destruct (double_comma l) eqn:E; auto. apply squeeze_lt in E. rewrite H in E. lia.
Qed.

Lemma first_once : forall B (f : a_item -> option B) p l i b, (forall j, p j = false -> f j = None) ->
  once p l -> In i l -> p i = true -> f i = Some b -> first_of f l = Some b.
Proof.
  intros B f p l i b H. induction l as [|j l IH]; intros O I P F; [contradiction|]. cbn [first_of].
  destruct I as [->|I]; [now rewrite F|].
  destruct (p j) eqn:Q.
  - exfalso. unfold once in O. cbn [filter] in O. rewrite Q in O. cbn [List.length] in O.
    assert (X : In i (filter p l)) by now apply filter_In. destruct (filter p l); [contradiction|cbn in O; lia].
  - rewrite (H j Q). apply IH; auto. eapply once_tail; eauto.
Qed.

Lemma column_safe : forall d c o, em_column d c o -> readable_element (EColumn c) = true ->
  column_of d (seen_column c) = column_of d c -> safe_column c = true.
Proof.
  intros d c o E R H. inversion E as [n ty cn is ot oc oi hs key N T CN IS K ND]; subst.
  cbn [readable_element ac_items] in R. unfold seen_column in H. cbn [ac_cname ac_name ac_type ac_items] in H.
  unfold safe_column. cbn [ac_cname ac_items].
  assert (Q : match cn with Some t => matches not_names t = false | None => True end /\
    constraint_of d cn (map seen_item is) = constraint_of d cn is).
  { destruct cn as [t|].
    - destruct (matches not_names t) eqn:M.
      + exfalso. apply (f_equal Types.col_constraint) in H. apply (f_equal Types.c_name) in H. cbn in H.
        inversion CN as [| |k t' KK NT]; subst. pose proof (auto_names d t NT M) as A. cbn [opt_name] in H.
        assert (X : forall w, kwd w t -> In w ["AUTOINCREMENT"; "AUTO_INCREMENT"] -> unquote d t <> "").
        { intros w X I. apply matches_one in X. cbn in I. destruct I as [<-|[<-|[]]]; destruct X as [->| ->]; destruct d; discriminate. }
        apply matches_In in A as (w & I & A). now apply (X w A I).
      + split; auto. exact (f_equal Types.col_constraint H).
    - split; auto. exact (f_equal Types.col_constraint H). }
  destruct Q as [Q1 Q2]. apply andb_true_iff. split; [destruct cn; auto; now rewrite Q1|].
  destruct (items_once d key is hs oi K IS ND) as (O1 & O2 & _ & _).
  assert (S1 : once is_default (map seen_item is)) by (apply seen_once; auto; intros []; auto; destruct x; auto).
  assert (S2 : once is_check (map seen_item is)) by (apply seen_once; auto; intros []; auto; destruct x; auto).
  unfold constraint_of in Q2. injection Q2 as _ _ _ _ QD QC _ _.
  rewrite forallb_forall in R. apply forallb_forall. intros i I. pose proof (in_map seen_item is i I) as J.
  specialize (R i I). destruct i as [| | | |[t|e]|e|t|r|]; auto; cbn [safe_item seen_item] in *; apply negb_true_iff, squeeze_text.
  - pose (f := fun i => match i with IDefault x => Some (default_of d x) | _ => None end).
    assert (F : forall j, is_default j = false -> f j = None) by now intros [].
    fold f in QD. rewrite (first_once _ f is_default _ _ _ F S1 J eq_refl eq_refl) in QD.
    rewrite (first_once _ f is_default _ _ _ F O1 I eq_refl eq_refl) in QD.
    cbn [or_else default_of] in QD. now injection QD.
  - pose (f := fun i => match i with ICheck e => Some (text e) | _ => None end).
    assert (F : forall j, is_check j = false -> f j = None) by now intros [].
    fold f in QC. rewrite (first_once _ f is_check _ _ _ F S2 J eq_refl eq_refl) in QC.
    rewrite (first_once _ f is_check _ _ _ F O2 I eq_refl eq_refl) in QC.
    exact QC.
Qed.

Lemma collected_inv : forall d e e' es es', is_column e = is_column e' ->
  columns_of d (e :: es) = columns_of d (e' :: es') -> 
  constraints_of d (e :: es) = constraints_of d (e' :: es') ->
  match e, e' with EConstraint n b, EConstraint n' b' => n = n' /\ b' = seen_body b | _, _ => True end ->
  columns_of d es = columns_of d es' /\ constraints_of d es = constraints_of d es' /\
  match e, e' with EColumn c, EColumn c' => column_of d c = column_of d c'
  | EConstraint _ (BCheck x), EConstraint _ (BCheck x') => text x = text x' | _, _ => True end.
Proof.
  intros d e e' es es' I C T M. unfold columns_of, constraints_of in *. cbn [flat_map] in *.
  destruct e as [c|n b], e' as [c'|n' b']; try discriminate.
  - cbn [app] in *. repeat split; auto; [exact (f_equal (@tl _) C)|exact (f_equal (hd (column_of d c)) C)].
  - destruct M as [<- ->]. destruct b; cbn [seen_body app] in *; try (now repeat split).
    + injection T as T1 T2 T3 T4. rewrite T1, T2, T3, T4. auto.
    + injection T as T1 T2 T3 T4. rewrite T1, T2, T3, T4. auto.
    + injection T as T1 T2 T3 T4 T5. rewrite T1, T2, T4, T5. auto.
    + injection T as T1 T2 T3 T4. rewrite T1, T2, T3, T4. auto.
Qed.

Lemma elements_safe : forall d es os, em_elements d es os -> forallb readable_element es = true ->
  columns_of d (map seen_element es) = columns_of d es -> constraints_of d (map seen_element es) = constraints_of d es ->
  forallb safe_element es = true.
Proof.
  intros d.
  assert (X : forall e es o, em_element d e o -> readable_element e = true ->
    columns_of d (map seen_element (e :: es)) = columns_of d (e :: es) ->
    constraints_of d (map seen_element (e :: es)) = constraints_of d (e :: es) ->
    safe_element e = true /\ columns_of d (map seen_element es) = columns_of d es /\
    constraints_of d (map seen_element es) = constraints_of d es).
  { intros e es o E R C T. cbn [map] in C, T.
    destruct (collected_inv d e (seen_element e) es (map seen_element es)) as (C1 & T1 & M); auto.
    { now destruct e. } { now destruct e. }
    repeat split; auto. inversion E as [c o' EC|n b oc ob CN EB]; subst; cbn [safe_element seen_element] in *.
    - eapply column_safe; eauto.
    - destruct b; auto. cbn [seen_body safe_body] in *. now apply negb_true_iff, squeeze_text. }
  intros es os H. induction H as [e o E|e es o os E Es IH]; intros R C T; cbn [forallb] in *; apply andb_true_iff in R as [R1 R2].
  - destruct (X e [] o E R1 C T) as (S & _). now rewrite S.
  - destruct (X e es o E R1 C T) as (S & C' & T'). rewrite S. cbn [andb]. now apply IH.
Qed.

Lemma table_safe : forall d t o, em_table d t o -> readable_table t = true ->
  table_of d (seen_table t) = table_of d t -> safe_table t = true.
Proof.
  intros d t o E R H. inversion E as [i s n es c k oi os oe C K I SN N ES]; subst.
  unfold readable_table, safe_table, table_of, seen_table in *. cbn [at_elements at_schema at_name at_ine] in *.
  apply andb_true_iff in R as [R1 R2]. injection H as H1 H2 H3 H4 H5. apply andb_true_iff. split; auto.
  eapply elements_safe; eauto. unfold constraints_of. now rewrite H2, H3, H4, H5.
Qed.

(** ** Tables that are not readable *)

Definition skip_semi (l : list string) : list string :=
  match l with t :: l' => if (t =? ";")%string then l' else l | [] => [] end.

Lemma semi_step : forall (X : C unit) l u r, X = (b <- cmatch [";"] ;; if b then cnext ;; cret tt else cret tt) -> X l = COk u r -> r = skip_semi l.
Proof.
  intros X l u r -> H. apply bind_ok in H as (b & r1 & B & H). unfold cmatch in B. injection B as B <-.
  destruct l as [|t l]; [subst b; now injection H as _ <-|]. cbn [skip_semi].
  destruct (t =? ";")%string eqn:Q.
  - apply String.eqb_eq in Q as ->. subst b. now injection H as _ <-.
  - apply String.eqb_neq in Q. rewrite (proj2 (sym_false ";" t eq_refl eq_refl) Q) in B. subst b. now injection H as _ <-.
Qed.

(** the parts of [convertTable] *)
Lemma table_inv : forall n d l T r, convertTable n d l = COk T r -> exists a1 r1 a2 r2 u r3 s nm r4 cs tc r5,
  cnext l = COk a1 r1 /\ cnext r1 = COk a2 r2 /\
  (if matches ["IF"] (match r2 with t :: _ => t | [] => EOF end) then cnext ;; cnext ;; cnext ;; cret tt else cret tt) r2 = COk u r3 /\
  convertTableName d r3 = COk (s, nm) r4 /\ convertTableDefinition n d r4 = COk (cs, tc) r5 /\ r = skip_semi r5 /\
  t_schema T = s /\ t_name T = nm /\ t_columns T = cs /\ t_constraints T = tc.
Proof.
  intros n d l T r H. unfold convertTable in H. apply bind_ok in H as (a1 & r1 & H1 & H).
  apply bind_ok in H as (a2 & r2 & H2 & H). apply bind_ok in H as (b & r2' & B & H). injection B as B <-.
  apply bind_ok in H as (u & r3 & H3 & H). apply bind_ok in H as ([s nm] & r4 & H4 & H).
  apply bind_ok in H as ([cs tc] & r5 & H5 & H). 
  assert (Z : r = skip_semi r5 /\ T = mk_table s nm b cs tc).
  { apply bind_ok in H as (b' & r6 & B' & H). injection B' as B' <-.
    apply bind_ok in H as (u' & r6 & H6 & H). injection H as <- <-. split; auto.
    eapply (semi_step _ r5 u' r6 eq_refl). unfold cbind at 1. unfold cmatch. rewrite B'. exact H6. }
  destruct Z as [-> ->]. subst b. repeat eexists; eauto.
Qed.
Lemma definition_inv : forall n d t l y r, t <> "," -> convertTableDefinition n d (t :: l) = COk y r ->
  exists a r1, table_definition_loop n d [] zero_tc l = COk y r1 /\ cnext r1 = COk a r.
Proof.
  intros n d t l y r T H. unfold convertTableDefinition in H. apply bind_ok in H as (a1 & r1 & H1 & H).
  rewrite cnext_tok in H1 by auto. injection H1 as _ <-. apply bind_ok in H as (y' & r2 & H2 & H).
  apply bind_ok in H as (a & r3 & H3 & H). injection H as <- <-. eauto.
Qed.
Lemma table_name_ok : forall d t l, t <> "," -> good t -> (match l with t' :: _ => matches ["."] t' = false | [] => False end) ->
  convertTableName d (t :: l) = COk ("", unquote d t) l.
Proof.
  intros d t l T G H. unfold convertTableName, cbind. rewrite convertName_ok by auto. unfold cmatch.
  destruct l as [|t' l]; [contradiction|]. now rewrite H.
Qed.

(** the beginning of a table *)
Lemma table_begin : forall d t o, em_table d t o -> exists oe, em_elements d (at_elements t) oe /\
  forall n rest T r, convertTable n d (o ++ rest) = COk T r ->
  exists y a r1, table_definition_loop n d [] zero_tc (oe ++ ")" :: ";" :: rest) = COk y r1 /\
    t_columns T = fst y /\ t_constraints T = snd y /\ (exists r2, cnext r1 = COk a r2 /\ r = skip_semi r2).
Proof.
  intros d t o E. inversion E as [i s nm es c k oi os oe C K I SN N ES]; subst. exists oe. split; auto.
  intros n rest T r H. apply table_inv in H as (a1 & r1 & a2 & r2 & u & r3 & s' & nm' & r4 & cs & tc & r5 & H1 & H2 & H3 & H4 & H5 & H6 & T1 & T2 & T3 & T4).
  cbn [app] in H1. rewrite cnext_tok in H1 by kneq. injection H1 as <- <-. rewrite cnext_tok in H2 by kneq. injection H2 as <- <-.
  assert (Q : r3 = os ++ "(" :: oe ++ ")" :: ";" :: rest).
  { rewrite <- !app_assoc in H3. cbn [app] in H3. rewrite <- app_assoc in H3. cbn [app] in H3. destruct i.
    - destruct I as (i1 & i2 & i3 & -> & K1 & K2 & K3). cbn [app] in H3. unfold kwd in K1. rewrite K1 in H3.
      unfold cbind in H3. rewrite !cnext_tok in H3 by kneq. now injection H3 as _ <-.
    - subst oi. cbn [app] in H3.
      assert (Z : exists t l, os ++ "(" :: oe ++ ")" :: ";" :: rest = t :: l /\ matches ["IF"] t = false).
      { destruct s as [s|]; [destruct SN as (-> & _ & M)|destruct SN as (-> & M)]; cbn [app]; eauto 6. }
      destruct Z as (t & l & Z & M). rewrite Z in *. rewrite M in H3. now injection H3 as _ <-. }
  subst r3. assert (Q : r4 = "(" :: oe ++ ")" :: ";" :: rest).
  { destruct s as [s|].
    - destruct SN as (-> & SN & _). cbn [app] in H4. unfold convertTableName, cbind in H4.
      rewrite convertName_ok in H4; [|eapply name_not_sym; eauto|apply SN]. cbn [cmatch] in H4.
      change (matches ["."] ".") with true in H4. cbv iota beta in H4. rewrite cnext_tok in H4 by discriminate.
      rewrite convertName_ok in H4; [|eapply name_not_sym; eauto|apply N]. now injection H4 as _ _ <-.
    - destruct SN as (-> & _). cbn [app] in H4. rewrite table_name_ok in H4; [|eapply name_not_sym; eauto|apply N|reflexivity].
      now injection H4 as _ _ <-. }
  subst r4. apply definition_inv in H5 as (a & r1 & L & X); [|discriminate]. exists (cs, tc), a, r1. cbn [fst snd]. eauto 8.
Qed.

(** What is left after an INDEX element. *)
Definition rest_of_table (d : rdbms) (r rest : list string) : Prop :=
  r = ")" :: ";" :: rest \/
  exists es os, em_elements d es os /\ forallb is_index es = true /\ r = "," :: os ++ ")" :: ";" :: rest.

Lemma em_elements_split : forall d es1 e es2 os, em_elements d (es1 ++ e :: es2) os ->
  Forall (fun e => exists o, em_element d e o) (es1 ++ e :: es2).
Proof.
  intros d es1 e es2 os. generalize (es1 ++ e :: es2). intros es H. induction H; eauto.
Qed.

Lemma counts : forall d es1 e es2,
  columns_of d (map seen_element es1) = columns_of d (es1 ++ e :: es2) ->
  constraints_of d (map seen_element es1) = constraints_of d (es1 ++ e :: es2) ->
  forall e', In e' es2 -> match e' with EConstraint _ (BNone | BIndex) => True | _ => False end.
Proof.
  intros d es1 e es2 C T e' I.
  assert (L : forall B (f : a_element -> list B), (forall e, List.length (f (seen_element e)) = List.length (f e)) ->
    flat_map f (map seen_element es1) = flat_map f (es1 ++ e :: es2) -> f e' = []).
  { intros B f F Q. apply (f_equal (@List.length _)) in Q.
    assert (L1 : List.length (flat_map f (map seen_element es1)) = List.length (flat_map f es1)).
    { clear -F. induction es1 as [|x l IH]; auto. cbn [map flat_map]. now rewrite !app_length, F, IH. }
    rewrite flat_map_app in Q. cbn [flat_map] in Q. rewrite !app_length, L1 in Q.
    assert (L2 : List.length (flat_map f es2) = 0) by lia. apply in_split in I as (l1 & l2 & ->).
    rewrite flat_map_app in L2. cbn [flat_map] in L2. rewrite !app_length in L2. apply length_zero_iff_nil. lia. }
  unfold columns_of in C. unfold constraints_of in T. injection T as T1 T2 T3 T4.
  apply L in C, T1, T2, T3, T4; [|intros [?|? []]; reflexivity..].
  destruct e' as [c|n []]; try discriminate; exact Logic.I.
Qed.

Lemma table_bad : forall d t o n rest r, em_table d t o -> readable_table t = false ->
  convertTable n d (o ++ rest) = COk (table_of d t) r -> d = MySQL /\ existsb is_index (at_elements t) = true /\ rest_of_table d r rest.
Proof.
  intros d t o n rest r E S H. destruct (table_begin d t o E) as (oe & ES & B).
  destruct (B n rest _ r H) as (y & a & r1 & L & C & T & r2 & X & ->). clear B H.
  unfold readable_table in S. unfold table_of in C, T. cbn [t_columns t_constraints] in C, T.
  destruct (first_ok (at_elements t)) eqn:F.
  2:{ exfalso. eapply first_bad; eauto. }
  rewrite andb_true_r in S.
  assert (D : drop_commas oe = oe).
  { inversion ES as [e o' E1|e es' o' os' E1 Es]; subst; rewrite <- H in *.
    - destruct (readable_element e) eqn:R.
      + cbn [forallb] in S. rewrite R in S. discriminate.
      + destruct (bad_head _ _ _ E1 R) as (t' & l & -> & N). now apply drop_head.
    - destruct es' as [|e' es']; [inversion Es|]. cbn [first_ok] in F. apply negb_true_iff in F.
      assert (Z : exists t l, o' = t :: l /\ t <> ",").
      { destruct (readable_element e) eqn:R.
        - destruct (element_ok d e o' [","] ([], zero_tc) E1 R F) as [_ (t' & l & -> & N1 & N2)]; [left; reflexivity|]. eauto.
        - eapply bad_head; eauto. }
      destruct Z as (t' & l & -> & N). now apply drop_head. }
  rewrite <- D in L. destruct (elements_bad d _ oe ES S n ([], zero_tc) y _ _ L) as [(c & I & U)|(M & es1 & e & es2 & Q & R1 & I & Y & Z)].
  - exfalso. rewrite <- C in I. pose proof (columns_real _ _ _ ES) as R. rewrite Forall_forall in R. exact (R c I U).
  - split; auto. split; [rewrite Q; apply existsb_exists; exists e; split; auto using in_elt|]. subst y. cbn [fst snd collected app] in C, T.
    assert (T' : constraints_of d (map seen_element es1) = constraints_of d (at_elements t)).
    { rewrite T. unfold plus_tc. cbn [app tc_pk tc_unique tc_check tc_fk zero_tc]. now destruct (constraints_of d (map seen_element es1)). }
    rewrite Q in C, T'. pose proof (counts d es1 e es2 (eq_sym C) T') as K.
    destruct Z as [(-> & ->)|(os2 & E2 & ->)].
    + left. rewrite cnext_tok in X by discriminate. now injection X as _ <-.
    + right. exists es2, os2. split; auto. rewrite cnext_tok in X by discriminate. injection X as _ <-. split; [|reflexivity].
      apply forallb_forall. intros e' I'. specialize (K e' I'). destruct e' as [c|n' []]; try contradiction; auto.
      exfalso. subst d. rewrite Q in ES. apply em_elements_split in ES. rewrite Forall_forall in ES.
      destruct (ES (EConstraint n' BNone)) as [o' E']; [apply in_or_app; right; now right|].
      inversion E'; subst. match goal with K : em_body _ BNone _ |- _ => inversion K; discriminate end.
Qed.

(** ** After an INDEX element *)

Lemma script_next : forall d ss os, em_script d ss os -> tables_of d ss = [] \/
  exists t ts o os', tables_of d ss = table_of d t :: ts /\ em_table d t o /\ os = o ++ os' /\ In (STable t) ss.
Proof.
  induction 1 as [|t ss o os E Es IH|ss os Es IH].
  - now left.
  - right. exists t, (tables_of d ss), o, os. repeat split; auto. now left.
  - destruct IH as [IH|(t & ts & o & os' & A & B & C & D)]; [now left|]. right. exists t, ts, o, os'. repeat split; auto. now right.
Qed.

Lemma index_out : forall e o, em_element MySQL e o -> is_index e = true ->
  o = [")"] \/ (exists t, name_tok MySQL t /\ o = [t; ")"]) \/
  (exists k t, kwd "CONSTRAINT" k /\ name_tok MySQL t /\ o = [k; t; ")"]) \/
  (exists k t t', kwd "CONSTRAINT" k /\ name_tok MySQL t /\ name_tok MySQL t' /\ o = [k; t; t'; ")"]).
Proof.
  intros e o E I. inversion E as [|n b oc ob CN EB]; subst; [discriminate|]. destruct b; try discriminate.
  inversion EB as [| | | | |ob' D O]; subst. inversion CN as [|k t l' KK Q M|k t KK T]; subst; cbn [app].
  - tauto.
  - exfalso. destruct O as [Q|(t' & T & Q)]; injection Q as -> ->; [discriminate|].
    rewrite (name_not MySQL t') in M; auto. discriminate.
  - destruct O as [->|(t' & T' & ->)]; eauto 12.
Qed.

Lemma after_index_0 : forall n t o rest T r, em_table MySQL t o ->
  convertTable n MySQL (")" :: ";" :: o ++ rest) = COk T r -> spoiled (t_columns T).
Proof.
  intros n t o rest T r E H. inversion E as [i s nm es c k oi os oe C K I SN N ES]; subst.
  apply table_inv in H as (a1 & r1 & a2 & r2 & u & r3 & s' & nm' & r4 & cs & tc & r5 & H1 & H2 & H3 & H4 & H5 & H6 & T1 & T2 & T3 & T4).
  rewrite cnext_tok in H1 by discriminate. injection H1 as <- <-. rewrite cnext_tok in H2 by discriminate. injection H2 as <- <-.
  cbn [app] in H3. rewrite (kwd_not "CREATE" c) in H3; auto. injection H3 as _ <-.
  rewrite table_name_ok in H4; [|kneq| |kfalse]. 2:{ apply matches_one in C as [->| ->]; split; cbn; try discriminate. }
  injection H4 as _ _ <-. apply definition_inv in H5 as (a & r1 & L & X); [|kneq]. rewrite T3. 
  change (cs) with (fst (cs, tc)).
  rewrite <- !app_assoc in L. destruct i.
  - destruct I as (i1 & i2 & i3 & -> & K1 & K2 & K3). cbn [app] in L.
    apply (loop_odd n MySQL ([], zero_tc)) in L; auto; [kneq|kneq|kfalse|kodd].
  - subst oi. cbn [app] in L. destruct s as [s|].
    + destruct SN as (-> & SN & _). cbn [app] in L. apply (loop_odd n MySQL ([], zero_tc)) in L; auto;
        [eapply name_not_sym; eauto|eapply name_not_sym; eauto|eapply name_not; eauto|vodd].
    + destruct SN as (-> & _). cbn [app] in L. apply (loop_odd n MySQL ([], zero_tc)) in L; auto;
        [eapply name_not_sym; eauto|eapply name_not_sym; eauto|eapply name_not; eauto|vodd].
Qed.

Definition no_table (T : table) : Prop :=
  t_name T = "," \/ t_name T = ")" \/ t_columns T = [] \/ exists c, In c (t_columns T) /\ col_name c = ",".

Lemma index_head : forall es os l, em_elements MySQL es os -> forallb is_index es = true ->
  exists t l', os ++ l = t :: l' /\ t <> "," /\ matches ["."] t = false.
Proof.
  intros es os l H I.
  assert (X : forall e o l, em_element MySQL e o -> is_index e = true -> exists t l', o ++ l = t :: l' /\ t <> "," /\ matches ["."] t = false).
  { intros e o l' E J. destruct (index_out e o E J) as [->|[(t & T & ->)|[(k & t & K & T & ->)|(k & t & t' & K & T & T' & ->)]]]; cbn [app];
    do 2 eexists; (split; [reflexivity|]).
    - split; [discriminate|reflexivity].
    - split; [eapply name_not_sym; eauto|eapply name_not; eauto].
    - split; [kneq|kfalse].
    - split; [kneq|kfalse]. }
  inversion H as [e o E|e es' o os' E Es]; subst; cbn [forallb] in I; apply andb_true_iff in I as [I1 I2].
  - eapply X; eauto.
  - rewrite <- app_assoc. eapply X; eauto.
Qed.

Lemma after_index_1 : forall n es os rest T r, em_elements MySQL es os -> forallb is_index es = true ->
  convertTable n MySQL ("," :: os ++ ")" :: ";" :: rest) = COk T r -> no_table T.
Proof.
  intros n es os rest T r H I X.
  assert (Y : exists e o tl, em_element MySQL e o /\ is_index e = true /\ os ++ ")" :: ";" :: rest = o ++ tl /\
    (tl = ")" :: ";" :: rest \/ exists t l, tl = "," :: t :: l /\ t <> "," /\ matches ["."] t = false)).
  { inversion H as [e o E|e es' o os' E Es]; subst; cbn [forallb] in I; apply andb_true_iff in I as [I1 I2].
    - exists e, os, (")" :: ";" :: rest). auto.
    - destruct (index_head es' os' (")" :: ";" :: rest) Es I2) as (t & l & Q & N & M).
      exists e, o, ("," :: t :: l). repeat split; auto; [|right; eauto]. rewrite <- app_assoc. cbn [app]. now rewrite Q. }
  destruct Y as (e & o & tl & E & J & Q & TL). rewrite Q in X. clear Q H I.
  apply table_inv in X as (a1 & r1 & a2 & r2 & u & r3 & s' & nm' & r4 & cs & tc & r5 & H1 & H2 & H3 & H4 & H5 & H6 & T1 & T2 & T3 & T4).
  assert (CN : forall t l, name_tok MySQL t -> cnext (t :: l) = COk t l) by (intros; apply cnext_tok; eapply name_not_sym; eauto).
  assert (NI : forall t, name_tok MySQL t -> matches ["IF"] t = false).
  { intros t [NT _]. eapply legal_not_word; [|exact NT]. reflexivity. }
  destruct (index_out e o E J) as [->|[(t & NT & ->)|[(k & t & K & NT & ->)|(k & t & t' & K & NT & T' & ->)]]]; cbn [app] in H1.
  - rewrite cnext_comma in H1 by discriminate. injection H1 as <- <-. rewrite cnext_tok in H2 by discriminate. injection H2 as <- <-.
    destruct TL as [->|(t' & l & -> & N & M)].
    + injection H3 as _ <-. rewrite table_name_ok in H4; [|discriminate|split; [discriminate|discriminate]|reflexivity].
      injection H4 as _ <- _. right; left. exact T2.
    + injection H3 as _ <-. unfold convertTableName, convertName, cbind in H4. rewrite cnext_comma in H4 by auto.
      change (isIdentifier MySQL "," (t' :: l)) with (COk false (t' :: l)) in H4. cbv iota beta in H4. unfold cret, cmatch in H4. rewrite M in H4.
      injection H4 as _ <- _. left. exact T2.
  - rewrite cnext_comma in H1 by (eapply name_not_sym; eauto). injection H1 as <- <-. rewrite CN in H2 by auto. injection H2 as <- <-.
    injection H3 as _ <-.
    rewrite table_name_ok in H4; [|discriminate|split; [discriminate|discriminate]|destruct TL as [->|(t' & l & -> & N & M)]; reflexivity].
    injection H4 as _ <- _. right; left. exact T2.
  - rewrite cnext_comma in H1 by kneq. injection H1 as <- <-. rewrite cnext_tok in H2 by kneq. injection H2 as <- <-.
    rewrite NI in H3 by auto. injection H3 as _ <-.
    rewrite table_name_ok in H4; [|eapply name_not_sym; eauto|apply NT|reflexivity]. injection H4 as _ _ <-.
    apply definition_inv in H5 as (a & r1 & L & X); [|discriminate]. right; right. destruct TL as [->|(t' & l & -> & N & M)].
    + left. apply (loop_end n MySQL ([], zero_tc)) in L as [L _]. injection L as -> _. exact T3.
    + right. apply (loop_first n MySQL ([], zero_tc)) in L as (k' & y1 & r2 & _ & L & Y); [|discriminate].
      unfold round in L. apply bind_ok in L as (b & r6 & B & L). injection B as <- <-. cbn in L.
      apply bind_ok in L as (c & r7 & L & L2). injection L2 as <- _.
      apply (column_comma k' MySQL 0 t' l) in L as [Q _]; auto. apply loop_rest in Y as [m Y]. cbn [fst app] in Y.
      exists c. split; auto. rewrite T3, Y. now left.
  - rewrite cnext_comma in H1 by kneq. injection H1 as <- <-. rewrite cnext_tok in H2 by kneq. injection H2 as <- <-.
    rewrite NI in H3 by auto. injection H3 as _ <-.
    rewrite table_name_ok in H4; [|eapply name_not_sym; eauto|apply NT|eapply name_not; eauto]. injection H4 as _ _ <-.
    apply definition_inv in H5 as (a & r1 & L & X); [|eapply name_not_sym; eauto]. right; right; left.
    apply (loop_end n MySQL ([], zero_tc)) in L as [L _]. injection L as -> _. exact T3.
Qed.

Lemma ordinary_no : forall d t, ordinary_table d t = true -> ~ no_table (table_of d t).
Proof.
  intros d t H. unfold ordinary_table in H. apply andb_true_iff in H as [H H3]. apply andb_true_iff in H as [H1 H2].
  apply negb_true_iff in H1. unfold contains in H1. cbn [existsb] in H1. apply orb_false_iff in H1 as [N1 N2].
  apply orb_false_iff in N2 as [N2 _].
  intros [N|[N|[N|(c & I & N)]]]; unfold table_of in N; cbn [t_name t_columns] in N.
  - rewrite N in N1. discriminate.
  - rewrite N in N2. discriminate.
  - apply existsb_exists in H2 as (e & I & E). destruct e as [c|]; [|discriminate].
    assert (X : In (column_of d c) (columns_of d (at_elements t))) by (apply in_flat_map; exists (EColumn c); cbn; auto).
    rewrite N in X. contradiction.
  - unfold table_of in I. cbn [t_columns] in I. apply in_flat_map in I as (e & I & E). rewrite forallb_forall in H3. specialize (H3 e I).
    destruct e as [c'|]; [|contradiction]. destruct E as [<-|[]]. cbn [column_of col_name] in N. rewrite N in H3. discriminate.
Qed.

Lemma rest_bad : forall ss os r n r', em_script MySQL ss os -> ordinary MySQL ss = true -> rest_of_table MySQL r os ->
  convert n MySQL r = COk (tables_of MySQL ss) r' -> False.
Proof.
  intros ss os r n r' E O R H.
  assert (X : exists T ts m r1, tables_of MySQL ss = T :: ts /\ convertTable m MySQL r = COk T r1).
  { destruct n as [|n]; [discriminate|]. cbn [convert] in H.
    destruct r as [|t r]; [destruct R as [R|(? & ? & _ & _ & R)]; discriminate|].
    apply bind_ok in H as (T & r1 & H1 & H). apply bind_ok in H as (ts & r2 & _ & H). injection H as <- _. eauto 8. }
  destruct X as (T & ts & m & r1 & Q & X).
  destruct (script_next MySQL ss os E) as [Q'|(t & ts' & o & os' & Q' & ET & -> & I)]; [congruence|].
  rewrite Q' in Q. injection Q as <- <-.
  assert (OT : ordinary_table MySQL t = true).
  { unfold ordinary in O. rewrite forallb_forall in O. exact (O _ I). }
  destruct R as [->|(es & os & ES & IX & ->)].
  - apply (after_index_0 m t o os' _ _ ET) in X as (c & IC & U). inversion ET as [i s nm es c' k oi os oe C K I' SN N ES]; subst.
    pose proof (columns_real _ _ _ ES) as R. rewrite Forall_forall in R. exact (R c IC U).
  - apply (after_index_1 m es os _ _ _ ES IX) in X. exact (ordinary_no _ _ OT X).
Qed.

(** ** Scripts *)
Theorem script_exact : forall d ss o, em_script d ss o -> (has_index ss = true -> ordinary d ss = true) ->
  forall n r, convert n d o = COk (tables_of d ss) r -> safe ss = true.
Proof.
  induction 1 as [|t ss o os E Es IH|ss os Es IH]; intros O n r H.
  - reflexivity.
  - destruct n as [|n]; [discriminate|].
    assert (X : (t <- convertTable n d ;; ts <- convert n d ;; cret (t :: ts)) (o ++ os) = COk (table_of d t :: tables_of d ss) r).
    { inversion E; subst; exact H. }
    clear H. apply bind_ok in X as (T & r1 & X1 & X). apply bind_ok in X as (ts & r2 & X2 & X). injection X as -> -> ->.
    assert (O1 : forall b, has_index (STable t :: ss) = b -> b = true -> ordinary d ss = true).
    { intros b <- D. specialize (O D). unfold ordinary in *. cbn [forallb] in O. now apply andb_true_iff in O as [_ O]. }
    assert (O' : has_index ss = true -> ordinary d ss = true).
    { intros D. eapply O1; [reflexivity|]. unfold has_index. cbn [existsb]. apply orb_true_iff. now right. }
    destruct (readable_table t) eqn:R.
    + destruct (steps_det _ _ (fun n => table_mono n d) _ _ _ _ _ _ X1 (table_ok d t o os E R)) as [Q ->].
      unfold safe. cbn [forallb safe_stmt]. rewrite (table_safe d t o E R) by congruence. exact (IH O' _ _ X2).
    + exfalso. destruct (table_bad d t o n os r1 E R X1) as (-> & IX & RT). eapply rest_bad; eauto.
      eapply O1; [reflexivity|]. unfold has_index. cbn [existsb]. apply orb_true_iff. now left.
  - apply (IH O n r H).
Qed.
