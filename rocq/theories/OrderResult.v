From Coq Require Import String List Bool Arith Lia Permutation.
From Verif Require Import GoStr Types VBase Exec Grammar GrammarFacts Ast Emit Enclosed Converter Parse Spec Pipe Meaning Witness Decide Local LayoutFacts Parts PartsFacts Safe Seen Stops ColumnsFacts Exclude SkippedFacts Order OrderFacts.
From Verif Require GSqlite GPostgres GMysql Read.
Import ListNotations.
Open Scope nat_scope.
Open Scope string_scope.
Open Scope gr_scope.
Open Scope list_scope.

(** ** The elements of a table *)
Lemma elements_of : forall d ts es x, Forall2 (an_element d) ts es -> ts <> [] -> x = Some "," \/ x = Some ")" -> exists o, lang (elements d) (commas ts) x o es.
Proof.
  intros d ts es x H. induction H as [|t e ts es [o1 H1] H2 IH]; intros N X; [now elim N|].
  destruct ts as [|t' ts].
  - inversion H2; subst. exists o1. apply sep_one. now apply element_any.
  - destruct IH as [o2 Y]; [discriminate|auto|]. exists (o1 ++ kept true [","] ++ o2). apply (sep_cons _ true t); auto. apply element_any; auto.
Qed.
(** a script with a table *)
Theorem with_table : forall d l1 v1 a oa o l2 v2, (exists o1, lang (script d) l1 None o1 v1) -> lang (opening d) a None oa tt ->
  (exists oo, lang (options d) o (Some ";") oo tt) -> (exists o2, lang (script d) l2 None o2 v2) ->
  exists i s n, forall ts es, Forall2 (an_element d) ts es -> ts <> [] ->
  exists out, lang (script d) (l1 ++ a ++ commas ts ++ ")" :: o ++ ";" :: l2) None out (v1 ++ STable (mk_atable i s n es) :: v2).
Proof.
  intros d l1 v1 a oa o l2 v2 [o1 S1] A [oo O] [o2 S2]. apply opening_value in A as (i & s & n & A). exists i, s, n. intros ts es G NE.
  destruct (elements_of d _ _ (Some ")") G NE) as [oe E]; auto.
  pose proof (table_of_parts _ _ _ _ _ _ _ _ _ _ _ _ _ None A E O) as H.
  destruct (statement_cons _ _ _ _ _ H) as (y & z & Q). rewrite Q in H. apply script_one in H. rewrite <- Q in H.
  eexists. replace (l1 ++ a ++ commas ts ++ ")" :: o ++ ";" :: l2) with (l1 ++ (a ++ commas ts ++ ")" :: o ++ [";"]) ++ l2).
  2:{ rewrite <- !app_assoc. cbn [app]. now rewrite <- !app_assoc. }
  eapply script_app; [exact S1|]. eapply (script_app _ _ _ _ [_]); [exact H|exact S2].
Qed.

(** what is reported for a table depends on the elements of each kind only *)
Definition seen_es (es : list a_element) : list a_element := map seen_element es.
Lemma flat_filter : forall A (f : a_element -> list A) g, (forall e, in_group g e = false -> f e = []) ->
  forall es, flat_map f es = flat_map f (filter (in_group g) es).
Proof.
  intros A f g H es. induction es as [|e es IH]; cbn [flat_map filter]; auto.
  destruct (in_group g e) eqn:E; [cbn [flat_map]; now rewrite IH|]. now rewrite (H _ E), IH.
Qed.
Lemma flat_group : forall A (f : a_element -> list A) g, (forall e, in_group g e = false -> f e = []) ->
  forall es es', filter (in_group g) es = filter (in_group g) es' -> flat_map f es = flat_map f es'.
Proof. intros A f g H es es' E. rewrite (flat_filter _ f g H es), (flat_filter _ f g H es'). now rewrite E. Qed.
Lemma in_group_seen : forall g e, in_group g (seen_element e) = in_group g e.
Proof. intros [] [|n []]; reflexivity. Qed.
Lemma filter_map_comm : forall g es, filter (in_group g) (map seen_element es) = map seen_element (filter (in_group g) es).
Proof.
  intros g es. induction es as [|e es IH]; cbn [map filter]; auto. rewrite in_group_seen. destruct (in_group g e); cbn [map]; now rewrite IH.
Qed.
Lemma regrouped_seen : forall es es', regrouped es es' -> regrouped (map seen_element es) (map seen_element es').
Proof. intros es es' H g. now rewrite !filter_map_comm, (H g). Qed.
Lemma regrouped_table : forall d i s n es es', regrouped es es' -> table_of d (mk_atable i s n es) = table_of d (mk_atable i s n es').
Proof.
  intros d i s n es es' H. unfold table_of. cbn [at_elements at_schema at_name at_ine]. f_equal.
  - unfold columns_of. apply (flat_group _ _ GColumn); auto; intros [|]; auto; discriminate.
  - unfold constraints_of. f_equal.
    + apply (flat_group _ _ GPrimary); auto; intros [|m []]; auto; discriminate.
    + apply (flat_group _ _ GUnique); auto; intros [|m []]; auto; discriminate.
    + apply (flat_group _ _ GCheck); auto; intros [|m []]; auto; discriminate.
    + apply (flat_group _ _ GForeign); auto; intros [|m []]; auto; discriminate.
Qed.
Lemma tables_mid : forall d v1 t t' v2, table_of d (seen_table t) = table_of d (seen_table t') ->
  tables_of d (seen (v1 ++ STable t :: v2)) = tables_of d (seen (v1 ++ STable t' :: v2)).
Proof.
  intros d v1 t t' v2 E. unfold tables_of, seen. rewrite !map_app, !flat_map_app. f_equal. cbn [map flat_map seen_stmt]. now rewrite E.
Qed.
Lemma readable_mid : forall v1 t v2, readable (v1 ++ STable t :: v2) = readable v1 && readable_table t && readable v2.
Proof. intros. unfold readable. rewrite forallb_app. cbn [forallb readable_stmt]. now rewrite andb_assoc. Qed.

(** C60 *)
Lemma readable_regrouped : forall es es', regrouped es es' -> forallb readable_element es = true -> existsb is_index es' = false -> forallb readable_element es' = true.
Proof.
  intros es es' R F X. apply forallb_forall. intros e I.
  assert (Y : forall g, in_group g e = true -> readable_element e = true).
  { intros g G. assert (In e (filter (in_group g) es')) as K by (apply filter_In; auto). rewrite <- (R g) in K. apply filter_In in K as [K _].
    rewrite forallb_forall in F. auto. }
  destruct e as [c|m []]; try reflexivity; [now apply (Y GColumn)|now apply (Y GForeign)|].
  assert (existsb is_index es' = true) by (apply existsb_exists; eexists; split; [exact I|reflexivity]). congruence.
Qed.
Theorem regroup : forall d s s' l1 v1 a oa ts ts' es es' o l2 v2 stmts,
  (exists o1, lang (script d) l1 None o1 v1) -> lang (opening d) a None oa tt -> ts <> [] -> ts' <> [] ->
  Forall2 (an_element d) ts es -> Forall2 (an_element d) ts' es' -> regrouped es es' ->
  first_ok es' = true -> existsb is_index es' = false ->
  (exists oo, lang (options d) o (Some ";") oo tt) -> (exists o2, lang (script d) l2 None o2 v2) ->
  tokens d s (l1 ++ a ++ commas ts ++ ")" :: o ++ ";" :: l2) -> tokens d s' (l1 ++ a ++ commas ts' ++ ")" :: o ++ ";" :: l2) ->
  says d s stmts -> readable stmts = true -> exists r, accepted s d r /\ accepted s' d r.
Proof.
  intros d s s' l1 v1 a oa ts ts' es es' o l2 v2 stmts S1 A N N' F F' R K X O S2 T T' Sy Ra.
  destruct (with_table d l1 v1 a oa o l2 v2 S1 A O S2) as (i & sc & n & B).
  destruct (B _ _ F N) as [out H], (B _ _ F' N') as [out' H'].
  assert (Y : says d s (v1 ++ STable (mk_atable i sc n es) :: v2)) by (eexists _, _; eauto).
  assert (Y' : says d s' (v1 ++ STable (mk_atable i sc n es') :: v2)) by (eexists _, _; eauto).
  rewrite (says_det _ _ _ _ Sy Y) in Ra. exists (tables_of d (seen (v1 ++ STable (mk_atable i sc n es) :: v2))). split; [now apply says_seen|].
  rewrite (tables_mid d v1 _ (mk_atable i sc n es') v2); [apply says_seen; auto|].
  - rewrite readable_mid in *. apply andb_true_iff in Ra as [Ra ->]. apply andb_true_iff in Ra as [-> Ra]. cbn [andb]. rewrite andb_true_r.
    unfold readable_table in *. cbn [at_elements] in *. apply andb_true_iff in Ra as [Ra _]. rewrite K, andb_true_r. eapply readable_regrouped; eauto.
  - apply (regrouped_table d i sc n). cbn [at_elements]. now apply regrouped_seen.
Qed.

(** ** The constraints of a column *)
Lemma barred_end : forall d c x, x = "," \/ x = ")" -> matches (barred d c) x = false.
Proof.
  intros d c x X. unfold barred. destruct d, c; repeat match goal with |- context [if ?b then _ else _] => destruct b end; destruct X; subst; reflexivity.
Qed.
Lemma heads : forall d cs, Forall (is_constraint d) cs -> arranged d cs -> forall x, x = None \/ x = Some "," \/ x = Some ")" ->
  exists o vs hs, star (lang (column_constraint d)) (concat cs) x o vs hs /\
    Forall2 (fun c '(h, v) => hd_error c = Some h /\ exists o, lang (column_constraint d) c None o v) cs (combine hs vs) /\ List.length hs = List.length vs.
Proof.
  intros d cs F. induction F as [|c cs (o & v & H) F IH]; intros Ar x X.
  - exists [], [], []. repeat split; constructor.
  - destruct Ar as [A1 A2]. destruct (IH A2 x X) as (o2 & vs & hs & S & G & L). destruct (constraint_cons _ _ _ _ _ H) as (t & r & ->).
    exists (o ++ o2), (v :: vs), (t :: hs). cbn [concat app combine List.length]. split; [|split; [constructor; eauto|congruence]].
    constructor; auto. destruct (concat cs) as [|y z] eqn:E; cbn [hdr].
    + destruct X as [->|X]; auto. assert (exists y, x = Some y /\ (y = "," \/ y = ")")) as (y & -> & Y) by (destruct X; eauto). apply follow_value; auto. now apply barred_end.
    + apply follow_value; auto.
Qed.

(** constraints of the same kind begin with words of the same kind *)
Definition tag (i : a_item) : option string :=
  match i with IDefault _ => Some "DEFAULT" | ICheck _ => Some "CHECK" | ICollate _ => Some "COLLATE" | IReferences _ => Some "REFERENCES" | _ => None end.
Lemma kind_word : forall d w h, In w ["DEFAULT"; "CHECK"; "COLLATE"; "REFERENCES"] -> matches [w] h = true -> kind d h = w.
Proof.
  intros d w h I M. apply matches_in in M as (w' & [<-|[]] & [E|E]); subst h; cbn in I; repeat destruct I as [<-|I]; try contradiction; destruct d; reflexivity.
Qed.
Lemma tag_kind : forall d c h o v k, hd_error c = Some h -> lang (column_constraint d) c None o v -> tag v = Some k -> kind d h = k.
Proof.
  intros d c h o v k Hh H E. destruct c as [|h' r]; [discriminate|]. injection Hh as ->.
  assert (X : matches [k] h = true /\ In k ["DEFAULT"; "CHECK"; "COLLATE"; "REFERENCES"]); [|destruct X; now apply kind_word].
  destruct d; cbn [column_constraint] in H; unfold GSqlite.column_constraint, GPostgres.column_constraint, GMysql.column_constraint in H.
  all: repeat (apply cond_inv in H as [H|H]).
  all: try (assert (K : matches ["DEFAULT"] h = true) by (match type of H with lang ?g _ _ _ _ => eapply (head_is _ g); [vm_compute; reflexivity|exact H] end));
    try (assert (K : matches ["CHECK"] h = true) by (match type of H with lang ?g _ _ _ _ => eapply (head_is _ g); [vm_compute; reflexivity|exact H] end));
    try (assert (K : matches ["COLLATE"] h = true) by (match type of H with lang ?g _ _ _ _ => eapply (head_is _ g); [vm_compute; reflexivity|exact H] end));
    try (assert (K : matches ["REFERENCES"] h = true) by (match type of H with lang ?g _ _ _ _ => eapply (head_is _ g); [vm_compute; reflexivity|exact H] end)).
  all: destruct H as (a & V & H); repeat match type of V with context [let (_, _) := ?y in _] => destruct y end; subst v; cbn [tag] in E; try discriminate E;
    injection E as <-; (split; [exact K|cbn; tauto]).
Qed.

(** the first constraint of a kind, if there is only one *)
Lemma first_perm : forall B (f : a_item -> option B) K (l l' : list (string * a_item)), Permutation l l' -> NoDup (map fst l) ->
  (forall k i, In (k, i) l -> f i <> None -> k = K) -> first_of f (map snd l) = first_of f (map snd l').
Proof.
  intros B f K l l' P. induction P as [|[k i] l l' P IH|[k i] [k' i'] l|l1 l2 l3 P1 IH1 P2 IH2]; intros N H; auto.
  - cbn [map fst] in N. inversion N; subst. cbn [map snd first_of]. rewrite IH; auto. intros k' i' I. apply (H k' i'). now right.
  - cbn [map fst snd first_of] in *. destruct (f i) eqn:F, (f i') eqn:F'; auto. exfalso.
    assert (k = K) by (apply (H k i); [cbn; auto|congruence]). assert (k' = K) by (apply (H k' i'); [cbn; auto|congruence]). subst.
    inversion N as [|? ? X]; subst. apply X. now left.
  - rewrite (IH1 N H). apply IH2.
    + eapply Permutation_NoDup; [|exact N]. now apply Permutation_map.
    + intros k i I. apply (H k i). eapply Permutation_in; [symmetry; exact P1|exact I].
Qed.
Lemma existsb_perm : forall A (f : A -> bool) l l', Permutation l l' -> existsb f l = existsb f l'.
Proof.
  intros A f l l' P. induction P as [|x l l' P IH|x y l|l1 l2 l3 P1 IH1 P2 IH2]; cbn [existsb]; auto.
  - now rewrite IH.
  - destruct (f x), (f y); reflexivity.
  - congruence.
Qed.
Lemma tag_seen : forall i, tag (seen_item i) = tag i.
Proof. intros [| | | |[]| | | |]; reflexivity. Qed.
Lemma first_seen : forall B (f : a_item -> option B) (l : list (string * a_item)),
  map snd (map (fun '(k, i) => (k, seen_item i)) l) = map seen_item (map snd l).
Proof. intros B f l. rewrite !map_map. apply map_ext. now intros []. Qed.

Lemma constraint_perm : forall d n l l', Permutation l l' -> NoDup (map fst l) -> (forall k i t, In (k, i) l -> tag i = Some t -> k = t) ->
  constraint_of d n (map snd l) = constraint_of d n (map snd l').
Proof.
  intros d n l l' P N H. pose proof (Permutation_map snd P) as Q. unfold constraint_of.
  rewrite !(existsb_perm _ _ _ _ Q).
  rewrite (first_perm _ (fun i => match i with IDefault x => Some (default_of d x) | _ => None end) "DEFAULT" l l' P N) by (intros k [] I X; try congruence; now apply (H _ _ _ I)).
  rewrite (first_perm _ (fun i => match i with ICheck e => Some (text e) | _ => None end) "CHECK" l l' P N) by (intros k [] I X; try congruence; now apply (H _ _ _ I)).
  rewrite (first_perm _ (fun i => match i with ICollate t => Some (unquote d t) | _ => None end) "COLLATE" l l' P N) by (intros k [] I X; try congruence; now apply (H _ _ _ I)).
  rewrite (first_perm _ (fun i => match i with IReferences r => Some (reference_of d r) | _ => None end) "REFERENCES" l l' P N) by (intros k [] I X; try congruence; now apply (H _ _ _ I)).
  reflexivity.
Qed.
Lemma seen_perm : forall d n t c l l', Permutation l l' -> NoDup (map fst l) -> (forall k i g, In (k, i) l -> tag i = Some g -> k = g) ->
  column_of d (seen_column (mk_acolumn n t c (map snd l))) = column_of d (seen_column (mk_acolumn n t c (map snd l'))).
Proof.
  intros d n t c l l' P N H. set (f := fun x : string * a_item => (fst x, seen_item (snd x))).
  assert (E : forall l, map seen_item (map snd l) = map snd (map f l)) by (intros; rewrite !map_map; reflexivity).
  assert (P' : Permutation (map f l) (map f l')) by now apply Permutation_map.
  assert (N' : NoDup (map fst (map f l))) by (rewrite map_map; exact N).
  assert (H' : forall k i g, In (k, i) (map f l) -> tag i = Some g -> k = g).
  { intros k i g I T. apply in_map_iff in I as ([k' i'] & X & I). injection X as <- <-. cbn [snd] in T. rewrite tag_seen in T. cbn [fst]. eauto. }
  unfold seen_column. cbn [ac_cname ac_items ac_name ac_type]. rewrite !E.
  destruct c as [c|]; [destruct (matches not_names c)|]; unfold column_of; cbn [ac_cname ac_items ac_name ac_type]; f_equal; try (now apply constraint_perm).
  pose proof (constraint_perm d None _ _ P' N' H') as X. unfold constraint_of in *. cbn [existsb first_of orb]. injection X. intros.
  f_equal; assumption.
Qed.

(** the column that consists of a beginning and constraints *)
Lemma column_lang : forall d l nxt o n t c is,
  lang (column_name d ** column_type d ** column_cname d ** column_rest d) l nxt o (n, (t, (c, is))) -> lang (element d) l nxt o (EColumn (mk_acolumn n t c is)).
Proof. intros d l nxt o n t c is H. destruct d; right; eexists; (split; [|exact H]); reflexivity. Qed.
Lemma head_any : forall d h oh, lang (column_head d) h None oh tt -> forall nxt, lang (column_head d) h nxt oh tt.
Proof. intros d h oh H nxt. apply (bars_lang _ _ []) with (nxt := nxt) in H; auto. destruct d; vm_compute; reflexivity. Qed.
Lemma head_column : forall d h oh, lang (column_head d) h None oh tt -> exists n t c, forall items nxt oi is hs,
  star (lang (column_constraint d)) items nxt oi is hs -> NoDup (map (kind d) hs) -> lang (element d) (h ++ items) nxt (oh ++ oi) (EColumn (mk_acolumn n t c is)).
Proof.
  intros d h oh H. assert (F : forall A (g : gr A), bars g [] = true -> forall l o v nxt, lang g l None o v -> lang g l nxt o v).
  { intros A g B l o v nxt. apply (bars_lang _ g [] nxt); auto. }
  assert (B1 : bars (column_name d) [] = true) by (destruct d; vm_compute; reflexivity).
  assert (B2 : bars (column_type d) [] = true) by (destruct d; vm_compute; reflexivity).
  assert (B3 : bars (column_cname d) [] = true) by (destruct d; vm_compute; reflexivity).
  destruct H as ((n & t & c) & _ & l1 & l2 & o1 & o2 & -> & -> & H1 & l3 & l4 & o3 & o4 & -> & -> & H2 & H3). cbn [fst snd] in *.
  exists n, t, c. intros items nxt oi is hs S N. apply column_lang. rewrite <- !app_assoc.
  assert (R : lang (column_rest d) items nxt oi is) by (exists hs; auto).
  assert (G : forall A (g : gr A), bars g [] = true -> forall l o v l2 l3 nxt, lang g l (hdr l2 None) o v -> lang g l (hdr (l2 ++ l3) nxt) o v).
  { intros A g B l o v [|x l5] l6 nx; cbn [hdr app]; auto. }
  apply lang_seq; [now apply (G _ _ B1 _ _ _ (l3 ++ l4)) with (l3 := items) (nxt := nxt) in H1; rewrite <- app_assoc in H1|].
  apply lang_seq; [now apply (G _ _ B2 _ _ _ l4)|]. apply lang_seq; [now apply F|exact R].
Qed.
Lemma commas_before : forall d ts1 es1 t ts2, Forall2 (an_element d) ts1 es1 -> exists p q, before d p /\ commas (ts1 ++ t :: ts2) = p ++ t ++ q /\
  (q = [] \/ exists q', q = "," :: q').
Proof.
  intros d ts1 es1 t ts2 F. assert (E : forall ts1, ts1 <> [] -> commas (ts1 ++ t :: ts2) = commas ts1 ++ "," :: commas (t :: ts2)).
  { clear. intros ts1. induction ts1 as [|x ts1 IH]; intros N; [congruence|]. destruct ts1 as [|y ts1]; [reflexivity|].
    change (commas ((x :: y :: ts1) ++ t :: ts2)) with (x ++ "," :: commas ((y :: ts1) ++ t :: ts2)). rewrite IH by discriminate.
    change (commas (x :: y :: ts1)) with (x ++ "," :: commas (y :: ts1)). now rewrite <- app_assoc. }
  assert (Q : exists q, commas (t :: ts2) = t ++ q /\ (q = [] \/ exists q', q = "," :: q')).
  { destruct ts2 as [|y ts2]; [exists []; rewrite app_nil_r; auto|]. exists ("," :: commas (y :: ts2)). split; eauto. }
  destruct Q as (q & Q & Z). destruct ts1 as [|x ts1].
  - exists [], q. repeat split; auto. now left.
  - exists (commas (x :: ts1) ++ [","]), q. split; [|split; auto].
    + right. destruct (elements_of d _ _ (Some ",") F) as [o H]; auto; [discriminate|]. exists (commas (x :: ts1)), o, es1. auto.
    + rewrite E by discriminate. rewrite Q, <- app_assoc. reflexivity.
Qed.
Lemma Forall2_combine_perm : forall A B (R : A -> B -> Prop) l l' m, Permutation l l' -> Forall2 R l m -> exists m', Permutation m m' /\ Forall2 R l' m'.
Proof.
  intros A B R l l' m P. revert m. induction P as [|x l l' P IH|x y l|l1 l2 l3 P1 IH1 P2 IH2]; intros m F.
  - exists m. split; auto.
  - inversion F as [|? b ? m2 H1 H2]; subst. destruct (IH _ H2) as (m' & Q & G). exists (b :: m'). split; constructor; auto.
  - inversion F as [|? b ? m2 H1 H2]; subst. inversion H2 as [|? b' ? m3 H3 H4]; subst. exists (b' :: b :: m3). split; [constructor|]. repeat constructor; auto.
  - destruct (IH1 _ F) as (m1 & Q1 & F1). destruct (IH2 _ F1) as (m2 & Q2 & F2). exists m2. split; auto. now transitivity m1.
Qed.
Definition reads_as (d : rdbms) (c : list string) (x : string * a_item) : Prop :=
  let '(h, v) := x in hd_error c = Some h /\ exists o, lang (column_constraint d) c None o v.
Lemma reads_det : forall d cs m m', Forall2 (reads_as d) cs m -> Forall2 (reads_as d) cs m' -> m = m'.
Proof.
  intros d cs m m' F. revert m'. induction F as [|c [h v] cs m (H1 & o & H2) F IH]; intros m' F'; inversion F' as [|? [h' v'] ? m2 (K1 & o' & K2) G]; subst; auto.
  f_equal; auto. destruct (constraint_det _ _ _ _ _ _ _ _ H2 K2). congruence.
Qed.
Lemma combine_fst : forall A B (l : list A) (m : list B), List.length l = List.length m -> map fst (combine l m) = l.
Proof. intros A B l. induction l; intros [|] E; cbn in *; try discriminate; auto. f_equal. auto. Qed.
Lemma combine_snd : forall A B (l : list A) (m : list B), List.length l = List.length m -> map snd (combine l m) = m.
Proof. intros A B l. induction l; intros [|] E; cbn in *; try discriminate; auto. f_equal. auto. Qed.
Lemma constraint_in_readable : forall l l', Permutation l l' -> forallb readable_item l = forallb readable_item l'.
Proof.
  intros l l' P. induction P as [|x l l' P IH|x y l|l1 l2 l3 P1 IH1 P2 IH2]; cbn [forallb]; auto.
  - now rewrite IH.
  - now rewrite !andb_assoc, (andb_comm (readable_item y)).
  - congruence.
Qed.

(** C59 *)
Theorem reorder : forall d s s' l1 v1 a oa ts1 es1 h oh cs cs' ts2 es2 o l2 v2 stmts,
  (exists o1, lang (script d) l1 None o1 v1) -> lang (opening d) a None oa tt ->
  Forall2 (an_element d) ts1 es1 -> Forall2 (an_element d) ts2 es2 -> lang (column_head d) h None oh tt ->
  Forall (is_constraint d) cs -> Permutation cs cs' -> arranged d cs -> arranged d cs' ->
  (exists oo, lang (options d) o (Some ";") oo tt) -> (exists o2, lang (script d) l2 None o2 v2) ->
  tokens d s (l1 ++ a ++ commas (ts1 ++ (h ++ concat cs) :: ts2) ++ ")" :: o ++ ";" :: l2) ->
  tokens d s' (l1 ++ a ++ commas (ts1 ++ (h ++ concat cs') :: ts2) ++ ")" :: o ++ ";" :: l2) ->
  says d s stmts -> readable stmts = true -> exists r, accepted s d r /\ accepted s' d r.
Proof.
  intros d s s' l1 v1 a oa ts1 es1 h oh cs cs' ts2 es2 o l2 v2 stmts S1 A F1 F2 H C P Ar Ar' O S2 T T' Sy Ra.
  assert (C' : Forall (is_constraint d) cs') by (eapply Permutation_Forall; eauto).
  destruct (heads d cs C Ar (Some ")")) as (oi & vs & hs & St & G & L); auto.
  destruct (heads d cs' C' Ar' (Some ")")) as (oi' & vs' & hs' & St' & G' & L'); auto.
  assert (Q : Permutation (combine hs vs) (combine hs' vs')).
  { destruct (Forall2_combine_perm _ _ (reads_as d) _ _ _ P G) as (m & Q & G2). now rewrite (reads_det _ _ _ _ G' G2). }
  (* no kind twice *)
  assert (N : NoDup (map (kind d) hs)).
  { destruct (ListDec.NoDup_dec string_dec (map (kind d) hs)) as [N|N]; auto. exfalso.
    destruct (commas_before d ts1 es1 (h ++ concat cs) ts2 F1) as (p & q & B & E & Z).
    rewrite E in T. assert (X : exists line k, In k hs /\ rejected s d line k).
    { destruct Z as [->|(q' & ->)].
      - eapply (Stops.repeated d s l1 v1 a oa p h oh (concat cs) oi vs hs (")" :: o ++ ";" :: l2)); eauto.
        + apply head_any; auto.
        + rewrite app_nil_r, <- !app_assoc in T. exact T.
      - destruct (heads d cs C Ar (Some ",")) as (oi2 & vs2 & hs2 & St2 & G2 & L2); auto.
        pose proof (reads_det _ _ _ _ G G2) as E2. assert (hs2 = hs) as -> by (rewrite <- (combine_fst _ _ hs vs L), E2; symmetry; now apply combine_fst).
        eapply (Stops.repeated d s l1 v1 a oa p h oh (concat cs) oi2 vs2 hs (("," :: q') ++ ")" :: o ++ ";" :: l2)); eauto.
        + apply head_any; auto.
        + rewrite <- !app_assoc in T. exact T. }
    destruct X as (line & k & _ & X). pose proof (says_seen _ _ _ Sy Ra) as Y. destruct (returns_det _ _ _ _ _ _ X Y). discriminate. }
  assert (N' : NoDup (map (kind d) hs')).
  { eapply Permutation_NoDup; [|exact N]. apply Permutation_map. rewrite <- (combine_fst _ _ hs vs L), <- (combine_fst _ _ hs' vs' L'). now apply Permutation_map. }
  destruct (head_column d h oh H) as (n & ty & c & Hc).
  assert (E1 : forall cs hs vs, Forall (is_constraint d) cs -> arranged d cs -> Forall2 (reads_as d) cs (combine hs vs) -> List.length hs = List.length vs ->
    NoDup (map (kind d) hs) -> an_element d (h ++ concat cs) (EColumn (mk_acolumn n ty c vs))).
  { clear - Hc. intros cs hs vs C Ar G L N. destruct (heads d cs C Ar None) as (oi & vs2 & hs2 & St & G2 & L2); auto.
    pose proof (reads_det _ _ _ _ G G2) as E. assert (hs2 = hs) as -> by (rewrite <- (combine_fst _ _ hs vs L), E; symmetry; now apply combine_fst).
    assert (vs2 = vs) as -> by (rewrite <- (combine_snd _ _ hs vs L), E; symmetry; now apply combine_snd).
    exists (oh ++ oi). eapply Hc; eauto. }
  pose proof (E1 _ _ _ C Ar G L N) as X. pose proof (E1 _ _ _ C' Ar' G' L' N') as X'. clear E1.
  destruct (with_table d l1 v1 a oa o l2 v2 S1 A O S2) as (i & sc & nm & B).
  assert (K : Forall2 (an_element d) (ts1 ++ (h ++ concat cs) :: ts2) (es1 ++ EColumn (mk_acolumn n ty c vs) :: es2)) by (apply Forall2_app; auto).
  assert (K' : Forall2 (an_element d) (ts1 ++ (h ++ concat cs') :: ts2) (es1 ++ EColumn (mk_acolumn n ty c vs') :: es2)) by (apply Forall2_app; auto).
  destruct (B _ _ K) as [out M]; [now destruct ts1|]. destruct (B _ _ K') as [out' M']; [now destruct ts1|].
  eassert (Y : says d s _) by (eexists _, _; split; [exact T|exact M]). eassert (Y' : says d s' _) by (eexists _, _; split; [exact T'|exact M']).
  rewrite (says_det _ _ _ _ Sy Y) in Ra. eexists. split; [apply says_seen; [exact Y|exact Ra]|].
  assert (PV : Permutation vs vs') by (rewrite <- (combine_snd _ _ hs vs L), <- (combine_snd _ _ hs' vs' L'); now apply Permutation_map).
  erewrite tables_mid; [apply says_seen; [exact Y'|]|].
  - rewrite readable_mid in *. apply andb_true_iff in Ra as [Ra ->]. apply andb_true_iff in Ra as [-> Ra]. cbn [andb]. rewrite andb_true_r.
    unfold readable_table in *. cbn [at_elements] in *. apply andb_true_iff in Ra as [Ra Rf]. apply andb_true_iff. split.
    + rewrite forallb_app in *. cbn [forallb readable_element ac_items] in *. now rewrite <- (constraint_in_readable _ _ PV).
    + unfold first_ok in *. destruct es1 as [|e [|e' es1]]; cbn [app] in *; auto.
  - unfold seen_table, table_of. cbn [at_ine at_schema at_name at_elements]. unfold columns_of, constraints_of. rewrite !map_app, !flat_map_app.
    cbn [map flat_map seen_element]. f_equal. f_equal. f_equal. f_equal.
    rewrite <- (combine_snd _ _ hs vs L), <- (combine_snd _ _ hs' vs' L').
    set (f := fun x : string * a_item => (kind d (fst x), snd x)).
    assert (Z : forall l, map snd l = map snd (map f l)) by (intros; rewrite map_map; reflexivity). rewrite (Z (combine hs vs)), (Z (combine hs' vs')).
    apply seen_perm.
    + now apply Permutation_map.
    + rewrite map_map. cbn [f fst]. rewrite <- (map_map fst (kind d)), combine_fst by exact L. exact N.
    + intros k it g I TG. apply in_map_iff in I as ([h0 v0] & EQ & I). injection EQ as <- <-. cbn [fst snd] in *.
      clear - G I TG. revert I. induction G as [|c0 x cs0 m R G IH]; intros I; [contradiction|]. destruct I as [->|I]; auto.
      destruct R as (R1 & o & R2). eapply tag_kind; eauto.
Qed.
