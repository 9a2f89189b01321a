From Coq Require Import String List Bool Arith Lia Permutation.
From Verif Require Import GoStr Types VBase Exec Grammar GrammarFacts Ast Emit Enclosed Converter Parse Spec Pipe Meaning Witness Decide Local LayoutFacts Parts PartsFacts Safe Seen Stops ColumnsFacts Exclude SkippedFacts Order OrderFacts OrderResult Clauses.
From Verif Require GSqlite GPostgres GMysql Read.
Import ListNotations.
Open Scope nat_scope.
Open Scope string_scope.
Open Scope gr_scope.
Open Scope list_scope.

(** ** Elements of which the same is reported *)
Definition reports (d : rdbms) (t o : list string) : Prop := exists e, lang (element d) t None o e.
Lemma elements_out : forall d ts os, Forall2 (reports d) ts os -> ts <> [] -> exists es, lang (elements d) (commas ts) (Some ")") (commas os) es.
Proof.
  intros d ts os H. induction H as [|t o ts os [e H1] H2 IH]; intros N; [now elim N|].
  destruct ts as [|t' ts].
  - inversion H2; subst. exists [e]. apply sep_one. apply element_any; auto.
  - destruct IH as [es Y]; [discriminate|]. inversion H2 as [|? o' ? os' _ _]; subst. exists (e :: es).
    change (commas (o :: o' :: os')) with (o ++ kept true [","] ++ commas (o' :: os')). apply (sep_cons _ true t); auto. apply element_any; auto.
Qed.
Theorem same_elements : forall d s s' l1 v1 a oa ts ts' os o l2 v2,
  (exists o1, lang (script d) l1 None o1 v1) -> lang (opening d) a None oa tt ->
  Forall2 (reports d) ts os -> Forall2 (reports d) ts' os -> ts <> [] ->
  (exists oo, lang (options d) o (Some ";") oo tt) -> (exists o2, lang (script d) l2 None o2 v2) ->
  tokens d s (l1 ++ a ++ commas ts ++ ")" :: o ++ ";" :: l2) -> tokens d s' (l1 ++ a ++ commas ts' ++ ")" :: o ++ ";" :: l2) -> same_result d s s'.
Proof.
  intros d s s' l1 v1 a oa ts ts' os o l2 v2 [o1 S1] A F F' N [oo O] [o2 S2] T T'.
  assert (X : forall ts, Forall2 (reports d) ts os -> ts <> [] -> exists v, lang (script d) (l1 ++ a ++ commas ts ++ ")" :: o ++ ";" :: l2) None
    (o1 ++ (oa ++ commas os ++ [")"; ";"]) ++ o2) v).
  { intros us G NE. destruct (elements_out _ _ _ G NE) as [es E].
    destruct (table_parts d a None oa tt _ _ es o oo tt None A E O) as [t H].
    destruct (statement_cons _ _ _ _ _ H) as (x & y & Q). rewrite Q in H. apply script_one in H. rewrite <- Q in H.
    eexists. replace (l1 ++ a ++ commas us ++ ")" :: o ++ ";" :: l2) with (l1 ++ (a ++ commas us ++ ")" :: o ++ [";"]) ++ l2).
    2:{ rewrite <- !app_assoc. cbn [app]. now rewrite <- !app_assoc. }
    eapply script_app; [exact S1|]. eapply script_app; [exact H|exact S2]. }
  destruct (X _ F N) as [v H], (X _ F') as [v' H'].
  { intros ->. inversion F'; subst. inversion F; subst. now apply N. }
  eapply same_out; eauto.
Qed.
Lemma reports_all : forall d ts es, Forall2 (an_element d) ts es -> exists os, Forall2 (reports d) ts os.
Proof.
  intros d ts es F. induction F as [|t e ts es [o H] F [os IH]]; [exists []; constructor|]. exists (o :: os). constructor; auto. exists e. auto.
Qed.
(** one element is changed *)
Theorem same_element : forall d s s' l1 v1 a oa ts1 es1 t t' ot ts2 es2 o l2 v2,
  (exists o1, lang (script d) l1 None o1 v1) -> lang (opening d) a None oa tt ->
  Forall2 (an_element d) ts1 es1 -> reports d t ot -> reports d t' ot -> Forall2 (an_element d) ts2 es2 ->
  (exists oo, lang (options d) o (Some ";") oo tt) -> (exists o2, lang (script d) l2 None o2 v2) ->
  tokens d s (l1 ++ a ++ commas (ts1 ++ t :: ts2) ++ ")" :: o ++ ";" :: l2) -> tokens d s' (l1 ++ a ++ commas (ts1 ++ t' :: ts2) ++ ")" :: o ++ ";" :: l2) -> same_result d s s'.
Proof.
  intros d s s' l1 v1 a oa ts1 es1 t t' ot ts2 es2 o l2 v2 S1 A F1 R R' F2 O S2 T T'. apply reports_all in F1 as [os1 F1]. apply reports_all in F2 as [os2 F2].
  eapply (same_elements d s s' l1 v1 a oa _ _ (os1 ++ ot :: os2) o l2 v2); eauto; try (apply Forall2_app; auto). now destruct ts1.
Qed.

(** ** Clauses of the constraints of columns *)
Lemma unreported_out : forall d c nxt o, lang (column_constraint d) c nxt o INone -> o = [].
Proof.
  intros d c nxt o H. destruct d; cbn [column_constraint] in H; unfold GSqlite.column_constraint, GPostgres.column_constraint, GMysql.column_constraint in H.
  all: repeat (apply cond_inv in H as [H|H]).
  all: try (match type of H with lang ?g _ _ _ _ => eapply (mute_out _ g); [vm_compute; reflexivity|exact H] end).
  all: exfalso; destruct H as (a & V & H); repeat match type of V with context [let (_, _) := ?y in _] => destruct y end; discriminate V.
Qed.
Lemma lang_eq : forall A (g : gr A) l nxt o v l' o' v', lang g l nxt o v -> l = l' -> o = o' -> v = v' -> lang g l' nxt o' v'.
Proof. intros. now subst. Qed.
Lemma enforced : forall l o v, lang (optkw false ["NOT"] ** kw_ ["ENFORCED"]) l None o v -> exists w, lang (GMysql.skip_word ["NOT"] ** optkw false ["ENFORCED"]) l None o w.
Proof.
  intros l o v (l1 & l2 & o1 & o2 & -> & -> & H1 & M & -> & ->). apply optkw_inv in H1 as [-> [->|(x & -> & X)]].
  - exists (tt, Some (snd v)). eapply (lang_seq _ _ (GMysql.skip_word ["NOT"]) (optkw false ["ENFORCED"]) [] [snd v] None [] []).
    + right. repeat split. cbn [hdr]. cbn [cmem] in M. apply matches_one in M as [E|E]; rewrite E; reflexivity.
    + left. eexists. split; [reflexivity|]. apply lang_one. auto.
  - exists (tt, Some (snd v)). eapply (lang_seq _ _ (GMysql.skip_word ["NOT"]) (optkw false ["ENFORCED"]) [x] [snd v] None [] []).
    + left. eexists. split; [reflexivity|]. apply lang_one. auto.
    + left. eexists. split; [reflexivity|]. apply lang_one. auto.
Qed.
Definition extends {A} (k : gr A) (c : clause) : Prop := forall r p q o1 o2 o3,
  lang (k_before c) r None o1 tt -> lang (k_clause c) p None o2 tt -> lang (k_after c) q None o3 tt ->
  exists v, lang k (r ++ q) None (o1 ++ o3) v /\ lang k (r ++ p ++ q) None (o1 ++ o3) v.

Lemma keys_open : forall l nxt o v, lang (GMysql.keys true) l nxt o v -> exists l', l = "(" :: l'.
Proof. intros l nxt o v (x & _ & l1 & l2 & o1 & o2 & -> & _ & (M & -> & _) & _). cbn [cmem] in M. apply match_lpar in M. rewrite M. eexists. reflexivity. Qed.
Lemma columns_open : forall l nxt o v, lang GMysql.columns l nxt o v -> exists l', l = "(" :: l'.
Proof. intros l nxt o v (x & _ & l1 & l2 & o1 & o2 & -> & _ & (M & -> & _) & _). cbn [cmem] in M. apply match_lpar in M. rewrite M. eexists. reflexivity. Qed.
Lemma is_open : forall nxt, nxt = Some "(" -> lang (IsNext ["("]) [] nxt [] tt.
Proof. intros nxt ->. repeat split; auto. Qed.
Ltac opens H := lazymatch type of H with
  | lang (any _) _ _ _ _ => destruct H as (? & _ & H); opens H
  | lang (Map (fun _ => tt) _) _ _ _ _ => destruct H as (? & _ & H); opens H
  | lang (optkw false ["NOT"] ** kw_ ["ENFORCED"]) _ _ _ _ => apply enforced in H as [? H]
  | lang (Seq _ _) _ _ _ _ =>
    let l1 := fresh "l" in let l2 := fresh "l" in let o1 := fresh "o" in let o2 := fresh "o" in
    let H1 := fresh "H" in let H2 := fresh "H" in
    destruct H as (l1 & l2 & o1 & o2 & -> & -> & H1 & H2); opens H1; opens H2
  | lang (One _ _) _ _ _ _ => let M := fresh "M" in destruct H as (M & -> & ->)
  | lang Eps _ _ _ _ => destruct H as [-> ->]
  | lang (GMysql.keys _) _ _ _ _ => let E := fresh "E" in destruct (keys_open _ _ _ _ H) as [? E]; subst
  | lang GMysql.columns _ _ _ _ => let E := fresh "E" in destruct (columns_open _ _ _ _ H) as [? E]; subst
  | lang GMysql.name_ _ _ _ _ => unfold GMysql.name_ in H; opens H
  | lang GPostgres.index_parameters _ _ _ _ => unfold GPostgres.index_parameters in H; opens H
  | _ => idtac
  end.
Ltac piece := match goal with
  | M : cmem ?c _ = true |- lang (One _ ?c) _ _ _ _ => apply lang_one; exact M
  | H : lang ?g _ ?n _ _ |- lang ?g _ ?n _ _ => exact H
  | H : lang ?g _ _ _ _ |- lang ?g _ _ _ _ => apply (nxtfree_lang _ g) with (2 := H); vm_compute; reflexivity
  | H : lang ?g _ _ _ _ |- lang ?g _ _ _ _ => exact H
  | H : lang (GMysql.name_or_keys _) _ _ _ _ |- lang (GMysql.name_or_keys _) _ _ _ _ => rewrite !hdr_app in *; cbn [hdr app] in *; exact H
  end.
Lemma cond_l : forall A c (g h : gr A) l nxt o v, lang g l nxt o v -> lang (Cond c g h) l nxt o v.
Proof. intros. now left. Qed.
Lemma cond_r : forall A c (g h : gr A) l nxt o v, lang h l nxt o v -> lang (Cond c g h) l nxt o v.
Proof. intros. now right. Qed.
Lemma map_eq : forall A B (f : A -> B) (g : gr A) l nxt o a b, lang g l nxt o a -> f a = b -> lang (Map f g) l nxt o b.
Proof. intros. subst. now apply lang_map. Qed.
Lemma seq_eq : forall A B (g : gr A) (h : gr B) l1 l2 nxt o1 o2 a b l o v, lang h l2 nxt o2 b -> lang g l1 (hdr l2 nxt) o1 a ->
  l1 ++ l2 = l -> o1 ++ o2 = o -> (a, b) = v -> lang (Seq g h) l nxt o v.
Proof. intros. subst. now apply lang_seq. Qed.
Lemma lang_eps : forall nxt, lang Eps [] nxt [] tt.
Proof. now split. Qed.
Lemma lang_not : forall ws, lang (NotNext ws) [] None [] tt.
Proof. repeat split. Qed.
Lemma lang_while : forall A c (g : gr A) nxt, lang (While c g) [] nxt [] [].
Proof. intros. eexists. constructor. Qed.
Ltac build := first [ piece | lazymatch goal with
  | |- lang (Seq _ _) _ _ _ _ => eapply seq_eq; [build|build|reflexivity..]
  | |- lang (Map _ _) _ _ _ _ => eapply map_eq; [build|reflexivity]
  | |- lang (Cond _ _ _) _ _ _ _ => first [apply cond_l; build | apply cond_r; build]
  | |- lang (While _ _) _ _ _ _ => apply lang_while
  | |- lang Eps _ _ _ _ => apply lang_eps
  | |- lang (GMysql.name_or_keys _) _ _ _ _ => unfold GMysql.name_or_keys; first [apply cond_r; build | apply cond_l; build]
  | |- lang (IsNext _) _ _ _ _ => apply is_open; reflexivity
  | |- lang (NotNext _) _ _ _ _ => apply lang_not
  | |- @lang ?A ?g ?l ?n ?o ?v => let g' := eval hnf in g in tryif constr_eq g g' then fail else change (@lang A g' l n o v); build
  end ].
Ltac silence := repeat match goal with
  | H : lang ?g _ _ ?o _ |- _ => is_var o; let E := fresh "E" in assert (E : o = []) by (eapply (mute_out _ g); [|exact H]; vm_compute; reflexivity); subst o
  end.
Ltac lists := repeat (cbn [kept app]; rewrite <- ?app_assoc, ?app_nil_r); reflexivity.
Ltac finish := silence; eapply lang_eq; [build|lists|lists|reflexivity].
Ltac extended := let H := fresh "H" in let K := fresh "K" in let L := fresh "L" in
  intros r p q o1 o2 o3; cbn [k_before k_clause k_after]; intros H K L; opens H; opens L; eexists; split; [clear K; finish|opens K; finish].
Lemma column_extends : forall d, Forall (extends (column_constraint d)) (column_clauses d).
Proof.
  intros d. destruct d; cbn [column_clauses column_constraint]; repeat apply Forall_cons; try apply Forall_nil.
  all: [> extended ..].
  Unshelve. all: repeat first [exact None | exact tt | exact nil | exact "" | apply pair].
Qed.
Lemma element_extends : forall d, Forall (extends (element d)) (element_clauses d).
Proof.
  intros d. destruct d; cbn [element_clauses element]; repeat apply Forall_cons; try apply Forall_nil.
  all: [> extended ..].
  Unshelve. all: repeat first [exact None | exact tt | exact nil | exact "" | apply pair].
Qed.

(** ** Columns *)
Definition constraint_out (d : rdbms) (c o : list string) : Prop := exists v, lang (column_constraint d) c None o v.
Lemma constraints_star : forall d cs os, Forall2 (constraint_out d) cs os -> arranged d cs ->
  exists vs, star (lang (column_constraint d)) (concat cs) None (concat os) vs (map (hd "") cs).
Proof.
  intros d cs os F. induction F as [|c o cs os (v & H) F IH]; intros Ar; [exists []; constructor|].
  destruct Ar as [A1 A2]. destruct (IH A2) as [vs S]. destruct (constraint_cons _ _ _ _ _ H) as (t & r & ->).
  exists (v :: vs). cbn [concat app map hd]. constructor; auto. destruct (concat cs) as [|y z] eqn:E; cbn [hdr]; auto.
  apply follow_value; auto.
Qed.
Lemma column_reports : forall d h oh cs os, lang (column_head d) h None oh tt -> Forall2 (constraint_out d) cs os -> arranged d cs ->
  NoDup (map (kind d) (map (hd "") cs)) -> reports d (h ++ concat cs) (oh ++ concat os).
Proof.
  intros d h oh cs os H F Ar N. apply head_column in H as (n & t & c & H). destruct (constraints_star _ _ _ F Ar) as [vs S]. eexists. eapply H; eauto.
Qed.
Lemma outs : forall d cs, Forall (is_constraint d) cs -> exists os, Forall2 (constraint_out d) cs os.
Proof. intros d cs F. induction F as [|c cs (o & v & H) F [os IH]]; [exists []; constructor|]. exists (o :: os). constructor; auto. exists v. auto. Qed.

(** ** C61 *)
Theorem element_clause : forall d s s' l1 v1 a oa ts1 es1 r p q ts2 es2 o l2 v2,
  (exists o1, lang (script d) l1 None o1 v1) -> lang (opening d) a None oa tt ->
  Forall2 (an_element d) ts1 es1 -> clause_in (element_clauses d) r p q -> Forall2 (an_element d) ts2 es2 ->
  (exists oo, lang (options d) o (Some ";") oo tt) -> (exists o2, lang (script d) l2 None o2 v2) ->
  tokens d s (l1 ++ a ++ commas (ts1 ++ (r ++ q) :: ts2) ++ ")" :: o ++ ";" :: l2) ->
  tokens d s' (l1 ++ a ++ commas (ts1 ++ (r ++ p ++ q) :: ts2) ++ ")" :: o ++ ";" :: l2) -> same_result d s s'.
Proof.
  intros d s s' l1 v1 a oa ts1 es1 r p q ts2 es2 o l2 v2 S1 A F1 (k & I & [o1 H1] & [o2 H2] & [o3 H3]) F2 O S2 T T'.
  pose proof (proj1 (Forall_forall _ _) (element_extends d) k I _ _ _ _ _ _ H1 H2 H3) as (e & E & E').
  eapply (same_element d s s' l1 v1 a oa ts1 es1 _ _ (o1 ++ o3) ts2 es2); eauto; eexists; eauto.
Qed.
Theorem column_clause : forall d s s' l1 v1 a oa ts1 es1 h oh cs1 r p q cs2 ts2 es2 o l2 v2,
  (exists o1, lang (script d) l1 None o1 v1) -> lang (opening d) a None oa tt ->
  Forall2 (an_element d) ts1 es1 -> Forall2 (an_element d) ts2 es2 -> lang (column_head d) h None oh tt ->
  Forall (is_constraint d) cs1 -> clause_in (column_clauses d) r p q -> Forall (is_constraint d) cs2 ->
  arranged d (cs1 ++ (r ++ q) :: cs2) -> arranged d (cs1 ++ (r ++ p ++ q) :: cs2) -> NoDup (map (kind d) (map (hd "") (cs1 ++ (r ++ q) :: cs2))) ->
  (exists oo, lang (options d) o (Some ";") oo tt) -> (exists o2, lang (script d) l2 None o2 v2) ->
  tokens d s (l1 ++ a ++ commas (ts1 ++ (h ++ concat (cs1 ++ (r ++ q) :: cs2)) :: ts2) ++ ")" :: o ++ ";" :: l2) ->
  tokens d s' (l1 ++ a ++ commas (ts1 ++ (h ++ concat (cs1 ++ (r ++ p ++ q) :: cs2)) :: ts2) ++ ")" :: o ++ ";" :: l2) -> same_result d s s'.
Proof.
  intros d s s' l1 v1 a oa ts1 es1 h oh cs1 r p q cs2 ts2 es2 o l2 v2 S1 A F1 F2 H C1 (k & I & [o1 H1] & [o2 H2] & [o3 H3]) C2 Ar Ar' N O S2 T T'.
  pose proof (proj1 (Forall_forall _ _) (column_extends d) k I _ _ _ _ _ _ H1 H2 H3) as (e & E & E').
  apply outs in C1 as [os1 C1]. apply outs in C2 as [os2 C2].
  assert (R : r <> []).
  { intros ->. clear - H1 I. destruct d; cbn [column_clauses] in I; repeat destruct I as [<-|I]; try contradiction I; cbn [k_before] in H1;
      match type of H1 with lang ?g _ _ _ _ => apply (eats_lang _ g) in H1; [now elim H1|vm_compute; reflexivity] end. }
  destruct r as [|t r]; [now elim R|].
  eapply (same_element d s s' l1 v1 a oa ts1 es1 _ _ (oh ++ concat (os1 ++ (o1 ++ o3) :: os2)) ts2 es2); eauto.
  - apply column_reports; auto. apply Forall2_app; auto. constructor; auto. eexists; eauto.
  - apply column_reports; auto. { apply Forall2_app; auto. constructor; auto. eexists; eauto. }
    rewrite map_app in N |- *. exact N.
Qed.
Theorem no_constraint : forall d s s' l1 v1 a oa ts1 es1 h oh cs1 c cs2 ts2 es2 o l2 v2,
  (exists o1, lang (script d) l1 None o1 v1) -> lang (opening d) a None oa tt ->
  Forall2 (an_element d) ts1 es1 -> Forall2 (an_element d) ts2 es2 -> lang (column_head d) h None oh tt ->
  Forall (is_constraint d) cs1 -> unreported d c -> Forall (is_constraint d) cs2 ->
  arranged d (cs1 ++ c :: cs2) -> arranged d (cs1 ++ cs2) -> NoDup (map (kind d) (map (hd "") (cs1 ++ c :: cs2))) ->
  (exists oo, lang (options d) o (Some ";") oo tt) -> (exists o2, lang (script d) l2 None o2 v2) ->
  tokens d s (l1 ++ a ++ commas (ts1 ++ (h ++ concat (cs1 ++ c :: cs2)) :: ts2) ++ ")" :: o ++ ";" :: l2) ->
  tokens d s' (l1 ++ a ++ commas (ts1 ++ (h ++ concat (cs1 ++ cs2)) :: ts2) ++ ")" :: o ++ ";" :: l2) -> same_result d s s'.
Proof.
  intros d s s' l1 v1 a oa ts1 es1 h oh cs1 c cs2 ts2 es2 o l2 v2 S1 A F1 F2 H C1 [oc C] C2 Ar Ar' N O S2 T T'.
  apply outs in C1 as [os1 C1]. apply outs in C2 as [os2 C2]. pose proof (unreported_out _ _ _ _ C) as ->.
  eapply (same_element d s s' l1 v1 a oa ts1 es1 _ _ (oh ++ concat (os1 ++ [] :: os2)) ts2 es2); eauto.
  - apply column_reports; auto. apply Forall2_app; auto. constructor; auto. eexists; eauto.
  - replace (concat (os1 ++ [] :: os2)) with (concat (os1 ++ os2)) by (rewrite !concat_app; reflexivity). apply column_reports; auto. { apply Forall2_app; auto. }
    rewrite !map_app in N |- *. cbn [map] in N. eapply NoDup_remove_1; eauto.
Qed.
