(** A CREATE TABLE statement is made of its parts; the table options do not affect the result. *)
From Coq Require Import String List Bool Arith Lia.
From Verif Require Import GoStr Types VBase Exec Grammar GrammarFacts Ast Converter Parse Spec Pipe Meaning Witness Decide Local LayoutFacts Parts.
From Verif Require GSqlite GPostgres GMysql Read Lexer.
Import ListNotations.
Open Scope nat_scope.
Open Scope string_scope.
Open Scope gr_scope.

(** ** Introduction and inversion of sequences *)

Lemma lang_seq : forall A B (g : gr A) (h : gr B) l1 l2 nxt o1 o2 a b,
  lang g l1 (hdr l2 nxt) o1 a -> lang h l2 nxt o2 b -> lang (g ** h) (l1 ++ l2) nxt (o1 ++ o2) (a, b).
Proof. intros. exists l1, l2, o1, o2. auto. Qed.
Lemma lang_map : forall A B (f : A -> B) (g : gr A) l nxt o a, lang g l nxt o a -> lang (g ==> f) l nxt o (f a).
Proof. intros. exists a. auto. Qed.
Lemma lang_one : forall keep c t nxt, cmem c t = true -> lang (One keep c) [t] nxt (kept keep [t]) t.
Proof. intros. repeat split; auto. Qed.
Lemma lang_put : forall o nxt, lang (Put o) [] nxt o tt.
Proof. intros. now split. Qed.
Lemma lang_is : forall A (g : gr A) l nxt o v l' o', lang g l nxt o v -> l = l' -> o = o' -> lang g l' nxt o' v.
Proof. intros. now subst. Qed.
Lemma seq_inv : forall A B (g : gr A) (h : gr B) l nxt o v, lang (g ** h) l nxt o v ->
  exists l1 l2 o1 o2, l = (l1 ++ l2)%list /\ o = (o1 ++ o2)%list /\ lang g l1 (hdr l2 nxt) o1 (fst v) /\ lang h l2 nxt o2 (snd v).
Proof. auto. Qed.

Lemma hdr_app : forall l1 l2 nxt, hdr (l1 ++ l2) nxt = hdr l1 (hdr l2 nxt).
Proof. intros [|t l1] l2 nxt; reflexivity. Qed.

Lemma seq_assoc : forall A B C (g : gr A) (h : gr B) (k : gr C) l nxt o a b c,
  lang ((g ** h) ** k) l nxt o ((a, b), c) <-> lang (g ** h ** k) l nxt o (a, (b, c)).
Proof.
  intros. split.
  - intros (l12 & l3 & o12 & o3 & -> & -> & (l1 & l2 & o1 & o2 & -> & -> & H1 & H2) & H3).
    exists l1, (l2 ++ l3)%list, o1, (o2 ++ o3)%list. rewrite !app_assoc. do 2 (split; auto). split.
    + now rewrite hdr_app.
    + exists l2, l3, o2, o3. auto.
  - intros (l1 & l23 & o1 & o23 & -> & -> & H1 & (l2 & l3 & o2 & o3 & -> & -> & H2 & H3)).
    exists (l1 ++ l2)%list, l3, (o1 ++ o2)%list, o3. rewrite !app_assoc. do 2 (split; auto). split; auto.
    exists l1, l2, o1, o2. do 2 (split; auto). split; auto. now rewrite <- hdr_app.
Qed.

(** ** Grammars that keep nothing *)

Fixpoint mute {A} (g : gr A) : bool :=
  match g with
  | Eps | One false _ | NotNext _ | IsNext _ | Brackets false | Skip => true
  | Seq g h => mute g && mute h
  | Cond _ g h => mute g && mute h
  | Map _ g => mute g
  | While _ g => mute g
  | WhileU _ _ g => mute g
  | SepBy false g => mute g
  | _ => false
  end.
Lemma mute_out : forall A (g : gr A), mute g = true -> forall l nxt o v, lang g l nxt o v -> o = [].
Proof.
  induction g; cbn [mute lang]; intros Q l nxt o v H; try discriminate.
  - apply H.
  - destruct keep; [discriminate|]. apply H.
  - apply H.
  - apply H.
  - destruct keep; [discriminate|]. destruct H as (l1 & _ & _ & H & _). exact H.
  - apply H.
  - apply andb_true_iff in Q as [Q1 Q2]. destruct H as (l1 & l2 & o1 & o2 & -> & -> & H1 & H2).
    rewrite (IHg1 Q1 _ _ _ _ H1), (IHg2 Q2 _ _ _ _ H2). reflexivity.
  - destruct H as (a & -> & H). eapply IHg; eauto.
  - apply andb_true_iff in Q as [Q1 Q2]. destruct H as [H|H]; [eapply IHg1|eapply IHg2]; eauto.
  - destruct H as (hs & H). induction H as [|t l1 l2 nxt o1 o2 v vs hs H1 H2 IH]; auto. rewrite IH, (IHg Q _ _ _ _ H1). reflexivity.
  - destruct H as (hs & H & _). induction H as [|t l1 l2 nxt o1 o2 v vs hs H1 H2 IH]; auto. rewrite IH, (IHg Q _ _ _ _ H1). reflexivity.
  - destruct keep; [discriminate|]. induction H as [l nxt o v H|l1 l2 nxt o1 o2 v vs H1 H2 IH]; [eapply IHg; eauto|].
    rewrite IH, (IHg Q _ _ _ _ H1). reflexivity.
Qed.
Lemma options_mute : forall d l nxt o v, lang (options d) l nxt o v -> o = [].
Proof. intros d. apply mute_out. destruct d; vm_compute; reflexivity. Qed.
Lemma opening_nxtfree : forall d, nxtfree (opening d) = true.
Proof. intros []; vm_compute; reflexivity. Qed.

(** ** A statement from its parts *)

Lemma rpar_ : forall nxt, lang (kw [")"]) [")"] nxt [")"] ")".
Proof. intros. apply (lang_one true). reflexivity. Qed.
Lemma semi_ : forall nxt, lang (kw [";"]) [";"] nxt [";"] ";".
Proof. intros. apply (lang_one true). reflexivity. Qed.


(** splitting a hypothesis about a sequence into its parts *)
Ltac parts H :=
  match type of H with
  | lang (Map _ _) _ _ _ _ => let a := fresh "a" in let E := fresh "E" in destruct H as (a & E & H); try subst; parts H
  | lang (Seq _ _) _ _ _ ?v =>
    let l1 := fresh "l" in let l2 := fresh "l" in let o1 := fresh "o" in let o2 := fresh "o" in let H1 := fresh "H" in
    destruct H as (l1 & l2 & o1 & o2 & -> & -> & H1 & H); parts H1; parts H
  | _ => idtac
  end.



Lemma ex_seq : forall A B (g : gr A) (h : gr B) l1 l2 nxt o1 o2 a,
  lang g l1 (hdr l2 nxt) o1 a -> (exists b, lang h l2 nxt o2 b) -> exists ab, lang (g ** h) (l1 ++ l2) nxt (o1 ++ o2) ab.
Proof. intros A B g h l1 l2 nxt o1 o2 a H [b K]. exists (a, b). now apply lang_seq. Qed.
Lemma ex_map : forall A B (f : A -> B) (g : gr A) l nxt o (P : B -> Prop),
  (exists a, lang g l nxt o a) -> (forall a, P (f a)) -> exists b, lang (g ==> f) l nxt o b /\ P b.
Proof. intros A B f g l nxt o P [a H] F. exists (f a). split; auto. now apply lang_map. Qed.
Definition is_table (s : a_stmt) : Prop := exists t, s = STable t.

Lemma table_tail : forall d es oe ve o vo nxt,
  lang (elements d) es (Some ")") oe ve -> lang (options d) o (Some ";") [] vo ->
  lang (elements d ** kw [")"] ** options d ** kw [";"]) (es ++ ")" :: o ++ [";"]) nxt (oe ++ [")"; ";"]) (ve, (")", (vo, ";"))).
Proof.
  intros. eapply lang_seq; [eassumption|].
  apply (lang_seq _ _ (kw [")"]) (options d ** kw [";"]) [")"] (o ++ [";"])%list nxt [")"] [";"] ")" (vo, ";")); [apply rpar_|].
  apply (lang_seq _ _ (options d) (kw [";"]) o [";"] nxt [] [";"] vo ";"); [assumption|apply semi_].
Qed.

Ltac fill := first [eapply ex_seq; [rewrite ?hdr_app in *; eassumption|fill] | eexists; rewrite ?hdr_app in *; eassumption].

Lemma table_parts : forall d a na oa va es oe ve o oo vo nxt,
  lang (opening d) a na oa va -> lang (elements d) es (Some ")") oe ve -> lang (options d) o (Some ";") oo vo ->
  exists t, lang (statement d) (a ++ es ++ ")" :: o ++ [";"]) nxt (oa ++ oe ++ [")"; ";"]) (STable t).
Proof.
  intros d a na oa va es oe ve o oo vo nxt A E O. pose proof (options_mute _ _ _ _ _ O) as ->.
  apply (nxtfree_lang _ _ (opening_nxtfree d) _ _ (hdr es (Some ")"))) in A.
  pose proof (table_tail d es oe ve o vo nxt E O) as T.
  replace (hdr es (Some ")")) with (hdr (es ++ ")" :: o ++ [";"])%list nxt) in A by now rewrite hdr_app.
  clear E O. set (r := (es ++ ")" :: o ++ [";"])%list) in *. set (ro := (oe ++ [")"; ";"])%list) in *.
  set (v := (ve, (")", (vo, ";")))) in T. clearbody r ro.
  assert (S : exists s, lang (statement d) (a ++ r) nxt (oa ++ ro) s /\ is_table s);
    [|destruct S as (s & S & t & ->); eauto].
  destruct d; cbn [opening options elements element statement] in *; parts A; parts T; unfold v in *; cbn [fst snd] in *; clear v.
  all: rewrite <- ?app_assoc; rewrite <- ?app_assoc in *.
  - assert (C : exists c, lang GSqlite.create_table
       (l0 ++ l2 ++ l3 ++ l4 ++ l6 ++ l5 ++ l8 ++ l7 ++ l10) nxt
       (o1 ++ o3 ++ o4 ++ o5 ++ o7 ++ o6 ++ o9 ++ o8 ++ o11) c /\ is_table c).
    { apply ex_map; [fill|]. intros (x1 & x2 & x3 & [x4 x5] & x6 & x7 & x8). eexists; reflexivity. }
    destruct C as (c & C & I). exists c. split; auto. eexists (_, (_, c)). split; [reflexivity|].
    eapply lang_seq; [rewrite ?hdr_app in *; eassumption|]. eapply lang_seq; [rewrite ?hdr_app in *; eassumption|]. now left.
  - assert (C : exists c, lang GPostgres.create_table
       (l1 ++ l0 ++ l2 ++ l3 ++ l5 ++ l4 ++ l7 ++ l6 ++ l9) nxt
       (o2 ++ o1 ++ o3 ++ o4 ++ o6 ++ o5 ++ o8 ++ o7 ++ o10) c /\ is_table c).
    { apply ex_map; [fill|]. intros (x1 & x2 & x3 & [x4 x5] & x6 & x7 & x8). eexists; reflexivity. }
    destruct C as (c & C & I). exists c. split; auto. eexists (_, c). split; [reflexivity|].
    eapply lang_seq; [rewrite ?hdr_app in *; eassumption|]. now left.
  - assert (C : exists c, lang GMysql.create_table
       (l1 ++ l0 ++ l2 ++ l3 ++ l5 ++ l4 ++ l7 ++ l6 ++ l9) nxt
       (o2 ++ o1 ++ o3 ++ o4 ++ o6 ++ o5 ++ o8 ++ o7 ++ o10) c /\ is_table c).
    { apply ex_map; [fill|]. intros (x1 & x2 & x3 & [x4 x5] & x6 & x7 & x8). eexists; reflexivity. }
    destruct C as (c & C & I). exists c. split; auto. eexists (_, c). split; [reflexivity|].
    eapply lang_seq; [rewrite ?hdr_app in *; eassumption|]. now left.
  - assert (C : exists c, lang GSqlite.create_table
       (l0 ++ l2 ++ l3 ++ l4 ++ l6 ++ l5 ++ l8 ++ l7 ++ l10) nxt
       (o1 ++ o3 ++ o4 ++ o5 ++ o7 ++ o6 ++ o9 ++ o8 ++ o11) c /\ is_table c).
    { apply ex_map; [fill|]. intros (x1 & x2 & x3 & [x4 x5] & x6 & x7 & x8). eexists; reflexivity. }
    destruct C as (c & C & I). exists c. split; auto. eexists (_, (_, c)). split; [reflexivity|].
    eapply lang_seq; [rewrite ?hdr_app in *; eassumption|]. eapply lang_seq; [rewrite ?hdr_app in *; eassumption|]. now left.
Qed.

(** every CREATE TABLE statement has such parts *)
Lemma sym_is : forall keep w l nxt o v, to_lower w = w -> to_upper w = w -> lang (One keep (CW [w])) l nxt o v ->
  l = [w] /\ o = kept keep [w] /\ v = w.
Proof. intros keep w l nxt o v L U (M & -> & ->). cbn in M. apply matches_sym in M; auto. subst. auto. Qed.
Lemma cond_inv : forall A c (g h : gr A) l nxt o v, lang (Cond c g h) l nxt o v -> lang g l nxt o v \/ lang h l nxt o v.
Proof. auto. Qed.
Lemma ex_tt : forall A (g : gr A) l nxt o, (exists a, lang g l nxt o a) -> lang (g ==> fun _ => tt) l nxt o tt.
Proof. intros A g l nxt o [a H]. exists a. auto. Qed.

Lemma table_split : forall d l nxt out t, lang (statement d) l nxt out (STable t) ->
  exists a oa es oe ve o, l = (a ++ es ++ ")" :: o ++ [";"])%list /\ out = (oa ++ oe ++ [")"; ";"])%list /\
    lang (opening d) a None oa tt /\ lang (elements d) es (Some ")") oe ve /\ lang (options d) o (Some ";") [] tt.
Proof.
  intros d l nxt out t H.
  enough (X : exists a oa es oe ve o na, l = (a ++ es ++ ")" :: o ++ [";"])%list /\ out = (oa ++ oe ++ [")"; ";"])%list /\
    lang (opening d) a na oa tt /\ lang (elements d) es (Some ")") oe ve /\ lang (options d) o (Some ";") [] tt).
  { destruct X as (a & oa & es & oe & ve & o & na & E1 & E2 & A & E & O). exists a, oa, es, oe, ve, o. do 2 (split; auto).
    split; auto. eapply nxtfree_lang; [apply opening_nxtfree|exact A]. }
  destruct d; cbn [statement] in H; unfold GSqlite.statement, GPostgres.statement, GMysql.statement in H; parts H;
    repeat match goal with x : (_ * _)%type |- _ => destruct x end; cbn [fst snd] in *; try subst;
    apply cond_inv in H as [H|H];
    try (exfalso; destruct H as (? & H & _); discriminate H);
    unfold GSqlite.create_table, GPostgres.create_table, GMysql.create_table in H; parts H;
    repeat match goal with x : (_ * _)%type |- _ => destruct x end; cbn [fst snd] in *;
    repeat match goal with K : lang (kw [")"]) _ _ _ _ |- _ => apply sym_is in K as (-> & -> & ->); [|reflexivity..] end;
    repeat match goal with K : lang (kw [";"]) _ _ _ _ |- _ => apply sym_is in K as (-> & -> & ->); [|reflexivity..] end.
  all: repeat rewrite hdr_app in *; cbn [hdr] in *.
  - destruct u0. pose proof (options_mute SQLite _ _ _ _ H9) as ->.
    exists (l0 ++ l ++ l1 ++ l2 ++ l3 ++ l4 ++ l5)%list, (o ++ o1 ++ o3 ++ o2 ++ o4 ++ o5 ++ o6)%list, l6, o7, l9, l8, (hdr l6 (Some ")")).
    rewrite <- !app_assoc. do 2 (split; [reflexivity|]). split; [|split; assumption].
    apply ex_tt. repeat (eapply ex_seq; [rewrite ?hdr_app; eassumption|]). eexists; eassumption.
  - pose proof (options_mute PostgreSQL _ _ _ _ (lang_map _ _ (fun _ => tt) _ _ _ _ _ H8)) as ->.
    exists (l0 ++ l ++ l1 ++ l2 ++ l3 ++ l4)%list, (o ++ o1 ++ o0 ++ o2 ++ o3 ++ o4)%list, l5, o5. eexists. exists l7, (hdr l5 (Some ")")).
    rewrite <- !app_assoc. do 2 (split; [reflexivity|]). split; [|split; [eassumption|apply ex_tt; eauto]].
    apply ex_tt. repeat (eapply ex_seq; [rewrite ?hdr_app; eassumption|]). eexists; eassumption.
  - pose proof (options_mute MySQL _ _ _ _ (lang_map _ _ (fun _ => tt) _ _ _ _ _ H8)) as ->.
    exists (l0 ++ l ++ l1 ++ l2 ++ l3 ++ l4)%list, (o ++ o1 ++ o0 ++ o2 ++ o3 ++ o4)%list, l5, o5. eexists. exists l7, (hdr l5 (Some ")")).
    rewrite <- !app_assoc. do 2 (split; [reflexivity|]). split; [|split; [eassumption|apply ex_tt; eauto]].
    apply ex_tt. repeat (eapply ex_seq; [rewrite ?hdr_app; eassumption|]). eexists; eassumption.
  - destruct u0. pose proof (options_mute SQLite _ _ _ _ H9) as ->.
    exists (l0 ++ l ++ l1 ++ l2 ++ l3 ++ l4 ++ l5)%list, (o ++ o1 ++ o3 ++ o2 ++ o4 ++ o5 ++ o6)%list, l6, o7, l9, l8, (hdr l6 (Some ")")).
    rewrite <- !app_assoc. do 2 (split; [reflexivity|]). split; [|split; assumption].
    apply ex_tt. repeat (eapply ex_seq; [rewrite ?hdr_app; eassumption|]). eexists; eassumption.
Qed.

(** ** Scripts *)

Lemma star_nxt : forall d l nxt o v hs, star (lang (statement d)) l nxt o v hs -> forall nxt', star (lang (statement d)) l nxt' o v hs.
Proof.
  intros d l nxt o v hs H. induction H; intros nxt'; constructor; auto.
  eapply nxtfree_lang; [apply statement_nxtfree|eassumption].
Qed.
Lemma star_app : forall d l1 nxt o1 v1 hs1, star (lang (statement d)) l1 nxt o1 v1 hs1 ->
  forall l2 o2 v2 hs2, star (lang (statement d)) l2 None o2 v2 hs2 ->
  star (lang (statement d)) (l1 ++ l2) None (o1 ++ o2) (v1 ++ v2) (hs1 ++ hs2).
Proof.
  intros d l1 nxt o1 v1 hs1 H. induction H as [|t l1 l2 nxt o1 o2 v vs hs H1 H2 IH]; intros l2' o2' v2' hs2' K; cbn [app]; auto.
  rewrite <- !app_assoc. constructor; auto. eapply nxtfree_lang; [apply statement_nxtfree|eassumption].
Qed.
Theorem script_app : forall d l1 nxt o1 v1 l2 o2 v2, lang (script d) l1 nxt o1 v1 -> lang (script d) l2 None o2 v2 ->
  lang (script d) (l1 ++ l2) None (o1 ++ o2) (v1 ++ v2)%list.
Proof. intros d l1 nxt o1 v1 l2 o2 v2. rewrite script_while. intros [h1 H1] [h2 H2]. eexists. eapply star_app; eauto. Qed.
Theorem script_one : forall d t l nxt o v, lang (statement d) (t :: l) nxt o v -> lang (script d) (t :: l) None o [v].
Proof.
  intros d t l nxt o v H. rewrite script_while. exists [t]. rewrite <- (app_nil_r l), <- (app_nil_r o). constructor; [|constructor].
  eapply nxtfree_lang; [apply statement_nxtfree|eassumption].
Qed.
Lemma statement_cons : forall d l nxt o v, lang (statement d) l nxt o v -> exists t l', l = t :: l'.
Proof.
  intros d l nxt o v H.
  destruct d; cbn [statement] in H; unfold GSqlite.statement, GPostgres.statement, GMysql.statement in H;
    destruct H as (a & E & l1 & l2 & o1 & o2 & -> & _ & (_ & -> & _) & _); cbn [app]; eauto.
Qed.
(** every statement of a script lies between two scripts *)
Theorem script_split : forall d l o v, lang (script d) l None o v -> forall vs1 s vs2, v = (vs1 ++ s :: vs2)%list ->
  exists l1 l2 l3 o1 o2 o3, l = (l1 ++ l2 ++ l3)%list /\ o = (o1 ++ o2 ++ o3)%list /\
    lang (script d) l1 None o1 vs1 /\ lang (statement d) l2 None o2 s /\ lang (script d) l3 None o3 vs2.
Proof.
  intros d l o v. rewrite script_while. intros [hs H].
  assert (X : forall nxt, star (lang (statement d)) l nxt o v hs -> forall vs1 s vs2, v = (vs1 ++ s :: vs2)%list ->
    exists l1 l2 l3 o1 o2 o3, l = (l1 ++ l2 ++ l3)%list /\ o = (o1 ++ o2 ++ o3)%list /\
    lang (script d) l1 None o1 vs1 /\ lang (statement d) l2 None o2 s /\ lang (script d) l3 None o3 vs2).
  { clear H. intros nxt H. rewrite script_while. induction H as [|t l1 l2 nxt o1 o2 v vs hs H1 H2 IH]; intros vs1 s vs2 E; [now destruct vs1|].
    apply (nxtfree_lang _ _ (statement_nxtfree d) _ _ None) in H1. destruct vs1 as [|v' vs1]; cbn [app] in E; inversion E; subst.
    - exists [], (t :: l1), l2, [], o1, o2. do 2 (split; [reflexivity|]). split; [exists []; constructor|]. split; auto. eexists. eapply star_nxt; eauto.
    - destruct (IH vs1 s vs2 eq_refl) as (m1 & m2 & m3 & p1 & p2 & p3 & -> & -> & [h K1] & K2 & K3).
      exists (t :: l1 ++ m1)%list, m2, m3, (o1 ++ p1)%list, p2, p3. cbn [app]. rewrite <- !app_assoc. do 2 (split; [reflexivity|]). split; auto.
      exists (t :: h). constructor; auto. eapply nxtfree_lang; [apply statement_nxtfree|eassumption]. }
  rewrite script_while in X. eapply X; eauto.
Qed.

(** ** The result depends on what the validator keeps only *)

Theorem same_out : forall d s s' l l' o v v', tokens d s l -> tokens d s' l' -> lang (script d) l None o v -> lang (script d) l' None o v' ->
  same_result d s s'.
Proof.
  enough (X : forall d s s' l l' o v v', tokens d s l -> tokens d s' l' -> lang (script d) l None o v -> lang (script d) l' None o v' ->
    forall ts err, returns s d ts err -> returns s' d ts err).
  { intros d s s' l l' o v v' T T' H H'. assert (R : forall ts err, returns s d ts err <-> returns s' d ts err).
    { intros. split; eapply X; eauto. }
    split; auto. rewrite !diverges_iff. split; intros D ts err Y; apply (D ts err); apply R; auto. }
  intros d s s' l l' o v v' (t & L & ->)%tokens_lexed (t' & L' & ->)%tokens_lexed H H' ts err R.
  apply returns_stage in R. apply returns_stage.
  assert (V : verdict d (strip t) (EOk tt [] o)) by (apply verdict_ok; eauto).
  assert (V' : verdict d (strip t') (EOk tt [] o)) by (apply verdict_ok; eauto).
  inversion R as [e L1|t1 rest L1 V1|t1 rest out ts1 L1 V1 C]; subst; rewrite L in L1; inversion L1; subst.
  - pose proof (verdict_det _ _ _ _ V V1). discriminate.
  - pose proof (verdict_det _ _ _ _ V V1) as E. inversion E; subst. eapply st_ok; eauto.
Qed.

(** C30 *)
Theorem options_same : forall d s s' l1 v1 a oa es oe ve o o' l2 v2,
  (exists o1, lang (script d) l1 None o1 v1) -> lang (opening d) a None oa tt -> lang (elements d) es (Some ")") oe ve ->
  (exists oo, lang (options d) o (Some ";") oo tt) -> (exists oo, lang (options d) o' (Some ";") oo tt) ->
  (exists o2, lang (script d) l2 None o2 v2) ->
  tokens d s (l1 ++ a ++ es ++ ")" :: o ++ ";" :: l2) -> tokens d s' (l1 ++ a ++ es ++ ")" :: o' ++ ";" :: l2) ->
  same_result d s s'.
Proof.
  intros d s s' l1 v1 a oa es oe ve o o' l2 v2 [o1 S1] A E [oo O] [oo' O'] [o2 S2] T T'.
  assert (X : forall p oo vo, lang (options d) p (Some ";") oo vo -> exists v, lang (script d) (l1 ++ a ++ es ++ ")" :: p ++ ";" :: l2) None
    (o1 ++ (oa ++ oe ++ [")"; ";"]) ++ o2) v).
  { intros p po vo P. destruct (table_parts d a None oa tt es oe ve p po vo None A E P) as [t H].
    destruct (statement_cons _ _ _ _ _ H) as (x & y & Q). rewrite Q in H. apply script_one in H. rewrite <- Q in H.
    eexists. replace (l1 ++ a ++ es ++ ")" :: p ++ ";" :: l2)%list with (l1 ++ (a ++ es ++ ")" :: p ++ [";"]) ++ l2)%list.
    2:{ rewrite <- !app_assoc. cbn [app]. now rewrite <- !app_assoc. }
    eapply script_app; [exact S1|]. eapply script_app; [exact H|exact S2]. }
  destruct (X _ _ _ O) as [v H], (X _ _ _ O') as [v' H']. eapply same_out; eauto.
Qed.
Theorem options_found : forall d s vs1 t vs2, says d s (vs1 ++ STable t :: vs2)%list ->
  exists l1 a oa es oe ve o l2, tokens d s (l1 ++ a ++ es ++ ")" :: o ++ ";" :: l2) /\
  (exists o1, lang (script d) l1 None o1 vs1) /\ lang (opening d) a None oa tt /\ lang (elements d) es (Some ")") oe ve /\
  (exists oo, lang (options d) o (Some ";") oo tt) /\ (exists o2, lang (script d) l2 None o2 vs2).
Proof.
  intros d s vs1 t vs2 (l & out & T & H).
  destruct (script_split _ _ _ _ H _ _ _ eq_refl) as (l1 & l2 & l3 & o1 & o2 & o3 & -> & -> & S1 & S2 & S3).
  destruct (table_split _ _ _ _ _ S2) as (a & oa & es & oe & ve & o & -> & -> & A & E & O).
  exists l1, a, oa, es, oe, ve, o, l3. repeat split; eauto. 
  replace (l1 ++ a ++ es ++ ")" :: o ++ ";" :: l3)%list with (l1 ++ (a ++ es ++ ")" :: o ++ [";"]) ++ l3)%list; auto.
  rewrite <- !app_assoc. cbn [app]. now rewrite <- !app_assoc.
Qed.

(** ** Concrete cases *)

(** The tokens of a concrete text, and membership in a part of the grammar, for concrete tokens. *)
Lemma tokens_lex : forall n d ddl toks l, Lexer.Lex n d ddl = Lexer.LexOk toks -> l = strip toks -> tokens d ddl l.
Proof. intros n d ddl toks l H ->. exists n, toks. auto. Qed.
Ltac is_tokens := eapply (tokens_lex 1000); [vm_compute; reflexivity|vm_compute; reflexivity].
Lemma read_part : forall A (g : gr A) n l rest o v, loops_eat g = true -> Read.read g n (l ++ rest) = Some (v, rest, o) -> lang g l (hd_error rest) o v.
Proof.
  intros A g n l rest o v E R. destruct (Read.read_sound _ _ E _ _ _ _ _ R) as (l1 & H & L).
  apply app_inv_tail in H. now subst.
Qed.
Ltac is_part next := match next with
  | None => eapply (read_part _ _ 1000 _ []); vm_compute; reflexivity
  | Some ?t => eapply (read_part _ _ 1000 _ [t]); vm_compute; reflexivity
  end.
