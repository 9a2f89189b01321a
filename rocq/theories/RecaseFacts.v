(** Keywords in another case. *)
From Coq Require Import String Ascii List Bool Arith NArith Lia.
From Verif Require Import GoStr Unicode UnicodeFacts UnicodeCase GoNum Types Grammar GrammarFacts Ast Recase Spec Safe Seen Meaning.
From Verif Require GSqlite GPostgres GMysql.
Import ListNotations.
Open Scope nat_scope.
Open Scope string_scope.

(** ** Letter case *)

Lemma upper_lower : forall s, to_upper (to_lower s) = to_upper s.
Proof.
  assert (H : forall c, upper_ascii (lower_ascii c) = upper_ascii c).
  { intros [[] [] [] [] [] [] [] []]; reflexivity. }
  induction s; cbn; [|rewrite H, IHs]; reflexivity.
Qed.
Lemma lower_upper : forall s, to_lower (to_upper s) = to_lower s.
Proof.
  assert (H : forall c, lower_ascii (upper_ascii c) = lower_ascii c).
  { intros [[] [] [] [] [] [] [] []]; reflexivity. }
  induction s; cbn; [|rewrite H, IHs]; reflexivity.
Qed.
Lemma upper_upper : forall s, to_upper (to_upper s) = to_upper s.
Proof. intros. now rewrite <- (upper_lower (to_upper s)), lower_upper, upper_lower. Qed.
Lemma lower_lower : forall s, to_lower (to_lower s) = to_lower s.
Proof. intros. now rewrite <- (lower_upper (to_lower s)), upper_lower, lower_upper. Qed.

(** the same word, in one case or the other *)
Definition cased (t : string) : Prop := t = to_lower t \/ t = to_upper t.
Definition sim (t t' : string) : Prop := cased t /\ cased t' /\ to_upper t = to_upper t'.

Lemma sim_sym : forall t t', sim t t' -> sim t' t.
Proof. intros t t' (A & B & C). repeat split; auto. Qed.
Lemma matches_cased : forall ws t, matches ws t = true -> cased t.
Proof.
  intros ws t (w & _ & [-> | ->])%matches_spec; [left|right]; [now rewrite lower_lower|now rewrite upper_upper].
Qed.
Lemma sim_matches1 : forall ws t t', sim t t' -> matches ws t = true -> matches ws t' = true.
Proof.
  intros ws t t' (A & B & C) (w & I & E)%matches_spec. apply matches_spec. exists w. split; auto.
  assert (U : to_upper t' = to_upper w).
  { rewrite <- C. destruct E as [-> | ->]; [apply upper_lower|apply upper_upper]. }
  destruct B as [-> | ->]; [left|right; exact U]. rewrite <- (lower_upper t'), U. apply lower_upper.
Qed.
Lemma sim_matches : forall ws t t', sim t t' -> matches ws t = matches ws t'.
Proof.
  intros ws t t' S. apply eq_true_iff_eq. split; apply sim_matches1; [exact S|now apply sim_sym].
Qed.
Lemma sim_upper : forall t, cased t -> sim t (to_upper t).
Proof. intros t C. repeat split; auto; [right; now rewrite upper_upper|now rewrite upper_upper]. Qed.
Lemma sim_lower : forall t, cased t -> sim t (to_lower t).
Proof. intros t C. repeat split; auto; [left; now rewrite lower_lower|now rewrite upper_lower]. Qed.

Definition same (t t' : string) : Prop := t = t' \/ sim t t'.
Definition nsame (o o' : option string) : Prop :=
  match o, o' with Some t, Some t' => same t t' | None, None => True | _, _ => False end.
Lemma same_matches : forall ws t t', same t t' -> matches ws t = matches ws t'.
Proof. intros ws t t' [->|S]; auto. now apply sim_matches. Qed.

(** ** Marks *)

Definition marks_ok (ks : list bool) (l : list string) : Prop := Forall2 (fun k t => k = true -> cased t) ks l.
Lemma marks_app : forall a b l m, marks_ok a l -> marks_ok b m -> marks_ok (a ++ b) (l ++ m).
Proof. intros. now apply Forall2_app. Qed.
Lemma marks_false : forall l, marks_ok (map (fun _ => false) l) l.
Proof. induction l; constructor; auto. discriminate. Qed.

Lemma marked_ok : forall A (g : gr A) l nxt v ks, marked g l nxt v ks -> marks_ok ks l.
Proof.
  induction g; cbn [marked]; intros l nxt val ks H.
  - destruct H as [-> ->]. constructor.
  - destruct H as [-> ->]. constructor.
  - destruct H as (M & -> & ->). constructor; [|constructor]. destruct c; cbn [keyword cmem] in *; try discriminate.
    + intros _. eapply matches_cased; eauto.
    + apply matches_cased.
  - destruct H as (-> & -> & _). constructor.
  - destruct H as (-> & -> & _). constructor.
  - destruct H as (l1 & _ & _ & _ & ->). apply marks_false.
  - destruct H as (_ & _ & ->). apply marks_false.
  - destruct H as (l1 & l2 & k1 & k2 & -> & -> & H1 & H2). apply marks_app; eauto.
  - destruct H as (a & _ & H). eauto.
  - destruct H; eauto.
  - destruct H as [hs H]. induction H; [constructor|]. change (t :: l1 ++ l2)%list with ((t :: l1) ++ l2)%list.
    apply marks_app; eauto.
  - destruct H as [hs [H _]]. induction H; [constructor|]. change (t :: l1 ++ l2)%list with ((t :: l1) ++ l2)%list.
    apply marks_app; eauto.
  - induction H; eauto. apply marks_app; eauto. constructor; auto. discriminate.
Qed.

(** A sentence has marks, and what has marks is a sentence. *)
Lemma marked_lang : forall A (g : gr A) l nxt v, (exists out, lang g l nxt out v) <-> (exists ks, marked g l nxt v ks).
Proof.
  induction g; cbn [marked lang]; intros l nxt val.
  - split; intros [x [-> ->]]; eauto.
  - split; intros [x [-> ->]]; eauto.
  - split; intros [x (M & -> & ->)]; eauto.
  - split; intros [x (-> & -> & M)]; eauto.
  - split; intros [x (-> & -> & M)]; eauto.
  - split; intros [x (l1 & B & E & X & Y)]; eauto 8.
  - split; intros [x (B & E & X)]; eauto 8.
  - split.
    + intros (o & l1 & l2 & o1 & o2 & -> & _ & H1 & H2).
      assert (E1 : exists o, lang g1 l1 (hdr l2 nxt) o (fst val)) by eauto. apply IHg1 in E1 as [k1 E1].
      assert (E2 : exists o, lang g2 l2 nxt o (snd val)) by eauto. apply IHg2 in E2 as [k2 E2].
      exists (k1 ++ k2)%list, l1, l2, k1, k2. auto.
    + intros (o & l1 & l2 & o1 & o2 & -> & _ & H1 & H2).
      assert (E1 : exists o, marked g1 l1 (hdr l2 nxt) (fst val) o) by eauto. apply IHg1 in E1 as [k1 E1].
      assert (E2 : exists o, marked g2 l2 nxt (snd val) o) by eauto. apply IHg2 in E2 as [k2 E2].
      exists (k1 ++ k2)%list, l1, l2, k1, k2. auto.
  - split; intros (o & a & -> & H).
    + assert (E : exists o, lang g l nxt o a) by eauto. apply IHg in E as [k E]. eauto.
    + assert (E : exists o, marked g l nxt a o) by eauto. apply IHg in E as [k E]. eauto.
  - split.
    + intros (o & [H|H]); [assert (E : exists o, lang g1 l nxt o val) by eauto; apply IHg1 in E as [k E]
                          |assert (E : exists o, lang g2 l nxt o val) by eauto; apply IHg2 in E as [k E]]; eauto.
    + intros (o & [H|H]); [assert (E : exists o, marked g1 l nxt val o) by eauto; apply IHg1 in E as [k E]
                          |assert (E : exists o, marked g2 l nxt val o) by eauto; apply IHg2 in E as [k E]]; eauto.
  - split; intros (o & hs & H).
    + induction H as [nxt|t l1 l2 nxt o1 o2 v vs hs H1 H2 (k2 & hs2 & K2)]; [exists [], []; constructor|].
      assert (E : exists o, lang g (t :: l1) (hdr l2 nxt) o v) by eauto. apply IHg in E as [k1 K1].
      exists (k1 ++ k2)%list, (t :: hs2). now constructor.
    + induction H as [nxt|t l1 l2 nxt o1 o2 v vs hs H1 H2 (k2 & hs2 & K2)]; [exists [], []; constructor|].
      assert (E : exists k, marked g (t :: l1) (hdr l2 nxt) v k) by eauto. apply IHg in E as [k1 K1].
      exists (k1 ++ k2)%list, (t :: hs2). now constructor.
  - split; intros (o & hs & H & D).
    + cut (exists k, mstar (marked g) l nxt val k hs); [intros [k K]; eauto|]. clear D.
      induction H as [nxt|t l1 l2 nxt o1 o2 v vs hs H1 H2 (k2 & K2)]; [exists []; constructor|].
      assert (E : exists o, lang g (t :: l1) (hdr l2 nxt) o v) by eauto. apply IHg in E as [k1 K1].
      exists (k1 ++ k2)%list. now constructor.
    + cut (exists k, star (lang g) l nxt k val hs); [intros [k K]; eauto|]. clear D.
      induction H as [nxt|t l1 l2 nxt o1 o2 v vs hs H1 H2 (k2 & K2)]; [exists []; constructor|].
      assert (E : exists k, marked g (t :: l1) (hdr l2 nxt) v k) by eauto. apply IHg in E as [k1 K1].
      exists (k1 ++ k2)%list. now constructor.
  - split; intros (o & H).
    + induction H as [l nxt o v H|l1 l2 nxt o1 o2 v vs H1 H2 (k2 & K2)].
      * assert (E : exists o, lang g l nxt o v) by eauto. apply IHg in E as [k1 K1]. exists k1. now constructor.
      * assert (E : exists o, lang g l1 (Some ",") o v) by eauto. apply IHg in E as [k1 K1].
        exists (k1 ++ false :: k2)%list. now constructor.
    + induction H as [l nxt v o H|l1 l2 nxt v vs o1 o2 H1 H2 (k2 & K2)].
      * assert (E : exists o, marked g l nxt v o) by eauto. apply IHg in E as [k1 K1]. exists k1. now constructor.
      * assert (E : exists o, marked g l1 (Some ",") v o) by eauto. apply IHg in E as [k1 K1].
        eexists. now constructor; eauto.
Qed.

(** ** Recasing a sentence *)

Lemma recased_app : forall k1 k2 l1 l2 l', marks_ok k1 l1 -> recased (k1 ++ k2) (l1 ++ l2) l' ->
  exists l1' l2', l' = (l1' ++ l2')%list /\ recased k1 l1 l1' /\ recased k2 l2 l2'.
Proof.
  intros k1 k2 l1 l2 l' M. revert l'. induction M as [|k t k1 l1 Hk M IH]; cbn [app]; intros l' H.
  - exists [], l'. repeat split; auto. constructor.
  - inversion H as [|b u ks m m' R|u u' ks m m' C R]; subst; apply IH in R as (a & b' & -> & A & B).
    + exists (t :: a), b'. repeat split; auto. now constructor.
    + exists (u' :: a), b'. repeat split; auto. now constructor.
Qed.
Lemma recased_false : forall l l', recased (map (fun _ => false) l) l l' -> l' = l.
Proof.
  induction l as [|t l IH]; intros l' H; inversion H; subst; auto. f_equal. auto.
Qed.
Lemma recased_hd : forall ks l l' nxt nxt', marks_ok ks l -> recased ks l l' -> nsame nxt nxt' -> nsame (hdr l nxt) (hdr l' nxt').
Proof.
  intros ks l l' nxt nxt' M R N. inversion R as [|b u k m m' R'|u u' k m m' C R']; subst; cbn; auto.
  - now left.
  - right. inversion M; subst. destruct C as [-> | ->]; [apply sim_upper|apply sim_lower]; auto.
Qed.

Definition carries {A} (R : A -> A -> Prop) (g : gr A) : Prop :=
  forall l nxt v ks, marked g l nxt v ks -> forall l' nxt', recased ks l l' -> nsame nxt nxt' ->
  exists out' v', lang g l' nxt' out' v' /\ R v v'.

Definition prodR {A B} (R : A -> A -> Prop) (Q : B -> B -> Prop) (x y : A * B) : Prop :=
  R (fst x) (fst y) /\ Q (snd x) (snd y).
Definition optR {A} (R : A -> A -> Prop) (x y : option A) : Prop :=
  match x, y with Some a, Some b => R a b | None, None => True | _, _ => False end.

Lemma carries_eps : carries eq Eps.
Proof. intros l nxt v ks [-> ->] l' nxt' R N. inversion R; subst. exists [], v. cbn. auto. Qed.
Lemma carries_put : forall o, carries eq (Put o).
Proof. intros o l nxt v ks [-> ->] l' nxt' R N. inversion R; subst. exists o, v. cbn. auto. Qed.
Lemma carries_kw : forall keep ws, carries same (One keep (CW ws)).
Proof.
  intros keep ws l nxt v ks (M & -> & ->) l' nxt' R N. cbn [keyword cmem] in *.
  assert (exists t, l' = [t] /\ same v t) as (t & -> & S).
  { inversion R as [|b u k m m' R'|u u' k m m' C R']; inversion R'; subst.
    - eexists. split; eauto. now left.
    - eexists. split; eauto. right. apply matches_cased in M. destruct C as [-> | ->]; [now apply sim_upper|now apply sim_lower]. }
  exists (kept keep [t]), t. cbn. rewrite <- (same_matches _ _ _ S). auto.
Qed.
(** the token is not a keyword *)
Lemma carries_fixed : forall keep c, (forall t, keyword c t = false) -> carries eq (One keep c).
Proof.
  intros keep c F l nxt v ks (M & -> & ->) l' nxt' R N. rewrite F in R.
  inversion R as [|b u k m m' R'|]; subst. inversion R'; subst. exists (kept keep [v]), v. cbn. auto.
Qed.
Definition lit_same (t t' : string) : Prop := forall d, literal_value d t = literal_value d t'.
Lemma word_literal : forall t t', matches ["NULL"; "TRUE"; "FALSE"] t = true -> sim t t' -> lit_same t t'.
Proof.
  intros t t' M S.
  assert (H : forall w, In w ["NULL"; "TRUE"; "FALSE"] -> lit_same (to_lower w) (to_upper w)).
  { intros w [<-|[<-|[<-|[]]]] [| | |]; reflexivity. }
  pose proof M as M'. rewrite (sim_matches _ _ _ S) in M'. apply matches_spec in M as (w & I & E). apply matches_spec in M' as (w' & I' & E').
  assert (W : to_upper w = to_upper w').
  { destruct S as (_ & _ & U). destruct E as [-> | ->], E' as [-> | ->]; rewrite ?upper_lower, ?upper_upper in U; exact U. }
  assert (L : to_lower w = to_lower w') by now rewrite <- (lower_upper w), W, lower_upper.
  rewrite <- W, <- L in E'. specialize (H w I).
  intros d. destruct E as [-> | ->], E' as [-> | ->]; auto.
Qed.
Lemma carries_lit : forall keep d, carries lit_same (One keep (CLit d)).
Proof.
  intros keep d l nxt v ks (M & -> & ->) l' nxt' R N. cbn [keyword cmem] in *.
  destruct (matches ["NULL"; "TRUE"; "FALSE"] v) eqn:K.
  2: { inversion R as [|b u k m m' R'|]; subst. inversion R'; subst. exists (kept keep [v]), v. cbn. split; auto. intros x. reflexivity. }
  assert (exists t, l' = [t] /\ sim v t) as (t & -> & S).
  { apply matches_cased in K. inversion R as [|b u k m m' R'|u u' k m m' C R']; inversion R'; subst; eexists; split; eauto.
    - repeat split; auto.
    - destruct C as [-> | ->]; [now apply sim_upper|now apply sim_lower]. }
  exists (kept keep [t]), t. cbn [lang cmem]. split; [split; [|auto]|apply word_literal; auto].
  unfold literal. replace (matches literal_words t) with true; [now rewrite !orb_true_r|]. symmetry.
  apply (sim_matches1 _ _ _ S). apply matches_spec in K as (w & I & E). apply matches_spec. exists w. split; auto.
  destruct I as [<-|[<-|[<-|[]]]]; unfold literal_words; cbn; auto.
Qed.
Lemma carries_notnext : forall ws, carries eq (NotNext ws).
Proof.
  intros ws l nxt v ks (-> & -> & M) l' nxt' R N. inversion R; subst. exists [], v. cbn.
  repeat split; auto. destruct nxt, nxt'; cbn in N; try tauto. now rewrite <- (same_matches _ _ _ N).
Qed.
Lemma carries_isnext : forall ws, carries eq (IsNext ws).
Proof.
  intros ws l nxt v ks (-> & -> & M) l' nxt' R N. inversion R; subst. exists [], v. cbn.
  repeat split; auto. destruct nxt, nxt'; cbn in N; try tauto. now rewrite <- (same_matches _ _ _ N).
Qed.
Lemma carries_brackets : forall keep, carries eq (Brackets keep).
Proof.
  intros keep l nxt v ks (l1 & B & E & -> & ->) l' nxt' R N. apply recased_false in R as ->.
  exists (kept keep l), l. split; auto. exists l1. auto.
Qed.
Lemma carries_skip : carries eq Skip.
Proof.
  intros l nxt v ks (B & -> & ->) l' nxt' R N. apply recased_false in R as ->. exists [], v. split; auto.
  split; [auto|split; auto]. destruct nxt' as [t|]; [|destruct N]. cbn in N. f_equal.
  pose proof (same_matches [";"] _ _ N) as M. symmetry in M. now apply match_semi.
Qed.
Lemma carries_seq : forall A B R Q (g : gr A) (h : gr B), carries R g -> carries Q h -> carries (prodR R Q) (Seq g h).
Proof.
  intros A B R Q g h CG CH l nxt v ks (l1 & l2 & k1 & k2 & -> & -> & H1 & H2) l' nxt' RC N.
  pose proof (marked_ok _ _ _ _ _ _ H1) as M1. pose proof (marked_ok _ _ _ _ _ _ H2) as M2.
  apply recased_app in RC as (l1' & l2' & -> & R1 & R2); auto.
  destruct (CH _ _ _ _ H2 _ _ R2 N) as (o2 & v2 & L2 & E2).
  destruct (CG _ _ _ _ H1 _ _ R1 (recased_hd _ _ _ _ _ M2 R2 N)) as (o1 & v1 & L1 & E1).
  exists (o1 ++ o2)%list, (v1, v2). split; [|split; auto]. exists l1', l2', o1, o2. auto.
Qed.
Lemma carries_map : forall A B (R : A -> A -> Prop) (Q : B -> B -> Prop) f g,
  carries R g -> (forall v v', R v v' -> Q (f v) (f v')) -> carries Q (Map f g).
Proof.
  intros A B R Q f g C F l nxt v ks (a & -> & H) l' nxt' RC N.
  destruct (C _ _ _ _ H _ _ RC N) as (o & v' & L & E). exists o, (f v'). split; [exists v'; auto|auto].
Qed.
Lemma carries_cond : forall A (R : A -> A -> Prop) c g h, carries R g -> carries R h -> carries R (Cond c g h).
Proof.
  intros A R c g h CG CH l nxt v ks [H|H] l' nxt' RC N; [destruct (CG _ _ _ _ H _ _ RC N) as (o & v' & L & E)
    |destruct (CH _ _ _ _ H _ _ RC N) as (o & v' & L & E)]; exists o, v'; cbn; auto.
Qed.
Lemma carries_opt : forall A (R : A -> A -> Prop) ws g, carries R g -> carries (optR R) (opt ws g).
Proof.
  intros A R ws g C. apply carries_cond; eapply carries_map; eauto using carries_eps. intros v v' _. exact I.
Qed.
Lemma carries_star : forall A (R : A -> A -> Prop) g, carries R g ->
  forall l nxt vs ks hs, mstar (marked g) l nxt vs ks hs -> forall l' nxt', recased ks l l' -> nsame nxt nxt' ->
  exists out' vs' hs', star (lang g) l' nxt' out' vs' hs' /\ Forall2 R vs vs' /\ Forall2 same hs hs'.
Proof.
  intros A R g C l nxt vs ks hs H. induction H as [nxt|t l1 l2 nxt k1 k2 v vs hs H1 H2 IH]; intros l' nxt' RC N.
  - inversion RC; subst. exists [], [], []. repeat split; constructor.
  - pose proof (marked_ok _ _ _ _ _ _ H1) as M1.
    assert (M2 : marks_ok k2 l2). { eapply (marked_ok _ (While (next_in []) g) _ nxt vs). cbn. eauto. }
    change (t :: l1 ++ l2)%list with ((t :: l1) ++ l2)%list in RC.
    apply recased_app in RC as (l1' & l2' & -> & R1 & R2); auto.
    destruct (IH _ _ R2 N) as (o2 & vs' & hs' & L2 & E2 & S2).
    destruct (C _ _ _ _ H1 _ _ R1 (recased_hd _ _ _ _ _ M2 R2 N)) as (o1 & v1 & L1 & E1).
    pose proof (recased_hd _ _ _ None None M1 R1 I) as HD.
    destruct l1' as [|t' l1']; [destruct HD|]. cbn in HD.
    exists (o1 ++ o2)%list, (v1 :: vs'), (t' :: hs'). split; [|split; constructor; auto].
    cbn [app]. now constructor.
Qed.
Lemma carries_while : forall A (R : A -> A -> Prop) c g, carries R g -> carries (Forall2 R) (While c g).
Proof.
  intros A R c g C l nxt v ks [hs H] l' nxt' RC N.
  destruct (carries_star _ _ _ C _ _ _ _ _ H _ _ RC N) as (o & v' & hs' & L & E & _). exists o, v'. split; auto. exists hs'. auto.
Qed.
Lemma carries_whileu : forall A (R : A -> A -> Prop) c key g, (forall t t', same t t' -> key t = key t') ->
  carries R g -> carries (Forall2 R) (WhileU c key g).
Proof.
  intros A R c key g K C l nxt v ks (hs & H & D) l' nxt' RC N.
  destruct (carries_star _ _ _ C _ _ _ _ _ H _ _ RC N) as (o & v' & hs' & L & E & F). exists o, v'. split; auto. exists hs'.
  split; auto. replace (map key hs') with (map key hs); auto. clear - K F. induction F; cbn; auto. f_equal; auto.
Qed.
Lemma carries_sepby : forall A (R : A -> A -> Prop) keep g, carries R g -> carries (Forall2 R) (SepBy keep g).
Proof.
  intros A R keep g C l nxt vs ks H.
  induction H as [l nxt v k H|l1 l2 nxt v vs k1 k2 H1 H2 IH]; intros l' nxt' RC N.
  - destruct (C _ _ _ _ H _ _ RC N) as (o & v' & L & E). exists o, [v']. split; auto. now constructor.
  - pose proof (marked_ok _ _ _ _ _ _ H1) as M1. apply recased_app in RC as (l1' & l2' & -> & R1 & R2); auto.
    inversion R2 as [|b u k m m' R'|]; subst. 
    destruct (IH _ _ R' N) as (o2 & vs' & L2 & E2).
    destruct (C _ _ _ _ H1 _ (Some ",") R1 (or_introl eq_refl)) as (o1 & v1 & L1 & E1).
    exists (o1 ++ kept keep [","] ++ o2)%list, (v1 :: vs'). split; [now constructor|now constructor].
Qed.

(** ** The same meaning *)

Inductive default_same : a_default -> a_default -> Prop :=
| ds_refl x : default_same x x
| ds_lit t t' : lit_same t t' -> default_same (ALit t) (ALit t').
Inductive item_same : a_item -> a_item -> Prop :=
| is_refl i : item_same i i
| is_default x x' : default_same x x' -> item_same (IDefault x) (IDefault x').
Definition type_same (t t' : a_type) : Prop :=
  to_upper (at_word t) = to_upper (at_word t') /\ at_varying t = at_varying t' /\ at_digits t = at_digits t'.
Inductive element_same : a_element -> a_element -> Prop :=
| es_constraint n b : element_same (EConstraint n b) (EConstraint n b)
| es_column n t t' c l l' : type_same t t' -> Forall2 item_same l l' ->
    element_same (EColumn (mk_acolumn n t c l)) (EColumn (mk_acolumn n t' c l')).
Inductive stmt_same : a_stmt -> a_stmt -> Prop :=
| ss_other : stmt_same SOther SOther
| ss_table i s t l l' : Forall2 element_same l l' -> stmt_same (STable (mk_atable i s t l)) (STable (mk_atable i s t l')).

Lemma Forall2_eq : forall A (l l' : list A), Forall2 eq l l' -> l = l'.
Proof. induction 1; congruence. Qed.
Lemma same_upper : forall t t', same t t' -> to_upper t = to_upper t'.
Proof. intros t t' [->|(_ & _ & E)]; auto. Qed.
Lemma keys_upper : forall t t', same t t' -> to_upper t = to_upper t'.
Proof. exact same_upper. Qed.
Lemma keys_postgres : forall t t', same t t' -> GPostgres.constraint_key t = GPostgres.constraint_key t'.
Proof. intros t t' S. unfold GPostgres.constraint_key. now rewrite (same_matches _ _ _ S), (same_upper _ _ S). Qed.
Lemma keys_mysql : forall t t', same t t' -> GMysql.constraint_key t = GMysql.constraint_key t'.
Proof. intros t t' S. unfold GMysql.constraint_key. now rewrite !(same_matches _ _ _ S), (same_upper _ _ S). Qed.

Ltac rel_of T :=
  match T with
  | a_type => constr:(type_same)
  | a_default => constr:(default_same)
  | a_item => constr:(item_same)
  | a_element => constr:(element_same)
  | a_stmt => constr:(stmt_same)
  | _ => constr:(@eq T)
  end.
Ltac split_rel :=
  repeat match goal with
  | v : (_ * _)%type |- _ => destruct v
  | H : prodR _ _ _ _ |- _ => destruct H; cbn [fst snd] in *
  | H : _ = _ |- _ => progress subst
  | H : (_, _) = (_, _) |- _ => inversion H; clear H; subst
  | H : optR _ ?a ?b |- _ => destruct a, b; cbn [optR] in H; try contradiction H
  | H : Forall2 eq _ _ |- _ => apply Forall2_eq in H; subst
  end.
Ltac close_rel :=
  intros; split_rel; cbn [fst snd];
  first
  [ reflexivity
  | constructor; solve [auto]
  | repeat constructor; cbn; solve [auto using same_upper] ].
Ltac carry :=
  lazymatch goal with
  | |- carries _ ?g =>
    lazymatch g with
    | Eps => apply carries_eps
    | Put _ => apply carries_put
    | One _ (CW ?ws) =>
        first [ apply carries_fixed; intros ?; reflexivity | apply carries_kw ]
    | One _ (CLit _) => apply carries_lit
    | One _ _ => apply carries_fixed; intros ?; reflexivity
    | NotNext _ => apply carries_notnext
    | IsNext _ => apply carries_isnext
    | Brackets _ => apply carries_brackets
    | Skip => apply carries_skip
    | Seq _ _ => eapply carries_seq; carry
    | opt _ _ => eapply carries_opt; carry
    | optkw _ _ => unfold optkw; eapply carries_opt; carry
    | @Map _ ?B _ _ => let Q := rel_of B in eapply (carries_map _ _ _ Q); [carry|close_rel]
    | @Cond ?A _ _ _ => let Q := rel_of A in eapply (carries_cond _ Q); carry
    | While _ _ => eapply carries_while; carry
    | WhileU _ _ _ => eapply carries_whileu; [first [apply keys_upper|apply keys_postgres|apply keys_mysql]|carry]
    | SepBy _ _ => eapply carries_sepby; carry
    | _ => let g' := eval red in g in change g with g'; carry
    end
  end.

Lemma carries_sqlite : carries (Forall2 stmt_same) GSqlite.script.
Proof. unfold GSqlite.script. carry. Qed.
Lemma carries_postgres : carries (Forall2 stmt_same) GPostgres.script.
Proof. unfold GPostgres.script. carry. Qed.
Lemma carries_mysql : carries (Forall2 stmt_same) GMysql.script.
Proof. unfold GMysql.script. carry. Qed.
Lemma carries_script : forall d, carries (Forall2 stmt_same) (script d).
Proof. intros []; [apply carries_sqlite|apply carries_postgres|apply carries_mysql|apply carries_sqlite]. Qed.

Lemma default_same_of : forall d x x', default_same x x' -> default_of d x = default_of d x'.
Proof. intros d x x' [|t t' H]; auto. exact (H d). Qed.
Lemma constraint_same : forall d n l l', Forall2 item_same l l' -> constraint_of d n l = constraint_of d n l'.
Proof.
  intros d n l l' H. unfold constraint_of. f_equal; try (induction H as [|i i' l l' [|x x' S] F IH]; cbn; [reflexivity|congruence|congruence]);
    try (f_equal; induction H as [|i i' l l' [|x x' S] F IH]; cbn; rewrite ?IH, ?(default_same_of _ _ _ S); reflexivity).
Qed.
Lemma type_same_of : forall t t', type_same t t' -> type_of t = type_of t'.
Proof. intros t t' (A & B & C). unfold type_of. now rewrite (same_go_upper _ _ A), B, C. Qed.
Lemma tables_same : forall d l l', Forall2 stmt_same l l' -> tables_of d l = tables_of d l'.
Proof.
  intros d l l' H. unfold tables_of. induction H as [|s s' l l' S F IH]; cbn; auto. rewrite IH. f_equal.
  destruct S as [|i s t e e' E]; auto. f_equal. unfold table_of. cbn. f_equal.
  - unfold columns_of. induction E as [|a a' e e' S E IHE]; cbn; auto. rewrite IHE. f_equal.
    destruct S as [|n t1 t2 c i1 i2 T I]; auto. unfold column_of. cbn.
    now rewrite (type_same_of _ _ T), (constraint_same _ _ _ _ I).
  - unfold constraints_of. f_equal; induction E as [|a a' e e' S E IHE]; cbn; auto; rewrite IHE; f_equal; destruct S; auto.
Qed.
Lemma safe_same : forall l l', Forall2 stmt_same l l' -> safe l = safe l'.
Proof.
  intros l l' H. unfold safe. induction H as [|s s' l l' S F IH]; cbn; auto. rewrite IH. f_equal.
  destruct S as [|i s t e e' E]; auto. cbn. unfold safe_table. cbn. f_equal.
  - induction E as [|a a' e e' S E IHE]; cbn; auto. rewrite IHE. f_equal.
    destruct S as [|n t1 t2 c i1 i2 T I]; auto. cbn. unfold safe_column. cbn. f_equal.
    clear T. induction I as [|x x' i1 i2 S I IHI]; cbn; auto. rewrite IHI. f_equal.
    destruct S as [|y y' S]; auto. destruct S; auto.
  - destruct E as [|a a' e e' S E]; auto. destruct E; auto. now destruct S.
Qed.

Lemma readable_same : forall l l', Forall2 stmt_same l l' -> readable l = readable l'.
Proof.
  intros l l' H. unfold readable. induction H as [|s s' l l' S F IH]; cbn; auto. rewrite IH. f_equal.
  destruct S as [|i s t e e' E]; auto. cbn. unfold readable_table, first_ok. cbn. f_equal.
  - induction E as [|a a' e e' S E IHE]; cbn; auto. rewrite IHE. f_equal.
    destruct S as [|n t1 t2 c i1 i2 T I]; auto. cbn.
    clear T. induction I as [|x x' i1 i2 S I IHI]; cbn; auto. rewrite IHI. f_equal.
    destruct S as [|y y' S]; auto.
  - destruct E as [|a a' e e' S E]; auto. destruct E; auto. now destruct S.
Qed.
Lemma item_same_seen : forall i i', item_same i i' -> item_same (seen_item i) (seen_item i').
Proof. intros i i' [|x x' [|t t' S]]; repeat constructor. exact S. Qed.
Lemma seen_same_ : forall l l', Forall2 stmt_same l l' -> Forall2 stmt_same (seen l) (seen l').
Proof.
  intros l l' H. induction H as [|s s' l l' S F IH]; cbn [seen map]; constructor; auto.
  destruct S as [|i s t e e' E]; cbn [seen_stmt]; [constructor|]. unfold seen_table. cbn [at_ine at_schema at_name at_elements]. constructor.
  induction E as [|a a' e e' S E IHE]; cbn [map]; constructor; auto.
  destruct S as [|n t1 t2 c i1 i2 T I]; cbn [seen_element]; [constructor|]. unfold seen_column. cbn [ac_name ac_type ac_cname ac_items].
  assert (J : Forall2 item_same (map seen_item i1) (map seen_item i2)).
  { clear T. induction I; cbn [map]; constructor; auto using item_same_seen. }
  destruct c as [x|]; [destruct (matches not_names x)|]; constructor; auto. constructor; auto. constructor.
Qed.

Theorem recased_says : forall d ddl ddl' l l' stmts ks,
  tokens d ddl l -> tokens d ddl' l' -> marked (script d) l None stmts ks -> recased ks l l' ->
  says d ddl stmts /\ exists stmts', says d ddl' stmts' /\ tables_of d stmts' = tables_of d stmts /\
    safe stmts' = safe stmts /\ readable stmts' = readable stmts /\ tables_of d (seen stmts') = tables_of d (seen stmts).
Proof.
  intros d ddl ddl' l l' stmts ks T T' M R. split.
  - assert (E : exists k, marked (script d) l None stmts k) by eauto. apply marked_lang in E as [o L]. exists l, o. auto.
  - destruct (carries_script d _ _ _ _ M _ None R I) as (o & s & L & S).
    exists s. split; [exists l', o; auto|]. repeat split; symmetry; auto using tables_same, safe_same, readable_same, seen_same_.
Qed.
Theorem says_marked : forall d ddl stmts, says d ddl stmts -> exists l ks, tokens d ddl l /\ marked (script d) l None stmts ks.
Proof.
  intros d ddl stmts (l & o & T & L). assert (E : exists o, lang (script d) l None o stmts) by eauto.
  apply marked_lang in E as [ks K]. eauto.
Qed.
Theorem says_iff_marked : forall d ddl stmts, says d ddl stmts <->
  exists l ks, tokens d ddl l /\ marked (script d) l None stmts ks.
Proof.
  intros. split; [apply says_marked|]. intros (l & ks & T & M).
  assert (E : exists k, marked (script d) l None stmts k) by eauto. apply marked_lang in E as [o L]. exists l, o. auto.
Qed.
Theorem recased_script : forall d ddl ddl' l l' stmts ks,
  tokens d ddl l -> tokens d ddl' l' -> marked (script d) l None stmts ks -> recased ks l l' ->
  exists stmts', says d ddl' stmts' /\ tables_of d stmts' = tables_of d stmts /\ safe stmts' = safe stmts.
Proof.
  intros d ddl ddl' l l' stmts ks T T' M R. destruct (recased_says _ _ _ _ _ _ _ T T' M R) as (_ & s & S & E & F & _). eauto.
Qed.
Theorem recased_tables : forall d ddl ddl' l l' stmts ks,
  tokens d ddl l -> tokens d ddl' l' -> marked (script d) l None stmts ks -> recased ks l l' -> readable stmts = true ->
  exists ts, accepted ddl d ts /\ accepted ddl' d ts.
Proof.
  intros d ddl ddl' l l' stmts ks T T' M R F. destruct (recased_says _ _ _ _ _ _ _ T T' M R) as (S & s' & S' & _ & _ & F' & E).
  exists (tables_of d (seen stmts)). split; [now apply says_seen|]. rewrite <- E. apply says_seen; auto. congruence.
Qed.
