(** Forms of README.md are instances of grammars: means of proof. *)
From Coq Require Import String List Bool Arith Lia.
From Verif Require Import GoStr GoNum Types VBase Exec Grammar GrammarFacts Ast Emit Parse Safe Seen Spec Readme.
Import ListNotations.
Open Scope nat_scope.
Open Scope string_scope.
Open Scope list_scope.
Open Scope form_scope.
Open Scope gr_scope.

(** Every list of the form is an instance of the grammar with a value in [P], if the next token is in [F]. *)
Definition sub {A} (P : A -> Prop) (F : option string -> Prop) (f : form) (g : gr A) : Prop :=
  forall l nxt, f l -> F nxt -> exists out v, lang g l nxt out v /\ P v.
Definition any {A : Type} (_ : A) : Prop := True.

Lemma sub_weak : forall A (P Q : A -> Prop) (F G : option string -> Prop) f g,
  sub P F f g -> (forall v, P v -> Q v) -> (forall n, G n -> F n) -> sub Q G f g.
Proof. intros A P Q F G f g H K N l nxt L X. destruct (H l nxt L (N _ X)) as (o & v & Y & Z). eauto. Qed.
Lemma sub_form : forall A P F (f f' : form) (g : gr A), (forall l, f l -> f' l) -> sub P F f' g -> sub P F f g.
Proof. intros A P F f f' g H K l nxt L. eauto. Qed.

Lemma sub_map : forall A B (h : A -> B) P F f g, sub (fun a => P (h a)) F f g -> sub P F f (Map h g).
Proof. intros A B h P F f g H l nxt L X. destruct (H _ _ L X) as (o & v & Y & Z). exists o, (h v). split; auto. exists v. auto. Qed.
Lemma sub_eps : forall F (P : unit -> Prop), P tt -> sub P F nothing Eps.
Proof. intros F P p l nxt -> _. exists [], tt. cbn. auto. Qed.
Lemma sub_word : forall (P : string -> Prop) F w keep ws, matches ws (to_upper w) = true -> matches ws (to_lower w) = true ->
  P (to_upper w) -> P (to_lower w) -> sub P F (word w) (One keep (CW ws)).
Proof. intros P F w keep ws M1 M2 P1 P2 l nxt [->| ->] _; [exists (kept keep [to_upper w]), (to_upper w)|exists (kept keep [to_lower w]), (to_lower w)]; cbn; auto. Qed.
Lemma sub_token : forall (P : string -> Prop) F k keep c, (forall t, k t = true -> cmem c t = true /\ P t) -> sub P F (token k) (One keep c).
Proof. intros P F k keep c H l nxt (t & K & ->) _. destruct (H t K). exists (kept keep [t]), t. cbn. auto. Qed.
Lemma sub_brackets : forall (P : list string -> Prop) F keep, (forall l, P l) -> sub P F brackets (Brackets keep).
Proof. intros P F keep H l nxt (e & B & ->) _. eexists; eexists. split; [|apply H]. cbn. eauto. Qed.

Lemma sub_seq : forall A B (P : A -> Prop) (Q : B -> Prop) (R : A * B -> Prop) (F F1 : option string -> Prop) f1 f2 g1 g2,
  sub P F1 f1 g1 -> sub Q F f2 g2 -> (forall l n, f2 l -> F n -> F1 (hdr l n)) -> (forall a b, P a -> Q b -> R (a, b)) ->
  sub R F (f1 ;; f2) (g1 ** g2).
Proof.
  intros A B P Q R F F1 f1 f2 g1 g2 H1 H2 N K l nxt (l1 & l2 & -> & L1 & L2) X.
  destruct (H2 _ _ L2 X) as (o2 & b & Y2 & Z2). destruct (H1 _ _ L1 (N _ _ L2 X)) as (o1 & a & Y1 & Z1).
  exists (o1 ++ o2), (a, b). split; auto. cbn. exists l1, l2, o1, o2. auto.
Qed.
Lemma sub_seq_any : forall A B F f1 f2 (g1 : gr A) (g2 : gr B), sub any any f1 g1 -> sub any F f2 g2 -> sub any F (f1 ;; f2) (g1 ** g2).
Proof. intros. eapply sub_seq; eauto; intros; exact I. Qed.
Lemma sub_seq_snd : forall A B (Q : B -> Prop) F f1 f2 (g1 : gr A) (g2 : gr B), sub any any f1 g1 -> sub Q F f2 g2 -> sub (fun x => Q (snd x)) F (f1 ;; f2) (g1 ** g2).
Proof. intros. eapply (sub_seq _ _ any Q); eauto; intros; exact I. Qed.
Lemma sub_seq_snd_next : forall A B (Q : B -> Prop) (F F1 : option string -> Prop) f1 f2 (g1 : gr A) (g2 : gr B), sub any F1 f1 g1 -> sub Q F f2 g2 ->
  (forall l n, f2 l -> F n -> F1 (hdr l n)) -> sub (fun x => Q (snd x)) F (f1 ;; f2) (g1 ** g2).
Proof. intros. eapply (sub_seq _ _ any Q); eauto. Qed.
Lemma sub_seq_fst : forall A B (Q : A -> Prop) F f1 f2 (g1 : gr A) (g2 : gr B), sub Q any f1 g1 -> sub any F f2 g2 -> sub (fun x => Q (fst x)) F (f1 ;; f2) (g1 ** g2).
Proof. intros. eapply (sub_seq _ _ Q any); eauto; intros; exact I. Qed.
(** a part of the grammar that is empty *)
Lemma sub_empty_l : forall A B (P : A -> Prop) (Q : B -> Prop) (R : A * B -> Prop) (F F1 : option string -> Prop) f g1 g2,
  sub P F1 nothing g1 -> sub Q F f g2 -> (forall l n, f l -> F n -> F1 (hdr l n)) -> (forall a b, P a -> Q b -> R (a, b)) ->
  sub R F f (g1 ** g2).
Proof.
  intros A B P Q R F F1 f g1 g2 H1 H2 N K. eapply sub_form; [|eapply sub_seq; eauto]. intros l L. exists [], l. repeat split; auto.
Qed.
Lemma sub_empty_snd : forall A B (Q : B -> Prop) F f (g1 : gr A) (g2 : gr B), sub any any nothing g1 -> sub Q F f g2 -> sub (fun x => Q (snd x)) F f (g1 ** g2).
Proof. intros. eapply (sub_empty_l _ _ any Q); eauto; intros; exact I. Qed.
Lemma sub_empty_r : forall A B (P : A -> Prop) (Q : B -> Prop) (R : A * B -> Prop) (F : option string -> Prop) f g1 g2,
  sub P F f g1 -> sub Q F nothing g2 -> (forall a b, P a -> Q b -> R (a, b)) -> sub R F f (g1 ** g2).
Proof.
  intros A B P Q R F f g1 g2 H1 H2 K. eapply sub_form; [|eapply sub_seq; eauto].
  - intros l L. exists l, []. repeat split; auto. now rewrite app_nil_r.
  - intros l n -> X. exact X.
Qed.

Lemma sub_choice_nil : forall A P F (g : gr A), sub P F (choice []) g.
Proof. intros A P F g l nxt []. Qed.
Lemma sub_choice : forall A P F f fs (g : gr A), sub P F f g -> sub P F (choice fs) g -> sub P F (choice (f :: fs)) g.
Proof. intros A P F f fs g H K l nxt [L|L]; eauto. Qed.
Lemma sub_left : forall A P F f c (g h : gr A), sub P F f g -> sub P F f (Cond c g h).
Proof. intros A P F f c g h H l nxt L X. destruct (H _ _ L X) as (o & v & Y & Z). exists o, v. split; auto. left; auto. Qed.
Lemma sub_right : forall A P F f c (g h : gr A), sub P F f h -> sub P F f (Cond c g h).
Proof. intros A P F f c g h H l nxt L X. destruct (H _ _ L X) as (o & v & Y & Z). exists o, v. split; auto. right; auto. Qed.
Lemma sub_maybe : forall A P F f (g : gr A), sub P F nothing g -> sub P F f g -> sub P F (maybe f) g.
Proof. intros A P F f g H K l nxt [L|L]; eauto. Qed.

(** ** Repetition *)
Definition filled (f : form) : Prop := forall l, f l -> l <> [].
Lemma filled_word : forall w, filled (word w). Proof. intros w l [->| ->]; discriminate. Qed.
Lemma filled_token : forall k, filled (token k). Proof. intros k l (t & _ & ->); discriminate. Qed.
Lemma filled_brackets : filled brackets. Proof. intros l (e & _ & ->); discriminate. Qed.
Lemma filled_seq : forall f g, filled f -> filled (f ;; g).
Proof. intros f g H l (l1 & l2 & -> & L & _) E. apply app_eq_nil in E as [-> _]. now apply (H [] L). Qed.
Lemma filled_seq_r : forall f g, filled g -> filled (f ;; g).
Proof. intros f g H l (l1 & l2 & -> & _ & L) E. apply app_eq_nil in E as [_ ->]. now apply (H [] L). Qed.
Lemma filled_choice : forall fs, Forall filled fs -> filled (choice fs).
Proof. intros fs H. induction H as [|f fs H _ IH]; intros t L; cbn in L; [easy|]. destruct L; eauto. Qed.

Lemma star_app : forall A (L : list string -> option string -> list string -> A -> Prop) l1 l2 nxt o1 o2 v1 v2 h1 h2,
  star L l1 (hdr l2 nxt) o1 v1 h1 -> star L l2 nxt o2 v2 h2 -> star L (l1 ++ l2) nxt (o1 ++ o2) (v1 ++ v2) (h1 ++ h2).
Proof.
  intros A L l1 l2 nxt o1 o2 v1 v2 h1 h2 H K. remember (hdr l2 nxt) as n eqn:E. induction H as [|t a b n' p q v vs hs X H IH]; subst; cbn [app]; auto.
  rewrite <- !app_assoc. constructor; auto. replace (hdr (b ++ l2) nxt) with (hdr b (hdr l2 nxt)) by (destruct b; reflexivity). auto.
Qed.
Lemma sub_while_nil : forall A (P : A -> Prop) F c g, sub (Forall P) F nothing (While c g).
Proof. intros A P F c g l nxt -> _. exists [], []. split; auto. exists []. constructor. Qed.
Lemma sub_while_one : forall A (P : A -> Prop) F f c g, filled f -> sub P F f g -> sub (Forall P) F f (While c g).
Proof.
  intros A P F f c g N H l nxt L X. destruct (H _ _ L X) as (o & v & Y & Z). destruct l as [|t l]; [now elim (N _ L)|].
  exists (o ++ []), [v]. split; auto. exists [t]. rewrite <- (app_nil_r (t :: l)). apply (star_cons _ t l []); [exact Y|constructor].
Qed.
Lemma sub_while_app : forall A (P : A -> Prop) (F F1 : option string -> Prop) f1 f2 c g,
  sub (Forall P) F1 f1 (While c g) -> sub (Forall P) F f2 (While c g) -> (forall l n, f2 l -> F n -> F1 (hdr l n)) -> sub (Forall P) F (f1 ;; f2) (While c g).
Proof.
  intros A P F F1 f1 f2 c g H1 H2 N l nxt (l1 & l2 & -> & L1 & L2) X.
  destruct (H2 _ _ L2 X) as (o2 & v2 & (h2 & Y2) & Z2). destruct (H1 _ _ L1 (N _ _ L2 X)) as (o1 & v1 & (h1 & Y1) & Z1).
  exists (o1 ++ o2), (v1 ++ v2). split; [|now apply Forall_app]. exists (h1 ++ h2). now apply star_app.
Qed.
Lemma sub_many : forall A (P : A -> Prop) F f c g, filled f -> sub P any f g -> sub (Forall P) F (many f) (While c g).
Proof.
  intros A P F f c g N H l nxt M _. revert nxt. induction M; intros nxt.
  - exists [], []. split; auto. exists []. constructor.
  - destruct (IHM nxt) as (o2 & v2 & (h2 & Y2) & Z2). destruct (H l1 (hdr l2 nxt) H0 I) as (o1 & v1 & Y1 & Z1).
    destruct l1 as [|t l1]; [now elim (N _ H0)|]. exists (o1 ++ o2), (v1 :: v2). split; auto. exists (t :: h2). cbn [app]. constructor; auto.
Qed.
Lemma sub_listed : forall A (P : A -> Prop) (F : option string -> Prop) f keep g, sub P F f g -> F (Some ",") -> sub (Forall P) F (listed f) (SepBy keep g).
Proof.
  intros A P F f keep g H C l nxt M X. revert nxt X. induction M; intros nxt X.
  - destruct (H _ _ H0 X) as (o & v & Y & Z). exists o, [v]. split; auto. now constructor.
  - destruct (IHM nxt X) as (o2 & v2 & Y2 & Z2). destruct (H l1 (Some ",") H0 C) as (o1 & v1 & Y1 & Z1).
    eexists; exists (v1 :: v2). split; [|auto]. cbn. eapply sep_cons; eauto.
Qed.
(** a list whose first entry is of the form [f1] *)
Lemma sub_listed_app : forall A (P Q : A -> Prop) (F : option string -> Prop) f1 f2 keep g, sub (fun v => P v /\ Q v) F f1 g -> sub P F f2 g -> F (Some ",") ->
  sub (fun vs => Forall P vs /\ match vs with v :: _ => Q v | [] => True end) F (listed f1 ;; maybe (word "," ;; listed f2)) (SepBy keep g).
Proof.
  intros A P Q F f1 f2 keep g H1 H2 C l nxt (l1 & l2 & -> & L1 & L2) X.
  assert (H1' : sub P F f1 g) by (apply (sub_weak A (fun v => P v /\ Q v) P F F); [exact H1|intros v [Y _]; exact Y|auto]).
  destruct L2 as [->|(c & l3 & -> & K & L3)].
  - rewrite app_nil_r. destruct L1.
    + destruct (H1 l nxt H X) as (o & v & Y & Z1 & Z2). exists o, [v]. split; [now constructor|auto].
    + destruct (H1 l1 (Some ",") H C) as (o & v & Y & Z1 & Z2). destruct (sub_listed A P F f1 keep g H1' C l2 nxt L1 X) as (o2 & v2 & Y2 & Z3).
      eexists; exists (v :: v2). split; [cbn; eapply sep_cons; eauto|auto].
  - assert (E : c = [","]) by (destruct K as [->| ->]; reflexivity). subst c. clear K. cbn [app].
    assert (G : exists out vs, lang (SepBy keep g) (l1 ++ "," :: l3) nxt out vs /\ Forall P vs /\ match vs with v :: _ => Q v | [] => True end); [|exact G].
    induction L1.
    + destruct (H1 l (Some ",") H C) as (o & v & Y & Z & W). destruct (sub_listed A P F f2 keep g H2 C l3 nxt L3 X) as (o2 & v2 & Y2 & Z2).
      eexists; exists (v :: v2). split; [cbn; eapply sep_cons; eauto|auto].
    + destruct (H1 l1 (Some ",") H C) as (o & v & Y & Z & W). destruct IHL1 as (o2 & v2 & Y2 & Z2 & _).
      rewrite <- app_assoc. cbn [app]. eexists; exists (v :: v2). split; [cbn; eapply sep_cons; eauto|auto].
Qed.

(** the first words of forms *)
Definition starts (ws : list string) (f : form) : Prop := forall t l, f (t :: l) -> exists w, In w ws /\ (t = to_upper w \/ t = to_lower w).
Lemma starts_seq : forall w f, starts [w] (word w ;; f).
Proof. intros w f t l (l1 & l2 & E & [->| ->] & _); cbn in E; injection E as -> _; exists w; cbn; auto. Qed.
Lemma starts_word : forall w, starts [w] (word w).
Proof. intros w t l [E|E]; injection E as -> _; exists w; cbn; auto. Qed.
Lemma starts_maybe : forall ws f g, starts ws f -> starts ws g -> starts ws (maybe f ;; g).
Proof.
  intros ws f g H K t l (l1 & l2 & E & [->|L] & L2); [cbn in E; subst; eapply K, L2|]. destruct l1 as [|u l1]; [cbn in E; subst; eapply K, L2|].
  injection E as -> _. eapply H, L.
Qed.
Lemma starts_weak : forall ws ws' f, starts ws f -> (forall w, In w ws -> In w ws') -> starts ws' f.
Proof. intros ws ws' f H K t l L. destruct (H _ _ L) as (w & W & E). eauto. Qed.
Lemma starts_choice : forall ws f fs, starts ws f -> starts ws (choice fs) -> starts ws (choice (f :: fs)).
Proof. intros ws f fs H K t l [L|L]; [eapply H, L|eapply K, L]. Qed.
Lemma starts_none : forall ws, starts ws (choice []).
Proof. intros ws t l []. Qed.
Lemma starts_kind : forall ws f (key kind : string -> string), starts ws f ->
  forallb (fun w => (key (to_upper w) =? kind (to_upper (to_upper w)))%string && (key (to_lower w) =? kind (to_upper (to_lower w)))%string) ws = true ->
  forall t l, f (t :: l) -> key t = kind (to_upper t).
Proof.
  intros ws f key kind H K t l L. destruct (H _ _ L) as (w & W & E). rewrite forallb_forall in K. specialize (K w W). apply andb_true_iff in K as [K1 K2].
  apply String.eqb_eq in K1, K2. destruct E as [->| ->]; auto.
Qed.
Ltac head_form f :=
  lazymatch f with
  | ?h _ => head_form h
  | _ => f
  end.
Ltac start :=
  lazymatch goal with
  | |- starts _ (choice []) => apply starts_none
  | |- starts _ (choice (_ :: _)) => apply starts_choice; start
  | |- starts _ (words _) => cbn [words]; start
  | |- starts _ (if _ then _ else _) => cbn iota; start
  | |- starts _ (seq (maybe _) _) => apply starts_maybe; start
  | |- starts _ (seq _ _) => eapply starts_weak; [apply starts_seq|]; intros w W; vm_compute in W |- *; tauto
  | |- starts _ (word _) => eapply starts_weak; [apply starts_word|]; intros w W; vm_compute in W |- *; tauto
  | |- starts _ ?f => let h := head_form f in unfold h; start
  end.

(** constraints of different kinds *)
Lemma sub_distinct : forall A (P : A -> Prop) (F : option string -> Prop) kind clash key f c g, filled f ->
  (forall t l, f (t :: l) -> key t = kind (to_upper t)) ->
  (forall l nxt, f l -> (F nxt \/ exists t b, nxt = Some t /\ clash l (t :: b) = false) -> exists out v, lang g l nxt out v /\ P v) ->
  sub (Forall P) F (distinct kind clash f) (WhileU c key g).
Proof.
  intros A P F kind clash key f c g N K H l nxt (items & -> & _ & L & D & S) X.
  assert (G : exists out vs, star (lang g) (concat items) nxt out vs (map (fun i => match i with t :: _ => t | [] => "" end) items) /\ Forall P vs).
  { clear D. induction L as [|i items Li L IH]; [exists [], []; split; constructor|].
    destruct IH as (o2 & v2 & Y2 & Z2); [destruct items; [exact I|apply S]|].
    destruct (H i (hdr (concat items) nxt) Li) as (o1 & v1 & Y1 & Z1).
    { destruct items as [|j items]; [left; exact X|right]. inversion L; subst. destruct j as [|t j]; [now elim (N _ H2)|]. exists t, j. split; [reflexivity|apply S]. }
    destruct i as [|t i]; [now elim (N _ Li)|]. exists (o1 ++ o2), (v1 :: v2). split; auto. cbn [concat map app]. constructor; auto. }
  destruct G as (o & vs & Y & Z). exists o, vs. split; auto. eexists. split; [exact Y|]. rewrite map_map.
  erewrite map_ext_in; [exact D|]. intros i J. cbn beta. rewrite Forall_forall in L. specialize (L i J). destruct i; [now elim (N _ L)|]. eapply K, L.
Qed.


Lemma sub_whileu_nil : forall A (P : A -> Prop) F c key g, sub (Forall P) F nothing (WhileU c key g).
Proof. intros A P F c key g l nxt -> _. exists [], []. split; auto. exists []. split; constructor. Qed.
Lemma sub_map_all : forall A B (h : A -> B) (P : B -> Prop) F f g, (forall a, P (h a)) -> sub any F f g -> sub P F f (Map h g).
Proof. intros A B h P F f g H K. apply sub_map. eapply (sub_weak A any _ F F); auto. Qed.
Lemma sub_notnext : forall (P : unit -> Prop) (F : option string -> Prop) ws, P tt ->
  (forall n, F n -> match n with Some t => matches ws t = false | None => True end) -> sub P F nothing (NotNext ws).
Proof. intros P F ws p H l nxt -> X. exists [], tt. split; [cbn; repeat split; auto; apply (H nxt X)|exact p]. Qed.
Lemma sub_isnext : forall (P : unit -> Prop) (F : option string -> Prop) ws, P tt ->
  (forall n, F n -> match n with Some t => matches ws t = true | None => False end) -> sub P F nothing (IsNext ws).
Proof. intros P F ws p H l nxt -> X. exists [], tt. split; [cbn; repeat split; auto; apply (H nxt X)|exact p]. Qed.
Lemma sub_put : forall (P : unit -> Prop) F o, P tt -> sub P F nothing (Put o).
Proof. intros P F o p l nxt -> _. exists o, tt. cbn. auto. Qed.
Lemma sub_none : forall A (P : option A -> Prop) F ws g, P None -> sub P F nothing (opt ws g).
Proof. intros A P F ws g p. apply sub_right, sub_map, sub_eps, p. Qed.
Lemma sub_opt : forall A (P : option A -> Prop) F f ws g, P None -> sub (fun v => P (Some v)) F f g -> sub P F (maybe f) (opt ws g).
Proof. intros A P F f ws g p H. apply sub_maybe; [now apply sub_none|]. now apply sub_left, sub_map. Qed.

Lemma sub_assoc : forall A B C (P : A * (B * C) -> Prop) F f (g : gr A) (h : gr B) (k : gr C), sub (fun x => P (fst (fst x), (snd (fst x), snd x))) F f ((g ** h) ** k) -> sub P F f (g ** h ** k).
Proof.
  intros A B C P F f g h k H l nxt L X. destruct (H _ _ L X) as (o & [[a b] c] & Y & Z). exists o, (a, (b, c)). split; [|exact Z].
  destruct Y as (l1 & l2 & o1 & o2 & -> & -> & (l3 & l4 & o3 & o4 & -> & -> & Y3 & Y4) & Y2). cbn [fst snd] in *.
  exists l3, (l4 ++ l2), o3, (o4 ++ o2). rewrite !app_assoc. repeat split; auto.
  - replace (hdr (l4 ++ l2) nxt) with (hdr l4 (hdr l2 nxt)) by (destruct l4; reflexivity). exact Y3.
  - exists l4, l2, o4, o2. auto.
Qed.
Lemma sub_assoc_snd : forall A B C (P : C -> Prop) F f (g : gr A) (h : gr B) (k : gr C), sub (fun x => P (snd x)) F f ((g ** h) ** k) -> sub (fun x => P (snd (snd x))) F f (g ** h ** k).
Proof. intros A B C P F f g h k H. apply sub_assoc. exact H. Qed.

(** shapes of forms *)
Lemma seq_mono : forall (f f' g g' : form), (forall l, f l -> f' l) -> (forall l, g l -> g' l) -> forall l, (f ;; g) l -> (f' ;; g') l.
Proof. intros f f' g g' H K l (l1 & l2 & -> & L1 & L2). exists l1, l2. auto. Qed.
Lemma seq_in : forall (f g h : form) l, (f ;; g ;; h) l -> ((f ;; g) ;; h) l.
Proof. intros f g h l (l1 & l2 & -> & L1 & l3 & l4 & -> & L3 & L4). exists (l1 ++ l3), l4. rewrite app_assoc. repeat split; auto. now exists l1, l3. Qed.
Lemma seq_out : forall (f g h : form) l, ((f ;; g) ;; h) l -> (f ;; g ;; h) l.
Proof. intros f g h l (l1 & l2 & -> & (l3 & l4 & -> & L3 & L4) & L2). exists l3, (l4 ++ l2). rewrite app_assoc. repeat split; auto. now exists l4, l2. Qed.
Lemma maybe_split : forall (f g : form) l, (maybe f ;; g) l -> choice [g; f ;; g] l.
Proof. intros f g l (l1 & l2 & -> & [->|L] & L2); [left; exact L2|right; left; now exists l1, l2]. Qed.
Lemma seq_choice : forall (f g h : form) l, (f ;; choice [g; h]) l -> choice [f ;; g; f ;; h] l.
Proof. intros f g h l (l1 & l2 & -> & L & [L2|[L2|[]]]); [left|right; left]; now exists l1, l2. Qed.
Lemma seq_within : forall (f h : form) l, (within f ;; h) l -> (word "(" ;; f ;; word ")" ;; h) l.
Proof.
  intros f h l (l1 & l2 & -> & (a & x & -> & A & b & c & -> & B & C) & L2). exists a, (b ++ c ++ l2). rewrite <- !app_assoc. repeat split; auto.
  exists b, (c ++ l2). repeat split; auto. now exists c, l2.
Qed.

(** what follows an element of a table *)
Definition ends (n : option string) : Prop := n = Some "," \/ n = Some ")".
Definition is_column (e : a_element) : Prop := match e with EColumn _ => True | _ => False end.
Lemma first_column : forall es, match es with e :: _ => is_column e | [] => True end -> Seen.first_ok es = true.
Proof. intros [|[c|n b] [|e es]]; cbn; tauto. Qed.
Lemma forallb_Forall : forall A (f : A -> bool) l, Forall (fun x => f x = true) l -> forallb f l = true.
Proof. intros A f l H. apply forallb_forall. now apply Forall_forall. Qed.
Lemma hdr_word : forall w l n, word w l -> hdr l n = Some (to_upper w) \/ hdr l n = Some (to_lower w).
Proof. intros w l n [->| ->]; auto. Qed.

Definition body_ok (vs : list a_element) : Prop :=
  Forall (fun e => readable_element e = true) vs /\ match vs with v :: _ => is_column v | [] => True end.
Definition stmt_ok (s : a_stmt) : Prop := readable_stmt s = true /\ match s with STable _ => True | SOther => False end.
Lemma body_readable : forall i s t vs, body_ok vs -> stmt_ok (STable (mk_atable i s t vs)).
Proof. intros i s t vs [H1 H2]. split; [|exact I]. cbn. unfold readable_table. cbn. now rewrite (forallb_Forall _ _ _ H1), (first_column _ H2). Qed.

Lemma sub_parts : forall A (P : A -> Prop) f g parts, filled f -> sub P any f g -> Forall f parts ->
  exists o vs hs, star (lang g) (concat parts) None o vs hs /\ Forall P vs /\ List.length vs = List.length parts.
Proof.
  intros A P f g parts N H K. induction K as [|p parts L K (o & vs & hs & X & Y & Z)]; [exists [], [], []; repeat split; constructor|].
  destruct (H p (hdr (concat parts) None) L I) as (o1 & v & X1 & Y1). destruct p as [|t p]; [now elim (N _ L)|].
  exists (o1 ++ o), (v :: vs), (t :: hs). split; [cbn [concat app]; constructor; auto|]. split; [auto|cbn; auto].
Qed.
Lemma parts_script : forall parts f g, filled f -> sub stmt_ok any f g -> Forall f parts ->
  exists out stmts, lang (While (mk_la [] true false) g) (concat parts) None out stmts /\ readable stmts = true /\ Forall (fun s => exists t, s = STable t) stmts /\
    List.length stmts = List.length parts.
Proof.
  intros parts f g N H K. destruct (sub_parts _ _ f g parts N H K) as (o & vs & hs & X & Y & Z). exists o, vs. split; [exists hs; exact X|]. repeat split; auto.
  - apply forallb_Forall. eapply Forall_impl; [|exact Y]. intros s [S _]. exact S.
  - eapply Forall_impl; [|exact Y]. intros [t|] [_ S]; [eauto|destruct S].
Qed.

(** ** Automation, where neither values nor what follows matter *)
Lemma sub_map_any : forall A B (h : A -> B) F f g, sub any F f g -> sub any F f (Map h g).
Proof. intros. apply sub_map. exact H. Qed.
Lemma sub_follow : forall A (P : A -> Prop) F f g, sub P any f g -> sub P F f g.
Proof. intros A P F f g H. eapply sub_weak; eauto. intros; exact I. Qed.
Lemma sub_while_any : forall A F f c (g : gr A), filled f -> sub any any f g -> sub any F (many f) (While c g).
Proof. intros. eapply sub_weak; [apply sub_many with (P := any); eassumption|intros; exact I|exact (fun _ x => x)]. Qed.
Lemma sub_while_none : forall A F c (g : gr A), sub any F nothing (While c g).
Proof. intros. eapply sub_weak; [apply sub_while_nil with (P := any) (F := F)|intros; exact I|auto]. Qed.
Lemma sub_while_single : forall A F f c (g : gr A), filled f -> sub any F f g -> sub any F f (While c g).
Proof. intros. eapply sub_weak; [apply sub_while_one with (P := any) (F := F); eassumption|intros; exact I|auto]. Qed.
Lemma Forall_any : forall A (l : list A), Forall any l.
Proof. intros A l. apply Forall_forall. intros; exact I. Qed.
Lemma sub_while_seq : forall A F f1 f2 c (g : gr A), sub any any f1 (While c g) -> sub any F f2 (While c g) -> sub any F (f1 ;; f2) (While c g).
Proof.
  intros A F f1 f2 c g H1 H2. eapply sub_weak; [eapply sub_while_app with (P := any) (F1 := any) (F := F)|intros; exact I|auto]; try (intros; exact I).
  - eapply sub_weak; [exact H1|intros; apply Forall_any|auto].
  - eapply sub_weak; [exact H2|intros; apply Forall_any|auto].
Qed.
Lemma sub_listed_any : forall A F f keep (g : gr A), sub any any f g -> sub any F (listed f) (SepBy keep g).
Proof. intros. apply sub_follow. eapply sub_weak; [apply sub_listed with (P := any) (F := any); [eassumption|exact I]|intros; exact I|auto]. Qed.
Lemma sub_seq_nothing : forall A B F (g1 : gr A) (g2 : gr B), sub any any nothing g1 -> sub any F nothing g2 -> sub any F nothing (g1 ** g2).
Proof. intros. eapply sub_empty_l; eauto; intros; exact I. Qed.

Lemma sub_seq_first : forall A B F f (g1 : gr A) (g2 : gr B), sub any any nothing g1 -> sub any F f g2 -> sub any F f (g1 ** g2).
Proof. intros. eapply sub_empty_l; eauto; intros; exact I. Qed.
Lemma sub_seq_last : forall A B F f (g1 : gr A) (g2 : gr B), sub any F f g1 -> sub any F nothing g2 -> sub any F f (g1 ** g2).
Proof. intros. eapply sub_empty_r; eauto; intros; exact I. Qed.
Ltac fill :=
  lazymatch goal with
  | |- filled (word _) => apply filled_word
  | |- filled (token _) => apply filled_token
  | |- filled brackets => apply filled_brackets
  | |- filled (seq _ _) => first [apply filled_seq; solve [fill] | apply filled_seq_r; solve [fill]]
  | |- filled (choice _) => apply filled_choice; repeat (apply Forall_cons || apply Forall_nil); fill
  | |- filled (one_of _) => unfold one_of; cbn [map]; fill
  | |- filled (words _) => cbn [words]; fill
  | |- filled (maybe _) => fail
  | |- filled (many _) => fail
  | |- filled (if _ then _ else _) => cbn iota; fill
  | |- filled ?f => let h := head_form f in unfold h; fill
  end.
(** a kind of tokens within another *)
Ltac kinds T :=
  first [exact T
        | cbn [cmem]; unfold literal; rewrite T; rewrite ?orb_true_r; reflexivity
        | apply contains_spec in T; cbn [In] in T; repeat (destruct T as [<-|T]; [reflexivity|]); destruct T].
Ltac go :=
  lazymatch goal with
  | |- sub any ?F ?f ?g =>
    lazymatch f with
    | choice [] => apply sub_choice_nil
    | choice (_ :: _) => apply sub_choice; go
    | one_of _ => unfold one_of; cbn [map]; go
    | words _ => cbn [words]; go
    | within _ => unfold within; go
    | (if _ then _ else _) => cbn iota; go
    | maybe _ => apply sub_maybe; go
    | seq _ _ => step f g
    | nothing => step f g
    | many _ => step f g
    | listed _ => step f g
    | word _ => step f g
    | token _ => step f g
    | brackets => step f g
    | _ => let h := head_form f in unfold h; go
    end
  end
with step f g :=
  lazymatch goal with
  | |- sub any ?F _ _ =>
      let g' := eval hnf in g in
      lazymatch g' with
      | Map ?h ?k => change (sub any F f (Map h k)); apply sub_map_any; go
      | Cond ?c ?h ?k => change (sub any F f (Cond c h k)); first [apply sub_left; solve [go] | apply sub_right; solve [go]]
      | _ =>
        lazymatch f with
        | seq ?f1 ?f2 =>
          lazymatch g' with
          | Seq ?g1 ?g2 =>
              change (sub any F (seq f1 f2) (Seq g1 g2));
              lazymatch f1 with
              | seq ?f3 ?f4 => first [apply sub_seq_any; solve [go] | apply (sub_form _ _ _ _ (f3 ;; f4 ;; f2)); [apply seq_out|go]]
              | _ => first [apply sub_seq_any; [solve [go]|solve [go]] | apply sub_seq_first; [solve [go]|solve [go]] | apply sub_seq_last; [solve [go]|solve [go]]]
              end
          | While ?c ?g0 =>
              change (sub any F (seq f1 f2) (While c g0));
              first [apply sub_while_single; [solve [fill]|solve [go]] | apply sub_while_seq; solve [go]]
          end
        | nothing =>
          lazymatch g' with
          | Eps => change (sub any F nothing Eps); apply sub_eps; exact I
          | Put ?o => change (sub any F nothing (Put o)); apply sub_put; exact I
          | Seq ?g1 ?g2 => change (sub any F nothing (Seq g1 g2)); apply sub_seq_nothing; go
          | While ?c ?g0 => change (sub any F nothing (While c g0)); apply sub_while_none
          end
        | many ?f0 =>
          lazymatch g' with
          | While ?c ?g0 => change (sub any F f (While c g0)); apply sub_while_any; [fill|go]
          end
        | listed ?f0 =>
          lazymatch g' with
          | SepBy ?c ?g0 => change (sub any F f (SepBy c g0)); apply sub_listed_any; go
          end
        | word _ =>
          lazymatch g' with
          | Seq ?g1 ?g2 => change (sub any F f (Seq g1 g2)); first [apply sub_seq_last; [solve [go]|solve [go]] | apply sub_seq_first; [solve [go]|go]]
          | One ?k ?c => change (sub any F f (One k c)); apply sub_word; [vm_compute; reflexivity|vm_compute; reflexivity|exact I|exact I]
          | While ?c ?g0 => change (sub any F f (While c g0)); apply sub_while_single; [fill|go]
          end
        | token _ =>
          lazymatch g' with
          | Seq ?g1 ?g2 => change (sub any F f (Seq g1 g2)); first [apply sub_seq_last; [solve [go]|solve [go]] | apply sub_seq_first; [solve [go]|go]]
          | One ?k ?c => change (sub any F f (One k c)); apply sub_token; intros t T; split; [kinds T|exact I]
          end
        | brackets =>
          lazymatch g' with
          | Seq ?g1 ?g2 => change (sub any F f (Seq g1 g2)); first [apply sub_seq_last; [solve [go]|solve [go]] | apply sub_seq_first; [solve [go]|go]]
          | Brackets ?k => change (sub any F f (Brackets k)); apply sub_brackets; intros; exact I
          end
        end
      end
  end.
