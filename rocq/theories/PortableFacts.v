(** The common grammar is part of the grammars of the dialects, and its scripts stand for the same tables in all of them. *)
From Coq Require Import String List Bool.
From Verif Require Import GoStr GoNum Types Words Grammar GrammarFacts Ast Emit Safe Seen Build Portable.
From Verif Require GSqlite GPostgres GMysql.
Import ListNotations.
Open Scope string_scope.
Open Scope gr_scope.
Open Scope list_scope.

Definition sub {A} (g h : gr A) : Prop := forall l nxt v, gen g l nxt v -> gen h l nxt v.
Lemma sub_refl : forall A (g : gr A), sub g g.
Proof. intros A g l nxt v H. exact H. Qed.
Lemma gen_seq_inv : forall A B (g : gr A) (h : gr B) l nxt v, gen (g ** h) l nxt v ->
  exists l1 l2, l = l1 ++ l2 /\ gen g l1 (hdr l2 nxt) (fst v) /\ gen h l2 nxt (snd v).
Proof. intros A B g h l nxt v [o (l1 & l2 & o1 & o2 & -> & -> & H1 & H2)]. exists l1, l2. split; auto. split; eexists; eauto. Qed.
Lemma gen_map_inv : forall A B (f : A -> B) (g : gr A) l nxt v, gen (g ==> f) l nxt v -> exists a, v = f a /\ gen g l nxt a.
Proof. intros A B f g l nxt v [o (a & -> & H)]. exists a. split; auto. now exists o. Qed.
Lemma gen_one_inv : forall k c l nxt v, gen (One k c) l nxt v -> l = [v] /\ cmem c v = true.
Proof. intros k c l nxt v [o (H & -> & ->)]. auto. Qed.
Lemma gen_cond_inv : forall A c (g h : gr A) l nxt v, gen (Cond c g h) l nxt v -> gen g l nxt v \/ gen h l nxt v.
Proof. intros A c g h l nxt v [o [H|H]]; [left|right]; now exists o. Qed.
Lemma gen_opt_inv : forall A ws (g : gr A) l nxt v, gen (opt ws g) l nxt v -> (l = [] /\ v = None) \/ exists a, v = Some a /\ gen g l nxt a.
Proof.
  intros A ws g l nxt v H. apply gen_cond_inv in H as [H|H]; apply gen_map_inv in H as (a & -> & H); [right; eauto|left].
  destruct H as [o [-> _]]. auto.
Qed.
Lemma gen_notnext_inv : forall ws l nxt v, gen (NotNext ws) l nxt v -> l = [] /\ match nxt with Some t => matches ws t = false | None => True end.
Proof. intros ws l nxt v [o (-> & _ & H)]. auto. Qed.
Lemma gen_eps_inv : forall l nxt v, gen Eps l nxt v -> l = [].
Proof. intros l nxt v [o [-> _]]. auto. Qed.

Ltac inv1 H :=
  lazymatch type of H with
  | gen (_ ** _) _ _ _ => let l1 := fresh "l" in let l2 := fresh "l" in let H1 := fresh "H" in let H2 := fresh "H" in
      apply gen_seq_inv in H as (l1 & l2 & -> & H1 & H2); inv1 H1; inv1 H2
  | gen (_ ==> _) _ _ _ => let a := fresh "a" in let H1 := fresh "H" in apply gen_map_inv in H as (a & -> & H1); inv1 H1
  | gen (One _ _) _ _ _ => let M := fresh "M" in apply gen_one_inv in H as [-> M]
  | gen (opt _ _) _ _ _ => idtac
  | gen Eps _ _ _ => apply gen_eps_inv in H as ->
  | gen (NotNext _) _ _ _ => let M := fresh "M" in apply gen_notnext_inv in H as [-> M]
  | _ => idtac
  end.

(** A word of a list is a word of a longer list. *)
Lemma words_sub : forall a b t, forallb (fun w => contains b w) a = true -> matches a t = true -> matches b t = true.
Proof.
  intros a b t H M. apply matches_In in M as (w & I & M). rewrite forallb_forall in H. apply H in I. apply contains_spec in I. eapply matches_from; eauto.
Qed.
Lemma sub_words : forall k a b, forallb (fun w => contains b w) a = true -> sub (One k (CW a)) (One k (CW b)).
Proof. intros k a b H l nxt v [o (M & -> & ->)]. exists (kept k [v]). cbn [lang cmem] in *. split; auto. eapply words_sub; eauto. Qed.

(** ** Repetitions *)

Lemma star_sub : forall A (g h : gr A) (P : option string -> Prop), (forall nxt, P nxt -> forall l v, gen g l nxt v -> gen h l nxt v) ->
  (forall t l nxt v, gen g (t :: l) nxt v -> P (Some t)) -> forall l nxt o vs hs, star (lang g) l nxt o vs hs -> P nxt -> gens h l nxt vs hs.
Proof.
  intros A g h P S E l nxt o vs hs H. induction H as [nxt|t l1 l2 nxt o1 o2 v vs hs H1 H2 IH]; intros Pn; [apply gens_nil|].
  change (t :: l1 ++ l2) with ((t :: l1) ++ l2). apply gens_cons; auto. apply S; [|now exists o1].
  inversion H2 as [|t' l1' l2' ? o1' o2' v' vs' hs' H1']; subst; cbn [app hdr]; auto. eapply E. eexists. exact H1'.
Qed.
Lemma sepby_sub : forall A k (g h : gr A) (P : option string -> Prop), (forall nxt, P nxt -> forall l v, gen g l nxt v -> gen h l nxt v) ->
  P (Some ",") -> forall l nxt vs, gen (SepBy k g) l nxt vs -> P nxt -> gen (SepBy k h) l nxt vs.
Proof.
  intros A k g h P S C l nxt vs [o H]. cbn [lang] in H. induction H as [l nxt o v H|l1 l2 nxt o1 o2 v vs H H2 IH]; intros Pn.
  - apply gen_sepby1. apply S; auto. now exists o.
  - apply gen_sepby; auto. apply S; auto. now exists o1.
Qed.

(** ** Common parts *)

Definition ends (nxt : option string) : Prop := nxt = Some "," \/ nxt = Some ")".
(** what may follow a constraint of a column *)
Definition item_follows (nxt : option string) : Prop := ends nxt \/ exists t, nxt = Some t /\ matches p_words t = true.
Lemma follows_not : forall ws nxt, forallb (fun w => negb (matches ws (to_lower w)) && negb (matches ws (to_upper w))) ("," :: ")" :: p_words) = true -> item_follows nxt ->
  match nxt with Some t => matches ws t = false | None => True end.
Proof.
  intros ws nxt F H. rewrite forallb_forall in F.
  assert (X : forall w t, In w ("," :: ")" :: p_words) -> t = to_lower w \/ t = to_upper w -> matches ws t = false).
  { intros w t I E. apply F, andb_true_iff in I as [I1 I2]. apply negb_true_iff in I1, I2. now destruct E as [->| ->]. }
  destruct H as [[->| ->]|(t & -> & M)].
  - apply (X ","); cbn; auto.
  - apply (X ")"); cbn; auto.
  - apply matches_spec in M as (w & I & E). apply (X w); [right; right; exact I|]. tauto.
Qed.
Lemma item_head : forall three d t l nxt v, gen (p_item three d) (t :: l) nxt v -> matches p_words t = true.
Proof.
  intros three d t l nxt v H. unfold p_item in H.
  repeat (apply gen_cond_inv in H as [H|H]); apply gen_map_inv in H as (a & -> & H).
  all: try (apply gen_seq_inv in H as (l1 & l2 & E & H & _); apply gen_one_inv in H as [-> M]; injection E as E _; rewrite <- E in M; eapply words_sub; [|exact M]; reflexivity).
  apply gen_one_inv in H as [E M]. injection E as E _. rewrite <- E in M. eapply words_sub; [|exact M]; reflexivity.
Qed.

Lemma type_cases : forall three l nxt v, gen (p_type three) l nxt v ->
  (exists w, l = [w] /\ v = mk_atype w false None /\ (three = true /\ matches ["TEXT"; "NUMERIC"; "INTEGER"; "REAL"] w = true \/ three = false /\ matches p_plain w = true)) \/
  three = false /\ (
  (exists w n l', l = w :: l' /\ v = mk_atype w false n /\ matches ["VARCHAR"; "CHAR"; "BIT"] w = true /\ gen p_digits1 l' nxt n) \/
  (exists w n l', l = w :: l' /\ v = mk_atype w false n /\ matches ["NUMERIC"; "DECIMAL"] w = true /\ gen p_digits2 l' nxt n) \/
  (exists w n z l', l = w :: l' /\ v = mk_atype w false n /\ matches ["TIME"; "TIMESTAMP"] w = true /\ gen (p_digits1 ** p_zone) l' nxt (n, z))).
Proof.
  intros three l nxt v H. unfold p_type in H. destruct three.
  - inv1 H. left. eauto 8.
  - apply gen_cond_inv in H as [H|H]; [|apply gen_cond_inv in H as [H|H]; [|apply gen_cond_inv in H as [H|H]]].
    + right. split; auto. left. apply gen_map_inv in H as ([w n] & -> & H). apply gen_seq_inv in H as (l1 & l2 & -> & H1 & H2). apply gen_one_inv in H1 as [-> M]. exists w, n, l2. auto.
    + right. split; auto. right. left. apply gen_map_inv in H as ([w n] & -> & H). apply gen_seq_inv in H as (l1 & l2 & -> & H1 & H2). apply gen_one_inv in H1 as [-> M]. exists w, n, l2. auto.
    + right. split; auto. right. right. apply gen_map_inv in H as ([w [n z]] & -> & H). apply gen_seq_inv in H as (l1 & l2 & -> & H1 & H2). apply gen_one_inv in H1 as [-> M]. exists w, n, z, l2. auto.
    + inv1 H. left. eauto 8.
Qed.
Ltac by_words := first [assumption | match goal with M : matches _ ?t = true |- _ => eapply words_sub; [|exact M]; reflexivity end].

(** ** The common shape of the grammars *)

Definition into (P : option string -> Prop) {A} (g h : gr A) : Prop := forall l nxt v, P nxt -> gen g l nxt v -> gen h l nxt v.

Lemma items_into : forall three d la key ci, into item_follows (p_item three d) ci ->
  (forall a b, In a p_words -> In b p_words -> key a = key b -> a = b) -> (forall t, matches p_words t = true -> key t = key (to_upper t)) ->
  into ends (p_items three d) (WhileU la key ci).
Proof.
  intros three d la key ci S I U l nxt v En [o (hs & H & N)]. eapply gen_whileu.
  - eapply star_sub with (P := item_follows); [|intros t l' nxt' v' G; right; eexists; split; [reflexivity|eapply item_head; exact G]|exact H|now left].
    intros nxt' P' l' v'. now apply S.
  - assert (F : Forall (fun t => matches p_words t = true) hs).
    { clear N. induction H as [|t l1 l2 nxt o1 o2 w vs hs H1 H2 IH]; constructor; auto. eapply item_head. eexists. exact H1. }
    clear H. induction F as [|t hs M F IH]; cbn [map] in *; [constructor|]. inversion N as [|? ? N1 N2]; subst. constructor; auto.
    intros X. apply N1. apply in_map_iff in X as (u & E & X). apply in_map_iff. exists u. split; auto.
    rewrite Forall_forall in F. pose proof (F _ X) as Mu. rewrite (U _ M), (U _ Mu) in E.
    assert (W : forall s, matches p_words s = true -> In (to_upper s) p_words).
    { intros s Q. apply matches_spec in Q as (w & Iw & [->| ->]); cbn in Iw; repeat (destruct Iw as [<-|Iw]; [vm_compute; tauto|]); contradiction. }
    apply I; auto.
Qed.
Lemma words_upper : forall key, forallb (fun w => (key (to_lower w) =? key w)%string && (key (to_upper w) =? key w)%string && (to_upper (to_lower w) =? w)%string && (to_upper (to_upper w) =? w)%string) p_words = true ->
  forall t, matches p_words t = true -> key t = key (to_upper t).
Proof.
  intros key F t M. rewrite forallb_forall in F. apply matches_spec in M as (w & I & E). apply F in I.
  repeat (apply andb_true_iff in I as [I ?]). repeat match goal with H : (_ =? _)%string = true |- _ => apply String.eqb_eq in H end.
  destruct E as [->| ->]; congruence.
Qed.
Lemma column_into : forall three d (ty : gr a_type) cn (is : gr (list a_item)), sub (p_type three) ty -> sub (p_cname d) cn -> into ends (p_items three d) is ->
  into ends (p_column three d) (One true (CName d) ** ty ** cn ** is ==> fun '(n, (t, (c, l))) => EColumn (mk_acolumn n t c l)).
Proof.
  intros three d ty cn is T C I l nxt v En H. apply gen_map_inv in H as ([n [t [c ls]]] & -> & H).
  apply gen_seq_inv in H as (l1 & l2 & -> & H1 & H). apply gen_seq_inv in H as (l3 & l4 & -> & H3 & H). apply gen_seq_inv in H as (l5 & l6 & -> & H5 & H6). cbn [fst snd] in *.
  eapply gen_map; [apply gen_seq; [exact H1|apply gen_seq; [apply T; exact H3|apply gen_seq; [apply C; exact H5|apply I; [exact En|exact H6]]]]|reflexivity].
Qed.

Lemma element_into : forall three d la col (tc : gr a_element), into ends (p_column three d) col -> into ends (p_constraint d) tc ->
  into ends (p_element three d) (Cond la tc col).
Proof. intros three d la col tc C T l nxt v En H. apply gen_cond_inv in H as [H|H]; [apply gen_left; now apply T|apply gen_right; now apply C]. Qed.
Lemma constraint_into : forall d cn body, sub (p_cname d) cn -> into ends (p_body d) body ->
  into ends (p_constraint d) (cn ** body ==> fun '(n, b) => EConstraint n b).
Proof.
  intros d cn body C B l nxt v En H. apply gen_map_inv in H as ([n b] & -> & H). apply gen_seq_inv in H as (l1 & l2 & -> & H1 & H2). cbn [fst snd] in *.
  eapply gen_map; [apply gen_seq; [apply C; exact H1|apply B; [exact En|exact H2]]|reflexivity].
Qed.
Lemma create_into : forall three d ine elt T (topts : gr T) w, sub p_ine ine -> into ends (p_element three d) elt -> gen topts [] (Some ";") w ->
  sub (p_create_table three d) (Put ["CREATE"] ** kw ["TABLE"] ** ine ** p_table_name d ** kw ["("] ** SepBy true elt ** kw [")"] ** topts ** kw [";"]
    ==> fun '(_, (_, (i, ((s, t), (_, (l, _)))))) => STable (mk_atable i s t l)).
Proof.
  intros three d ine elt T topts w I E Z l nxt v H. apply gen_map_inv in H as ([k [i [[s t] [o [ls [c z]]]]]] & -> & H).
  apply gen_seq_inv in H as (l1 & l2 & -> & H1 & H). apply gen_seq_inv in H as (l3 & l4 & -> & H3 & H). apply gen_seq_inv in H as (l5 & l6 & -> & H5 & H).
  apply gen_seq_inv in H as (l7 & l8 & -> & H7 & H). apply gen_seq_inv in H as (l9 & l10 & -> & H9 & H). apply gen_seq_inv in H as (l11 & l12 & -> & H11 & H12). cbn [fst snd] in *.
  apply gen_map with (a := (tt, (k, (i, ((s, t), (o, (ls, (c, (w, z))))))))); [|reflexivity]. apply gen_skip with (a := tt); [apply gen_put|]. apply gen_seq; [exact H1|]. apply gen_seq; [apply I; exact H3|]. apply gen_seq; [exact H5|].
  apply gen_seq; [exact H7|]. apply gen_seq.
  - eapply sepby_sub with (P := ends); [intros nxt' P' l' v'; apply E, P'|now left|exact H9|]. right.
    apply gen_one_inv in H11 as [-> M]. cbn [app hdr]. f_equal. apply matches_spec in M as (x & [<-|[]] & [-> | ->]); reflexivity.
  - apply gen_seq; [exact H11|]. apply gen_one_inv in H12 as [-> M]. apply gen_skip with (a := w); [|apply gen_one; exact M].
    cbn [hdr]. apply matches_spec in M as (x & [<-|[]] & [-> | ->]); exact Z.
Qed.
Lemma other_into : forall ws, forallb (fun w => contains ws w) ["VIEW"; "TRIGGER"; "INDEX"] = true ->
  sub p_create_other (kw_ ws ** Skip ** kw_ [";"] ==> fun _ => SOther).
Proof.
  intros ws F l nxt v H. apply gen_map_inv in H as ([k [a z]] & -> & H). apply gen_seq_inv in H as (l1 & l2 & -> & H1 & H2). cbn [fst snd] in *.
  eapply gen_map; [apply gen_seq; [eapply sub_words; [exact F|exact H1]|exact H2]|reflexivity].
Qed.
Lemma script_into : forall three d la (st : gr a_stmt), sub (p_statement three d) st -> sub (p_script three d) (While la st).
Proof.
  intros three d la st S l nxt v [o (hs & H)]. eapply gen_whiles. eapply star_sub with (P := fun _ => True); [|auto|exact H|auto]. intros nxt' _ l' v'. apply S.
Qed.

(** ** The parts of the common grammar *)

Lemma item_cases : forall three d l nxt v, gen (p_item three d) l nxt v ->
  (exists a b, l = [a; b] /\ matches ["PRIMARY"] a = true /\ matches ["KEY"] b = true /\ v = IPrimary false) \/
  (exists a b, l = [a; b] /\ matches ["NOT"] a = true /\ matches ["NULL"] b = true /\ v = INotNull) \/
  (exists a, l = [a] /\ matches ["UNIQUE"] a = true /\ v = IUnique) \/
  (exists a e, l = a :: e /\ matches ["CHECK"] a = true /\ gen (Brackets true) e nxt e /\ v = ICheck e /\ match nxt with Some t => matches ["NOT"] t = false | None => True end) \/
  (exists a e, l = a :: e /\ matches ["DEFAULT"] a = true /\ gen (Brackets true) e nxt e /\ v = IDefault (AExpr e)) \/
  (exists a t, l = [a; t] /\ matches ["DEFAULT"] a = true /\ literal d t = true /\ v = IDefault (ALit t)) \/
  (exists a t l1 l2 o u, l = a :: t :: l1 ++ l2 /\ matches ["REFERENCES"] a = true /\ legal_name d t = true /\ gen (opt ["("] (kw ["("] ** p_name d ** kw [")"])) l1 (hdr l2 nxt) o /\ gen p_options l2 nxt u /\ v = IReferences (mk_aref None t (match o with Some (_, (c, _)) => Some [c] | None => None end)) /\ (three = true -> match nxt with Some t => matches ["NOT"] t = false | None => True end)).
Proof.
  intros three d l nxt v H. unfold p_item in H.
  assert (BR : forall k l nxt v, gen (Brackets k) l nxt v -> v = l) by (intros k l' n' v' [o (l1 & _ & E1 & _ & E2)]; congruence).
  apply gen_cond_inv in H as [H|H]; [left|right; apply gen_cond_inv in H as [H|H]; [left|right; apply gen_cond_inv in H as [H|H]; [left|right; apply gen_cond_inv in H as [H|H]; [left|right; apply gen_cond_inv in H as [H|H]; [|right; right]]]]].
  - unfold p_primary in H. inv1 H. destruct a as [x y]. cbn [fst snd] in *. exists x, y. auto.
  - unfold p_notnull in H. inv1 H. destruct a as [x y]. cbn [fst snd] in *. exists x, y. auto.
  - unfold p_unique in H. inv1 H. exists a. auto.
  - unfold p_check, p_expr in H. inv1 H. destruct a as [x [e u]]. cbn [fst snd] in *. rewrite app_nil_r.
    match goal with X : gen (Brackets _) _ _ _ |- _ => pose proof (BR _ _ _ _ X); subst; exists x; eexists; split; [reflexivity|]; split; [assumption|]; split; [exact X|]; auto end.
  - unfold p_default, p_expr in H. apply gen_map_inv in H as ([x y] & -> & H). apply gen_seq_inv in H as (l1 & l2 & -> & H1 & H). cbn [fst snd] in *. apply gen_one_inv in H1 as [-> M].
    apply gen_cond_inv in H as [H|H]; apply gen_map_inv in H as (z & -> & H); [left|right; left].
    + pose proof (BR _ _ _ _ H). subst. exists x, l2. auto.
    + apply gen_one_inv in H as [-> L]. exists x, z. auto.
  - apply gen_map_inv in H as ([x [t [o [u w]]]] & -> & H). apply gen_seq_inv in H as (l1 & l2 & -> & H1 & H). apply gen_one_inv in H1 as [-> M1].
    apply gen_seq_inv in H as (l1 & l3 & -> & H2 & H). apply gen_one_inv in H2 as [-> M2]. apply gen_seq_inv in H as (l1 & l4 & -> & H3 & H).
    apply gen_seq_inv in H as (l5 & l6 & -> & H4 & H). cbn [fst snd] in *.
    assert (E : l6 = [] /\ (three = true -> match nxt with Some t => matches ["NOT"] t = false | None => True end)).
    { destruct three; [apply gen_notnext_inv in H as [-> N]|apply gen_eps_inv in H]; auto. split; auto. discriminate. }
    destruct E as [-> N]. rewrite app_nil_r in *. exists x, t, l1, l5, o, u. auto 10.
Qed.
Lemma body_cases : forall d l nxt v, gen (p_body d) l nxt v ->
  (exists a b l' cols, l = a :: b :: l' /\ matches ["PRIMARY"] a = true /\ matches ["KEY"] b = true /\ gen (p_columns d) l' nxt cols /\ v = BPrimary cols) \/
  (exists a l' cols, l = a :: l' /\ matches ["UNIQUE"] a = true /\ gen (p_columns d) l' nxt cols /\ v = BUnique cols) \/
  (exists a e, l = a :: e /\ matches ["CHECK"] a = true /\ gen (Brackets true) e nxt e /\ v = BCheck e) \/
  (exists a b l1 cols r t l2 keys l3 u, l = a :: b :: l1 ++ r :: t :: l2 ++ l3 /\ matches ["FOREIGN"] a = true /\ matches ["KEY"] b = true /\ gen (p_columns d) l1 (Some r) cols /\ matches ["REFERENCES"] r = true /\ legal_name d t = true /\ gen (p_columns d) l2 (hdr l3 nxt) keys /\ gen p_options l3 nxt u /\ v = BForeign cols (mk_aref None t (Some keys))).
Proof.
  intros d l nxt v H. unfold p_body in H.
  assert (BR : forall k l nxt v, gen (Brackets k) l nxt v -> v = l) by (intros k l' n' v' [o (l1 & _ & E1 & _ & E2)]; congruence).
  apply gen_cond_inv in H as [H|H]; [left|right; apply gen_cond_inv in H as [H|H]; [left|right; apply gen_cond_inv in H as [H|H]; [left|right]]].
  - apply gen_map_inv in H as ([a [b cols]] & -> & H). apply gen_seq_inv in H as (l1 & l2 & -> & H1 & H). apply gen_seq_inv in H as (l3 & l4 & -> & H3 & H). cbn [fst snd] in *.
    apply gen_one_inv in H1 as [-> M1]. apply gen_one_inv in H3 as [-> M3]. exists a, b, l4, cols. auto.
  - apply gen_map_inv in H as ([a cols] & -> & H). apply gen_seq_inv in H as (l1 & l2 & -> & H1 & H). cbn [fst snd] in *. apply gen_one_inv in H1 as [-> M1]. exists a, l2, cols. auto.
  - apply gen_map_inv in H as ([a e] & -> & H). apply gen_seq_inv in H as (l1 & l2 & -> & H1 & H). cbn [fst snd] in *. apply gen_one_inv in H1 as [-> M1].
    pose proof (BR _ _ _ _ H). subst. exists a, l2. auto.
  - apply gen_map_inv in H as ([a [b [cols [r [t [k u]]]]]] & -> & H). apply gen_seq_inv in H as (l1 & l2 & -> & H1 & H). apply gen_seq_inv in H as (l3 & l4 & -> & H3 & H).
    apply gen_seq_inv in H as (l5 & l6 & -> & H5 & H). apply gen_seq_inv in H as (l7 & l8 & -> & H7 & H). apply gen_seq_inv in H as (l9 & l10 & -> & H9 & H).
    apply gen_seq_inv in H as (l11 & l12 & -> & H11 & H). cbn [fst snd] in *. apply gen_one_inv in H1 as [-> M1]. apply gen_one_inv in H3 as [-> M3]. apply gen_one_inv in H7 as [-> M7]. apply gen_one_inv in H9 as [-> M9].
    exists a, b, l5, cols, r, t, l11, k, l12, u. cbn [app hdr] in *. auto 12.
Qed.

(** ** PostgreSQL *)

Lemma pg_type : forall three, sub (p_type three) GPostgres.type_name.
Proof.
  intros three l nxt v H. unfold GPostgres.type_name. apply type_cases in H as [(w & -> & -> & H)|(-> & [(w & n & l' & -> & -> & M & H)|[(w & n & l' & -> & -> & M & H)|(w & n & z & l' & -> & -> & M & H)]])].
  - assert (M : matches ["NUMERIC"] w = true \/ matches GPostgres.plain_types w = true).
    { destruct H as [[_ M]|[_ M]]; [|right; by_words]. apply matches_In in M as (x & I & M). cbn in I.
      destruct I as [<-|[<-|[<-|[<-|[]]]]]; auto; right; by_words. }
    destruct M as [M|M].
    + apply gen_right, gen_right, gen_left. eapply gen_map; [apply (gen_last _ _ _ _ _ _ w None); [apply gen_one; cbn [cmem]; by_words|apply gen_none]|reflexivity].
    + do 5 apply gen_right. eapply gen_map; [apply gen_one; exact M|reflexivity].
  - apply matches_In in M as (x & I & M). assert (B : x = "BIT" \/ In x ["VARCHAR"; "CHAR"]) by (cbn in I |- *; intuition subst; auto). clear I. destruct B as [->|I].
    + apply gen_left. eapply gen_map; [apply (gen_tok _ _ _ _ w _ _ (None, n)); [cbn [cmem]; by_words|apply gen_skip; [apply gen_none|exact H]]|reflexivity].
    + apply gen_right, gen_left. eapply gen_map; [apply (gen_tok _ _ _ _ w _ _ n); [|exact H]|reflexivity]. cbn [cmem]. destruct I as [<-|[<-|[]]]; by_words.
  - apply gen_right, gen_right, gen_left. eapply gen_map; [apply (gen_tok _ _ _ _ w _ _ n); [exact M|exact H]|reflexivity].
  - apply gen_right, gen_right, gen_right, gen_right, gen_left. eapply gen_map; [apply (gen_tok _ _ _ _ w _ _ (n, z)); [exact M|exact H]|reflexivity].
Qed.
Lemma pg_index : forall nxt, gen GPostgres.index_parameters [] nxt tt.
Proof.
  intros nxt. eapply gen_map; [|reflexivity]. apply (gen_skip _ _ _ _ [] nxt None (None, None)); [apply gen_none|]. apply gen_skip; apply gen_none.
Qed.
(** a table name without schema *)
Lemma bare : forall d t nxt, legal_name d t = true -> gen (p_table_name d) [t] nxt (None, t).
Proof. intros d t nxt L. apply gen_map with (a := (t, None)); [apply gen_tok; [exact L|apply gen_none]|reflexivity]. Qed.
Lemma pg_item : forall three, into item_follows (p_item three PostgreSQL) GPostgres.column_constraint.
Proof.
  intros three l nxt v Fo H. unfold GPostgres.column_constraint.
  apply item_cases in H as [(a & b & -> & Ma & Mb & ->)|[(a & b & -> & Ma & Mb & ->)|[(a & -> & Ma & ->)|[(a & e & -> & Ma & He & -> & N)|[(a & e & -> & Ma & He & ->)|[(a & t & -> & Ma & Lt & ->)|(a & t & l1 & l2 & o & u & -> & Ma & Lt & H1 & H2 & -> & N)]]]]]].
  - apply gen_left. apply gen_map with (a := (a, (b, tt))); [|reflexivity]. apply gen_tok; auto. apply gen_tok; auto. apply pg_index.
  - apply gen_right, gen_left. apply gen_map with (a := (a, b)); [|reflexivity]. apply gen_tok; auto. now apply gen_one.
  - do 3 apply gen_right. apply gen_left. apply gen_map with (a := (a, tt)); [|reflexivity]. apply gen_tok; auto. apply pg_index.
  - do 4 apply gen_right. apply gen_left. apply gen_map with (a := (a, (e, None))); [|reflexivity]. apply gen_tok; auto. apply gen_last; [exact He|apply gen_none].
  - do 5 apply gen_right. apply gen_left. apply gen_map with (a := (a, AExpr e)); [|reflexivity]. apply gen_tok; auto. apply gen_left. eapply gen_map; [exact He|reflexivity].
  - do 5 apply gen_right. apply gen_left. apply gen_map with (a := (a, ALit t)); [|reflexivity]. apply gen_tok; auto. apply gen_right. eapply gen_map; [now apply gen_one|reflexivity].
  - do 6 apply gen_right. apply gen_left. apply gen_map with (a := (a, ((None, t), (o, u)))); [|reflexivity]. apply gen_tok; auto.
    change (t :: l1 ++ l2) with ([t] ++ l1 ++ l2). apply gen_seq; [now apply bare|]. apply gen_seq; [exact H1|exact H2].
Qed.
Lemma pg_body : into ends (p_body PostgreSQL)
  (Case ["PRIMARY"] of GPostgres.t_primary or Case ["UNIQUE"] of GPostgres.t_unique or Case ["CHECK"] of GPostgres.t_check or Case ["FOREIGN"] of GPostgres.t_foreign or GPostgres.t_exclude).
Proof.
  intros l nxt v En H.
  apply body_cases in H as [(a & b & l' & cols & -> & Ma & Mb & H & ->)|[(a & l' & cols & -> & Ma & H & ->)|[(a & e & -> & Ma & H & ->)|(a & b & l1 & cols & r & t & l2 & k & l3 & u & -> & Ma & Mb & H1 & Mr & Lt & H2 & H3 & ->)]]].
  - apply gen_left. apply gen_map with (a := (a, (b, (cols, tt)))); [|reflexivity]. do 2 (apply gen_tok; auto). apply gen_last; [exact H|apply pg_index].
  - apply gen_right, gen_left. apply gen_map with (a := (a, (cols, tt))); [|reflexivity]. apply gen_tok; auto. apply gen_last; [exact H|apply pg_index].
  - apply gen_right, gen_right, gen_left. apply gen_map with (a := (a, (e, None))); [|reflexivity]. apply gen_tok; auto. apply gen_last; [exact H|apply gen_none].
  - do 3 apply gen_right. apply gen_left. apply gen_map with (a := (a, (b, (cols, (r, ((None, t), (Some k, u))))))); [|reflexivity]. do 2 (apply gen_tok; auto).
    apply gen_seq; [exact H1|]. apply gen_tok; auto. change (t :: l2 ++ l3) with ([t] ++ l2 ++ l3). apply gen_seq; [now apply bare|]. apply gen_seq; [apply gen_some; exact H2|exact H3].
Qed.
Ltac keys_differ := intros a b Ia Ib E; cbn in Ia, Ib; repeat (destruct Ia as [<-|Ia]; [repeat (destruct Ib as [<-|Ib]; [first [reflexivity|vm_compute in E; discriminate E]|]); contradiction|]); contradiction.
Theorem pg_script : forall three, sub (p_script three PostgreSQL) GPostgres.script.
Proof.
  intros three. apply script_into. intros l nxt v H. apply gen_map_inv in H as ([k s] & -> & H). apply gen_seq_inv in H as (l1 & l2 & -> & H1 & H). cbn [fst snd] in *.
  apply gen_map with (a := (k, s)); [|reflexivity]. apply gen_seq; [exact H1|]. apply gen_cond_inv in H as [H|H]; [apply gen_left|apply gen_right].
  - eapply (create_into three PostgreSQL); [..|exact H].
    + apply sub_refl.
    + apply element_into.
      * apply column_into; [apply pg_type|apply sub_refl|]. apply items_into; [apply pg_item|keys_differ|apply words_upper; reflexivity].
      * apply constraint_into; [apply sub_refl|apply pg_body].
    + apply gen_while.
  - eapply other_into; [reflexivity|exact H].
Qed.
