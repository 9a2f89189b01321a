(** Building instances of grammars. *)
From Coq Require Import String List Bool.
From Verif Require Import GoStr Types Grammar GrammarFacts.
Import ListNotations.
Open Scope string_scope.
Open Scope gr_scope.
Open Scope list_scope.

Definition gen {A} (g : gr A) (l : list string) (nxt : option string) (v : A) : Prop := exists o, lang g l nxt o v.

Lemma gen_seq : forall A B (g : gr A) (h : gr B) l1 l2 nxt a b,
  gen g l1 (hdr l2 nxt) a -> gen h l2 nxt b -> gen (g ** h) (l1 ++ l2) nxt (a, b).
Proof. intros A B g h l1 l2 nxt a b [o1 H1] [o2 H2]. exists (o1 ++ o2). exists l1, l2, o1, o2. auto. Qed.
Lemma gen_map : forall A B (f : A -> B) (g : gr A) l nxt a v, gen g l nxt a -> f a = v -> gen (Map f g) l nxt v.
Proof. intros A B f g l nxt a v [o H] <-. exists o, a. auto. Qed.
Lemma gen_one : forall k c t nxt, cmem c t = true -> gen (One k c) [t] nxt t.
Proof. intros. eexists. cbn. eauto. Qed.
Lemma gen_left : forall A c (g h : gr A) l nxt v, gen g l nxt v -> gen (Cond c g h) l nxt v.
Proof. intros A c g h l nxt v [o H]. exists o. now left. Qed.
Lemma gen_right : forall A c (g h : gr A) l nxt v, gen h l nxt v -> gen (Cond c g h) l nxt v.
Proof. intros A c g h l nxt v [o H]. exists o. now right. Qed.
Lemma gen_eps : forall nxt, gen Eps [] nxt tt.
Proof. intros. now exists []. Qed.
Lemma gen_put : forall o nxt, gen (Put o) [] nxt tt.
Proof. intros. now exists o. Qed.
Lemma gen_notnext : forall ws nxt, match nxt with Some t => matches ws t = false | None => True end -> gen (NotNext ws) [] nxt tt.
Proof. intros. exists []. cbn. auto. Qed.
Lemma gen_isnext : forall ws t, matches ws t = true -> gen (IsNext ws) [] (Some t) tt.
Proof. intros. exists []. cbn. auto. Qed.
Lemma gen_brackets : forall k l nxt, balanced l -> gen (Brackets k) ("(" :: l ++ [")"]) nxt ("(" :: l ++ [")"]).
Proof. intros. eexists. exists l. eauto. Qed.
Lemma gen_while : forall A c (g : gr A) nxt, gen (While c g) [] nxt [].
Proof. intros. exists []. exists []. constructor. Qed.
Lemma gen_none : forall A ws (g : gr A) nxt, gen (opt ws g) [] nxt None.
Proof. intros. apply gen_right. eapply gen_map; [apply gen_eps|reflexivity]. Qed.
Lemma gen_some : forall A ws (g : gr A) l nxt v, gen g l nxt v -> gen (opt ws g) l nxt (Some v).
Proof. intros. apply gen_left. eapply gen_map; eauto. Qed.

(** a token, nothing, then the rest *)
Lemma gen_tok : forall B k c (h : gr B) t l nxt b, cmem c t = true -> gen h l nxt b -> gen (One k c ** h) (t :: l) nxt (t, b).
Proof. intros. change (t :: l) with ([t] ++ l). apply gen_seq; auto. now apply gen_one. Qed.
Lemma gen_skip : forall A B (g : gr A) (h : gr B) l nxt a b, gen g [] (hdr l nxt) a -> gen h l nxt b -> gen (g ** h) l nxt (a, b).
Proof. intros. change l with ([] ++ l). now apply gen_seq. Qed.
Lemma gen_last : forall A B (g : gr A) (h : gr B) l nxt a b, gen g l nxt a -> gen h [] nxt b -> gen (g ** h) l nxt (a, b).
Proof. intros. rewrite <- (app_nil_r l). apply gen_seq; auto. Qed.

Lemma gen_sepby1 : forall A k (g : gr A) l nxt v, gen g l nxt v -> gen (SepBy k g) l nxt [v].
Proof. intros A k g l nxt v [o H]. exists o. now constructor. Qed.
Lemma gen_sepby : forall A k (g : gr A) l1 l2 nxt v vs, gen g l1 (Some ",") v -> gen (SepBy k g) l2 nxt vs ->
  gen (SepBy k g) (l1 ++ "," :: l2) nxt (v :: vs).
Proof. intros A k g l1 l2 nxt v vs [o1 H1] [o2 H2]. eexists. econstructor; eauto. Qed.

(** constraints with different first words *)
Definition gens {A} (g : gr A) (l : list string) (nxt : option string) (vs : list A) (hs : list string) : Prop :=
  exists o, star (lang g) l nxt o vs hs.
Lemma gens_nil : forall A (g : gr A) nxt, gens g [] nxt [] [].
Proof. intros. exists []. constructor. Qed.
Lemma gens_cons : forall A (g : gr A) t l1 l2 nxt v vs hs, gen g (t :: l1) (hdr l2 nxt) v -> gens g l2 nxt vs hs ->
  gens g ((t :: l1) ++ l2) nxt (v :: vs) (t :: hs).
Proof. intros A g t l1 l2 nxt v vs hs [o1 H1] [o2 H2]. eexists. cbn [app]. econstructor; eauto. Qed.
Lemma gen_whileu : forall A c key (g : gr A) l nxt vs hs, gens g l nxt vs hs -> NoDup (map key hs) -> gen (WhileU c key g) l nxt vs.
Proof. intros A c key g l nxt vs hs [o H] N. exists o, hs. auto. Qed.
Lemma gen_whiles : forall A c (g : gr A) l nxt vs hs, gens g l nxt vs hs -> gen (While c g) l nxt vs.
Proof. intros A c g l nxt vs hs [o H]. exists o, hs. auto. Qed.
