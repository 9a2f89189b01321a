(** Keys and references with columns: tools common to the dialects. *)
From Coq Require Import String Ascii NArith ZArith List Bool Arith Lia.
From Verif Require Import GoStr Types Grammar Ast.
Import ListNotations.
Open Scope nat_scope.
Open Scope string_scope.
Open Scope list_scope.

Definition ref_listed (r : a_ref) : Prop := ar_columns r <> Some [].
Definition body_listed (b : a_body) : Prop :=
  match b with BPrimary l | BUnique l => l <> [] | BForeign l r => l <> [] /\ ref_listed r | _ => True end.
Definition element_listed (e : a_element) : Prop :=
  match e with
  | EColumn c => forall r, In (IReferences r) (ac_items c) -> ref_listed r
  | EConstraint _ b => body_listed b
  end.
Definition stmt_listed (s : a_stmt) : Prop := match s with STable t => Forall element_listed (at_elements t) | SOther => True end.

Lemma star_all : forall A (L : list string -> option string -> list string -> A -> Prop) (P : A -> Prop), (forall l nxt o v, L l nxt o v -> P v) ->
  forall l nxt o vs hs, star L l nxt o vs hs -> Forall P vs.
Proof. intros A L P H l nxt o vs hs S. induction S; constructor; eauto. Qed.
Lemma sep_all : forall A (L : list string -> option string -> list string -> A -> Prop) (P : A -> Prop), (forall l nxt o v, L l nxt o v -> P v) ->
  forall keep l nxt o vs, sepby L keep l nxt o vs -> Forall P vs.
Proof. intros A L P H keep l nxt o vs S. induction S; repeat constructor; eauto. Qed.
Lemma sep_some : forall A (L : list string -> option string -> list string -> A -> Prop) keep l nxt o vs, sepby L keep l nxt o vs -> vs <> [].
Proof. intros A L keep l nxt o vs S. destruct S; discriminate. Qed.
Definition item_listed (i : a_item) : Prop := match i with IReferences r => ref_listed r | _ => True end.
Lemma items_listed : forall n t c l, Forall item_listed l -> element_listed (EColumn (mk_acolumn n t c l)).
Proof. intros n t c l F r I. cbn [ac_items] in I. rewrite Forall_forall in F. exact (F _ I). Qed.

Ltac pieces := repeat match goal with
  | H : lang (Map _ _) _ _ _ _ |- _ => let a := fresh "v" in let E := fresh "E" in destruct H as (a & E & H); cbv beta in E
  | H : lang (Seq _ _) _ _ _ ?v |- _ => let H2 := fresh "H" in destruct H as (? & ? & ? & ? & _ & _ & H & H2); first [is_var v; destruct v | idtac]; cbn [fst snd] in H, H2
  | H : lang (Cond _ _ _) _ _ _ _ |- _ => destruct H as [H|H]
  | H : lang (One _ _) _ _ _ _ |- _ => clear H
  | H : lang Eps _ _ _ _ |- _ => clear H
  | p : (_ * _)%type |- _ => destruct p
  end; subst.
