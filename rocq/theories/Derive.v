(** From the grammars to emitted tokens: tools common to the dialects.  (Proof device.) *)
From Coq Require Import String Ascii List Bool Arith.
From Verif Require Import GoStr GoNum Types Grammar GrammarFacts Ast Emit.
Import ListNotations.
Open Scope nat_scope.
Open Scope string_scope.

(** ** Grammars that emit nothing *)

Fixpoint quiet {A} (g : gr A) : bool :=
  match g with
  | Eps | NotNext _ | IsNext _ | Skip => true
  | Put o => match o with [] => true | _ => false end
  | One keep _ | Brackets keep => negb keep
  | Seq g h => quiet g && quiet h
  | Map _ g => quiet g
  | Cond _ g h => quiet g && quiet h
  | While _ g | WhileU _ _ g => quiet g
  | SepBy keep g => negb keep && quiet g
  end.

Lemma star_quiet : forall A (L : list string -> option string -> list string -> A -> Prop),
  (forall l nxt out v, L l nxt out v -> out = []) ->
  forall l nxt out vs hs, star L l nxt out vs hs -> out = [].
Proof. intros A L H l nxt out vs hs S. induction S; auto. rewrite (H _ _ _ _ H0), IHS. reflexivity. Qed.

Lemma quiet_out : forall A (g : gr A), quiet g = true -> forall l nxt out v, lang g l nxt out v -> out = [].
Proof.
  induction g as [|o|keep c|ws|ws|keep| |A B g IHg h IHh|A B f g IHg|A c g IHg h IHh|A c g IHg|A c key g IHg|A keep g IHg];
    cbn [quiet lang]; intros Q l nxt out v H.
  - tauto.
  - destruct o; [tauto|discriminate].
  - apply negb_true_iff in Q. subst keep. cbn [kept] in H. tauto.
  - tauto.
  - tauto.
  - apply negb_true_iff in Q. subst keep. destruct H as (l1 & _ & _ & -> & _). reflexivity.
  - tauto.
  - apply andb_true_iff in Q as [Q1 Q2]. destruct H as (l1 & l2 & o1 & o2 & -> & -> & H1 & H2).
    rewrite (IHg Q1 _ _ _ _ H1), (IHh Q2 _ _ _ _ H2). reflexivity.
  - destruct H as (a & _ & H). eauto.
  - apply andb_true_iff in Q as [Q1 Q2]. destruct H; eauto.
  - destruct H as (hs & H). eapply star_quiet; eauto.
  - destruct H as (hs & H & _). eapply star_quiet; eauto.
  - apply andb_true_iff in Q as [Q1 Q2]. apply negb_true_iff in Q1. subst keep.
    induction H; eauto. cbn [kept]. rewrite (IHg Q2 _ _ _ _ H), IHsepby. reflexivity.
Qed.

(** ** Inversion *)

Ltac lang_step :=
  match goal with
  | H : lang (Map _ _) _ _ _ _ |- _ => let a := fresh "v" in let E := fresh "E" in destruct H as (a & E & H)
  | H : lang (IsNext _) _ _ _ _ |- _ =>
      let M := fresh "M" in let E1 := fresh "E" in let E2 := fresh "E" in destruct H as (E1 & E2 & M)
  | H : lang (NotNext _) _ _ _ _ |- _ =>
      let M := fresh "M" in let E1 := fresh "E" in let E2 := fresh "E" in destruct H as (E1 & E2 & M)
  | H : lang ?g _ _ ?o _ |- _ =>
      let q := eval compute in (quiet g) in
      lazymatch q with
      | true => lazymatch o with
                | [] => fail
                | _ => let E := fresh "E" in pose proof (quiet_out _ g eq_refl _ _ _ _ H) as E; clear H; subst o
                end
      end
  | H : lang (Seq _ _) _ _ _ ?v |- _ =>
      let l1 := fresh "l" in let l2 := fresh "l" in let o1 := fresh "o" in let o2 := fresh "o" in
      let E1 := fresh "E" in let E2 := fresh "E" in let H2 := fresh "H" in
      destruct H as (l1 & l2 & o1 & o2 & E1 & E2 & H & H2);
      first [ is_var v; destruct v | idtac ]; cbn [fst snd] in H, H2
  | H : lang (Cond _ _ _) _ _ _ _ |- _ => destruct H as [H|H]
  | H : lang (One _ _) _ _ _ _ |- _ =>
      let M := fresh "M" in let E1 := fresh "E" in let E2 := fresh "E" in destruct H as (M & E1 & E2); cbn [kept cmem] in M, E2
  | H : lang (Brackets _) _ _ _ _ |- _ =>
      let b := fresh "b" in let B := fresh "B" in let E1 := fresh "E" in let E2 := fresh "E" in let E3 := fresh "E" in
      destruct H as (b & B & E1 & E2 & E3); cbn [kept] in E2
  | H : lang Eps _ _ _ _ |- _ => let E1 := fresh "E" in let E2 := fresh "E" in destruct H as (E1 & E2)
  | H : lang (Put _) _ _ _ _ |- _ => let E1 := fresh "E" in let E2 := fresh "E" in destruct H as (E1 & E2)
  end.

Ltac good_step :=
  match goal with
  | H : Forall _ (_ ++ _)%list |- _ => apply Forall_app in H as [? ?]
  | H : Forall _ (_ :: _) |- _ => apply Forall_cons_iff in H as [? ?]
  end.

Lemma kwd_in : forall ws t, matches ws t = true -> exists w, In w ws /\ kwd w t.
Proof. intros. now apply matches_In. Qed.
Lemma sym_eq : forall w t, to_lower w = w -> to_upper w = w -> matches [w] t = true -> t = w.
Proof. intros w t A B H. apply matches_one in H as [->| ->]; auto. Qed.

(** a token of a word class is no comma, unless the comma is in the class *)
Lemma not_comma : forall ws t, matches ws t = true -> matches ws "," = false -> t <> ",".
Proof. intros ws t H N ->. congruence. Qed.
Lemma not_word : forall ws ws' t, matches ws t = true ->
  forallb (fun w => negb (matches ws' (to_lower w)) && negb (matches ws' (to_upper w))) ws = true ->
  matches ws' t = false.
Proof.
  intros ws ws' t H N. apply matches_In in H as (w & I & M). rewrite forallb_forall in N. apply N in I.
  apply andb_true_iff in I as [A B]. apply negb_true_iff in A, B. apply matches_one in M as [->| ->]; auto.
Qed.

Lemma name_tok_intro : forall d t, legal_name d t = true -> good t -> name_tok d t.
Proof. split; auto. Qed.

Lemma head_not : forall A (g : gr A) ws t l nxt o v, lang g (t :: l) nxt o v ->
  forallb (la_is (next_in ws) false) (look g [FAny; FEof]) = true -> matches ws t = false.
Proof.
  intros A g ws t l nxt o v H F.
  pose proof (look_within _ g [FAny; FEof] _ _ _ _ H (within_any _)) as W. cbn [hdr] in W.
  pose proof (forallb_within _ _ _ _ F W) as X. cbn [la_mem next_in la_words la_neg] in X. now rewrite xorb_false_r in X.
Qed.

(** ** Lists *)

Lemma star_items : forall d (g : gr a_item),
  (forall t l nxt o v, Forall good (t :: l) -> lang g (t :: l) nxt o v -> em_item d v t o) ->
  forall l nxt out vs hs, Forall good l -> star (lang g) l nxt out vs hs -> em_items d vs hs out.
Proof.
  intros d g H l nxt out vs hs G S. induction S; [constructor|].
  apply Forall_cons_iff in G as [G1 G2]. apply Forall_app in G2 as [G2 G3].
  apply eis_cons; [|auto]. eapply H; [|eassumption]. now constructor.
Qed.

Lemma sep_names : forall d (g : gr string),
  (forall l nxt o v, Forall good l -> lang g l nxt o v -> name_tok d v /\ o = [v]) ->
  forall l nxt out vs, Forall good l -> sepby (lang g) true l nxt out vs ->
  Forall (fun t => t = "," \/ name_tok d t) out /\ vs = filter (fun t => negb (t =? ",")) out.
Proof.
  intros d g H l nxt out vs G S.
  assert (N : forall v, name_tok d v -> (v =? ",") = false).
  { intros v [L _]. apply String.eqb_neq. intros ->. destruct d; discriminate. }
  induction S as [l nxt o v L|l1 l2 nxt o1 o2 v vs L S IH].
  - apply H in L as [L ->]; auto. cbn [filter]. rewrite (N v L). cbn [negb]. auto.
  - apply Forall_app in G as [G1 G2]. apply Forall_cons_iff in G2 as [_ G2]. destruct (IH G2) as [IH1 IH2].
    apply H in L as [L ->]; auto. cbn [kept app filter]. rewrite (N v L). cbn [negb String.eqb Ascii.eqb Bool.eqb].
    split; [|now rewrite IH2]. apply Forall_cons; [auto|]. apply Forall_cons; auto.
Qed.

Lemma sep_elements : forall d (g : gr a_element),
  (forall l nxt o v, nxt = Some "," \/ nxt = Some ")" -> Forall good l -> lang g l nxt o v -> em_element d v o) ->
  forall l nxt out vs, nxt = Some ")" -> Forall good l -> sepby (lang g) true l nxt out vs -> em_elements d vs out.
Proof.
  intros d g H l nxt out vs N G S. induction S as [l nxt o v L|l1 l2 nxt o1 o2 v vs L S IH].
  - constructor. eauto.
  - apply Forall_app in G as [G1 G2]. apply Forall_cons_iff in G2 as [_ G2].
    cbn [kept app]. constructor; eauto.
Qed.

Lemma star_script : forall d (g : gr a_stmt),
  (forall l nxt o v, Forall good l -> lang g l nxt o v ->
     match v with STable t => em_table d t o | SOther => o = [] end) ->
  forall l nxt out vs hs, Forall good l -> star (lang g) l nxt out vs hs -> em_script d vs out.
Proof.
  intros d g H l nxt out vs hs G S. induction S; [constructor|].
  apply Forall_cons_iff in G as [G1 G2]. apply Forall_app in G2 as [G2 G3].
  specialize (IHS G3). apply H in H0; [|now constructor]. destruct v; [now constructor|]. subst o1. now constructor.
Qed.

Lemma key_ok_upper : key_ok to_upper.
Proof.
  intros w t I K. apply matches_one in K. cbn in I. destruct I as [<-|[<-|[<-|[<-|[]]]]]; destruct K as [->| ->]; reflexivity.
Qed.

(** one column in brackets *)
Lemma one_column : forall d c, name_tok d c -> em_names d [c] ["("; c; ")"].
Proof.
  intros d c N. exists [c]. split; [reflexivity|]. split; [constructor; auto|].
  assert (E : (c =? ",") = false).
  { destruct N as [L _]. apply String.eqb_neq. intros ->. destruct d; discriminate. }
  cbn [filter]. now rewrite E.
Qed.

Lemma ref_intro : forall d k sc tn o c oc, matches ["REFERENCES"] k = true ->
  match sc with
  | None => o = [tn] /\ name_tok d tn
  | Some s => o = [s; "."; tn] /\ name_tok d s /\ name_tok d tn
  end ->
  match c with Some cols => em_names d cols oc | None => oc = [] end ->
  em_ref d (mk_aref sc tn c) (k :: o ++ oc).
Proof.
  intros d k [s|] t o c oc K P C.
  - destruct P as (-> & N1 & N2). destruct c; [|subst]; cbn [app]; now constructor.
  - destruct P as (-> & N). destruct c; [|subst]; cbn [app]; now constructor.
Qed.

Lemma words_in : forall a b t, matches a t = true -> forallb (fun w => contains b w) a = true -> matches b t = true.
Proof.
  intros a b t H S. apply matches_In in H as (w & I & M). rewrite forallb_forall in S.
  apply S, contains_spec in I. eapply matches_from; eauto.
Qed.
