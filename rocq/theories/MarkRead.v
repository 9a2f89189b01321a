(** A reader that finds the keywords of a script; used to work out examples. *)
From Coq Require Import String Ascii List Bool Arith Lia.
From Verif Require Import GoStr GoNum Types Lexer VBase Words Exec Grammar GrammarFacts Ast Spec Read Meaning Recase RecaseFacts.
Import ListNotations.
Open Scope nat_scope.
Open Scope string_scope.

(** value, remaining tokens, marks *)
Definition md A : Type := option (A * list string * list bool).

Section Loops.
Context {A : Type} (body : nat -> list string -> md A).
Fixpoint mwhile (c : la) (n : nat) (l : list string) : md (list A) :=
  match n with
  | O => None
  | S n =>
    if la_mem c (hd_error l) then
      match body n l with
      | Some (v, l1, o1) =>
        match mwhile c n l1 with Some (vs, l2, o2) => Some (v :: vs, l2, o1 ++ o2)%list | None => None end
      | None => None
      end
    else Some ([], l, [])
  end.
Fixpoint mwhileu (c : la) (key : string -> string) (n : nat) (ls : list string) (l : list string) : md (list A) :=
  match n with
  | O => None
  | S n =>
    if la_mem c (hd_error l) then
      if contains ls (key (tok (hd_error l))) then None
      else
        match body n l with
        | Some (v, l1, o1) =>
          match mwhileu c key n (ls ++ [key (tok (hd_error l))]) l1 with
          | Some (vs, l2, o2) => Some (v :: vs, l2, o1 ++ o2)%list
          | None => None
          end
        | None => None
        end
    else Some ([], l, [])
  end.
Fixpoint msep (n : nat) (l : list string) : md (list A) :=
  match n with
  | O => None
  | S n =>
    match body n l with
    | Some (v, t :: l1, o1) =>
      if t =? "," then
        match msep n l1 with
        | Some (vs, l2, o2) => Some (v :: vs, l2, o1 ++ false :: o2)%list
        | None => None
        end
      else Some ([v], t :: l1, o1)
    | Some (v, [], o1) => Some ([v], [], o1)
    | None => None
    end
  end.
End Loops.

Fixpoint mread {A} (g : gr A) : nat -> list string -> md A :=
  match g in gr A return nat -> list string -> md A with
  | Eps => fun n l => Some (tt, l, [])
  | Put o => fun n l => Some (tt, l, [])
  | One keep c => fun n l =>
      match l with t :: l => if cmem c t then Some (t, l, [keyword c t]) else None | [] => None end
  | NotNext ws => fun n l => if la_mem (next_in ws) (hd_error l) then None else Some (tt, l, [])
  | IsNext ws => fun n l => if la_mem (next_in ws) (hd_error l) then Some (tt, l, []) else None
  | Brackets keep => fun n l =>
      match exec (validateBrackets n keep) l with
      | EOk _ rest out => let b := firstn (List.length l - List.length rest) l in Some (b, rest, map (fun _ => false) b)
      | _ => None
      end
  | Skip => fun n l =>
      match exec (skip_statement n false) l with
      | EOk _ rest out => let b := firstn (List.length l - List.length rest) l in Some (tt, rest, map (fun _ => false) b)
      | _ => None
      end
  | Seq g h => fun n l =>
      match mread g n l with
      | Some (v1, l1, o1) =>
        match mread h n l1 with Some (v2, l2, o2) => Some ((v1, v2), l2, o1 ++ o2)%list | None => None end
      | None => None
      end
  | Map f g => fun n l => match mread g n l with Some (v, l, o) => Some (f v, l, o) | None => None end
  | Cond c g h => fun n l => if la_mem c (hd_error l) then mread g n l else mread h n l
  | While c g => mwhile (mread g) c
  | WhileU c key g => fun n => mwhileu (mread g) c key n []
  | SepBy keep g => msep (mread g)
  end.

Definition msound {A} (L : list string -> option string -> A -> list bool -> Prop) (p : list string -> md A) :=
  forall l v rest out, p l = Some (v, rest, out) ->
  exists l1, l = (l1 ++ rest)%list /\ L l1 (hd_error rest) v out.

Lemma mwhile_sound : forall A (L : _ -> _ -> A -> _ -> Prop) p c, (forall n, msound L (p n)) ->
  (forall l nxt out v, L l nxt v out -> l <> []) ->
  forall n l vs rest out, mwhile p c n l = Some (vs, rest, out) ->
  exists l1 hs, l = (l1 ++ rest)%list /\ mstar L l1 (hd_error rest) vs out hs.
Proof.
  intros A L p c S NE. induction n as [|n IH]; intros l vs rest out; cbn [mwhile]; [discriminate|].
  destruct (la_mem c (hd_error l)).
  - destruct (p n l) as [[[v r1] o1]|] eqn:E1; [|discriminate]. apply S in E1 as (l1 & -> & H1).
    destruct (mwhile p c n r1) as [[[vs' r2] o2]|] eqn:E2; [|discriminate]. apply IH in E2 as (l2 & hs & -> & H2).
    intros H. inversion H; subst. clear H.
    pose proof (NE _ _ _ _ H1). destruct l1 as [|t l1]; [congruence|].
    exists ((t :: l1) ++ l2)%list, (t :: hs). split; [now rewrite <- app_assoc|].
    cbn [app]. constructor; auto. now rewrite <- hd_error_hdr.
  - intros H. inversion H; subst. exists [], []. split; auto. constructor.
Qed.
Lemma mwhileu_sound : forall A (L : _ -> _ -> A -> _ -> Prop) p c key, (forall n, msound L (p n)) ->
  (forall l nxt out v, L l nxt v out -> l <> []) ->
  forall n ls l vs rest out, mwhileu p c key n ls l = Some (vs, rest, out) -> NoDup ls ->
  exists l1 hs, l = (l1 ++ rest)%list /\ mstar L l1 (hd_error rest) vs out hs /\ NoDup (ls ++ map key hs).
Proof.
  intros A L p c key S NE. induction n as [|n IH]; intros ls l vs rest out; cbn [mwhileu]; [discriminate|].
  destruct (la_mem c (hd_error l)).
  - destruct (contains ls (key (tok (hd_error l)))) eqn:C; [discriminate|].
    destruct (p n l) as [[[v r1] o1]|] eqn:E1; [|discriminate]. apply S in E1 as (l1 & -> & H1).
    pose proof (NE _ _ _ _ H1). destruct l1 as [|t l1]; [congruence|]. cbn [hd_error app tok] in *.
    destruct (mwhileu p c key n (ls ++ [key t]) r1) as [[[vs' r2] o2]|] eqn:E2; [|discriminate].
    intros X ND. inversion X; subst. clear X. apply contains_false in C.
    apply IH in E2 as (l2 & hs & -> & H2 & ND'); [|now apply NoDup_snoc].
    exists ((t :: l1) ++ l2)%list, (t :: hs). split; [now rewrite <- app_assoc|]. split.
    + cbn [app]. constructor; auto. now rewrite <- hd_error_hdr.
    + cbn [map]. now rewrite <- app_assoc in ND'.
  - intros H ND. inversion H; subst. exists [], []. split; auto. split; [constructor|].
    cbn. now rewrite app_nil_r.
Qed.
Lemma msep_sound : forall A (L : _ -> _ -> A -> _ -> Prop) p, (forall n, msound L (p n)) ->
  forall n l vs rest out, msep p n l = Some (vs, rest, out) ->
  exists l1, l = (l1 ++ rest)%list /\ msepby L l1 (hd_error rest) vs out.
Proof.
  intros A L p S. induction n as [|n IH]; intros l vs rest out; cbn [msep]; [discriminate|].
  destruct (p n l) as [[[v r1] o1]|] eqn:E1; [|discriminate]. apply S in E1 as (l1 & -> & H1).
  destruct r1 as [|t r1].
  - intros H. inversion H; subst. exists l1. split; auto. now constructor.
  - destruct (t =? ",") eqn:E.
    + apply String.eqb_eq in E. subst t.
      destruct (msep p n r1) as [[[vs' r2] o2]|] eqn:E2; [|discriminate].
      apply IH in E2 as (l2 & -> & H2). intros H. inversion H; subst.
      exists (l1 ++ "," :: l2)%list. split; [now rewrite <- app_assoc|]. now constructor.
    + intros H. inversion H; subst. exists l1. split; auto. now constructor.
Qed.

Lemma eats_marked : forall A (g : gr A), eats g = true -> forall l nxt ks v, marked g l nxt v ks -> l <> [].
Proof.
  intros A g E l nxt ks v M. assert (X : exists k, marked g l nxt v k) by eauto. apply marked_lang in X as [o X].
  eapply eats_lang; eauto.
Qed.
Theorem mread_sound : forall A (g : gr A), loops_eat g = true -> forall n, msound (marked g) (mread g n).
Proof.
  induction g; cbn [loops_eat marked mread]; intros LE n l val rest o H.
  - inversion H; subst. exists []. auto.
  - inversion H; subst. exists []. auto.
  - destruct l as [|t l]; [discriminate|]. destruct (cmem c t) eqn:E; [|discriminate].
    inversion H; subst. exists [val]. auto.
  - destruct (la_mem (next_in ws) (hd_error l)) eqn:E; [discriminate|]. inversion H; subst.
    exists []. repeat split; auto. destruct (hd_error rest); auto. cbn in E. now rewrite xorb_false_r in E.
  - destruct (la_mem (next_in ws) (hd_error l)) eqn:E; [|discriminate]. inversion H; subst.
    exists []. repeat split; auto. destruct (hd_error rest); [|discriminate]. cbn in E. now rewrite xorb_false_r in E.
  - destruct (exec (validateBrackets n keep) l) as [[] r1 o1|r1| |] eqn:E1; try discriminate.
    apply brackets_value in E1 as (l1 & B & -> & ->). rewrite firstn_pre in H. inversion H; subst.
    exists ("(" :: l1 ++ [")"])%list. split; auto. exists l1. auto.
  - destruct (exec (skip_statement n false) l) as [[] r1 o1|r1| |] eqn:E1; try discriminate.
    apply skip_sound in E1 as (-> & R & l1 & -> & S). rewrite firstn_pre in H. inversion H; subst. exists l1. auto.
  - apply andb_true_iff in LE as [L1 L2].
    destruct (mread g1 n l) as [[[v1 r1] o1]|] eqn:E1; [|discriminate]. apply IHg1 in E1 as (l1 & -> & H1); auto.
    destruct (mread g2 n r1) as [[[v2 r2] o2]|] eqn:E2; [|discriminate]. apply IHg2 in E2 as (l2 & -> & H2); auto.
    inversion H; subst. exists (l1 ++ l2)%list. split; [now rewrite <- app_assoc|].
    exists l1, l2, o1, o2. repeat split; auto. cbn. now rewrite <- hd_error_hdr.
  - destruct (mread g n l) as [[[v1 r1] o1]|] eqn:E1; [|discriminate]. apply IHg in E1 as (l1 & -> & H1); auto.
    inversion H; subst. exists l1. split; eauto.
  - apply andb_true_iff in LE as [L1 L2]. destruct (la_mem c (hd_error l)).
    + apply IHg1 in H as (l1 & -> & H); eauto.
    + apply IHg2 in H as (l1 & -> & H); eauto.
  - apply andb_true_iff in LE as [L1 L2].
    apply (mwhile_sound _ (marked g)) in H as (l1 & hs & -> & H); eauto. intros. eapply eats_marked; eauto.
  - apply andb_true_iff in LE as [L1 L2].
    apply (mwhileu_sound _ (marked g)) in H as (l1 & hs & -> & H & ND); eauto.
    + intros. eapply eats_marked; eauto.
    + constructor.
  - apply (msep_sound _ (marked g)) in H as (l1 & -> & H); eauto.
Qed.
Theorem mread_marked : forall n d l v ks, mread (script d) n l = Some (v, [], ks) -> marked (script d) l None v ks.
Proof.
  intros n d l v ks H. apply (mread_sound _ _ (script_loops d)) in H as (l1 & E & M). rewrite app_nil_r in E. now subst.
Qed.
