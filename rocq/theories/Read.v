(** A reader for the grammars of Grammar.v: computes the value of a token sequence.  It shows that
    the grammars are unambiguous, and it is used to work out examples. *)
From Coq Require Import String Ascii List Bool Arith Lia.
From Verif Require Import GoStr GoNum Types Lexer VBase Words Exec Grammar GrammarFacts.
Import ListNotations.
Open Scope string_scope.

(** value, remaining tokens, tokens subject to conversion *)
Definition rd A : Type := option (A * list string * list string).

Section Loops.
Context {A : Type} (body : nat -> list string -> rd A).

Fixpoint rwhile (c : la) (n : nat) (l : list string) : rd (list A) :=
  match n with
  | O => None
  | S n =>
    if la_mem c (hd_error l) then
      match body n l with
      | Some (v, l1, o1) =>
        match rwhile c n l1 with Some (vs, l2, o2) => Some (v :: vs, l2, o1 ++ o2)%list | None => None end
      | None => None
      end
    else Some ([], l, [])
  end.

Fixpoint rwhileu (c : la) (key : string -> string) (n : nat) (ls : list string) (l : list string) : rd (list A) :=
  match n with
  | O => None
  | S n =>
    if la_mem c (hd_error l) then
      if contains ls (key (tok (hd_error l))) then None
      else
        match body n l with
        | Some (v, l1, o1) =>
          match rwhileu c key n (ls ++ [key (tok (hd_error l))]) l1 with
          | Some (vs, l2, o2) => Some (v :: vs, l2, o1 ++ o2)%list
          | None => None
          end
        | None => None
        end
    else Some ([], l, [])
  end.

Fixpoint rsep (keep : bool) (n : nat) (l : list string) : rd (list A) :=
  match n with
  | O => None
  | S n =>
    match body n l with
    | Some (v, t :: l1, o1) =>
      if t =? "," then
        match rsep keep n l1 with
        | Some (vs, l2, o2) => Some (v :: vs, l2, o1 ++ kept keep [","] ++ o2)%list
        | None => None
        end
      else Some ([v], t :: l1, o1)
    | Some (v, [], o1) => Some ([v], [], o1)
    | None => None
    end
  end.
End Loops.

Fixpoint read {A} (g : gr A) : nat -> list string -> rd A :=
  match g in gr A return nat -> list string -> rd A with
  | Eps => fun n l => Some (tt, l, [])
  | Put o => fun n l => Some (tt, l, o)
  | One keep c => fun n l =>
      match l with t :: l => if cmem c t then Some (t, l, kept keep [t]) else None | [] => None end
  | NotNext ws => fun n l => if la_mem (next_in ws) (hd_error l) then None else Some (tt, l, [])
  | IsNext ws => fun n l => if la_mem (next_in ws) (hd_error l) then Some (tt, l, []) else None
  | Brackets keep => fun n l =>
      match exec (validateBrackets n keep) l with
      | EOk _ rest out => Some (firstn (List.length l - List.length rest) l, rest, out)
      | _ => None
      end
  | Skip => fun n l => match exec (skip_statement n false) l with EOk _ rest out => Some (tt, rest, out) | _ => None end
  | Seq g h => fun n l =>
      match read g n l with
      | Some (v1, l1, o1) =>
        match read h n l1 with Some (v2, l2, o2) => Some ((v1, v2), l2, o1 ++ o2)%list | None => None end
      | None => None
      end
  | Map f g => fun n l => match read g n l with Some (v, l, o) => Some (f v, l, o) | None => None end
  | Cond c g h => fun n l => if la_mem c (hd_error l) then read g n l else read h n l
  | While c g => rwhile (read g) c
  | WhileU c key g => fun n => rwhileu (read g) c key n []
  | SepBy keep g => rsep (read g) keep
  end.

(** ** Soundness *)

Definition rsound {A} (L : list string -> option string -> list string -> A -> Prop) (p : list string -> rd A) :=
  forall l v rest out, p l = Some (v, rest, out) ->
  exists l1, l = (l1 ++ rest)%list /\ L l1 (hd_error rest) out v.

Lemma rwhile_sound : forall A (L : _ -> _ -> _ -> A -> Prop) p c, (forall n, rsound L (p n)) ->
  (forall l nxt out v, L l nxt out v -> l <> []) ->
  forall n l vs rest out, rwhile p c n l = Some (vs, rest, out) ->
  exists l1 hs, l = (l1 ++ rest)%list /\ star L l1 (hd_error rest) out vs hs.
Proof.
  intros A L p c S NE. induction n as [|n IH]; intros l vs rest out; cbn [rwhile]; [discriminate|].
  destruct (la_mem c (hd_error l)).
  - destruct (p n l) as [[[v r1] o1]|] eqn:E1; [|discriminate]. apply S in E1 as (l1 & -> & H1).
    destruct (rwhile p c n r1) as [[[vs' r2] o2]|] eqn:E2; [|discriminate]. apply IH in E2 as (l2 & hs & -> & H2).
    intros H. inversion H; subst. clear H.
    pose proof (NE _ _ _ _ H1). destruct l1 as [|t l1]; [congruence|].
    exists ((t :: l1) ++ l2)%list, (t :: hs). split; [now rewrite <- app_assoc|].
    cbn [app]. constructor; auto. now rewrite <- hd_error_hdr.
  - intros H. inversion H; subst. exists [], []. split; auto. constructor.
Qed.

Lemma NoDup_snoc : forall A (l : list A) x, NoDup l -> ~ In x l -> NoDup (l ++ [x]).
Proof.
  intros A l x N I. apply NoDup_rev in N. rewrite <- (rev_involutive (l ++ [x])). apply NoDup_rev.
  rewrite rev_app_distr. cbn. constructor; auto. now rewrite <- in_rev.
Qed.

Lemma rwhileu_sound : forall A (L : _ -> _ -> _ -> A -> Prop) p c key, (forall n, rsound L (p n)) ->
  (forall l nxt out v, L l nxt out v -> l <> []) ->
  forall n ls l vs rest out, rwhileu p c key n ls l = Some (vs, rest, out) -> NoDup ls ->
  exists l1 hs, l = (l1 ++ rest)%list /\ star L l1 (hd_error rest) out vs hs /\ NoDup (ls ++ map key hs).
Proof.
  intros A L p c key S NE. induction n as [|n IH]; intros ls l vs rest out; cbn [rwhileu]; [discriminate|].
  destruct (la_mem c (hd_error l)).
  - destruct (contains ls (key (tok (hd_error l)))) eqn:C; [discriminate|].
    destruct (p n l) as [[[v r1] o1]|] eqn:E1; [|discriminate]. apply S in E1 as (l1 & -> & H1).
    pose proof (NE _ _ _ _ H1). destruct l1 as [|t l1]; [congruence|]. cbn [hd_error app tok] in *.
    destruct (rwhileu p c key n (ls ++ [key t]) r1) as [[[vs' r2] o2]|] eqn:E2; [|discriminate].
    intros X ND. inversion X; subst. clear X. apply contains_false in C.
    apply IH in E2 as (l2 & hs & -> & H2 & ND'); [|now apply NoDup_snoc].
    exists ((t :: l1) ++ l2)%list, (t :: hs). split; [now rewrite <- app_assoc|]. split.
    + cbn [app]. constructor; auto. now rewrite <- hd_error_hdr.
    + cbn [map]. now rewrite <- app_assoc in ND'.
  - intros H ND. inversion H; subst. exists [], []. split; auto. split; [constructor|].
    cbn. now rewrite app_nil_r.
Qed.

Lemma rsep_sound : forall A (L : _ -> _ -> _ -> A -> Prop) p keep, (forall n, rsound L (p n)) ->
  forall n l vs rest out, rsep p keep n l = Some (vs, rest, out) ->
  exists l1, l = (l1 ++ rest)%list /\ sepby L keep l1 (hd_error rest) out vs.
Proof.
  intros A L p keep S. induction n as [|n IH]; intros l vs rest out; cbn [rsep]; [discriminate|].
  destruct (p n l) as [[[v r1] o1]|] eqn:E1; [|discriminate]. apply S in E1 as (l1 & -> & H1).
  destruct r1 as [|t r1].
  - intros H. inversion H; subst. exists l1. split; auto. now constructor.
  - destruct (t =? ",") eqn:E.
    + apply String.eqb_eq in E. subst t.
      destruct (rsep p keep n r1) as [[[vs' r2] o2]|] eqn:E2; [|discriminate].
      apply IH in E2 as (l2 & -> & H2). intros H. inversion H; subst.
      exists (l1 ++ "," :: l2)%list. split; [now rewrite <- app_assoc|]. now constructor.
    + intros H. inversion H; subst. exists l1. split; auto. now constructor.
Qed.

Lemma brackets_value : forall n keep l rest out, exec (validateBrackets n keep) l = EOk tt rest out ->
  exists l1, balanced l1 /\ l = (("(" :: l1 ++ [")"]) ++ rest)%list /\ out = kept keep ("(" :: l1 ++ [")"])%list.
Proof.
  intros n keep l rest out H. destruct (sound _ (Brackets keep) eq_refl n l rest out H) as (l1 & v & -> & l2 & B & -> & -> & ->).
  exists l2. auto.
Qed.

Lemma firstn_pre : forall (a b : list string), firstn (List.length (a ++ b) - List.length b) (a ++ b) = a.
Proof.
  intros. rewrite app_length. replace (List.length a + List.length b - List.length b) with (List.length a + 0) by lia.
  rewrite firstn_app_2. cbn. now rewrite app_nil_r.
Qed.

Theorem read_sound : forall A (g : gr A), loops_eat g = true -> forall n, rsound (lang g) (read g n).
Proof.
  induction g; cbn [loops_eat lang read]; intros LE n l val rest o H.
  - inversion H; subst. exists []. auto.
  - inversion H; subst. exists []. auto.
  - destruct l as [|t l]; [discriminate|]. destruct (cmem c t) eqn:E; [|discriminate].
    inversion H; subst. exists [val]. auto.
  - destruct (la_mem (next_in ws) (hd_error l)) eqn:E; [discriminate|]. inversion H; subst.
    exists []. repeat split; auto. destruct (hd_error rest); auto. cbn in E. now rewrite xorb_false_r in E.
  - destruct (la_mem (next_in ws) (hd_error l)) eqn:E; [|discriminate]. inversion H; subst.
    exists []. repeat split; auto. destruct (hd_error rest); [|discriminate]. cbn in E. now rewrite xorb_false_r in E.
  - destruct (exec (validateBrackets n keep) l) as [[] r1 o1|r1| |] eqn:E1; try discriminate.
    apply brackets_value in E1 as (l1 & B & -> & ->). rewrite firstn_pre in H. inversion H; subst.
    exists ("(" :: l1 ++ [")"])%list. split; auto. exists l1. auto.
  - destruct (exec (skip_statement n false) l) as [[] r1 o1|r1| |] eqn:E1; try discriminate.
    apply skip_sound in E1 as (-> & R & l1 & -> & S). inversion H; subst. exists l1. auto.
  - apply andb_true_iff in LE as [L1 L2].
    destruct (read g1 n l) as [[[v1 r1] o1]|] eqn:E1; [|discriminate]. apply IHg1 in E1 as (l1 & -> & H1); auto.
    destruct (read g2 n r1) as [[[v2 r2] o2]|] eqn:E2; [|discriminate]. apply IHg2 in E2 as (l2 & -> & H2); auto.
    inversion H; subst. exists (l1 ++ l2)%list. split; [now rewrite <- app_assoc|].
    exists l1, l2, o1, o2. repeat split; auto. cbn. now rewrite <- hd_error_hdr.
  - destruct (read g n l) as [[[v1 r1] o1]|] eqn:E1; [|discriminate]. apply IHg in E1 as (l1 & -> & H1); auto.
    inversion H; subst. exists l1. split; eauto.
  - apply andb_true_iff in LE as [L1 L2]. destruct (la_mem c (hd_error l)).
    + apply IHg1 in H as (l1 & -> & H); eauto.
    + apply IHg2 in H as (l1 & -> & H); eauto.
  - apply andb_true_iff in LE as [L1 L2].
    apply (rwhile_sound _ (lang g)) in H as (l1 & hs & -> & H); eauto. intros. eapply eats_lang; eauto.
  - apply andb_true_iff in LE as [L1 L2].
    apply (rwhileu_sound _ (lang g)) in H as (l1 & hs & -> & H & ND); eauto.
    + intros. eapply eats_lang; eauto.
    + constructor.
  - apply (rsep_sound _ (lang g)) in H as (l1 & -> & H); eauto.
Qed.

(** ** Completeness *)

Definition rcomplete {A} (L : list string -> option string -> list string -> A -> Prop)
  (fol : list fcl) (p : nat -> list string -> rd A) :=
  forall l rest out v, L l (hd_error rest) out v -> within fol (hd_error rest) ->
  eventually (fun n => p n (l ++ rest)%list = Some (v, rest, out)).

Lemma star_next : forall A (g : gr A) fol t l1 l2 nxt o1 v o2 vs hs,
  lang g (t :: l1) (hdr l2 nxt) o1 v -> star (lang g) l2 nxt o2 vs hs -> within fol nxt ->
  within (look g [FAny; FEof] ++ fol) (hdr l2 nxt) /\ within (look g [FAny; FEof]) (Some t).
Proof.
  intros A g fol t l1 l2 nxt o1 v o2 vs hs H1 H2 W. split.
  - apply within_app. destruct l2 as [|t2 l2]; cbn; auto. left.
    inversion H2; subst. eapply (look_within _ g [FAny; FEof]) in H3; [exact H3|apply within_any].
  - eapply (look_within _ g [FAny; FEof]) in H1; [exact H1|apply within_any].
Qed.

Theorem read_complete : forall A (g : gr A) fol, ok g fol = true -> rcomplete (lang g) fol (read g).
Proof.
  induction g; intros fol OK l rest o val H W; cbn [ok lang] in *.
  - destruct H as [-> ->]. destruct val. apply eventually_always. reflexivity.
  - destruct H as [-> ->]. destruct val. apply eventually_always. reflexivity.
  - destruct H as (M & -> & ->). apply eventually_always. intros n. cbn [app read]. now rewrite M.
  - destruct H as (-> & -> & N). destruct val. apply eventually_always. intros n. cbn [app read].
    destruct rest as [|t rest]; [reflexivity|].
    cbn [hd_error la_mem next_in la_words la_neg] in *. now rewrite N.
  - destruct H as (-> & -> & N). destruct val. apply eventually_always. intros n. cbn [app read].
    destruct rest as [|t rest]; [contradiction|].
    cbn [hd_error la_mem next_in la_words la_neg] in *. now rewrite N.
  - pose proof (complete _ (Brackets keep) fol OK l rest o val H W) as C. destruct H as (l1 & B & -> & -> & ->).
    revert C. apply eventually_mono. intros n C. unfold accepts in C. cbn [prog] in C. cbn [read].
    rewrite C. now rewrite firstn_pre.
  - pose proof (complete _ Skip fol OK l rest o val H W) as C. destruct val.
    revert C. apply eventually_mono. intros n C. unfold accepts in C. cbn [prog] in C. cbn [read]. now rewrite C.
  - destruct H as (l1 & l2 & o1 & o2 & -> & -> & H1 & H2). apply andb_true_iff in OK as [OK1 OK2].
    pose proof (look_within _ _ fol _ _ _ _ H2 W) as W2. rewrite <- hd_error_hdr in H1, W2.
    destruct (eventually_and _ _ (IHg1 _ OK1 _ _ _ _ H1 W2) (IHg2 _ OK2 _ _ _ _ H2 W)) as [n0 H].
    exists n0. intros n Hn. destruct (H n Hn) as [X Y]. cbn [read].
    rewrite <- app_assoc, X, Y. now destruct val.
  - destruct H as (a & -> & H). generalize (IHg fol OK _ _ _ _ H W). apply eventually_mono.
    intros n X. cbn [read]. now rewrite X.
  - rewrite !andb_true_iff in OK. destruct OK as [[[T F] OK1] OK2]. destruct H as [H|H].
    + pose proof (look_within _ _ fol _ _ _ _ H W) as W2. rewrite <- hd_error_hdr in W2.
      generalize (IHg1 _ OK1 _ _ _ _ H W). apply eventually_mono. intros n X. cbn [read].
      now rewrite (forallb_within _ _ _ _ T W2).
    + pose proof (look_within _ _ fol _ _ _ _ H W) as W2. rewrite <- hd_error_hdr in W2.
      generalize (IHg2 _ OK2 _ _ _ _ H W). apply eventually_mono. intros n X. cbn [read].
      now rewrite (forallb_within _ _ _ _ F W2).
  - rewrite !andb_true_iff in OK. destruct OK as [[T F] OK1]. destruct H as [hs S]. cbn [read].
    remember (hd_error rest) as nxt. revert Heqnxt W.
    induction S as [nxt|t l1 l2 nxt o1 o2 v vs hs H1 H2 IH]; intros -> W; apply eventually_S.
    + apply eventually_always. intros n. cbn [rwhile app]. now rewrite (forallb_within _ _ _ _ F W).
    + destruct (star_next _ _ _ _ _ _ _ _ _ _ _ _ H1 H2 W) as [W2 W1]. rewrite <- hd_error_hdr in H1, W2.
      destruct (eventually_and _ _ (IHg _ OK1 _ _ _ _ H1 W2) (IH eq_refl W)) as [n0 H].
      exists n0. intros n Hn. destruct (H n Hn) as [X Y]. cbn [rwhile app hd_error].
      rewrite (forallb_within _ _ _ _ T W1). cbn [app] in X. rewrite <- app_assoc, X, Y. reflexivity.
  - rewrite !andb_true_iff in OK. destruct OK as [[T F] OK1]. destruct H as [hs [S ND]]. cbn [read].
    assert (G : forall ls, NoDup (ls ++ map key hs) ->
      eventually (fun n => rwhileu (read g) c key n ls (l ++ rest) = Some (val, rest, o))).
    2:{ now apply G. }
    clear ND. remember (hd_error rest) as nxt. revert Heqnxt W.
    induction S as [nxt|t l1 l2 nxt o1 o2 v vs hs H1 H2 IH]; intros -> W ls ND; apply eventually_S.
    + apply eventually_always. intros n. cbn [rwhileu app]. now rewrite (forallb_within _ _ _ _ F W).
    + destruct (star_next _ _ _ _ _ _ _ _ _ _ _ _ H1 H2 W) as [W2 W1]. rewrite <- hd_error_hdr in H1, W2.
      cbn [map] in ND.
      assert (NI : ~ In (key t) ls).
      { apply NoDup_remove_2 in ND. rewrite in_app_iff in ND. tauto. }
      assert (ND' : NoDup ((ls ++ [key t]) ++ map key hs)) by (rewrite <- app_assoc; exact ND).
      destruct (eventually_and _ _ (IHg _ OK1 _ _ _ _ H1 W2) (IH eq_refl W _ ND')) as [n0 H].
      exists n0. intros n Hn. destruct (H n Hn) as [X Y]. cbn [rwhileu app hd_error tok].
      rewrite (forallb_within _ _ _ _ T W1). apply contains_false in NI. rewrite NI.
      cbn [app] in X. rewrite <- app_assoc, X, Y. reflexivity.
  - rewrite !andb_true_iff in OK. destruct OK as [F OK1]. cbn [read].
    remember (hd_error rest) as nxt. revert Heqnxt W.
    induction H as [l nxt o v H|l1 l2 nxt o1 o2 v vs H1 H2 IH]; intros -> W; apply eventually_S.
    + assert (W2 : within (FW "," :: fol) (hd_error rest)).
      { destruct W as (f & I & M). exists f. split; auto. now right. }
      generalize (IHg _ OK1 _ _ _ _ H W2). apply eventually_mono. intros n X. cbn [rsep]. rewrite X.
      pose proof (forallb_within _ _ _ _ F W) as Z. destruct rest as [|t rest]; [reflexivity|].
      cbn [hd_error la_mem next_in la_words la_neg] in Z. rewrite xorb_false_r in Z.
      destruct (t =? ",") eqn:E; auto. apply String.eqb_eq in E. subst. discriminate.
    + assert (W2 : within (FW "," :: fol) (Some ",")) by (exists (FW ","); split; [now left|reflexivity]).
      pose proof (IHg _ OK1 l1 ("," :: l2 ++ rest)%list o1 v H1 W2) as C.
      destruct (eventually_and _ _ C (IH eq_refl W)) as [n0 H]. exists n0. intros n Hn.
      destruct (H n Hn) as [X Y]. cbn [rsep]. rewrite <- app_assoc. cbn [app]. rewrite X. cbn. now rewrite Y.
Qed.

(** The grammar is unambiguous. *)
Theorem lang_det : forall A (g : gr A) fol l l' rest rest' o o' v v', ok g fol = true ->
  lang g l (hd_error rest) o v -> within fol (hd_error rest) ->
  lang g l' (hd_error rest') o' v' -> within fol (hd_error rest') ->
  (l ++ rest = l' ++ rest')%list -> l = l' /\ o = o' /\ v = v'.
Proof.
  intros A g fol l l' rest rest' o o' v v' OK H W H' W' E.
  destruct (eventually_and _ _ (read_complete _ g fol OK _ _ _ _ H W) (read_complete _ g fol OK _ _ _ _ H' W')) as [n X].
  destruct (X n (le_n _)) as [X1 X2]. rewrite E in X1. rewrite X1 in X2. inversion X2; subst.
  repeat split; auto. eapply app_inv_tail; eauto.
Qed.
