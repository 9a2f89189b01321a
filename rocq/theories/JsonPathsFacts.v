(** The values of the result stand where JsonPaths.v says. *)
From Coq Require Import String Ascii NArith ZArith List Bool Arith Lia.
From Verif Require Import GoStr GoNum Types Spec Json JsonFacts JsonResult JsonPaths.
Import ListNotations.
Open Scope nat_scope.
Open Scope string_scope.
Open Scope list_scope.

Lemma slice_items : forall {A} (g : A -> json) (l : list A) (f : A -> (list path_step -> option json) -> Prop),
  (forall x, f x (fun p => at_path (g x) p)) -> (forall x v w, (forall p, v p = w p) -> f x v -> f x w) ->
  items (fun p => at_path (slice g l) p) l f.
Proof.
  intros A g l f H X. destruct l as [|a l].
  - split; [reflexivity|]. split; [intros [|i] x E; discriminate|]. intros [|i] _; reflexivity.
  - split; [discriminate|]. split.
    + intros i x E. apply (X x (fun p => at_path (g x) p)); [|apply H]. intros p. unfold slice.
      change (at_path (JArray (map g (a :: l))) (Item i :: p)) with (match nth_error (map g (a :: l)) i with Some j => at_path j p | None => None end).
      now rewrite (map_nth_error g i (a :: l) E).
    + intros i L. unfold slice.
      change (at_path (JArray (map g (a :: l))) [Item i]) with (match nth_error (map g (a :: l)) i with Some j => at_path j [] | None => None end).
      replace (nth_error (map g (a :: l)) i) with (@None json); auto. symmetry. apply nth_error_None. now rewrite map_length.
Qed.

Lemma reference_here : forall r, reference_at r (fun p => at_path (reference_json r) p).
Proof. intros [t [l|]]; repeat split. Qed.
Lemma constraint_here : forall c x, default_json (c_default c) x -> constraint_at c (fun p => at_path (constraint_json c x) p).
Proof.
  intros c x D. unfold constraint_at. split; [reflexivity|]. do 5 (split; [reflexivity|]). split; [|split; [reflexivity|split; [reflexivity|apply reference_here]]].
  cbn. inversion D as [E|f s F E|b E|s E]; cbn; auto. exists s. split; auto. destruct f; cbn in F; try contradiction. apply F.
Qed.
Lemma column_here : forall c j, column_json c j -> column_at c (fun p => at_path j p).
Proof.
  intros c j H. inversion H as [c' x D]. subst. unfold column_at. do 6 (split; [reflexivity|]). exact (constraint_here _ _ D).
Qed.

(** what is said of a place depends on what is there only *)
Definition extensional {A} (f : A -> (list path_step -> option json) -> Prop) : Prop := forall x v w, (forall p, v p = w p) -> f x v -> f x w.
Lemma reference_ext : extensional reference_at.
Proof. intros [t l] v w E. unfold reference_at. now rewrite !E. Qed.
Lemma constraint_ext : extensional constraint_at.
Proof.
  intros c v w E. unfold constraint_at. rewrite !E. intros (? & ? & ? & ? & ? & ? & ? & ? & ? & R). repeat (split; [assumption|]).
  eapply reference_ext; [|exact R]. intros p. apply E.
Qed.
Lemma column_ext : extensional column_at.
Proof.
  intros c v w E. unfold column_at. rewrite !E. intros (? & ? & ? & ? & ? & ? & R). repeat (split; [assumption|]).
  eapply constraint_ext; [|exact R]. intros p. apply E.
Qed.
Lemma foreign_ext : extensional foreign_at.
Proof.
  intros f v w E. unfold foreign_at. rewrite !E. intros (? & ? & ? & R). repeat (split; [assumption|]).
  eapply reference_ext; [|exact R]. intros p. apply E.
Qed.
Lemma key_ext : forall {A} (n : A -> string) (l : A -> list string), extensional (fun k => key_at (n k) (l k)).
Proof. intros A n l k v w E. unfold key_at. now rewrite !E. Qed.
Lemma check_ext : extensional check_at.
Proof. intros c v w E. unfold check_at. now rewrite !E. Qed.
Lemma items_ext : forall {A} f (l : list A) v w, extensional f -> (forall p, v p = w p) -> items v l f -> items w l f.
Proof.
  intros A f l v w X E (N & I & O). split; [intros Z; rewrite <- E; auto|]. split.
  - intros i x H. eapply X; [|exact (I i x H)]. intros p. apply E.
  - intros i H. rewrite <- E. auto.
Qed.

Lemma columns_items : forall cs js, Forall2 column_json cs js -> items (fun p => at_path (slice (fun j => j) js) p) cs column_at.
Proof.
  intros cs js F. assert (L : length cs = length js) by (clear -F; induction F; cbn; auto).
  pose proof (slice_items (fun j => j) js (fun j v => forall p, v p = at_path j p)) as S.
  destruct S as (N & I & O); [reflexivity|intros x v w E H p; now rewrite <- E|]. split; [|split].
  - intros ->. apply N. destruct js; [reflexivity|discriminate].
  - intros i c E. assert (J : exists j, nth_error js i = Some j /\ column_json c j).
    { clear -F E. revert i E. induction F as [|c0 j cs js H F IH]; intros [|i] E; try discriminate; [injection E as ->; exists j; auto|exact (IH i E)]. }
    destruct J as (j & J & H). eapply column_ext; [|exact (column_here _ _ H)]. intros p. symmetry. apply (I i j J).
  - intros i H. apply O. lia.
Qed.
Lemma table_here : forall t j, table_json t j -> table_at t (fun p => at_path j p).
Proof.
  intros t j H. inversion H as [t' cs F]. subst. unfold table_at. do 4 (split; [reflexivity|]).
  split; [exact (columns_items _ _ F)|]. split; [reflexivity|].
  split; [|split; [|split]].
  - exact (slice_items (fun k => key_json (pk_name k) (pk_columns k)) _ _ (fun k => conj eq_refl (conj eq_refl eq_refl)) (key_ext pk_name pk_columns)).
  - exact (slice_items (fun k => key_json (uq_name k) (uq_columns k)) _ _ (fun k => conj eq_refl (conj eq_refl eq_refl)) (key_ext uq_name uq_columns)).
  - exact (slice_items check_json _ _ (fun k => conj eq_refl (conj eq_refl eq_refl)) check_ext).
  - refine (slice_items foreign_json _ _ (fun k => conj eq_refl (conj eq_refl (conj eq_refl _))) foreign_ext). apply reference_here.
Qed.
Lemma table_ext : extensional table_at.
Proof.
  intros t v w E. unfold table_at. rewrite !E. intros (? & ? & ? & ? & C & ? & P & U & K & F). repeat (split; [assumption|]).
  split; [|split; [assumption|split; [|split; [|split]]]].
  - eapply items_ext; [apply column_ext| |exact C]. intros p. apply E.
  - eapply items_ext; [apply key_ext| |exact P]. intros p. apply E.
  - eapply items_ext; [apply key_ext| |exact U]. intros p. apply E.
  - eapply items_ext; [apply check_ext| |exact K]. intros p. apply E.
  - eapply items_ext; [apply foreign_ext| |exact F]. intros p. apply E.
Qed.

Lemma array_paths : forall ts js, Forall2 table_json ts js -> tables_at ts (JArray js).
Proof.
  intros ts js F. split.
  - exists js. split; auto. clear -F. induction F; cbn; auto.
  - intros i t E. assert (J : exists j, nth_error js i = Some j /\ table_json t j).
    { clear -F E. revert i E. induction F as [|t0 j ts js H F IH]; intros [|i] E; try discriminate; [injection E as ->; exists j; auto|exact (IH i E)]. }
    destruct J as (j & J & H). eapply table_ext; [|exact (table_here _ _ H)]. intros p. cbn [at_path down]. now rewrite J.
Qed.

Theorem marshal_paths : forall ddl d ts s, accepted ddl d ts -> marshals ts s ->
  exists j, good j /\ s = write j /\ tables_at ts j /\ forall j', good j' -> s = write j' -> j' = j.
Proof.
  intros ddl d ts s A (js & F & ->). exists (JArray js). assert (G : good (JArray js)).
  { apply good_array. apply result_valid in A. clear -F A. induction F; inversion A; subst; constructor; auto. eapply good_table; eauto. }
  split; [exact G|]. split; [reflexivity|]. split; [now apply array_paths|]. intros j' G' E.
  destruct (write_inj _ G j' "" "" G' I I) as [-> _]; auto. now rewrite E.
Qed.
