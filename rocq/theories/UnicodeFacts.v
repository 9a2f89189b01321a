(** Facts about Unicode.v. *)
From Coq Require Import String Ascii NArith List Bool Arith Lia.
From Verif Require Import GoStr Utf8 Unicode.
Import ListNotations.
Open Scope string_scope.

Lemma upper_ascii_text : forall s, is_ascii s = true -> go_upper s = to_upper s.
Proof. intros s H. unfold go_upper. now rewrite H. Qed.
Lemma ascii_upper : forall s, is_ascii (to_upper s) = is_ascii s.
Proof.
  induction s as [|c s IH]; [reflexivity|]. cbn [to_upper is_ascii]. rewrite IH. f_equal.
  destruct c as [[] [] [] [] [] [] [] []]; reflexivity.
Qed.
Lemma ascii_lower : forall s, is_ascii (to_lower s) = is_ascii s.
Proof.
  induction s as [|c s IH]; [reflexivity|]. cbn [to_lower is_ascii]. rewrite IH. f_equal.
  destruct c as [[] [] [] [] [] [] [] []]; reflexivity.
Qed.
Lemma upper_twice : forall s, to_upper (to_upper s) = to_upper s.
Proof.
  induction s as [|c s IH]; [reflexivity|]. cbn [to_upper]. rewrite IH. f_equal. destruct c as [[] [] [] [] [] [] [] []]; reflexivity.
Qed.
(** Keywords are ASCII. *)
Lemma ascii_matches : forall ws t, forallb is_ascii ws = true -> matches ws t = true -> is_ascii t = true.
Proof.
  intros ws t A H. unfold matches, contains in H. apply existsb_exists in H as (x & I & E). apply String.eqb_eq in E. subst x.
  rewrite forallb_forall in A. apply in_app_iff in I as [I|I]; apply in_map_iff in I as (w & <- & I); rewrite ?ascii_upper, ?ascii_lower; auto.
Qed.
Lemma upper_matches : forall ws t, forallb is_ascii ws = true -> matches ws t = true -> go_upper t = to_upper t.
Proof. intros ws t A H. eapply upper_ascii_text, ascii_matches; eauto. Qed.
Lemma ascii_name : forall s, name_pattern s = true -> is_ascii s = true.
Proof.
  assert (A : forall c, name_char c = true -> (N_of_ascii c <? 128)%N = true) by (intros [[] [] [] [] [] [] [] []]; auto).
  assert (B : forall s, all_chars name_char s = true -> is_ascii s = true).
  { induction s as [|c s IH]; [auto|]. cbn [all_chars is_ascii]. intros H. apply andb_true_iff in H as [H1 H2]. now rewrite A, IH. }
  intros [|c s] H; [reflexivity|]. cbn [name_pattern] in H. apply andb_true_iff in H as [H1 H2]. cbn [is_ascii]. rewrite B by auto.
  rewrite A; [reflexivity|]. unfold name_char. now rewrite H1.
Qed.
(** The first character stays if it is ASCII. *)
Lemma upper_first : forall c s, (N_of_ascii c < 128)%N -> exists t, go_upper (String c s) = String (upper_ascii c) t.
Proof.
  intros c s H. unfold go_upper. destruct (is_ascii (String c s)); [cbn [to_upper]; eauto|]. rewrite runes_1 by auto. cbn [map utf8].
  replace (utf8_rune (upper_rune (N_of_ascii c))) with (String (upper_ascii c) ""); [cbn [append]; eauto|].
  revert H. destruct c as [[] [] [] [] [] [] [] []]; intros H; try reflexivity; exfalso; revert H; cbn; lia.
Qed.
Lemma upper_empty : go_upper "" = "". Proof. reflexivity. Qed.

(** ** Each character *)

Definition targets_ok (x : rune * rune * N * rune) : bool :=
  let '(lo, hi, step, u) := x in
  (let v := u + (hi - lo) in (lo <=? hi) && (128 <=? lo) && ((v <? 55296) || (57344 <=? u) && (v <? 1114112)))%N.
Lemma targets_all : forallb targets_ok upper_ranges = true. Proof. vm_compute. reflexivity. Qed.
Lemma upper_scalar : forall r, is_scalar r = true -> is_scalar (upper_rune r) = true.
Proof.
  intros r H. unfold upper_rune. destruct (N.ltb_spec r 128) as [L|L].
  - destruct (_ && _)%bool; [|exact H]. unfold is_scalar. apply orb_true_iff. left. apply N.ltb_lt. lia.
  - destruct (find (in_range_of r) upper_ranges) as [[[[lo hi] step] u]|] eqn:F; [|exact H].
    apply find_some in F as [I R]. pose proof targets_all as T. rewrite forallb_forall in T. specialize (T _ I). cbn [targets_ok] in T.
    cbn [in_range_of] in R. rewrite !andb_true_iff, !N.leb_le in R. rewrite !andb_true_iff, orb_true_iff, andb_true_iff, !N.leb_le, !N.ltb_lt in T.
    unfold is_scalar. rewrite orb_true_iff, !andb_true_iff, ?N.leb_le, !N.ltb_lt. lia.
Qed.

(** ** Length *)

Definition wide (r : rune) : nat := if (r <? 128)%N then 1 else if (r <? 2048)%N then 2 else if (r <? 65536)%N then 3 else 4.
Lemma rune_length : forall r, is_scalar r = true -> String.length (utf8_rune r) = wide r.
Proof.
  intros r H. unfold utf8_rune, wide. rewrite H. destruct (r <? 128)%N; [reflexivity|]. destruct (r <? 2048)%N; [reflexivity|]. now destruct (r <? 65536)%N.
Qed.
Lemma wide_mono : forall a b, (a <= b)%N -> (wide a <= wide b)%nat.
Proof.
  intros a b H. unfold wide. repeat match goal with |- context [(?x <? ?y)%N] => destruct (N.ltb_spec x y) end; lia.
Qed.
Definition growth_ok (x : rune * rune * N * rune) : bool := let '(lo, hi, _, u) := x in (2 * wide (u + (hi - lo))%N <=? 3 * wide lo)%nat.
Lemma growth_all : forallb growth_ok upper_ranges = true. Proof. vm_compute. reflexivity. Qed.
Lemma upper_wide : forall r, (2 * wide (upper_rune r) <= 3 * wide r)%nat.
Proof.
  intros r. unfold upper_rune. destruct (N.ltb_spec r 128) as [L|L].
  - destruct (_ && _)%bool; [|lia]. pose proof (wide_mono (r - 32) r). lia.
  - destruct (find (in_range_of r) upper_ranges) as [[[[lo hi] step] u]|] eqn:F; [|lia].
    apply find_some in F as [I R]. pose proof growth_all as T. rewrite forallb_forall in T. specialize (T _ I). cbn [growth_ok] in T.
    cbn [in_range_of] in R. rewrite !andb_true_iff, !N.leb_le in R. apply Nat.leb_le in T.
    pose proof (wide_mono (u + (r - lo)) (u + (hi - lo))). pose proof (wide_mono lo r). lia.
Qed.
Lemma upper_rune_length : forall r, is_scalar r = true -> (2 * String.length (utf8_rune (upper_rune r)) <= 3 * String.length (utf8_rune r))%nat.
Proof. intros r H. rewrite !rune_length by auto using upper_scalar. apply upper_wide. Qed.
