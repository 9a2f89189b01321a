(** UTF-8 decoding inverts encoding. *)
From Coq Require Import String Ascii NArith ZArith List Bool Lia.
From Verif Require Import GoStr.
Import ListNotations.
Open Scope N_scope.
Ltac Zify.zify_post_hook ::= Z.to_euclidean_division_equations.

Lemma N_of_byte : forall n, n < 256 -> N_of_ascii (byte n) = n.
Proof. intros. apply N_ascii_embedding. assumption. Qed.

Definition scalars (rs : list rune) : Prop := Forall (fun r => is_scalar r = true) rs.

Lemma in_range_spec : forall lo hi n, n < 256 -> in_range lo hi (byte n) = ((lo <=? n) && (n <=? hi)).
Proof. intros. unfold in_range. now rewrite N_of_byte. Qed.

Lemma in_range_N : forall lo hi c, in_range lo hi c = true <-> lo <= N_of_ascii c <= hi.
Proof. intros. unfold in_range. now rewrite andb_true_iff, !N.leb_le. Qed.
Lemma in_range_no : forall lo hi c, hi < N_of_ascii c -> in_range lo hi c = false.
Proof. intros. unfold in_range. apply andb_false_iff. right. now apply N.leb_gt. Qed.

Lemma runes_1 : forall b0 s, N_of_ascii b0 < 128 -> runes_of (String b0 s) = N_of_ascii b0 :: runes_of s.
Proof. intros b0 s H. apply N.ltb_lt in H. cbn [runes_of]. now rewrite H. Qed.
Lemma runes_2 : forall b0 b1 s, in_range 194 223 b0 = true -> in_range 128 191 b1 = true ->
  runes_of (String b0 (String b1 s)) = (N_of_ascii b0 - 192) * 64 + low6 b1 :: runes_of s.
Proof.
  intros b0 b1 s H0 H1. remember (String b1 s) as s1. cbn [runes_of].
  replace (N_of_ascii b0 <? 128) with false
    by (apply in_range_N in H0; symmetry; apply N.ltb_ge; lia).
  rewrite H0. subst s1. now rewrite H1.
Qed.
Lemma runes_3 : forall b0 b1 b2 s, in_range 224 239 b0 = true ->
  in_range (if N_of_ascii b0 =? 224 then 160 else 128) (if N_of_ascii b0 =? 237 then 159 else 191) b1 = true ->
  in_range 128 191 b2 = true ->
  runes_of (String b0 (String b1 (String b2 s))) =
    (N_of_ascii b0 - 224) * 4096 + low6 b1 * 64 + low6 b2 :: runes_of s.
Proof.
  intros b0 b1 b2 s H0 H1 H2. remember (String b1 (String b2 s)) as s1. cbn [runes_of].
  replace (N_of_ascii b0 <? 128) with false
    by (apply in_range_N in H0; symmetry; apply N.ltb_ge; lia).
  rewrite (in_range_no 194 223 b0) by (apply in_range_N in H0; lia).
  rewrite H0. subst s1. now rewrite H1, H2.
Qed.
Lemma runes_4 : forall b0 b1 b2 b3 s, in_range 240 244 b0 = true ->
  in_range (if N_of_ascii b0 =? 240 then 144 else 128) (if N_of_ascii b0 =? 244 then 143 else 191) b1 = true ->
  in_range 128 191 b2 = true -> in_range 128 191 b3 = true ->
  runes_of (String b0 (String b1 (String b2 (String b3 s)))) =
    (N_of_ascii b0 - 240) * 262144 + low6 b1 * 4096 + low6 b2 * 64 + low6 b3 :: runes_of s.
Proof.
  intros b0 b1 b2 b3 s H0 H1 H2 H3. remember (String b1 (String b2 (String b3 s))) as s1. cbn [runes_of].
  replace (N_of_ascii b0 <? 128) with false
    by (apply in_range_N in H0; symmetry; apply N.ltb_ge; lia).
  rewrite (in_range_no 194 223 b0) by (apply in_range_N in H0; lia).
  rewrite (in_range_no 224 239 b0) by (apply in_range_N in H0; lia).
  rewrite H0. subst s1. now rewrite H1, H2, H3.
Qed.

Lemma runes_of_utf8_rune : forall r s, is_scalar r = true ->
  runes_of (utf8_rune r ++ s) = r :: runes_of s.
Proof.
  intros r s H. unfold utf8_rune. rewrite H. unfold is_scalar in H.
  apply orb_true_iff in H. rewrite andb_true_iff, !N.ltb_lt, N.leb_le in H.
  destruct (N.ltb_spec r 128) as [L1|L1].
  { cbn [append]. rewrite runes_1; rewrite N_of_byte; auto; lia. }
  destruct (N.ltb_spec r 2048) as [L2|L2].
  { assert (B0 : 192 + r / 64 < 256) by lia. assert (B1 : 128 + r mod 64 < 256) by lia.
    cbn [append]. rewrite runes_2.
    - unfold low6. rewrite !N_of_byte by assumption. f_equal. lia.
    - apply in_range_N. rewrite N_of_byte by assumption. lia.
    - apply in_range_N. rewrite N_of_byte by assumption. lia. }
  destruct (N.ltb_spec r 65536) as [L3|L3].
  { assert (B0 : 224 + r / 4096 < 256) by lia. assert (B1 : 128 + (r / 64) mod 64 < 256) by lia.
    assert (B2 : 128 + r mod 64 < 256) by lia.
    cbn [append]. rewrite runes_3.
    - unfold low6. rewrite !N_of_byte by assumption. f_equal. lia.
    - apply in_range_N. rewrite N_of_byte by assumption. lia.
    - apply in_range_N. rewrite !N_of_byte by assumption.
      destruct (N.eqb_spec (224 + r / 4096) 224), (N.eqb_spec (224 + r / 4096) 237); lia.
    - apply in_range_N. rewrite N_of_byte by assumption. lia. }
  assert (R : r < 1114112) by lia.
  assert (B0 : 240 + r / 262144 < 256) by lia. assert (B1 : 128 + (r / 4096) mod 64 < 256) by lia.
  assert (B2 : 128 + (r / 64) mod 64 < 256) by lia.
  assert (B3 : 128 + r mod 64 < 256) by lia.
  cbn [append]. rewrite runes_4.
  - unfold low6. rewrite !N_of_byte by assumption. f_equal. lia.
  - apply in_range_N. rewrite N_of_byte by assumption. lia.
  - apply in_range_N. rewrite !N_of_byte by assumption.
    destruct (N.eqb_spec (240 + r / 262144) 240), (N.eqb_spec (240 + r / 262144) 244); lia.
  - apply in_range_N. rewrite N_of_byte by assumption. lia.
  - apply in_range_N. rewrite N_of_byte by assumption. lia.
Qed.

Theorem runes_of_utf8 : forall rs, scalars rs -> runes_of (utf8 rs) = rs.
Proof.
  induction 1 as [|r rs H _ IH]; [reflexivity|].
  cbn [utf8]. rewrite runes_of_utf8_rune by assumption. now rewrite IH.
Qed.

Lemma append_assoc : forall a b c : string, ((a ++ b) ++ c = a ++ (b ++ c))%string.
Proof. induction a; intros; cbn; [reflexivity|now rewrite IHa]. Qed.
Lemma append_nil_r : forall a : string, (a ++ "" = a)%string.
Proof. induction a; cbn; [reflexivity|now rewrite IHa]. Qed.
Lemma utf8_app : forall a b, utf8 (a ++ b) = (utf8 a ++ utf8 b)%string.
Proof. induction a as [|r a IH]; intros; cbn; [reflexivity|]. now rewrite IH, append_assoc. Qed.
Lemma utf8_inj : forall a b, scalars a -> scalars b -> utf8 a = utf8 b -> a = b.
Proof. intros a b A B E. rewrite <- (runes_of_utf8 a A), <- (runes_of_utf8 b B). now rewrite E. Qed.
