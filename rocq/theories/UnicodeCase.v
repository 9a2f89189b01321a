(** Texts that differ in the case of ASCII letters only have the same upper case. *)
From Coq Require Import String Ascii NArith List Bool Arith Lia.
From Verif Require Import GoStr Utf8 Unicode UnicodeFacts.
Import ListNotations.
Open Scope string_scope.

Definition small (r : rune) : rune := (if (97 <=? r) && (r <=? 122) then r - 32 else r)%N.
Lemma small_ascii : forall c, (N_of_ascii c <? 128)%N = true -> N_of_ascii (upper_ascii c) = small (N_of_ascii c) /\ (N_of_ascii (upper_ascii c) <? 128)%N = true.
Proof. intros c H. revert H. destruct c as [[] [] [] [] [] [] [] []]; cbn; intros H; try discriminate H; split; reflexivity. Qed.
Lemma large_ascii : forall c, (N_of_ascii c <? 128)%N = false -> upper_ascii c = c.
Proof. intros c H. revert H. destruct c as [[] [] [] [] [] [] [] []]; cbn; intros H; try discriminate H; reflexivity. Qed.
Lemma range_upper : forall lo hi c, (128 <= lo)%N -> in_range lo hi (upper_ascii c) = in_range lo hi c.
Proof.
  intros lo hi c H. destruct (N_of_ascii c <? 128)%N eqn:E; [|now rewrite large_ascii].
  pose proof (small_ascii _ E) as [_ F]. apply N.ltb_lt in E, F. unfold in_range.
  destruct (N.leb_spec lo (N_of_ascii c)); [lia|]. destruct (N.leb_spec lo (N_of_ascii (upper_ascii c))); [lia|]. reflexivity.
Qed.
Lemma range_same : forall lo hi c, (128 <= lo)%N -> in_range lo hi c = true -> upper_ascii c = c.
Proof.
  intros lo hi c H R. apply large_ascii. apply N.ltb_ge. unfold in_range in R. apply andb_true_iff in R as [R _]. apply N.leb_le in R. lia.
Qed.
Lemma rune_upper : forall c, (N_of_ascii c <? 128)%N = true -> upper_rune (N_of_ascii (upper_ascii c)) = upper_rune (N_of_ascii c).
Proof. intros c H. destruct c as [[] [] [] [] [] [] [] []]; try discriminate H; vm_compute; reflexivity. Qed.
Lemma runes_upper : forall s, map upper_rune (runes_of (to_upper s)) = map upper_rune (runes_of s).
Proof.
  fix IH 1. intros [|b0 s1]; [reflexivity|]. cbn [to_upper runes_of]. destruct (N_of_ascii b0 <? 128)%N eqn:E0.
  { pose proof (small_ascii _ E0) as [_ F]. rewrite F. cbn [map]. rewrite IH, rune_upper by auto. reflexivity. }
  assert (Z : map upper_rune (65533%N :: runes_of (to_upper s1)) = map upper_rune (65533%N :: runes_of s1)) by (cbn [map]; now rewrite IH).
  rewrite large_ascii by auto. rewrite E0.
  destruct (in_range 194 223 b0).
  { destruct s1 as [|b1 s2]; [reflexivity|]. cbn [to_upper] in *. rewrite range_upper by lia. destruct (in_range 128 191 b1) eqn:E1; [|exact Z].
    rewrite (range_same 128 191 _ ltac:(lia) E1). cbn [map]. now rewrite IH. }
  destruct (in_range 224 239 b0).
  { destruct s1 as [|b1 [|b2 s3]]; [reflexivity|exact Z|]. cbn [to_upper] in *.
    assert (L : (128 <= (if N_of_ascii b0 =? 224 then 160 else 128))%N) by (destruct (_ =? _)%N; lia).
    rewrite !range_upper by (auto; lia). destruct (_ && _)%bool eqn:E1; [|exact Z]. apply andb_true_iff in E1 as [E1 E2].
    rewrite (range_same _ _ _ L E1), (range_same 128 191 _ ltac:(lia) E2). cbn [map]. now rewrite IH. }
  destruct (in_range 240 244 b0).
  { destruct s1 as [|b1 [|b2 [|b3 s4]]]; [reflexivity|exact Z|exact Z|]. cbn [to_upper] in *.
    assert (L : (128 <= (if N_of_ascii b0 =? 240 then 144 else 128))%N) by (destruct (_ =? _)%N; lia).
    rewrite !range_upper by (auto; lia). destruct (_ && _)%bool eqn:E1; [|exact Z]. apply andb_true_iff in E1 as [E1 E3]. apply andb_true_iff in E1 as [E1 E2].
    rewrite (range_same _ _ _ L E1), (range_same 128 191 _ ltac:(lia) E2), (range_same 128 191 _ ltac:(lia) E3). cbn [map]. now rewrite IH. }
  exact Z.
Qed.
Lemma go_upper_upper : forall s, go_upper (to_upper s) = go_upper s.
Proof. intros s. unfold go_upper. rewrite ascii_upper, upper_twice. destruct (is_ascii s); [reflexivity|]. now rewrite runes_upper. Qed.
Theorem same_go_upper : forall s t, to_upper s = to_upper t -> go_upper s = go_upper t.
Proof. intros s t H. now rewrite <- (go_upper_upper s), H, go_upper_upper. Qed.
(** The validators test names with the ASCII mapping: it makes no difference. *)
Lemma name_upper : forall ws s, (name_pattern s && negb (contains ws (to_upper s)))%bool = (name_pattern s && negb (contains ws (go_upper s)))%bool.
Proof. intros ws s. destruct (name_pattern s) eqn:E; [|reflexivity]. now rewrite upper_ascii_text by now apply ascii_name. Qed.
