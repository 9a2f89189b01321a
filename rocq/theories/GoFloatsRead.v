(** strconv.ParseFloat reads the numbers of GoFloats.v, rounds them to the nearest float64, and reads nothing else. *)
From Coq Require Import String Ascii NArith ZArith QArith Qabs Qpower List Bool Lia Lqa.
From Verif Require Import GoStr GoNum Numbers NumbersFacts Floats FloatsFacts GoFloats GoFloatsFacts Utf8.
Import ListNotations.
Open Scope nat_scope.
Open Scope string_scope.

Definition unit_of (hex : bool) : Z := if hex then 2%Z else 10%Z.
Definition scale (hex : bool) (frac : nat) (x : Z) : Z := if hex then (x - 4 * Z.of_nat frac)%Z else (x - Z.of_nat frac)%Z.
Lemma go_value_eq : forall hex m frac x, go_value hex m frac x = (inject_Z (Z.of_N m) * inject_Z (unit_of hex) ^ scale hex frac x)%Q.
Proof. intros [] m frac x; reflexivity. Qed.

Lemma power_ratio : forall b m z, (1 < b)%N -> (inject_Z (Z.of_N m) * inject_Z (Z.of_N b) ^ z == if (0 <=? z)%Z then ratio (m * b ^ Z.to_N z) 1 else ratio m (b ^ Z.to_N (- z)))%Q.
Proof.
  intros b m z B. unfold ratio. destruct (Z.leb_spec 0 z) as [L|L].
  - rewrite N2Z.inj_mul, N2Z.inj_pow, Z2N.id by lia. rewrite inject_Z_mult, Zpower_Qpower by lia. change (inject_Z (Z.of_N 1)) with 1%Q. field.
  - rewrite N2Z.inj_pow, Z2N.id by lia. rewrite Zpower_Qpower by lia. rewrite Qpower_opp. field. apply Qpower_not_0.
    intros X. unfold Qeq in X. cbn in X. lia.
Qed.
Lemma value_spec : forall neg hex m frac x,
  match float_value neg hex m (N.of_nat frac) x with
  | Some f => (go_value hex m frac x < too_large)%Q /\ exists q e, f = FFin neg q e /\ nearest (go_value hex m frac x) q e
  | None => (too_large <= go_value hex m frac x)%Q
  end.
Proof.
  intros neg hex m frac x. rewrite go_value_eq. unfold float_value. rewrite nat_N_Z.
  assert (E : (if hex then x - 4 * Z.of_nat frac else x - Z.of_nat frac)%Z = scale hex frac x) by reflexivity. rewrite E. clear E.
  set (b := if hex then 2%N else 10%N). assert (B : (1 < b)%N) by (subst b; destruct hex; lia).
  assert (U : unit_of hex = Z.of_N b) by now destruct hex. rewrite U. set (z := scale hex frac x). clearbody z b. clear U.
  pose proof (power_ratio b m z B) as R. destruct (0 <=? z)%Z.
  - pose proof (round_spec (m * b ^ Z.to_N z) 1 ltac:(lia)) as S. destruct (round_ratio (m * b ^ Z.to_N z) 1) as [[q e]|].
    + rewrite R. destruct S as [S1 S2]. split; auto. exists q, e. split; auto. eapply nearest_eq; [symmetry; exact R|exact S2].
    + now rewrite R.
  - assert (P : (0 < b ^ Z.to_N (- z))%N) by (apply N.neq_0_lt_0, N.pow_nonzero; lia).
    pose proof (round_spec m (b ^ Z.to_N (- z)) P) as S. destruct (round_ratio m (b ^ Z.to_N (- z))) as [[q e]|].
    + rewrite R. destruct S as [S1 S2]. split; auto. exists q, e. split; auto. eapply nearest_eq; [symmetry; exact R|exact S2].
    + now rewrite R.
Qed.

(** ** Very large and very small numbers *)

Lemma big_value : forall hex m z, (0 < m)%N -> (2000 <= z)%Z -> (too_large <= inject_Z (Z.of_N m) * inject_Z (unit_of hex) ^ z)%Q.
Proof.
  intros hex m z M L. rewrite <- Zpower_Qpower by lia. rewrite <- inject_Z_mult. unfold too_large. rewrite <- Zle_Qle.
  assert (A : (2 ^ 2000 <= unit_of hex ^ z)%Z).
  { transitivity (2 ^ z)%Z; [apply Z.pow_le_mono_r; lia|]. apply Z.pow_le_mono_l. destruct hex; cbn; lia. }
  assert (B : (2 ^ 1024 - 2 ^ 970 <= 2 ^ 2000)%Z).
  { apply Z.le_trans with (2 ^ 1024)%Z; [|apply Z.pow_le_mono_r; lia]. pose proof (Z.pow_nonneg 2 970 ltac:(lia)). lia. }
  pose proof (Z.pow_nonneg 2 2000 ltac:(lia)) as P. assert (M' : (1 <= Z.of_N m)%Z) by lia.
  revert A B M' P. generalize (unit_of hex ^ z)%Z (2 ^ 2000)%Z (2 ^ 1024 - 2 ^ 970)%Z (Z.of_N m). clear. nia.
Qed.
Definition tiny : Q := inject_Z (2 ^ 1075).
Lemma small_value : forall (hex : bool) m z, (Z.of_N m < (if hex then 16 else 10) ^ 2000)%Z -> (z <= -10000)%Z ->
  (inject_Z (Z.of_N m) * inject_Z (unit_of hex) ^ z * tiny < 1)%Q.
Proof.
  intros hex m z M L. set (B := inject_Z (unit_of hex ^ (- z))).
  assert (U : (0 < unit_of hex)%Z) by now destruct hex. assert (UP : (0 < unit_of hex ^ (- z))%Z) by (apply Z.pow_pos_nonneg; lia).
  assert (PB : (0 < B)%Q) by (unfold B; change 0%Q with (inject_Z 0); now rewrite <- Zlt_Qlt).
  assert (NZ : ~ (inject_Z (unit_of hex) ^ z == 0)%Q) by (apply Qpower_not_0; intros X; unfold Qeq in X; cbn in X; lia).
  apply Qmult_lt_r with B; auto. setoid_replace (inject_Z (Z.of_N m) * inject_Z (unit_of hex) ^ z * tiny * B)%Q with (inject_Z (Z.of_N m) * tiny)%Q.
  2: { unfold B. rewrite Zpower_Qpower by lia. rewrite Qpower_opp. now field. }
  unfold B, tiny. rewrite Qmult_1_l, <- inject_Z_mult, <- Zlt_Qlt.
  apply Z.lt_le_trans with ((if hex then 16 else 10) ^ 2000 * 2 ^ 1075)%Z; [apply Z.mul_lt_mono_pos_r; auto; reflexivity|].
  apply Z.le_trans with (unit_of hex ^ (if hex then 4 * 2000 + 1075 else 2000 + 1075))%Z; [|apply Z.pow_le_mono_r; auto; destruct hex; lia].
  destruct hex; cbn [unit_of]; rewrite Z.pow_add_r by lia.
  - rewrite Z.pow_mul_r by lia. change (2 ^ 4)%Z with 16%Z. apply Z.le_refl.
  - apply Z.mul_le_mono_nonneg_l; [apply Z.pow_nonneg; lia|apply Z.pow_le_mono_l; lia].
Qed.
Lemma mag_least : forall q e, is_double q e -> (0 < q)%N -> (2 <= magnitude q e * tiny)%Q.
Proof.
  intros q e [_ [L _]] P. pose proof (scaled_mag (Z.of_N q) e L) as S. unfold magnitude, tiny.
  change (2 ^ 1075)%Z with (2 ^ 1074 * 2)%Z. rewrite inject_Z_mult, Qmult_assoc, S, <- inject_Z_mult.
  change (2 # 1)%Q with (inject_Z 2). rewrite <- Zle_Qle. pose proof (Z.pow_pos_nonneg 2 (e + 1074) ltac:(lia) ltac:(lia)). nia.
Qed.
Lemma tiny_pos : (0 < tiny)%Q. Proof. reflexivity. Qed.
Lemma twice_less : forall v w, (v * tiny < 1)%Q -> (2 <= w * tiny)%Q -> (v + v < w)%Q.
Proof. intros v w A B. apply Qmult_lt_r with tiny; [apply tiny_pos|]. generalize dependent tiny. intros T A B. rewrite Qmult_plus_distr_l. lra. Qed.
Lemma mag_zero : forall e, (magnitude 0 e == 0)%Q.
Proof. intros e. unfold magnitude. cbn. ring. Qed.
Lemma small_nearest : forall v, (0 <= v)%Q -> (v * tiny < 1)%Q -> nearest v 0 0.
Proof.
  intros v P T. split; [split; [reflexivity|lia]|]. split; [right; right; auto|]. intros q' e' D. split; [|auto].
  rewrite mag_zero. setoid_replace (v - 0)%Q with v by ring. rewrite Qabs_pos by auto.
  destruct (N.eq_0_gt_0_cases q') as [->|Q].
  - rewrite mag_zero. setoid_replace (v - 0)%Q with v by ring. now rewrite Qabs_pos by auto; apply Qle_refl.
  - pose proof (twice_less _ _ T (mag_least _ _ D Q)) as X. rewrite Qabs_neg by lra. lra.
Qed.
Lemma small_unique : forall v q e, (0 <= v)%Q -> (v * tiny < 1)%Q -> nearest v q e -> q = 0%N /\ e = 0%Z.
Proof.
  intros v q e P T (D & N & B). destruct (B 0%N 0%Z) as [X _]; [split; [reflexivity|lia]|].
  rewrite mag_zero in X. setoid_replace (v - 0)%Q with v in X by ring. rewrite (Qabs_pos v) in X by auto.
  destruct (N.eq_0_gt_0_cases q) as [->|Q].
  - split; auto. destruct N as [N|[[N _]|[_ N]]]; auto; lia.
  - exfalso. pose proof (twice_less _ _ T (mag_least _ _ D Q)) as Y. rewrite Qabs_neg in X by lra. lra.
Qed.

(** ** The bounds of numbers that are not extremely long *)

Lemma dval_bound : forall b16 c, dig b16 c = true -> (dval c < base b16)%N.
Proof. intros [] [[] [] [] [] [] [] [] []] H; vm_compute in H; try discriminate H; reflexivity. Qed.
Lemma val_bound : forall b16 w a, alls (du b16) w = true -> (val b16 a w < (a + 1) * base b16 ^ N.of_nat (cnt w))%N.
Proof.
  intros b16 w. induction w as [|c w IH]; intros a A; cbn [val cnt]; [cbn; lia|]. cbn [alls] in A. apply andb_true_iff in A as [C A].
  unfold du in C. destruct (Ascii.eqb c "_"); [now apply IH|]. rewrite orb_false_r in C. apply dval_bound in C. specialize (IH (a * base b16 + dval c)%N A).
  rewrite Nnat.Nat2N.inj_succ, N.pow_succ_r'. set (p := (base b16 ^ N.of_nat (cnt w))%N) in *. clearbody p. nia.
Qed.
Lemma cnt_length : forall w, cnt w <= String.length w.
Proof. induction w as [|c w IH]; cbn; auto. destruct (Ascii.eqb c "_"); lia. Qed.
Lemma shape_length : forall s sg neg b16 p w1 dot w2 s3 w3 e, shape s sg neg b16 p w1 dot w2 s3 w3 e -> cnt (w1 ++ w2) <= String.length s.
Proof.
  intros s sg neg b16 p w1 dot w2 s3 w3 e (-> & _). rewrite cnt_app, !length_app. pose proof (cnt_length w1). pose proof (cnt_length w2). lia.
Qed.

Theorem go_float_spec : forall s neg hex m frac x, go_numeral s neg hex m frac x -> moderate s x ->
  match parse_float s with
  | Some f => (go_value hex m frac x < too_large)%Q /\ exists q e, f = FFin neg q e /\ nearest (go_value hex m frac x) q e
  | None => (too_large <= go_value hex m frac x)%Q
  end.
Proof.
  intros s neg hex m frac x H Mo. destruct (numeral_shape _ _ _ _ _ _ H) as (sg & p & w1 & dot & w2 & s3 & w3 & e & Sh & F & Em & Ef & Sx).
  rewrite (proj1 (parse_shape _ _ _ _ _ _ _ _ _ _ _ Sh) F). rewrite <- Em, <- Ef.
  pose proof (value_spec neg hex m frac e) as V.
  destruct Sx as [->|Sx]; [exact V|]. destruct Mo as [Mo|Mo]; [lia|].
  assert (Fr : (Z.of_nat frac <= 2000)%Z).
  { pose proof (shape_length _ _ _ _ _ _ _ _ _ _ _ Sh) as L. rewrite cnt_app in L. lia. }
  destruct (N.eq_0_gt_0_cases m) as [M0|M0].
  { assert (Z0 : forall y, (go_value hex m frac y == 0)%Q) by (intros y; rewrite go_value_eq, M0; cbn; ring).
    destruct (float_value neg hex m (N.of_nat frac) e) as [f|].
    - destruct V as (_ & q & e' & -> & V). rewrite Z0. split; [reflexivity|]. exists q, e'. split; auto. eapply nearest_eq; [|exact V]. now rewrite !Z0.
    - rewrite Z0 in V. exfalso. revert V. apply Qlt_not_le. reflexivity. }
  rewrite !go_value_eq in *. destruct Sx as [[X E]|[X E]].
  - assert (A : (2000 <= scale hex frac e)%Z) by (unfold scale; destruct hex; lia). assert (B : (2000 <= scale hex frac x)%Z) by (unfold scale; destruct hex; lia).
    pose proof (big_value hex m _ M0 A) as BA. pose proof (big_value hex m _ M0 B) as BB.
    destruct (float_value neg hex m (N.of_nat frac) e) as [f|]; auto. exfalso. destruct V as [V _]. revert BA. now apply Qlt_not_le.
  - assert (A : (scale hex frac e <= -10000)%Z) by (unfold scale; destruct hex; lia). assert (B : (scale hex frac x <= -10000)%Z) by (unfold scale; destruct hex; lia).
    assert (Mb : (Z.of_N m < (if hex then 16 else 10) ^ 2000)%Z).
    { assert (Al : alls (du hex) (w1 ++ w2) = true) by (destruct Sh as (_ & _ & _ & (A1 & A2 & _) & _); now rewrite alls_app, A1, A2).
      apply (val_bound hex (w1 ++ w2) 0) in Al. rewrite <- Em in Al.
      assert (K : (base hex ^ N.of_nat (cnt (w1 ++ w2)) <= base hex ^ 2000)%N).
      { apply N.pow_le_mono_r; [now destruct hex|]. pose proof (shape_length _ _ _ _ _ _ _ _ _ _ _ Sh). lia. }
      assert (Kz : Z.of_N (base hex ^ 2000) = ((if hex then 16 else 10) ^ 2000)%Z) by (rewrite N2Z.inj_pow; now destruct hex). rewrite <- Kz. clear Kz.
      revert Al K. generalize (base hex ^ 2000)%N (base hex ^ N.of_nat (cnt (w1 ++ w2)))%N. clear. lia. }
    pose proof (small_value hex m _ Mb A) as SA. pose proof (small_value hex m _ Mb B) as SB.
    assert (Po : forall y, (0 <= inject_Z (Z.of_N m) * inject_Z (unit_of hex) ^ y)%Q).
    { intros y. apply Qmult_le_0_compat; [change 0%Q with (inject_Z 0); rewrite <- Zle_Qle; lia|apply Qpower_pos; destruct hex; discriminate]. }
    assert (NL : forall v, (v * tiny < 1)%Q -> (v < too_large)%Q).
    { intros v T. apply Qmult_lt_r with tiny; [apply tiny_pos|]. eapply Qlt_trans; [exact T|reflexivity]. }
    destruct (float_value neg hex m (N.of_nat frac) e) as [f|].
    + destruct V as (_ & q & e' & -> & V). destruct (small_unique _ _ _ (Po _) SA V) as [-> ->]. split; [now apply NL|]. exists 0%N, 0%Z. split; auto. now apply small_nearest.
    + exfalso. apply NL in SA. revert V. now apply Qlt_not_le.
Qed.

(** ** The words, and nothing else *)

Lemma lower_letters_eq : forall s, lower_letters s = to_lower s.
Proof. induction s as [|c s IH]; cbn; auto. Qed.
Lemma special_words : forall s f, special_float s = Some f <->
  In (lower_letters s) infinity_words /\ f = FInf false \/ In (lower_letters s) minus_infinity_words /\ f = FInf true \/ lower_letters s = "nan" /\ f = FNaN.
Proof.
  intros s f. rewrite lower_letters_eq. unfold special_float. set (l := to_lower s). clearbody l. split.
  - intros H. destruct (l =? "inf") eqn:E1; [apply String.eqb_eq in E1; subst; inversion H; left; split; auto; cbn; auto|].
    destruct (l =? "infinity") eqn:E2; [apply String.eqb_eq in E2; subst; inversion H; left; split; auto; cbn; auto|].
    destruct (l =? "+inf") eqn:E3; [apply String.eqb_eq in E3; subst; inversion H; left; split; auto; cbn; auto|].
    destruct (l =? "+infinity") eqn:E4; [apply String.eqb_eq in E4; subst; inversion H; left; split; auto; cbn; auto|].
    destruct (l =? "-inf") eqn:E5; [apply String.eqb_eq in E5; subst; inversion H; right; left; split; auto; cbn; auto|].
    destruct (l =? "-infinity") eqn:E6; [apply String.eqb_eq in E6; subst; inversion H; right; left; split; auto; cbn; auto|].
    destruct (l =? "nan") eqn:E7; [apply String.eqb_eq in E7; subst; inversion H; right; right; split; auto|discriminate].
  - intros [[I ->]|[[I ->]|[-> ->]]]; [..|reflexivity]; cbn in I; repeat (destruct I as [<-|I]; [reflexivity|]); contradiction.
Qed.
Definition special_word (s : string) : Prop := In (lower_letters s) (infinity_words ++ minus_infinity_words ++ ["nan"])%list.
Theorem parse_only : forall s f, parse_float s = Some f -> special_float s = Some f \/ exists neg hex m frac x, go_numeral s neg hex m frac x.
Proof.
  intros s f H. destruct (special_float s) as [g|] eqn:E; [left; unfold parse_float in H; now rewrite E in H|]. right.
  destruct (shape_exists s f H E) as (sg & neg & b16 & p & w1 & dot & w2 & s3 & w3 & e & Sh).
  assert (D : fine b16 w1 w2 w3 \/ ~ fine b16 w1 w2 w3).
  { assert (Gd : forall b w, G b w \/ ~ G b w).
    { intros b. assert (A : forall n w, String.length w < n -> G b w \/ ~ G b w).
      { induction n as [|n IH]; intros w L; [lia|]. destruct w as [|c w]; [right; intros Q; now apply G_nil in Q|]. destruct (dig b c) eqn:Dc.
        - rewrite (G_cons _ _ _ Dc). destruct w as [|c' w]; [left; auto|]. cbn in L. destruct (IH (String c' w)) as [X|X]; [cbn; lia|left; auto|].
          destruct (ascii_dec c' "_") as [->|N].
          + destruct (IH w) as [Y|Y]; [lia|left; right; right; eauto|]. right. intros [Q|[Q|(w' & Q & Q')]]; [discriminate|auto|]. inversion Q; subst. auto.
          + right. intros [Q|[Q|(w' & Q & Q')]]; [discriminate|auto|]. inversion Q; subst. congruence.
        - right. intros Q. apply G_begins in Q. cbn in Q. congruence. }
      intros w. apply (A (S (String.length w))). lia. }
    assert (Ed : forall w : string, w = "" \/ w <> "") by (intros []; [left|right]; congruence).
    unfold fine. assert (P1 : P b16 (start_of b16) w1 \/ ~ P b16 (start_of b16) w1).
    { unfold P. destruct (start_of b16); destruct (Gd b16 w1), (Ed w1); try tauto.
      - destruct w1 as [|c w']; [tauto|]. destruct (ascii_dec c "_") as [->|N].
        + destruct (Gd b16 w') as [Y|Y]; [left; right; right; eauto|]. right. intros [Q|[Q|(w'' & Q & Q')]]; [tauto..|]. inversion Q; subst. auto.
        + right. intros [Q|[Q|(w'' & Q & Q')]]; [tauto..|]. inversion Q; subst. congruence. }
    destruct P1, (Gd b16 w2), (Ed w2), (Gd false w3), (Ed w3); tauto. }
  destruct D as [D|D].
  - destruct (shape_numeral _ _ _ _ _ _ _ _ _ _ _ Sh D) as (x & X & _). eauto 10.
  - rewrite (proj2 (parse_shape _ _ _ _ _ _ _ _ _ _ _ Sh) D) in H. discriminate.
Qed.
Theorem numeral_not_special : forall s neg hex m frac x, go_numeral s neg hex m frac x -> special_float s = None.
Proof.
  intros s neg hex m frac x H. destruct (numeral_shape _ _ _ _ _ _ H) as (sg & p & w1 & dot & w2 & s3 & w3 & e & Sh & _). eapply shape_not_special; eauto.
Qed.
