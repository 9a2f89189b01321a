(** The text of a float64 is read back as this float64. *)
From Coq Require Import String Ascii NArith ZArith QArith Qabs Qpower List Bool Lia.
From Verif Require Import GoNum Numbers Floats FloatsFacts Print PrintText.
Import ListNotations.
Open Scope Z_scope.

Lemma magnitude_eq : forall q e q' e', -1074 <= e -> -1074 <= e' -> (magnitude q e == magnitude q' e')%Q ->
  Z.of_N q * 2 ^ (e + 1074) = Z.of_N q' * 2 ^ (e' + 1074).
Proof.
  intros q e q' e' L L' H. unfold magnitude in H.
  assert (X : (inject_Z (Z.of_N q * 2 ^ (e + 1074)) == inject_Z (Z.of_N q' * 2 ^ (e' + 1074)))%Q).
  { rewrite <- !scaled_mag by lia. now rewrite H. }
  unfold Qeq in X. cbn in X. lia.
Qed.
Lemma double_less : forall q e q' e', normal q e -> is_double q e -> normal q' e' -> is_double q' e' ->
  Z.of_N q * 2 ^ (e + 1074) = Z.of_N q' * 2 ^ (e' + 1074) -> e < e' -> False.
Proof.
  intros q e q' e' N [D D'] N' [E E'] H L.
  assert (X : Z.of_N q = Z.of_N q' * 2 ^ (e' - e)).
  { replace (e' + 1074) with (e' - e + (e + 1074)) in H by lia. rewrite (Z.pow_add_r 2 (e' - e)), Z.mul_assoc in H by lia.
    apply Z.mul_reg_r in H; auto. pose proof (Z.pow_pos_nonneg 2 (e + 1074) ltac:(lia) ltac:(lia)). lia. }
  assert (Y : 2 <= 2 ^ (e' - e)). { change 2 with (2 ^ 1) at 1. apply Z.pow_le_mono_r; lia. }
  destruct N' as [N'|[[N' ->]|[-> ->]]].
  - assert (2 ^ 52 * 2 <= Z.of_N q' * 2 ^ (e' - e)) by (apply Z.mul_le_mono_nonneg; lia). lia.
  - lia.
  - cbn in X. unfold normal in N. lia.
Qed.
Theorem nearest_unique : forall v q e q' e', (v == magnitude q e)%Q -> is_double q e -> normal q e -> nearest v q' e' -> q' = q /\ e' = e.
Proof.
  intros v q e q' e' V D N (D' & N' & B). destruct (B q e D) as [H _].
  assert (Z : (Qabs (v - magnitude q e) == 0)%Q). { rewrite V. setoid_replace (magnitude q e - magnitude q e)%Q with 0%Q by ring. reflexivity. }
  rewrite Z in H. apply Qle_antisym in H; [|apply Qabs_nonneg].
  assert (E : (magnitude q e == magnitude q' e')%Q).
  { rewrite <- V. assert (A : (v - magnitude q' e' == 0)%Q).
    { pose proof (Qle_Qabs (v - magnitude q' e')) as U1. rewrite <- H in U1.
      pose proof (Qle_Qabs (- (v - magnitude q' e'))) as U2. rewrite Qabs_opp, <- H in U2.
      apply Qle_antisym; auto. apply Qopp_le_compat in U2. now rewrite Qopp_involutive in U2. }
    apply Qplus_inj_r with (- magnitude q' e')%Q. setoid_replace (magnitude q' e' + - magnitude q' e')%Q with 0%Q by ring. exact A. }
  apply magnitude_eq in E; [|apply D|apply D'].
  destruct (Z.lt_trichotomy e e') as [L|[L|L]].
  - exfalso. eapply (double_less q e q' e'); eauto.
  - subst. split; auto. apply Z.mul_reg_r in E; [lia|]. destruct D'. pose proof (Z.pow_pos_nonneg 2 (e' + 1074) ltac:(lia) ltac:(lia)). lia.
  - exfalso. eapply (double_less q' e' q e); eauto.
Qed.

Lemma exact_up : forall q e, 0 <= e -> (number (q * 2 ^ Z.to_N e) 0 == magnitude q e)%Q.
Proof.
  intros q e H. unfold number, magnitude. rewrite N2Z.inj_mul, N2Z.inj_pow, Z2N.id by auto. rewrite inject_Z_mult, Zpower_Qpower by auto.
  change (inject_Z (Z.of_N 2)) with (2 # 1)%Q. change ((10 # 1) ^ 0)%Q with 1%Q. ring.
Qed.
Lemma exact_down : forall q e, e < 0 -> (number (q * 5 ^ Z.to_N (- e)) e == magnitude q e)%Q.
Proof.
  intros q e H. unfold number, magnitude. rewrite N2Z.inj_mul, N2Z.inj_pow, Z2N.id by lia. rewrite inject_Z_mult, Zpower_Qpower by lia.
  change (inject_Z (Z.of_N 5)) with (5 # 1)%Q. setoid_replace (10 # 1)%Q with ((5 # 1) * (2 # 1))%Q by reflexivity.
  rewrite Qmult_power, Qpower_opp. assert (P : ~ ((5 # 1) ^ e == 0)%Q) by (apply Qpower_not_0; discriminate). now field.
Qed.
Lemma double_small : forall q e, is_double q e -> (magnitude q e < too_large)%Q.
Proof.
  intros q e [A [B C]]. apply Qmult_lt_r with (inject_Z (2 ^ 1074)); [reflexivity|]. unfold magnitude. rewrite scaled_mag by auto.
  unfold too_large. rewrite <- inject_Z_mult, <- Zlt_Qlt.
  assert (2 ^ (e + 1074) <= 2 ^ (971 + 1074)) by (apply Z.pow_le_mono_r; lia).
  assert (Z.of_N q * 2 ^ (e + 1074) <= (2 ^ 53 - 1) * 2 ^ (971 + 1074)) by (apply Z.mul_le_mono_nonneg; lia).
  assert ((2 ^ 53 - 1) * 2 ^ (971 + 1074) < (2 ^ 1024 - 2 ^ 970) * 2 ^ 1074) by reflexivity. lia.
Qed.

Open Scope string_scope.
Lemma float_numeral : forall neg q e, exists m x, numeral (float_text (FFin neg q e)) neg m x /\ (is_double q e -> Z.abs x < 100000)%Z /\
  (number m x == magnitude q e)%Q.
Proof.
  intros neg q e. unfold float_text. destruct (Z.ltb_spec e 0) as [L|L].
  - exists (q * 5 ^ Z.to_N (- e))%N, e. split; [|split; [intros [_ ?]; lia|now apply exact_down]].
    constructor; [destruct neg; constructor|apply numeral_decimal|].
    replace e with (if true then - Z.of_N (Z.to_N (- e)) else 0)%Z at 2 by (rewrite Z2N.id; lia).
    change ("e-" ++ numeral_of (Z.to_N (- e))) with (String "e" ("-" ++ numeral_of (Z.to_N (- e)))).
    apply (exp_some "e" "-" true _ (Z.to_N (- e))); [now left|constructor|apply numeral_decimal].
  - exists (q * 2 ^ Z.to_N e)%N, 0%Z. split; [|split; [lia|now apply exact_up]].
    rewrite <- (Utf8.append_nil_r (numeral_of _)). constructor; [destruct neg; constructor|apply numeral_decimal|constructor].
Qed.

Theorem float_read : forall f, float_ok f -> parse_float (float_text f) = Some f.
Proof.
  intros [|neg|neg q e] H; [reflexivity|destruct neg; reflexivity|]. destruct H as [D N].
  destruct (float_numeral neg q e) as (m & x & E & B & M). specialize (B D). pose proof (float_spec _ _ _ _ E B) as F.
  destruct (parse_float (float_text (FFin neg q e))) as [f|].
  - destruct F as [_ (q' & e' & -> & F)]. now destruct (nearest_unique _ _ _ _ _ M D N F) as [-> ->].
  - exfalso. rewrite M in F. apply double_small in D. exact (Qlt_not_le _ _ D F).
Qed.
