From Coq Require Import String Ascii NArith ZArith QArith Qabs Qpower List Bool Lia Lqa.
From Verif Require Import GoStr GoNum Numbers NumbersFacts Floats.
Import ListNotations.
Open Scope Z_scope.

(** ** Rounding to an integer *)

Definition half_even (n d : Z) : Z :=
  let q := n / d in
  let r := n mod d in
  match 2 * r ?= d with Gt => q + 1 | Eq => if Z.even q then q else q + 1 | Lt => q end.

Lemma half_even_spec : forall n d, 0 < d -> let q := half_even n d in
  2 * Z.abs (n - q * d) <= d /\ (2 * Z.abs (n - q * d) = d -> Z.even q = true).
Proof.
  intros n d P. unfold half_even. cbv zeta. pose proof (Z.div_mod n d ltac:(lia)) as E. pose proof (Z.mod_pos_bound n d P) as B.
  set (q := n / d) in *. set (r := n mod d) in *. clearbody q r. destruct (Z.compare_spec (2 * r) d) as [C|C|C].
  - destruct (Z.even q) eqn:V.
    + replace (n - q * d) with r by lia. split; [lia|auto].
    + replace (n - (q + 1) * d) with (r - d) by lia. split; [lia|]. intros _. now rewrite Z.add_1_r, Z.even_succ, <- Z.negb_even, V.
  - replace (n - q * d) with r by lia. lia.
  - replace (n - (q + 1) * d) with (r - d) by lia. lia.
Qed.
Lemma half_even_best : forall n d q', 0 < d -> let q := half_even n d in
  Z.abs (n - q * d) <= Z.abs (n - q' * d) /\ (Z.abs (n - q * d) = Z.abs (n - q' * d) -> q' = q \/ Z.even q = true).
Proof.
  intros n d q' P q. destruct (half_even_spec n d P) as [A B]. fold q in A, B. destruct (Z.eq_dec q' q) as [->|N]; [lia|].
  assert (L : d <= Z.abs ((q - q') * d)). { rewrite Z.abs_mul, (Z.abs_eq d) by lia. nia. }
  replace (n - q' * d) with (n - q * d + (q - q') * d) by lia. split; [lia|]. intros E. right. apply B. lia.
Qed.
Lemma half_even_range : forall n d a b, 0 < d -> a * d <= n -> n < b * d -> a <= half_even n d <= b.
Proof.
  intros n d a b P A B. destruct (half_even_spec n d P) as [H _]. set (q := half_even n d) in *. clearbody q. nia.
Qed.

(** ** Distances as integers *)

Section Scaled.
Variables (num den : Z).
Hypothesis Pden : 0 < den.
Definition dist (q e : Z) : Z := Z.abs (num * 2 ^ 1074 - q * 2 ^ (e + 1074) * den).

Lemma scaled_mag : forall q e, -1074 <= e -> ((inject_Z q * (2 # 1) ^ e) * inject_Z (2 ^ 1074) == inject_Z (q * 2 ^ (e + 1074)))%Q.
Proof.
  intros q e L. rewrite inject_Z_mult. rewrite !Zpower_Qpower by lia. change (inject_Z 2) with (2 # 1).
  rewrite (Qpower_plus (2 # 1) e 1074) by discriminate. ring.
Qed.
Lemma scaled : forall q e, -1074 <= e ->
  (Qabs (inject_Z num / inject_Z den - inject_Z q * (2 # 1) ^ e) * inject_Z (den * 2 ^ 1074) == inject_Z (dist q e))%Q.
Proof.
  intros q e L. assert (P : 0 < den * 2 ^ 1074) by (apply Z.mul_pos_pos; [lia|reflexivity]).
  setoid_replace (inject_Z (den * 2 ^ 1074)) with (Qabs (inject_Z (den * 2 ^ 1074))).
  2: { symmetry. apply Qabs_pos. change 0%Q with (inject_Z 0). rewrite <- Zle_Qle. lia. }
  rewrite <- Qabs_Qmult.
  assert (E : ((inject_Z num / inject_Z den - inject_Z q * (2 # 1) ^ e) * inject_Z (den * 2 ^ 1074) == inject_Z (num * 2 ^ 1074 - q * 2 ^ (e + 1074) * den))%Q).
  { unfold Zminus. rewrite inject_Z_plus, inject_Z_opp. rewrite !(inject_Z_mult _ den), (inject_Z_mult num), <- scaled_mag by assumption.
    rewrite inject_Z_mult. field. intros Z0. unfold Qeq in Z0. cbn in Z0. lia. }
  rewrite E. unfold dist. unfold Qabs, inject_Z. reflexivity.
Qed.
End Scaled.

(** ** The parts of [round_ratio] *)

Definition ge (num den : N) (k : Z) : bool :=
  if (0 <=? k) then (den * 2 ^ Z.to_N k <=? num)%N else (den <=? num * 2 ^ Z.to_N (- k))%N.
Lemma pow_to_N : forall k, 0 <= k -> Z.of_N (2 ^ Z.to_N k) = 2 ^ k.
Proof. intros k H. rewrite N2Z.inj_pow. now rewrite Z2N.id. Qed.
Lemma pow_pos : forall k, 0 <= k -> 0 < 2 ^ k.
Proof. intros k H. apply Z.pow_pos_nonneg; lia. Qed.
Lemma ge_scale : forall num den k c, 0 <= c -> 0 <= c + k ->
  (ge num den k = true <-> Z.of_N den * 2 ^ (c + k) <= Z.of_N num * 2 ^ c).
Proof.
  intros num den k c C K. unfold ge. destruct (Z.leb_spec 0 k) as [P|P].
  - rewrite N.leb_le, N2Z.inj_le, N2Z.inj_mul, pow_to_N by assumption. rewrite Z.pow_add_r by assumption.
    pose proof (pow_pos c C). nia.
  - rewrite N.leb_le, N2Z.inj_le, N2Z.inj_mul, pow_to_N by lia. replace c with (c + k + - k) at 2 by lia.
    rewrite (Z.pow_add_r 2 (c + k) (- k)) by lia. pose proof (pow_pos (c + k) K). nia.
Qed.
Lemma ge_false : forall num den k c, 0 <= c -> 0 <= c + k ->
  (ge num den k = false <-> Z.of_N num * 2 ^ c < Z.of_N den * 2 ^ (c + k)).
Proof.
  intros. pose proof (ge_scale num den k c H H0) as E. destruct (ge num den k); split; intros; try discriminate; auto.
  - assert (true = true) as X by reflexivity. apply E in X. lia.
  - destruct (Z.lt_ge_cases (Z.of_N num * 2 ^ c) (Z.of_N den * 2 ^ (c + k))) as [L|L]; auto. apply E in L. discriminate.
Qed.
Lemma log2_bounds : forall n, (0 < n)%N -> 2 ^ Z.of_N (N.log2 n) <= Z.of_N n < 2 ^ (Z.of_N (N.log2 n) + 1).
Proof.
  intros n H. apply N.log2_spec in H as [A B]. apply N2Z.inj_le in A. apply N2Z.inj_lt in B.
  rewrite N2Z.inj_pow in A, B. now rewrite N2Z.inj_succ in B.
Qed.
Definition scale (num den : N) : Z :=
  let e0 := Z.of_N (N.log2 num) - Z.of_N (N.log2 den) in if ge num den e0 then e0 else e0 - 1.
Lemma scale_spec : forall num den, (0 < num)%N -> (0 < den)%N ->
  ge num den (scale num den) = true /\ ge num den (scale num den + 1) = false.
Proof.
  intros num den P P'. apply log2_bounds in P as [A A']. apply log2_bounds in P' as [B B']. unfold scale. cbv zeta.
  set (a := Z.of_N (N.log2 num)) in *. set (b := Z.of_N (N.log2 den)) in *.
  assert (0 <= a) by apply N2Z.is_nonneg. assert (0 <= b) by apply N2Z.is_nonneg. clearbody a b.
  assert (H1 : ge num den (a - b + 1) = false).
  { apply (ge_false _ _ _ b); [lia..|]. replace (b + (a - b + 1)) with (a + 1) by lia. pose proof (pow_pos b ltac:(lia)). pose proof (pow_pos (a + 1) ltac:(lia)). nia. }
  assert (H2 : ge num den (a - b - 1) = true).
  { apply (ge_scale _ _ _ (b + 1)); [lia..|]. replace (b + 1 + (a - b - 1)) with a by lia. pose proof (pow_pos (b + 1) ltac:(lia)). pose proof (pow_pos a ltac:(lia)). nia. }
  destruct (ge num den (a - b)) eqn:G; auto. now replace (a - b - 1 + 1) with (a - b) by lia.
Qed.

Lemma half_even_N : forall n d, (0 < d)%N ->
  Z.of_N (match (2 * (n mod d) ?= d)%N with
          | Gt => (n / d + 1)%N | Eq => if N.even (n / d) then (n / d)%N else (n / d + 1)%N | Lt => (n / d)%N end) = half_even (Z.of_N n) (Z.of_N d).
Proof.
  intros n d P. unfold half_even. cbv zeta. rewrite <- N2Z.inj_div, <- N2Z.inj_mod by lia.
  change (2 * Z.of_N (n mod d)) with (Z.of_N 2 * Z.of_N (n mod d)). rewrite <- N2Z.inj_mul, N2Z.inj_compare.
  set (q := (n / d)%N).
  assert (V : Z.even (Z.of_N q) = N.even q) by (destruct q as [|[]]; reflexivity). rewrite V.
  destruct (N.compare _ _); [destruct (N.even q)| |]; lia.
Qed.

Definition finish (q e : Z) : option (N * Z) :=
  let '(q, e) := if q =? 2 ^ 53 then (2 ^ 52, e + 1) else (q, e) in
  if 971 <? e then None else Some (Z.to_N q, e).
Lemma round_parts : forall num den, (0 < num)%N -> (0 < den)%N -> exists n d e,
  0 < d /\ -1074 <= e /\ n * Z.of_N den * 2 ^ (e + 1074) = Z.of_N num * 2 ^ 1074 * d /\ 0 <= n < 2 ^ 53 * d /\
  (e = -1074 \/ 2 ^ 52 * d <= n) /\ round_scaled num den = finish (half_even n d) e.
Proof.
  intros num den P P'. destruct (scale_spec _ _ P P') as [G G']. set (k := scale num den) in *.
  set (e := Z.max (k - 52) (-1074)).
  set (n := if (0 <=? e) then num else (num * 2 ^ Z.to_N (- e))%N).
  set (d := if (0 <=? e) then (den * 2 ^ Z.to_N e)%N else den).
  assert (D : (0 < d)%N).
  { unfold d. destruct (0 <=? e); auto. apply N.mul_pos_pos; auto. apply N.neq_0_lt_0. apply N.pow_nonzero. lia. }
  exists (Z.of_N n), (Z.of_N d), e. split; [lia|]. split; [lia|].
  assert (S : Z.of_N n * Z.of_N den * 2 ^ (e + 1074) = Z.of_N num * 2 ^ 1074 * Z.of_N d).
  { unfold n, d. destruct (Z.leb_spec 0 e) as [L|L]; rewrite N2Z.inj_mul, pow_to_N by lia.
    - rewrite Z.pow_add_r by lia. ring.
    - replace 1074 with (- e + (e + 1074)) at 2 by lia. rewrite (Z.pow_add_r 2 (- e)) by lia. ring. }
  split; [exact S|].
  assert (X : forall c, 0 <= c -> 0 <= c + e -> Z.of_N n * 2 ^ (c + e) * Z.of_N den = Z.of_N num * 2 ^ c * Z.of_N d).
  { intros c C1 C2. pose proof (pow_pos 1074 ltac:(lia)) as Q1. pose proof (pow_pos c C1) as Q2. pose proof (pow_pos (c + e) C2) as Q3.
    pose proof (pow_pos (e + 1074) ltac:(lia)) as Q4.
    assert (Y : 2 ^ (c + e) * 2 ^ 1074 = 2 ^ c * 2 ^ (e + 1074)) by (rewrite <- !Z.pow_add_r by lia; f_equal; lia).
    apply (Z.mul_reg_r _ _ (2 ^ 1074)); [lia|].
    transitivity (Z.of_N n * Z.of_N den * (2 ^ (c + e) * 2 ^ 1074)); [ring|]. rewrite Y.
    transitivity (Z.of_N n * Z.of_N den * 2 ^ (e + 1074) * 2 ^ c); [ring|]. rewrite S. ring. }
  assert (c0 : exists c, 0 <= c /\ 0 <= c + e /\ 0 <= c + k) by (exists (Z.abs e + Z.abs k); lia). destruct c0 as (c & C1 & C2 & C3).
  specialize (X c C1 C2). pose proof (pow_pos (c + e) C2) as Q3.
  split; [|split].
  - split; [apply N2Z.is_nonneg|]. apply (ge_false _ _ _ c) in G'; [|lia..].
    assert (M : 2 ^ (c + (k + 1)) <= 2 ^ 53 * 2 ^ (c + e)). { rewrite <- Z.pow_add_r by lia. apply Z.pow_le_mono_r; lia. }
    assert (Y : Z.of_N n * 2 ^ (c + e) * Z.of_N den < 2 ^ 53 * Z.of_N d * 2 ^ (c + e) * Z.of_N den).
    { rewrite X. assert (Z.of_N num * 2 ^ c * Z.of_N d < Z.of_N den * 2 ^ (c + (k + 1)) * Z.of_N d) by (apply Z.mul_lt_mono_pos_r; lia).
      assert (Z.of_N den * 2 ^ (c + (k + 1)) * Z.of_N d <= Z.of_N den * (2 ^ 53 * 2 ^ (c + e)) * Z.of_N d) by (apply Z.mul_le_mono_nonneg_r; [lia|]; apply Z.mul_le_mono_nonneg_l; lia).
      replace (2 ^ 53 * Z.of_N d * 2 ^ (c + e) * Z.of_N den) with (Z.of_N den * (2 ^ 53 * 2 ^ (c + e)) * Z.of_N d) by ring. lia. }
    apply Z.mul_lt_mono_pos_r in Y; [|lia]. apply Z.mul_lt_mono_pos_r in Y; lia.
  - destruct (Z.eq_dec e (-1074)) as [E|E]; [now left|right]. assert (E' : e = k - 52) by lia.
    apply (ge_scale _ _ _ c) in G; [|lia..].
    assert (M : 2 ^ (c + k) = 2 ^ 52 * 2 ^ (c + e)). { rewrite <- Z.pow_add_r by lia. f_equal. lia. }
    assert (Y : 2 ^ 52 * Z.of_N d * 2 ^ (c + e) * Z.of_N den <= Z.of_N n * 2 ^ (c + e) * Z.of_N den).
    { rewrite X. replace (2 ^ 52 * Z.of_N d * 2 ^ (c + e) * Z.of_N den) with (Z.of_N den * (2 ^ 52 * 2 ^ (c + e)) * Z.of_N d) by ring.
      rewrite <- M. apply Z.mul_le_mono_nonneg_r; lia. }
    apply Z.mul_le_mono_pos_r in Y; [|lia]. apply Z.mul_le_mono_pos_r in Y; lia.
  - unfold round_scaled. replace (num =? 0)%N with false by (symmetry; apply N.eqb_neq; lia). cbv zeta.
    change (if 0 <=? Z.of_N (N.log2 num) - Z.of_N (N.log2 den) then _ else _) with (ge num den (Z.of_N (N.log2 num) - Z.of_N (N.log2 den))).
    fold (scale num den). fold k. fold e. fold n. fold d. unfold finish. rewrite <- half_even_N by assumption.
    set (q := match (2 * (n mod d) ?= d)%N with Eq => _ | Lt => _ | Gt => _ end). clearbody q.
    replace (Z.of_N q =? 2 ^ 53) with (q =? 9007199254740992)%N.
    2: { change (2 ^ 53) with (Z.of_N 9007199254740992). destruct (N.eqb_spec q 9007199254740992) as [->|Ne]; [now rewrite Z.eqb_refl|]. symmetry. apply Z.eqb_neq. lia. }
    destruct (q =? 9007199254740992)%N; [reflexivity|]. now rewrite N2Z.id.
Qed.

(** ** The nearest float64 *)

Lemma best : forall n d E E' q', 0 < d -> 0 <= E -> 0 <= E' -> (E = 0 \/ 2 ^ 52 * d <= n) -> 0 <= q' < 2 ^ 53 ->
  let q := half_even n d in
  Z.abs (n * 2 ^ E - q * 2 ^ E * d) <= Z.abs (n * 2 ^ E - q' * 2 ^ E' * d) /\
  (Z.abs (n * 2 ^ E - q * 2 ^ E * d) = Z.abs (n * 2 ^ E - q' * 2 ^ E' * d) -> q' * 2 ^ E' = q * 2 ^ E \/ Z.even q = true).
Proof.
  intros n d E E' q' P PE PE' N Q q. pose proof (pow_pos E PE) as PP. pose proof (pow_pos E' PE') as PP'.
  assert (X : forall y, Z.abs (n * 2 ^ E - y * 2 ^ E * d) = 2 ^ E * Z.abs (n - y * d)).
  { intros y. replace (n * 2 ^ E - y * 2 ^ E * d) with (2 ^ E * (n - y * d)) by ring. rewrite Z.abs_mul, (Z.abs_eq (2 ^ E)); lia. }
  destruct (Z.le_gt_cases E E') as [L|L].
  - replace (2 ^ E') with (2 ^ (E' - E) * 2 ^ E) by (rewrite <- Z.pow_add_r by lia; f_equal; lia).
    rewrite Z.mul_assoc, !X. destruct (half_even_best n d (q' * 2 ^ (E' - E)) P) as [A B]. fold q in A, B.
    split; [apply Z.mul_le_mono_nonneg_l; lia|]. intros Y. apply Z.mul_reg_l in Y; [|lia]. destruct (B Y) as [->|B']; auto.
  - assert (N' : 2 ^ 52 * d <= n) by (destruct N; [lia|auto]).
    assert (S : q' * 2 ^ E' < 2 ^ 52 * 2 ^ E).
    { assert (2 ^ E' * 2 <= 2 ^ E). { change 2 with (2 ^ 1) at 2. rewrite <- Z.pow_add_r by lia. apply Z.pow_le_mono_r; lia. }
      change (2 ^ 53) with (2 ^ 52 * 2) in Q. nia. }
    rewrite X. destruct (half_even_best n d (2 ^ 52) P) as [A _]. fold q in A. rewrite (Z.abs_eq (n - 2 ^ 52 * d)) in A by lia.
    set (x := q' * 2 ^ E') in *. set (t := 2 ^ 52) in *. clearbody x t. set (p := 2 ^ E) in *. clearbody p.
    assert (Y : x * d < t * p * d) by (apply Z.mul_lt_mono_pos_r; lia).
    assert (Y1 : p * Z.abs (n - q * d) <= p * (n - t * d)) by (apply Z.mul_le_mono_nonneg_l; lia).
    assert (Y2 : p * (n - t * d) < n * p - x * d) by nia. lia.
Qed.

Lemma dist_form : forall num den n d e q' e', 0 < d -> 0 < den -> n * den * 2 ^ (e + 1074) = num * 2 ^ 1074 * d ->
  dist num den q' e' * d = den * Z.abs (n * 2 ^ (e + 1074) - q' * 2 ^ (e' + 1074) * d).
Proof.
  intros num den n d e q' e' P P' S. unfold dist.
  transitivity (Z.abs ((num * 2 ^ 1074 - q' * 2 ^ (e' + 1074) * den) * d)); [rewrite Z.abs_mul, (Z.abs_eq d); lia|].
  transitivity (Z.abs (den * (n * 2 ^ (e + 1074) - q' * 2 ^ (e' + 1074) * d))); [|rewrite Z.abs_mul, (Z.abs_eq den); lia].
  f_equal. rewrite Z.mul_sub_distr_r, <- S. ring.
Qed.

Lemma below : forall num den n d e a f, 0 < d -> 0 < den -> n * den * 2 ^ (e + 1074) = num * 2 ^ 1074 * d ->
  -1074 <= e <= f -> 0 <= f -> 0 <= a -> 2 * n < a * d -> 2 * num < a * 2 ^ f * den.
Proof.
  intros num den n d e a f P P' S L F A H. pose proof (pow_pos (e + 1074) ltac:(lia)) as Q. pose proof (pow_pos 1074 ltac:(lia)) as Q'.
  assert (M : 2 ^ (e + 1074) <= 2 ^ f * 2 ^ 1074) by (rewrite <- Z.pow_add_r by lia; apply Z.pow_le_mono_r; lia).
  apply (Z.mul_lt_mono_pos_r (2 ^ 1074 * d)); [apply Z.mul_pos_pos; lia|].
  replace (2 * num * (2 ^ 1074 * d)) with (2 * n * (den * 2 ^ (e + 1074))) by (rewrite <- (Z.mul_assoc 2 n), (Z.mul_assoc n), S; ring).
  apply Z.lt_le_trans with (a * d * (den * 2 ^ (e + 1074))); [apply Z.mul_lt_mono_pos_r; [apply Z.mul_pos_pos; lia|lia]|].
  replace (a * 2 ^ f * den * (2 ^ 1074 * d)) with (a * d * (den * (2 ^ f * 2 ^ 1074))) by ring.
  apply Z.mul_le_mono_nonneg_l; [apply Z.mul_nonneg_nonneg; lia|]. apply Z.mul_le_mono_nonneg_l; lia.
Qed.
Lemma above : forall num den n d e a f, 0 < d -> 0 < den -> n * den * 2 ^ (e + 1074) = num * 2 ^ 1074 * d ->
  f <= e -> 0 <= f -> 0 <= a -> a * d <= 2 * n -> a * 2 ^ f * den <= 2 * num.
Proof.
  intros num den n d e a f P P' S L F A H. pose proof (pow_pos (e + 1074) ltac:(lia)) as Q. pose proof (pow_pos 1074 ltac:(lia)) as Q'.
  assert (M : 2 ^ f * 2 ^ 1074 <= 2 ^ (e + 1074)) by (rewrite <- Z.pow_add_r by lia; apply Z.pow_le_mono_r; lia).
  apply (Z.mul_le_mono_pos_r _ _ (2 ^ 1074 * d)); [apply Z.mul_pos_pos; lia|].
  replace (2 * num * (2 ^ 1074 * d)) with (2 * n * (den * 2 ^ (e + 1074))) by (rewrite <- (Z.mul_assoc 2 n), (Z.mul_assoc n), S; ring).
  apply Z.le_trans with (a * d * (den * 2 ^ (e + 1074))); [|apply Z.mul_le_mono_nonneg_r; [apply Z.mul_nonneg_nonneg; lia|lia]].
  replace (a * 2 ^ f * den * (2 ^ 1074 * d)) with (a * d * (den * (2 ^ f * 2 ^ 1074))) by ring.
  apply Z.mul_le_mono_nonneg_l; [apply Z.mul_nonneg_nonneg; lia|]. apply Z.mul_le_mono_nonneg_l; lia.
Qed.

Definition ratio (num den : N) : Q := (inject_Z (Z.of_N num) / inject_Z (Z.of_N den))%Q.
Lemma ratio_lt : forall num den a, (0 < den)%N -> ((ratio num den < inject_Z a)%Q <-> Z.of_N num < a * Z.of_N den).
Proof.
  intros num den a P. unfold ratio. assert (P' : (0 < inject_Z (Z.of_N den))%Q) by (change 0%Q with (inject_Z 0); rewrite <- Zlt_Qlt; lia).
  rewrite Zlt_Qlt, inject_Z_mult. split; intros H.
  - apply (Qmult_lt_r _ _ _ P') in H. unfold Qdiv in H. rewrite <- Qmult_assoc, (Qmult_comm (/ _)), Qmult_inv_r, Qmult_1_r in H; auto.
    intros E. rewrite E in P'. discriminate.
  - apply Qlt_shift_div_r; auto.
Qed.
Lemma ratio_ge : forall num den a, (0 < den)%N -> ((inject_Z a <= ratio num den)%Q <-> a * Z.of_N den <= Z.of_N num).
Proof.
  intros num den a P. pose proof (ratio_lt num den a P) as H. split; intros A.
  - apply Z.nlt_ge. intros B. apply H in B. apply Qlt_not_le in B. contradiction.
  - apply Qnot_lt_le. intros B. apply H in B. lia.
Qed.

Lemma dist_cmp : forall num den q e q' e', (0 < den)%N -> (-1074 <= e) -> (-1074 <= e') ->
  let D := dist (Z.of_N num) (Z.of_N den) in
  ((Qabs (ratio num den - magnitude q e) <= Qabs (ratio num den - magnitude q' e'))%Q <-> D (Z.of_N q) e <= D (Z.of_N q') e') /\
  ((Qabs (ratio num den - magnitude q e) == Qabs (ratio num den - magnitude q' e'))%Q <-> D (Z.of_N q) e = D (Z.of_N q') e').
Proof.
  intros num den q e q' e' P L L' D. assert (Pz : 0 < Z.of_N den) by lia.
  pose proof (scaled (Z.of_N num) (Z.of_N den) Pz (Z.of_N q) e L) as A. pose proof (scaled (Z.of_N num) (Z.of_N den) Pz (Z.of_N q') e' L') as B.
  fold (ratio num den) in A, B. fold (magnitude q e) in A. fold (magnitude q' e') in B. fold D in A, B.
  set (c := (Z.of_N den * 2 ^ 1074)) in *. assert (C : 0 < c) by (apply Z.mul_pos_pos; [lia|apply pow_pos; lia]). clearbody c.
  assert (C' : (0 < inject_Z c)%Q) by (change 0%Q with (inject_Z 0); rewrite <- Zlt_Qlt; exact C).
  assert (Le : forall x y : Q, (x <= y)%Q <-> (x * inject_Z c <= y * inject_Z c)%Q) by (intros; now rewrite Qmult_le_r).
  split.
  - rewrite Le, A, B. now rewrite <- Zle_Qle.
  - split; intros H.
    + apply eq_inject_Z || idtac. assert (X : (inject_Z (D (Z.of_N q) e) == inject_Z (D (Z.of_N q') e'))%Q) by (rewrite <- A, <- B, H; reflexivity).
      unfold Qeq in X. cbn in X. lia.
    + apply Qle_antisym; apply Le; rewrite A, B, H; apply Qle_refl.
Qed.

Lemma scaled_spec : forall num den, (0 < den)%N ->
  match round_scaled num den with
  | Some (q, e) => (ratio num den < too_large)%Q /\ nearest (ratio num den) q (if (q =? 0)%N then 0 else e)
  | None => (too_large <= ratio num den)%Q
  end.
Proof.
  intros num den P. assert (Pz : 0 < Z.of_N den) by lia. destruct (N.eq_dec num 0) as [->|Nz].
  { cbn [round_scaled N.eqb]. split.
    - apply ratio_lt; auto. change (0 < (2 ^ 1024 - 2 ^ 970) * Z.of_N den). apply Z.mul_pos_pos; [reflexivity|lia].
    - split; [split; [reflexivity|lia]|]. split; [now right; right|]. intros q' e' [_ L].
      assert (L1 : -1074 <= 0) by lia. assert (L2 : -1074 <= e') by lia.
      destruct (dist_cmp 0 den 0 0 q' e' P L1 L2) as [A B]. split; [|now right].
      apply A. unfold dist at 1. cbn [Z.of_N Z.mul Z.sub Z.abs Z.opp Z.add]. apply Z.abs_nonneg. }
  destruct (round_parts num den ltac:(lia) P) as (n & d & e & Pd & Pe & S & R & N & E). rewrite E. clear E.
  pose proof (half_even_range n d 0 (2 ^ 53) Pd ltac:(lia) ltac:(lia)) as R1. pose proof (half_even_spec n d Pd) as HS. cbv zeta in HS.
  assert (R2 : e = -1074 \/ 2 ^ 52 <= half_even n d).
  { destruct N as [N|N]; auto. right. apply (half_even_range n d (2 ^ 52) (2 ^ 53)); lia. }
  pose proof (fun q' e' Pe' => best n d (e + 1074) (e' + 1074) q' Pd ltac:(lia) Pe' ltac:(lia)) as B. cbv zeta in B.
  set (q := half_even n d) in *. clearbody q. unfold finish.
  set (q1 := if q =? 2 ^ 53 then 2 ^ 52 else q). set (e1 := if q =? 2 ^ 53 then e + 1 else e).
  replace (if q =? 2 ^ 53 then (2 ^ 52, e + 1) else (q, e)) with (q1, e1) by (unfold q1, e1; now destruct (q =? 2 ^ 53)).
  assert (T : 2 * (2 ^ 1024 - 2 ^ 970) = (2 ^ 54 - 1) * 2 ^ 971) by reflexivity.
  assert (T' : 2 ^ 54 * 2 ^ 970 <= (2 ^ 54 - 1) * 2 ^ 971) by (vm_compute; discriminate).
  assert (T'' : (2 ^ 54 - 1) * 2 ^ 971 <= 2 ^ 53 * 2 ^ 972) by (vm_compute; discriminate).
  destruct (Z.ltb_spec 971 e1) as [O|O].
  - unfold too_large. apply ratio_ge; auto. apply (Z.mul_le_mono_pos_l _ _ 2); [lia|]. rewrite Z.mul_assoc, T. unfold e1 in O.
    destruct (Z.eqb_spec q (2 ^ 53)) as [Q|Q].
    + apply (above _ _ n d e); auto; try lia.
    + apply Z.le_trans with (2 ^ 53 * 2 ^ 972 * Z.of_N den); [apply Z.mul_le_mono_nonneg_r; lia|].
      apply (above _ _ n d e); auto; lia.
  - assert (Q1 : 0 <= q1 < 2 ^ 53) by (unfold q1; destruct (Z.eqb_spec q (2 ^ 53)); lia).
    assert (E1 : -1074 <= e1) by (unfold e1; destruct (q =? 2 ^ 53); lia).
    assert (M : q1 * 2 ^ (e1 + 1074) = q * 2 ^ (e + 1074)).
    { unfold q1, e1. destruct (Z.eqb_spec q (2 ^ 53)) as [->|Q]; auto. replace (e + 1 + 1074) with (1 + (e + 1074)) by lia.
      rewrite Z.pow_add_r by lia. change (2 ^ 53) with (2 ^ 52 * 2 ^ 1). ring. }
    set (e2 := if (Z.to_N q1 =? 0)%N then 0 else e1).
    assert (Z0 : (magnitude (Z.to_N q1) e2 == magnitude (Z.to_N q1) e1)%Q).
    { unfold e2. destruct (N.eqb_spec (Z.to_N q1) 0) as [->|]; [|reflexivity]. unfold magnitude. change (inject_Z (Z.of_N 0)) with 0%Q. now rewrite !Qmult_0_l. }
    split; [|split; [|split]].
    + unfold too_large. apply ratio_lt; auto. apply (Z.mul_lt_mono_pos_l 2); [lia|]. rewrite Z.mul_assoc, T. unfold e1 in O.
      destruct (Z.eqb_spec q (2 ^ 53)) as [Q|Q].
      * apply Z.lt_le_trans with (2 ^ 54 * 2 ^ 970 * Z.of_N den); [|apply Z.mul_le_mono_nonneg_r; lia].
        apply (below _ _ n d e); auto; lia.
      * apply (below _ _ n d e); auto; try lia. destruct HS as [H1 H2].
        destruct (Z.eq_dec q (2 ^ 53 - 1)) as [Q'|Q'].
        -- rewrite Q' in *. change (Z.even (2 ^ 53 - 1)) with false in H2. assert (2 * Z.abs (n - (2 ^ 53 - 1) * d) <> d) by (intros X; apply H2 in X; discriminate). lia.
        -- assert (q * d <= (2 ^ 53 - 2) * d) by (apply Z.mul_le_mono_nonneg_r; lia). lia.
    + split; [change (2 ^ 53)%N with (Z.to_N (2 ^ 53)); apply Z2N.inj_lt; lia|]. unfold e2. destruct (Z.to_N q1 =? 0)%N; lia.
    + unfold normal, e2. destruct (N.eqb_spec (Z.to_N q1) 0) as [Z1|Z1]; [auto|]. unfold q1, e1 in *. destruct (Z.eqb_spec q (2 ^ 53)) as [Q|Q]; [left; discriminate|].
      destruct R2 as [R2|R2]; [right; left; split; [lia|exact R2]|left]. change (2 ^ 52)%N with (Z.to_N (2 ^ 52)). apply Z2N.inj_le; lia.
    + intros q' e' [D1 D2]. rewrite Z0. apply N2Z.inj_lt in D1. change (Z.of_N (2 ^ 53)) with (2 ^ 53) in D1.
      assert (Le : -1074 <= e') by lia. destruct (dist_cmp num den (Z.to_N q1) e1 q' e' P E1 Le) as [C1 C2]. rewrite Z2N.id in C1, C2 by lia.
      destruct (B (Z.of_N q') e' ltac:(lia) ltac:(lia)) as [B1 B2].
      pose proof (dist_form _ _ n d e q1 e1 Pd Pz S) as F1. pose proof (dist_form _ _ n d e (Z.of_N q') e' Pd Pz S) as F2. rewrite M in F1. split.
      * apply C1. apply (Z.mul_le_mono_pos_r _ _ d Pd). rewrite F1, F2. apply Z.mul_le_mono_nonneg_l; lia.
      * intros H. apply C2 in H. assert (X : Z.of_N den * Z.abs (n * 2 ^ (e + 1074) - q * 2 ^ (e + 1074) * d) = Z.of_N den * Z.abs (n * 2 ^ (e + 1074) - Z.of_N q' * 2 ^ (e' + 1074) * d)) by (rewrite <- F1, <- F2, H; reflexivity).
        apply Z.mul_reg_l in X; [|lia]. destruct (B2 X) as [Y|Y].
        -- left. unfold magnitude. rewrite Z2N.id by lia.
           assert (Z2 : ((inject_Z (Z.of_N q') * (2 # 1) ^ e') * inject_Z (2 ^ 1074) == (inject_Z q1 * (2 # 1) ^ e1) * inject_Z (2 ^ 1074))%Q).
           { rewrite !scaled_mag by lia. rewrite Y, M. reflexivity. }
           apply Qmult_inj_r in Z2; auto. discriminate.
        -- right. unfold q1. destruct (Z.eqb_spec q (2 ^ 53)) as [Q|Q]; [reflexivity|].
           rewrite <- Y. destruct q as [|p|p]; [reflexivity|destruct p; reflexivity|lia].
Qed.

Theorem round_spec : forall num den, (0 < den)%N ->
  match round_ratio num den with
  | Some (q, e) => (ratio num den < too_large)%Q /\ nearest (ratio num den) q e
  | None => (too_large <= ratio num den)%Q
  end.
Proof.
  intros num den P. pose proof (scaled_spec num den P) as H. unfold round_ratio. destruct (round_scaled num den) as [[q e]|]; exact H.
Qed.

(** ** strconv.ParseFloat of a numeral *)

Open Scope string_scope.
Definition ends_mantissa (s : string) : Prop := s = "" \/ exists c s', s = String c s' /\ In c ["e"%char; "E"%char].
Lemma exponent_ends : forall s x, exponent s x -> ends_mantissa s.
Proof. intros s x [|c sg neg ds n H _ _]; [now left|right; eauto]. Qed.
Lemma digit_chars : forall c, is_digit c = true -> Ascii.eqb c "_" = false /\ Ascii.eqb c "." = false.
Proof. intros [[] [] [] [] [] [] [] []]; vm_compute; intuition congruence. Qed.

Lemma mantissa_digits : forall ds ex n m saw len, ends_mantissa ex -> dec_from n ds = Some m -> saw = true \/ ds <> "" ->
  mantissa_loop false false saw n 0 false len (ds ++ ex) = (true, m, 0%N, false, (len + String.length ds)%nat, ex).
Proof.
  induction ds as [|c ds IH]; intros ex n m saw len X D H; cbn [dec_from] in D; cbn [append].
  - destruct H as [->|H]; [|now elim H]. inversion D; subst. cbn [String.length]. rewrite Nat.add_0_r.
    destruct X as [->|(c & s' & -> & [<-|[<-|[]]])]; reflexivity.
  - destruct (is_digit c) eqn:E; [|discriminate]. destruct (digit_chars c E) as [U P]. cbn [mantissa_loop]. rewrite U, P, E.
    replace (n * 10 + digit_val c)%N with (10 * n + digit_val c)%N by lia. rewrite (IH ex _ m true); auto.
    cbn [String.length]. now rewrite Nat.add_succ_r.
Qed.
Lemma exponent_digits : forall ds n m us len, dec_from n ds = Some m -> (m < 100000)%N ->
  exponent_loop n us len ds = (m, us, (len + String.length ds)%nat, "").
Proof.
  induction ds as [|c ds IH]; intros n m us len D L; cbn [dec_from] in D; cbn [exponent_loop String.length].
  - inversion D; subst. now rewrite Nat.add_0_r.
  - destruct (is_digit c) eqn:E; [|discriminate]. destruct (digit_chars c E) as [U _]. rewrite U.
    pose proof (dec_from_ge _ _ _ D) as G. destruct (N.ltb_spec n 10000) as [B|B]; [|lia].
    replace (n * 10 + digit_val c)%N with (10 * n + digit_val c)%N by lia. rewrite (IH _ m); auto. now rewrite Nat.add_succ_r.
Qed.

Lemma special_none : forall sg neg c s, sign sg neg -> is_digit c = true -> special_float (sg ++ String c s) = None.
Proof.
  intros sg neg c s G D. assert (H : special_float (String c s) = None /\ special_float (String "+" (String c s)) = None /\ special_float (String "-" (String c s)) = None).
  { destruct c as [[] [] [] [] [] [] [] []]; try discriminate D; repeat split; reflexivity. }
  inversion G; subst; tauto.
Qed.
Lemma sign_split : forall sg neg c s, sign sg neg -> is_digit c = true ->
  match sg ++ String c s with String "-" s' => (true, 1%nat, s') | String "+" s' => (false, 1%nat, s') | _ => (false, 0%nat, sg ++ String c s) end
  = (neg, String.length sg, String c s).
Proof.
  intros sg neg c s G D. inversion G; subst; try reflexivity.
  destruct c as [[] [] [] [] [] [] [] []]; try discriminate D; reflexivity.
Qed.
Lemma esign_split : forall sg neg c s, sign sg neg -> is_digit c = true ->
  match sg ++ String c s with String "+" s' => (false, 1%nat, s') | String "-" s' => (true, 1%nat, s') | _ => (false, 0%nat, sg ++ String c s) end
  = (neg, String.length sg, String c s).
Proof.
  intros sg neg c s G D. inversion G; subst; try reflexivity.
  destruct c as [[] [] [] [] [] [] [] []]; try discriminate D; reflexivity.
Qed.
Lemma decimal_head : forall ds m, decimal ds m -> exists c ds', ds = String c ds' /\ is_digit c = true.
Proof.
  intros ds m D. apply decimal_spec in D as [N D]. destruct ds as [|c ds]; [now elim N|]. cbn [dec_from] in D.
  destruct (is_digit c) eqn:E; [eauto|discriminate].
Qed.
Lemma not_hex : forall ds ex m, decimal ds m -> ends_mantissa ex ->
  match ds ++ ex with
  | String "0" (String c (String d s')) => if Ascii.eqb (lower_char c) "x" then (true, 2%nat, String d s') else (false, 0%nat, ds ++ ex)
  | _ => (false, 0%nat, ds ++ ex) end = (false, 0%nat, ds ++ ex).
Proof.
  intros ds ex m D X. set (w := ds ++ ex).
  assert (H : forall c d s', w = String "0" (String c (String d s')) -> Ascii.eqb (lower_char c) "x" = false).
  { intros c d s' E. subst w. destruct (decimal_head _ _ D) as (c0 & ds' & -> & _). cbn [append] in E. inversion E as [[E1 E2]]. subst c0. clear E.
    assert (C : is_digit c = true \/ In c ["e"%char; "E"%char]).
    { destruct ds' as [|c' ds'].
      - destruct X as [->|(c' & s'' & -> & I)]; cbn [append] in E2; inversion E2; subst; auto.
      - cbn [append] in E2. inversion E2; subst. apply decimal_spec in D as [_ D]. cbn [dec_from] in D.
        replace (is_digit "0") with true in D by reflexivity. destruct (is_digit c); [now left|discriminate]. }
    destruct C as [C|[<-|[<-|[]]]]; [|reflexivity..]. destruct c as [[] [] [] [] [] [] [] []]; try discriminate C; reflexivity. }
  destruct w as [|a [|b [|z w]]]; [reflexivity|destruct a as [[] [] [] [] [] [] [] []]; reflexivity..|].
  destruct (ascii_dec a "0") as [->|Ne]; [now rewrite (H _ _ _ eq_refl)|].
  destruct a as [[] [] [] [] [] [] [] []]; try reflexivity. now elim Ne.
Qed.

Lemma parse_numeral : forall s neg m x, numeral s neg m x -> Z.abs x < 100000 -> parse_float s = float_value neg false m 0 x.
Proof.
  intros s neg m x H L. destruct H as [sg neg ds m ex x G D X].
  destruct (decimal_head _ _ D) as (c & ds' & E & Dc). pose proof (exponent_ends _ _ X) as Xe.
  pose proof (not_hex ds ex m D Xe) as NH. pose proof (proj1 (decimal_spec _ _) D) as [_ DF].
  assert (SN : special_float (sg ++ ds ++ ex) = None) by (rewrite E; cbn [append]; now apply (special_none sg neg)).
  assert (SS := sign_split sg neg c (ds' ++ ex) G Dc). replace (String c (ds' ++ ex)) with (ds ++ ex) in SS by now rewrite E.
  unfold parse_float. rewrite SN, SS, NH. rewrite (mantissa_digits ds ex 0 m false); auto; [|right; rewrite E; discriminate].
  cbn [negb]. destruct X as [|ec esg eneg eds n I EG ED].
  - reflexivity.
  - assert (Le : Ascii.eqb (lower_char ec) "e" = true) by (destruct I as [<-|[<-|[]]]; reflexivity). rewrite Le.
    destruct (decimal_head _ _ ED) as (c' & eds' & E' & Dc'). assert (SS' := esign_split esg eneg c' eds' EG Dc').
    rewrite E'. rewrite SS', Dc'. rewrite <- E'. apply decimal_spec in ED as [_ ED].
    rewrite (exponent_digits eds 0 n); [|exact ED|destruct eneg; lia]. reflexivity.
Qed.

Lemma number_ratio : forall m x, (number m x == if (0 <=? x)%Z then ratio (m * 10 ^ Z.to_N x) 1 else ratio m (10 ^ Z.to_N (- x)))%Q.
Proof.
  intros m x. unfold number, ratio. destruct (Z.leb_spec 0 x) as [L|L].
  - rewrite N2Z.inj_mul, N2Z.inj_pow, Z2N.id by lia. rewrite inject_Z_mult, Zpower_Qpower by lia. change (inject_Z (Z.of_N 10)) with (10 # 1).
    change (inject_Z (Z.of_N 1)) with 1%Q. field.
  - rewrite N2Z.inj_pow, Z2N.id by lia. rewrite Zpower_Qpower by lia. change (inject_Z (Z.of_N 10)) with (10 # 1).
    rewrite Qpower_opp. field. apply Qpower_not_0. discriminate.
Qed.

Lemma nearest_eq : forall v v' q e, (v == v')%Q -> nearest v q e -> nearest v' q e.
Proof.
  intros v v' q e E (A & B & C). repeat split; try apply A; auto.
  - rewrite <- E. now apply C.
  - intros H1. rewrite <- E in H1. now apply C.
Qed.

Theorem float_spec : forall s neg m x, numeral s neg m x -> Z.abs x < 100000 ->
  match parse_float s with
  | Some f => (number m x < too_large)%Q /\ exists q e, f = FFin neg q e /\ nearest (number m x) q e
  | None => (too_large <= number m x)%Q
  end.
Proof.
  intros s neg m x H L. rewrite (parse_numeral _ _ _ _ H L). unfold float_value. replace (x - Z.of_N 0) with x by lia.
  pose proof (number_ratio m x) as R. destruct (0 <=? x)%Z.
  - pose proof (round_spec (m * 10 ^ Z.to_N x) 1 ltac:(lia)) as S. destruct (round_ratio (m * 10 ^ Z.to_N x) 1) as [[q e]|].
    + rewrite R. destruct S as [S1 S2]. split; auto. exists q, e. split; auto. eapply nearest_eq; [symmetry; exact R|exact S2].
    + now rewrite R.
  - assert (P : (0 < 10 ^ Z.to_N (- x))%N) by (apply N.neq_0_lt_0, N.pow_nonzero; lia).
    pose proof (round_spec m (10 ^ Z.to_N (- x)) P) as S. destruct (round_ratio m (10 ^ Z.to_N (- x))) as [[q e]|].
    + rewrite R. destruct S as [S1 S2]. split; auto. exists q, e. split; auto. eapply nearest_eq; [symmetry; exact R|exact S2].
    + now rewrite R.
Qed.
