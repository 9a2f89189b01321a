(** The types in a result are in upper case. *)
From Coq Require Import String Ascii NArith List Bool Arith Lia.
From Verif Require Import GoStr Unicode UnicodeFacts UnicodeCase Types Grammar GrammarFacts Converter Spec Utf8 LexicalFacts Sources SourcesFacts Upper.
Import ListNotations.
Open Scope nat_scope.
Open Scope string_scope.
Open Scope list_scope.

Definition final_ok (x : rune * rune * N * rune) : bool :=
  let '(lo, hi, step, up) := x in
  forallb (fun k => let r := (up + step * N.of_nat k)%N in N.eqb (upper_rune r) r) (seq 0 (Datatypes.S (N.to_nat ((hi - lo) / step)))) && N.ltb 0 step.
Lemma final_all : forallb final_ok upper_ranges = true.
Proof. vm_compute. reflexivity. Qed.
Lemma upper_rune_twice : forall r, upper_rune (upper_rune r) = upper_rune r.
Proof.
  intros r. unfold upper_rune at 2 3. destruct (N.ltb_spec r 128) as [L|L].
  - destruct (_ && _)%bool eqn:E.
    + apply andb_true_iff in E as [A B]. apply N.leb_le in A, B. unfold upper_rune.
      destruct (N.ltb_spec (r - 32) 128); [|lia]. destruct (N.leb_spec 97 (r - 32)); [lia|]. reflexivity.
    + unfold upper_rune. destruct (N.ltb_spec r 128); [|lia]. now rewrite E.
  - destruct (find (in_range_of r) upper_ranges) as [[[[lo hi] step] up]|] eqn:F.
    + apply find_some in F as [I F]. pose proof final_all as A. rewrite forallb_forall in A. apply A in I. cbn [final_ok] in I.
      apply andb_true_iff in I as [I P]. apply N.ltb_lt in P. unfold in_range_of in F. apply andb_true_iff in F as [F M]. apply andb_true_iff in F as [F1 F2].
      apply N.leb_le in F1, F2. apply N.eqb_eq in M. rewrite forallb_forall in I.
      assert (Q : (r - lo = step * ((r - lo) / step))%N) by (pose proof (N.div_mod (r - lo) step); lia).
      specialize (I (N.to_nat ((r - lo) / step))). rewrite N2Nat.id, <- Q in I. apply N.eqb_eq, I, in_seq.
      pose proof (N.div_le_mono (r - lo) (hi - lo) step ltac:(lia) ltac:(lia)). lia.
    + unfold upper_rune. destruct (N.ltb_spec r 128); [lia|]. now rewrite F.
Qed.

Lemma runes_ascii : forall s, is_ascii s = true -> runes_of (to_upper s) = map upper_rune (runes_of s).
Proof.
  induction s as [|c s IH]; [reflexivity|]. cbn [is_ascii]. intros H. apply andb_true_iff in H as [A B]. cbn [to_upper].
  destruct (small_ascii c A) as [E F]. rewrite !runes_1 by now apply N.ltb_lt. cbn [map]. rewrite IH, E by auto. f_equal.
  unfold small, upper_rune. now rewrite A.
Qed.
Lemma runes_go_upper : forall s, runes_of (go_upper s) = map upper_rune (runes_of s).
Proof.
  intros s. unfold go_upper. destruct (is_ascii s) eqn:A; [now apply runes_ascii|]. apply runes_of_utf8.
  apply Forall_map. eapply Forall_impl; [|apply runes_scalars]. intros r. apply upper_scalar.
Qed.
Lemma go_upper_capitals : forall s, capitals (go_upper s).
Proof. intros s. unfold capitals. rewrite runes_go_upper. apply Forall_map. apply Forall_forall. intros r _. apply upper_rune_twice. Qed.
Lemma go_upper_utf8 : forall s, exists rs, scalars rs /\ go_upper s = utf8 rs.
Proof.
  intros s. unfold go_upper. destruct (is_ascii s) eqn:A.
  - exists (runes_of (to_upper s)). split; [apply runes_scalars|]. assert (B : is_ascii (to_upper s) = true) by (now rewrite ascii_upper).
    revert B. generalize (to_upper s). clear. induction s as [|c s IH]; [reflexivity|]. cbn [is_ascii]. intros H. apply andb_true_iff in H as [A B].
    rewrite runes_1 by now apply N.ltb_lt. cbn [utf8]. rewrite <- IH by auto.
    assert (U : utf8_rune (N_of_ascii c) = String c "").
    { apply N.ltb_lt in A. unfold utf8_rune, is_scalar. destruct (N.ltb_spec (N_of_ascii c) 55296); [|lia]. cbn [orb].
      destruct (N.ltb_spec (N_of_ascii c) 128); [|lia]. now rewrite ascii_N_embedding. }
    now rewrite U.
  - exists (map upper_rune (runes_of s)). split; [|reflexivity]. apply Forall_map. eapply Forall_impl; [|apply runes_scalars]. intros r. apply upper_scalar.
Qed.
Lemma upper_twice : forall s, capitals (go_upper s) /\ go_upper (go_upper s) = go_upper s.
Proof.
  intros s. split; [apply go_upper_capitals|]. destruct (go_upper_utf8 (go_upper s)) as (a & A & E), (go_upper_utf8 s) as (b & B & F).
  assert (X : a = b). { rewrite <- (runes_of_utf8 a), <- (runes_of_utf8 b), <- E, <- F by auto. rewrite !runes_go_upper, map_map. apply map_ext, upper_rune_twice. }
  now rewrite E, F, X.
Qed.
Lemma capitals_utf8 : forall rs, scalars rs -> (capitals (utf8 rs) <-> Forall (fun c => upper_rune c = c) rs).
Proof. intros rs S. unfold capitals. now rewrite runes_of_utf8. Qed.
Lemma capitals_app : forall s t, capitals (go_upper s) -> (exists rs, scalars rs /\ t = utf8 rs) -> capitals t -> capitals (go_upper s ++ t)%string.
Proof.
  intros s t A (b & B & ->) C. destruct (go_upper_utf8 s) as (a & SA & E). rewrite E in *. rewrite <- utf8_app.
  apply capitals_utf8; [now apply Forall_app|]. apply Forall_app. split; now apply capitals_utf8.
Qed.
Theorem types_upper : forall ddl d ts, accepted ddl d ts -> forall t c, In t ts -> In c (t_columns t) -> capitals (dt_name (col_type c)).
Proof.
  intros ddl d ts H t c I J. apply sources in H as (l & out & _ & _ & F & _). eapply Forall_forall in F; eauto.
  destruct F as (_ & _ & F & _). eapply Forall_forall in F; eauto. destruct F as (_ & (w & _ & T & _) & _).
  destruct T as [->|(v & _ & _ & ->)]; [apply go_upper_capitals|].
  assert (K : forall x, x = "VARBIT" \/ x = "VARCHAR" \/ x = " VARYING" -> capitals x).
  { intros x X. replace x with (go_upper x); [apply go_upper_capitals|]. destruct X as [->|[->| ->]]; reflexivity. }
  destruct (_ =? "BIT"); [apply K; auto|]. destruct (_ =? "CHARACTER"); [apply K; auto|].
  apply capitals_app; [apply go_upper_capitals| |apply K; auto].
  exists (runes_of " VARYING"). split; [apply runes_scalars|reflexivity].
Qed.

(** ** Letters *)
Lemma letters : forall r, ((97 <= r <= 122 \/ 224 <= r <= 254 /\ r <> 247 \/ 945 <= r <= 969 /\ r <> 962 \/ 1072 <= r <= 1103 -> upper_rune r = r - 32) /\
  (1104 <= r <= 1119 -> upper_rune r = r - 80) /\ (r < 97 \/ 123 <= r <= 180 \/ 192 <= r <= 223 \/ r = 247 -> upper_rune r = r))%N.
Proof.
  assert (A : forall lo n (f : N -> N) (x : N), forallb (fun k => let r := (lo + N.of_nat k)%N in (r =? x)%N || (upper_rune r =? f r)%N) (seq 0 n) = true ->
    forall r, (lo <= r < lo + N.of_nat n)%N -> r <> x -> upper_rune r = f r).
  { intros lo n f x H r L X. rewrite forallb_forall in H. specialize (H (N.to_nat (r - lo))). rewrite in_seq in H. specialize (H ltac:(lia)). cbv zeta in H.
    rewrite N2Nat.id in H. replace (lo + (r - lo))%N with r in H by lia. apply orb_true_iff in H as [H|H]; apply N.eqb_eq in H; [contradiction|exact H]. }
  intros r. split; [|split].
  - intros [L|[[L X]|[[L X]|L]]].
    + apply (A 97%N 26 (fun r => r - 32)%N 0%N); [vm_compute; reflexivity|lia|lia].
    + apply (A 224%N 31 (fun r => r - 32)%N 247%N); [vm_compute; reflexivity|lia|lia].
    + apply (A 945%N 25 (fun r => r - 32)%N 962%N); [vm_compute; reflexivity|lia|lia].
    + apply (A 1072%N 32 (fun r => r - 32)%N 0%N); [vm_compute; reflexivity|lia|lia].
  - intros L. apply (A 1104%N 16 (fun r => r - 80)%N 0%N); [vm_compute; reflexivity|lia|lia].
  - intros [L|[L|[L|L]]].
    + apply (A 0%N 97 (fun r => r) 1000%N); [vm_compute; reflexivity|lia|lia].
    + apply (A 123%N 58 (fun r => r) 0%N); [vm_compute; reflexivity|lia|lia].
    + apply (A 192%N 32 (fun r => r) 0%N); [vm_compute; reflexivity|lia|lia].
    + apply (A 247%N 1 (fun r => r) 0%N); [vm_compute; reflexivity|lia|lia].
Qed.
