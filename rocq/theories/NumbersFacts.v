From Coq Require Import String Ascii NArith ZArith List Bool Lia.
From Verif Require Import GoStr GoNum Numbers.
Import ListNotations.
Open Scope string_scope.

Lemma digit_spec : forall c, is_digit c = true <-> In (c, digit_val c) digit_table.
Proof. intros [[] [] [] [] [] [] [] []]; vm_compute; intuition congruence. Qed.
Lemma digit_fun : forall c k, In (c, k) digit_table -> is_digit c = true /\ k = digit_val c.
Proof. intros c k H. vm_compute in H. repeat (destruct H as [H|H]; [inversion H; subst; vm_compute; auto|]). contradiction. Qed.
Lemma digit_lt : forall c, is_digit c = true -> (digit_val c < 10)%N.
Proof. intros c H. apply digit_spec in H. revert H. generalize (digit_val c). intros k H. vm_compute in H. repeat (destruct H as [H|H]; [inversion H; subst; reflexivity|]). contradiction. Qed.

(** reading from the left *)
Fixpoint dec_from (n : N) (s : string) : option N :=
  match s with
  | EmptyString => Some n
  | String c s => if is_digit c then dec_from (10 * n + digit_val c) s else None
  end.
Lemma dec_from_app : forall s s' n, dec_from n (s ++ s') = match dec_from n s with Some m => dec_from m s' | None => None end.
Proof. induction s as [|c s IH]; intros s' n; cbn; auto. destruct (is_digit c); auto. Qed.
Lemma decimal_from : forall s n, decimal s n -> dec_from 0 s = Some n /\ s <> "".
Proof.
  intros s n H. induction H as [c k I|s n c k H [IH N] I]; apply digit_fun in I as [D ->].
  - cbn. rewrite D. split; [reflexivity|discriminate].
  - rewrite dec_from_app, IH. cbn [dec_from]. rewrite D. split; auto. destruct s; discriminate.
Qed.
Lemma app_snoc : forall (s s' : string) c, s ++ String c s' = (s ++ String c "") ++ s'.
Proof. induction s as [|a s IH]; intros; cbn; auto. now rewrite IH. Qed.
Lemma from_decimal : forall s p n m, decimal p n -> dec_from n s = Some m -> decimal (p ++ s) m.
Proof.
  induction s as [|c s IH]; intros p n m P H; cbn in H.
  - inversion H; subst. replace (p ++ "") with p; auto. clear. induction p; cbn; congruence.
  - destruct (is_digit c) eqn:D; [|discriminate]. rewrite app_snoc. eapply IH; [|exact H].
    constructor; auto. now apply digit_spec.
Qed.
Theorem decimal_spec : forall s n, decimal s n <-> s <> "" /\ dec_from 0 s = Some n.
Proof.
  intros s n. split; [intros H; apply decimal_from in H; tauto|]. intros [N H]. destruct s as [|c s]; [now elim N|].
  cbn [dec_from] in H. destruct (is_digit c) eqn:D; [|discriminate].
  apply (from_decimal s (String c "") (digit_val c) n); auto. constructor. now apply digit_spec.
Qed.

(** ** strconv.Atoi *)

Lemma dec_from_ge : forall s n m, dec_from n s = Some m -> (n <= m)%N.
Proof.
  induction s as [|c s IH]; intros n m H; cbn [dec_from] in H; [inversion H; lia|].
  destruct (is_digit c); [|discriminate]. apply IH in H. lia.
Qed.
Lemma parse_loop_spec : forall s n m, (n < 2 ^ 64)%N -> (parse_uint_loop s n = UOk m <-> dec_from n s = Some m /\ (m < 2 ^ 64)%N).
Proof.
  change (2 ^ 64)%N with 18446744073709551616%N.
  induction s as [|c s IH]; intros n m L; cbn [parse_uint_loop dec_from].
  - split; [intros E; inversion E; subst; auto|intros [E _]; congruence].
  - destruct (is_digit c) eqn:D; cbn [negb]; [|split; [discriminate|intros [E _]; discriminate]].
    pose proof (digit_lt c D) as L10. replace (n * 10)%N with (10 * n)%N by lia.
    destruct (N.leb_spec 1844674407370955162 n) as [B|B].
    + split; [discriminate|]. intros [E M]. apply dec_from_ge in E. lia.
    + destruct (N.ltb_spec 18446744073709551615 (10 * n + digit_val c)) as [B'|B'].
      * split; [discriminate|]. intros [E M]. apply dec_from_ge in E. lia.
      * apply IH. lia.
Qed.
Lemma parse_uint_spec : forall s m, parse_uint s = UOk m <-> decimal s m /\ (m < 2 ^ 64)%N.
Proof.
  intros s m. rewrite decimal_spec. unfold parse_uint. destruct s as [|c s]; [split; [discriminate|intros [[N _] _]; now elim N]|].
  rewrite parse_loop_spec by reflexivity. intuition discriminate.
Qed.
Lemma decimal_sign : forall c s n, decimal (String c s) n -> c <> "+"%char /\ c <> "-"%char.
Proof.
  intros c s n H. apply decimal_spec in H as [_ H]. cbn in H. destruct (is_digit c) eqn:D; [|discriminate].
  split; intros ->; discriminate.
Qed.
Theorem positive_spec : forall s n, positive_int s n <-> is_positive_integer_token s = true /\ atoi_value s = n.
Proof.
  assert (X : forall s m, parse_uint s = UOk m -> (0 < m)%N -> (m < 2 ^ 63)%N -> (9223372036854775808 <=? m)%N = false).
  { intros s m _ _ L. apply N.leb_gt. exact L. }
  assert (P : forall ds n, (exists m, decimal ds m /\ n = Z.of_N m /\ (0 < n < 2 ^ 63)%Z) <->
    (match parse_uint ds with UOk n' => if (9223372036854775808 <=? n')%N then False else (0 < Z.of_N n')%Z /\ Z.of_N n' = n | _ => False end)).
  { intros ds n. split.
    - intros (m & D & -> & L). assert (U : parse_uint ds = UOk m) by (apply parse_uint_spec; split; auto; lia).
      rewrite U, (X _ _ U) by lia. lia.
    - destruct (parse_uint ds) as [m| |] eqn:U; try contradiction. apply parse_uint_spec in U as [D _].
      destruct (N.leb_spec 9223372036854775808 m); [contradiction|]. intros [L <-]. exists m. repeat split; auto. lia. }
  intros s n. unfold positive_int, is_positive_integer_token, atoi_value.
  assert (A : forall ds, match (match parse_uint ds with USyntax => ISyntax | URange => IRange 9223372036854775807 | UOk n => if (9223372036854775808 <=? n)%N then IRange 9223372036854775807 else IOk (Z.of_N n) end) with
      IOk n => (0 <? n)%Z | _ => false end = true /\
      match (match parse_uint ds with USyntax => ISyntax | URange => IRange 9223372036854775807 | UOk n => if (9223372036854775808 <=? n)%N then IRange 9223372036854775807 else IOk (Z.of_N n) end) with
      IOk n => n | ISyntax => 0%Z | IRange n => n end = n <-> exists m, decimal ds m /\ n = Z.of_N m /\ (0 < n < 2 ^ 63)%Z).
  { intros ds. rewrite P. destruct (parse_uint ds) as [m| |]; [|intuition discriminate..].
    destruct (9223372036854775808 <=? m)%N; [intuition discriminate|]. rewrite Z.ltb_lt. tauto. }
  unfold atoi.
  destruct s as [|c s]; [split; [intros (ds & m & [<-|E] & D & _); [now apply decimal_spec in D as [D _]; elim D|discriminate]|intros [E _]; discriminate]|].
  assert (G : (c <> "+"%char /\ c <> "-"%char) \/ c = "+"%char \/ c = "-"%char).
  { destruct (ascii_dec c "+"), (ascii_dec c "-"); auto. }
  destruct G as [[G1 G2]|[->| ->]].
  - replace (match c with "+"%char => (false, parse_uint s) | "-"%char => (true, parse_uint s) | _ => (false, parse_uint (String c s)) end)
      with (false, parse_uint (String c s)) by (clear - G1 G2; destruct c as [[] [] [] [] [] [] [] []]; congruence).
    rewrite A. split.
    + intros (ds & m & [<-|E] & D & K); [eauto|inversion E; congruence].
    + intros (m & D & K). exists (String c s), m. auto.
  - rewrite A. split.
    + intros (ds & m & [<-|E] & D & K); [apply decimal_sign in D; tauto|inversion E; subst; eauto].
    + intros (m & D & K). exists s, m. auto.
  - split.
    + intros (ds & m & [<-|E] & D & K); [apply decimal_sign in D; tauto|discriminate].
    + destruct (parse_uint s) as [m| |]; [|intuition discriminate..]. destruct (9223372036854775808 <? m)%N; [intuition discriminate|].
      intros [E _]. apply Z.ltb_lt in E. lia.
Qed.
Theorem not_positive : forall s, is_positive_integer_token s = false <-> forall n, ~ positive_int s n.
Proof.
  intros s. split.
  - intros E n H. apply positive_spec in H. destruct H. congruence.
  - intros H. destruct (is_positive_integer_token s) eqn:E; auto. elim (H (atoi_value s)). now apply positive_spec.
Qed.
