(** The text of an error determines the error. *)
From Coq Require Import String Ascii NArith List Bool Arith Lia.
From Verif Require Import GoStr Types Utf8 Numbers NumbersFacts GoNum ErrorText.
Import ListNotations.
Open Scope nat_scope.
Open Scope string_scope.

Lemma digit_in : forall k, (k < 10)%N -> In (ascii_of_N (48 + k), k) digit_table.
Proof.
  intros k H. assert (E : exists i, i < 10 /\ k = N.of_nat i) by (exists (N.to_nat k); lia). destruct E as (i & L & ->).
  do 10 (destruct i as [|i]; [cbn; tauto|]). lia.
Qed.
Lemma fmt_decimal : forall fuel n acc, (N.to_nat n < fuel)%nat -> exists s, fmt_digits fuel n acc = s ++ acc /\ decimal s n.
Proof.
  induction fuel as [|fuel IH]; intros n acc L; [lia|]. cbn [fmt_digits].
  assert (M : (n mod 10 < 10)%N) by (apply N.mod_lt; discriminate).
  pose proof (N.div_mod n 10 ltac:(discriminate)) as D.
  destruct (n / 10 =? 0)%N eqn:Z.
  - apply N.eqb_eq in Z. rewrite Z in D. exists (String (ascii_of_N (48 + n mod 10)) ""). split; [reflexivity|].
    rewrite D at 2. rewrite N.mul_0_r, N.add_0_l. constructor. now apply digit_in.
  - apply N.eqb_neq in Z.
    destruct (IH (n / 10)%N (String (ascii_of_N (48 + n mod 10)) acc)) as (s & E & S).
    { assert (n / 10 < n)%N by (apply N.div_lt; lia). lia. }
    exists (s ++ String (ascii_of_N (48 + n mod 10)) ""). rewrite E. split; [now rewrite append_assoc|].
    replace n with (10 * (n / 10) + n mod 10)%N at 2 by now symmetry. constructor; auto. now apply digit_in.
Qed.
Theorem fmt_d_decimal : forall n, decimal (fmt_d n) (N.of_nat n).
Proof.
  intros n. destruct (fmt_decimal (S n) (N.of_nat n) "") as (s & E & D); [lia|]. unfold fmt_d. rewrite E. now rewrite append_nil_r.
Qed.

Theorem error_text : forall line near, exists ds, decimal ds (N.of_nat line) /\
  Error (mk_verror line near) = "ValidateError: Syntax error: near '" ++ near ++ "' at line " ++ ds ++ ".".
Proof. intros. eexists. split; [apply fmt_d_decimal|reflexivity]. Qed.

(** ** The message determines the error *)

Lemma chars_app : forall a b, list_ascii_of_string (a ++ b) = (list_ascii_of_string a ++ list_ascii_of_string b)%list.
Proof. induction a; intros b; cbn; [reflexivity|]. now rewrite IHa. Qed.
Lemma chars_inj : forall a b, list_ascii_of_string a = list_ascii_of_string b -> a = b.
Proof. intros a b H. rewrite <- (string_of_list_ascii_of_string a), H. apply string_of_list_ascii_of_string. Qed.
Definition dig (c : ascii) : Prop := exists k, In (c, k) digit_table.
Lemma decimal_digits : forall s n, decimal s n -> Forall dig (list_ascii_of_string s).
Proof.
  induction 1 as [c k H|s n c k H IH I]; cbn; [constructor; [now exists k|constructor]|].
  rewrite chars_app. apply Forall_app. split; auto. cbn. constructor; [now exists k|constructor].
Qed.
Lemma digits_run : forall c (l l' r r' : list ascii), ~ dig c -> Forall dig l -> Forall dig l' ->
  (l ++ c :: r = l' ++ c :: r')%list -> l = l' /\ r = r'.
Proof.
  intros c l l' r r' N F. revert l'. induction F as [|x l X F IH]; intros l' F' E.
  - destruct F' as [|y l' Y F']; cbn in E; injection E; intros; subst; [auto|contradiction].
  - destruct F' as [|y l' Y F']; cbn in E; injection E; intros; subst; [contradiction|].
    destruct (IH l' F' H) as [-> ->]. auto.
Qed.
Lemma decimal_det : forall s n m, decimal s n -> decimal s m -> n = m.
Proof. intros s n m H K. apply decimal_spec in H as [_ H]. apply decimal_spec in K as [_ K]. congruence. Qed.

Theorem error_inj : forall e e', Error e = Error e' -> e = e'.
Proof.
  intros [n1 s1] [n2 s2] H. apply (f_equal list_ascii_of_string), (f_equal (@rev ascii)) in H. revert H.
  unfold Error. cbn [err_near err_line]. rewrite !chars_app, !rev_app_distr, <- !app_assoc.
  cbn [list_ascii_of_string rev app]. intros H. injection H as H.
  assert (R : forall n, Forall dig (rev (list_ascii_of_string (fmt_d n)))).
  { intros n. apply Forall_rev. eapply decimal_digits, fmt_d_decimal. }
  apply digits_run in H as [A B]; auto; [|intros [k K]; revert K; cbn; intuition discriminate].
  injection B as B. apply app_inv_tail in B. f_equal.
  - apply (f_equal (@rev ascii)) in A. rewrite !rev_involutive in A. apply chars_inj in A.
    pose proof (fmt_d_decimal n1) as D1. pose proof (fmt_d_decimal n2) as D2. rewrite A in D1.
    apply Nat2N.inj. eapply decimal_det; eauto.
  - apply (f_equal (@rev ascii)) in B. rewrite !rev_involutive in B. now apply chars_inj.
Qed.
