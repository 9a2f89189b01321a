(** The text is read as in Decodes.v. *)
From Coq Require Import String Ascii NArith ZArith List Bool Lia.
From Verif Require Import GoStr Types Lexer Parse Utf8 Decodes.
From Verif Require LexicalFacts.
Import ListNotations.
Open Scope string_scope.
Open Scope N_scope.
Ltac Zify.zify_post_hook ::= Z.to_euclidean_division_equations.

Lemma byte_N : forall b n, n = N_of_ascii b -> byte n = b.
Proof. intros b n ->. apply ascii_N_embedding. Qed.
Lemma write_1 : forall b, N_of_ascii b < 128 -> is_scalar (N_of_ascii b) = true /\ utf8_rune (N_of_ascii b) = String b "".
Proof.
  intros b H. assert (S : is_scalar (N_of_ascii b) = true) by (unfold is_scalar; rewrite orb_true_iff, N.ltb_lt; lia). split; auto.
  unfold utf8_rune. rewrite S. apply N.ltb_lt in H. rewrite H. now rewrite (byte_N b).
Qed.
Lemma write_2 : forall b0 b1, in_range 194 223 b0 = true -> in_range 128 191 b1 = true ->
  let r := (N_of_ascii b0 - 192) * 64 + low6 b1 in is_scalar r = true /\ utf8_rune r = String b0 (String b1 "").
Proof.
  intros b0 b1 H0 H1 r. apply in_range_N in H0, H1. unfold low6 in r.
  assert (S : is_scalar r = true) by (unfold is_scalar; rewrite orb_true_iff, N.ltb_lt; lia). split; auto.
  unfold utf8_rune. rewrite S. destruct (N.ltb_spec r 128); [lia|]. destruct (N.ltb_spec r 2048); [|lia].
  rewrite (byte_N b0), (byte_N b1); auto; lia.
Qed.
Lemma write_3 : forall b0 b1 b2, in_range 224 239 b0 = true ->
  in_range (if N_of_ascii b0 =? 224 then 160 else 128) (if N_of_ascii b0 =? 237 then 159 else 191) b1 = true -> in_range 128 191 b2 = true ->
  let r := (N_of_ascii b0 - 224) * 4096 + low6 b1 * 64 + low6 b2 in is_scalar r = true /\ utf8_rune r = String b0 (String b1 (String b2 "")).
Proof.
  intros b0 b1 b2 H0 H1 H2 r. apply in_range_N in H0, H1, H2. unfold low6 in r.
  assert (L : 2048 <= r < 65536) by (destruct (N.eqb_spec (N_of_ascii b0) 224), (N.eqb_spec (N_of_ascii b0) 237); lia).
  assert (S : is_scalar r = true).
  { unfold is_scalar. rewrite orb_true_iff, andb_true_iff, !N.ltb_lt, N.leb_le.
    destruct (N.eqb_spec (N_of_ascii b0) 224), (N.eqb_spec (N_of_ascii b0) 237); lia. }
  split; auto. unfold utf8_rune. rewrite S. destruct (N.ltb_spec r 128); [lia|]. destruct (N.ltb_spec r 2048); [lia|]. destruct (N.ltb_spec r 65536); [|lia].
  assert (R : 128 <= N_of_ascii b1 <= 191) by (destruct (N.eqb_spec (N_of_ascii b0) 224), (N.eqb_spec (N_of_ascii b0) 237); lia). clear H1.
  rewrite (byte_N b0), (byte_N b1), (byte_N b2); auto; lia.
Qed.
Lemma write_4 : forall b0 b1 b2 b3, in_range 240 244 b0 = true ->
  in_range (if N_of_ascii b0 =? 240 then 144 else 128) (if N_of_ascii b0 =? 244 then 143 else 191) b1 = true ->
  in_range 128 191 b2 = true -> in_range 128 191 b3 = true ->
  let r := (N_of_ascii b0 - 240) * 262144 + low6 b1 * 4096 + low6 b2 * 64 + low6 b3 in
  is_scalar r = true /\ utf8_rune r = String b0 (String b1 (String b2 (String b3 ""))).
Proof.
  intros b0 b1 b2 b3 H0 H1 H2 H3 r. apply in_range_N in H0, H1, H2, H3. unfold low6 in r.
  assert (L : 65536 <= r < 1114112) by (destruct (N.eqb_spec (N_of_ascii b0) 240), (N.eqb_spec (N_of_ascii b0) 244); lia).
  assert (S : is_scalar r = true) by (unfold is_scalar; rewrite orb_true_iff, andb_true_iff, !N.ltb_lt, N.leb_le; lia).
  split; auto. unfold utf8_rune. rewrite S. destruct (N.ltb_spec r 128); [lia|]. destruct (N.ltb_spec r 2048); [lia|]. destruct (N.ltb_spec r 65536); [lia|].
  assert (R : 128 <= N_of_ascii b1 <= 191) by (destruct (N.eqb_spec (N_of_ascii b0) 240), (N.eqb_spec (N_of_ascii b0) 244); lia). clear H1 L S.
  rewrite (byte_N b0), (byte_N b1), (byte_N b2), (byte_N b3); auto; lia.
Qed.

Lemma first_char : forall b s, (exists r t, is_scalar r = true /\ String b s = utf8_rune r ++ t) \/ runes_of (String b s) = 65533 :: runes_of s.
Proof.
  intros b s. cbn [runes_of]. destruct (N.ltb_spec (N_of_ascii b) 128) as [L|L].
  { left. destruct (write_1 b L) as [S W]. exists (N_of_ascii b), s. now rewrite W. }
  destruct (in_range 194 223 b) eqn:R2.
  { destruct s as [|b1 s]; [now right|]. destruct (in_range 128 191 b1) eqn:R; [left|now right].
    destruct (write_2 b b1 R2 R) as [S W]. eexists. exists s. split; [exact S|]. now rewrite W. }
  destruct (in_range 224 239 b) eqn:R3.
  { destruct s as [|b1 [|b2 s]]; [now right|now right|].
    destruct (in_range _ _ b1) eqn:Ra; [|now right]. destruct (in_range 128 191 b2) eqn:Rb; [left|now right].
    destruct (write_3 b b1 b2 R3 Ra Rb) as [S W]. eexists. exists s. split; [exact S|]. now rewrite W. }
  destruct (in_range 240 244 b) eqn:R4; [|now right].
  destruct s as [|b1 [|b2 [|b3 s]]]; [now right|now right|now right|].
  destruct (in_range _ _ b1) eqn:Ra; [|now right]. destruct (in_range 128 191 b2) eqn:Rb; [|now right]. destruct (in_range 128 191 b3) eqn:Rc; [left|now right].
  destruct (write_4 b b1 b2 b3 R4 Ra Rb Rc) as [S W]. eexists. exists s. split; [exact S|]. now rewrite W.
Qed.
(** a byte read as U+FFFD by itself is not the first of a character *)
Lemma bad_byte : forall b s, runes_of (String b s) = 65533 :: runes_of s -> forall r t, is_scalar r = true -> String b s <> utf8_rune r ++ t.
Proof.
  intros b s H r t S E. rewrite E, runes_of_utf8_rune in H by exact S. injection H as -> H.
  change (utf8_rune 65533) with (String "239" (String "191" (String "189" ""))) in E. cbn [append] in E. injection E as -> ->.
  change (runes_of (String "191" (String "189" t))) with (65533 :: 65533 :: runes_of t) in H.
  apply (f_equal (@length rune)) in H. cbn in H. lia.
Qed.
Lemma runes_decodes : forall s, decodes s (runes_of s).
Proof.
  intros s. remember (String.length s) as n eqn:E. assert (L : (String.length s <= n)%nat) by lia. clear E. revert s L.
  induction n as [|n IH]; intros [|b s] L; try constructor; [cbn in L; lia|]. cbn [String.length] in L.
  destruct (first_char b s) as [(r & t & S & E)|E].
  - rewrite E, runes_of_utf8_rune by exact S. constructor; auto. apply IH.
    apply (f_equal String.length) in E. assert (A : String.length (utf8_rune r ++ t) = (String.length (utf8_rune r) + String.length t)%nat).
    { clear. induction (utf8_rune r); cbn; auto. }
    rewrite A in E. cbn [String.length] in E. enough (0 < String.length (utf8_rune r))%nat by lia.
    unfold utf8_rune. repeat match goal with |- context [if ?c then _ else _] => destruct c end; cbn; lia.
  - rewrite E. constructor; [|apply IH; lia]. now apply bad_byte.
Qed.
Theorem decodes_iff : forall s rs, decodes s rs <-> rs = runes_of s.
Proof.
  intros s rs. split; [|intros ->; apply runes_decodes]. induction 1 as [|r s rs S D IH|b s rs N D IH]; [reflexivity| |].
  - now rewrite runes_of_utf8_rune, IH by exact S.
  - destruct (first_char b s) as [(r & t & S & E)|E]; [contradiction (N r t S E)|]. now rewrite E, IH.
Qed.

(** What is not UTF-8 can be replaced by U+FFFD before. *)
Theorem repaired : forall n ddl d, Parse n (utf8 (runes_of ddl)) d = Parse n ddl d.
Proof.
  intros n ddl d. unfold Parse, Lex. rewrite runes_of_utf8; [reflexivity|]. apply LexicalFacts.runes_scalars.
Qed.
