(** Texts that follow each other. *)
From Coq Require Import String Ascii ZArith List Bool Arith NArith Lia.
From Verif Require Import GoStr GoNum Types Lexer VBase Exec Grammar GrammarFacts Ast Converter Parse Fuel Scan Spec Pipe
  Text Utf8 Accept Meaning NoPanic Total Decide Origin Local.
Import ListNotations.
Open Scope nat_scope.
Open Scope string_scope.

(** ** Decoding *)

Lemma runes_nl : forall a b, runes_of (a ++ String "010" b) = (runes_of a ++ 10%N :: runes_of b)%list.
Proof.
  intros a b. remember (String.length a) as k. revert a Heqk.
  induction k as [k IH] using lt_wf_ind. intros a ->.
  destruct a as [|b0 s1]; [reflexivity|].
  assert (I1 : runes_of (s1 ++ String "010" b) = (runes_of s1 ++ 10%N :: runes_of b)%list) by (eapply IH; [|reflexivity]; cbn; lia).
  cbn [append runes_of]. cbn [append] in I1.
  destruct (N_of_ascii b0 <? 128)%N; [cbn [app]; now rewrite I1|].
  destruct (in_range 194 223 b0).
  { destruct s1 as [|b1 s2]; cbn [append]; [reflexivity|]. cbn [append] in I1.
    destruct (in_range 128 191 b1); [|cbn [app]; now rewrite I1].
    cbn [app]. f_equal. eapply IH; [|reflexivity]. cbn. lia. }
  destruct (in_range 224 239 b0).
  { destruct s1 as [|b1 [|b2 s3]]; cbn [append] in *.
    - destruct b as [|b1 b]; [cbn [app]; now rewrite I1|].
      replace (in_range _ _ "010") with false; [cbn [andb app]; now rewrite I1|].
      symmetry. apply not_true_is_false. intros X. apply in_range_N in X. cbn in X. destruct (N_of_ascii b0 =? 224)%N; lia.
    - rewrite andb_comm. change (in_range 128 191 "010") with false. cbn [andb app]. now rewrite I1.
    - destruct (_ && _); [|cbn [app]; now rewrite I1]. cbn [app]. f_equal. eapply IH; [|reflexivity]. cbn. lia. }
  destruct (in_range 240 244 b0); [|cbn [app]; now rewrite I1].
  destruct s1 as [|b1 [|b2 [|b3 s4]]]; cbn [append] in *.
  - destruct b as [|x [|y b]]; try (cbn [app]; now rewrite I1).
    replace (in_range _ _ "010") with false; [cbn [andb app]; now rewrite I1|].
    symmetry. apply not_true_is_false. intros X. apply in_range_N in X. cbn in X. destruct (N_of_ascii b0 =? 240)%N; lia.
  - destruct b as [|x b]; try (cbn [app]; now rewrite I1).
    change (in_range 128 191 "010") with false. rewrite andb_false_r. cbn [andb app]. now rewrite I1.
  - change (in_range 128 191 "010") with false. rewrite andb_false_r. cbn [app]. now rewrite I1.
  - destruct (_ && _ && _); [|cbn [app]; now rewrite I1]. cbn [app]. f_equal. eapply IH; [|reflexivity]. cbn. lia.
Qed.

(** ** The lexer *)

Definition after (l : list string) (r : lout) : lout :=
  match r with
  | TOk l' => TOk (l ++ l')%list
  | TErr n near => TErr (count_nl l + n) near
  end.
Lemma pre_after : forall o (nl : bool) l r, count_nl o = (if nl then 1 else 0) -> pre o nl (after l r) = after (o ++ l)%list r.
Proof.
  intros o nl l [l'|n near] H; cbn [after pre]; [now rewrite app_assoc|].
  rewrite count_nl_app, H. destruct nl; reflexivity.
Qed.


Lemma scan_M0_nl : forall d rs, scan d (M0 "") (c_nl :: rs) = after [NL] (scan d (M0 "") rs).
Proof. intros. cbn. destruct (scan d (M0 "") rs); reflexivity. Qed.
Lemma scan_word_nl : forall d t rs, t <> NL ->
  pre (flush t ++ [NL])%list true (scan d (M0 "") (c_nl :: rs)) = after (flush t ++ [NL; NL])%list (scan d (M0 "") rs).
Proof.
  intros d t rs N. rewrite scan_M0_nl, pre_after; [now rewrite <- app_assoc|].
  rewrite count_nl_app, flush_count; auto.
Qed.

Lemma finish_blank : forall d m past l rs, pend past m -> finish m = TOk l ->
  scan d m (c_nl :: c_nl :: rs) = after (l ++ [NL; NL])%list (scan d (M0 "") rs).
Proof.
  assert (W : forall t c, c <> c_nl -> flush (t ++ utf8_rune c) = [t ++ utf8_rune c]).
  { intros t c _. apply flush_nonempty, append_nonempty, utf8_rune_nonempty. }
  intros d m past l rs P F. destruct m as [t|t|t|t|t|m| | | |q str stk|q str stk]; cbn [finish] in F; try discriminate.
  - inversion F; subst. change (scan d (M0 t) (c_nl :: c_nl :: rs)) with (pre (flush t ++ [NL])%list true (scan d (M0 "") (c_nl :: rs))).
    apply scan_word_nl, P.
  - inversion F; subst. change (scan d (M2 t) (c_nl :: c_nl :: rs)) with (pre (flush t ++ [NL])%list true (scan d (M0 "") (c_nl :: rs))).
    apply scan_word_nl, P.
  - inversion F; subst. rewrite <- W by discriminate.
    change (scan d (MHyphen t) (c_nl :: c_nl :: rs)) with (pre (flush (t ++ utf8_rune c_minus) ++ [NL])%list true (scan d (M0 "") (c_nl :: rs))).
    apply scan_word_nl, snoc_NL. discriminate.
  - inversion F; subst. rewrite <- W by discriminate.
    change (scan d (MSlash t) (c_nl :: c_nl :: rs)) with (pre (flush (t ++ utf8_rune c_slash) ++ [NL])%list true (scan d (M0 "") (c_nl :: rs))).
    apply scan_word_nl, snoc_NL. discriminate.
  - inversion F; subst. rewrite <- W by discriminate.
    change (scan d (MStar t) (c_nl :: c_nl :: rs)) with (pre (flush (t ++ utf8_rune c_star) ++ [NL])%list true (scan d (M0 "") (c_nl :: rs))).
    apply scan_word_nl, snoc_NL. discriminate.
  - assert (E : l = []) by (destruct P as [-> | ->]; inversion F; reflexivity). subst.
    destruct P as [-> | ->]; cbn; destruct (scan d (M0 "") rs); reflexivity.
Qed.

Theorem scan_blank : forall d rs1 past m l rs2, pend past m -> scan d m rs1 = TOk l ->
  scan d m (rs1 ++ c_nl :: c_nl :: rs2)%list = after (l ++ [NL; NL])%list (scan d (M0 "") rs2).
Proof.
  induction rs1 as [|c rs1 IH]; intros past m l rs2 P H; cbn [app].
  - eapply finish_blank; eauto.
  - cbn [scan] in H |- *. pose proof (step_from d past m c P) as S.
    destruct (step d m c) as [out nl m'|near]; [|discriminate]. destruct S as (_ & S2 & _ & S4).
    destruct (scan d m' rs1) as [l'|] eqn:E; [|discriminate]. inversion H; subst.
    rewrite (IH _ _ _ _ S2 E), pre_after by auto. now rewrite app_assoc.
Qed.

Definition shift (l : list string) (r : lex_result) : lex_result :=
  match r with
  | LexOk l' => LexOk (l ++ l')%list
  | LexErr e => LexErr (mk_verror (count_nl l + err_line e) (err_near e))
  | LexOutOfFuel => LexOutOfFuel
  end.
Definition blank : string := String "010" (String "010" "").
Theorem lexed_blank : forall d s1 s2 toks, lexed d (runes_of s1) = LexOk toks ->
  lexed d (runes_of (s1 ++ blank ++ s2)) = shift (toks ++ [NL; NL])%list (lexed d (runes_of s2)).
Proof.
  intros d s1 s2 toks H. unfold blank. cbn [append]. rewrite runes_nl. cbn [runes_of]. change (N_of_ascii "010" <? 128)%N with true.
  cbv iota. change (N_of_ascii "010") with c_nl. change 10%N with c_nl. unfold lexed in *.
  destruct (scan d (M0 "") (runes_of s1)) as [l|] eqn:E; [|discriminate]. cbn in H. inversion H; subst.
  rewrite (scan_blank d _ [] (M0 "") _ _ (ends_nil []) E).
  destruct (scan d (M0 "") (runes_of s2)) as [l'|n near]; cbn; auto. do 2 f_equal. lia.
Qed.

(** ** Parse *)

Theorem compose_accepted : forall d s1 s2 ts1 ts2, accepted s1 d ts1 -> accepted s2 d ts2 ->
  accepted (s1 ++ blank ++ s2) d (ts1 ++ ts2)%list.
Proof.
  intros d s1 s2 ts1 ts2 H1 H2. apply returns_stage in H1, H2. apply returns_stage.
  inversion H1 as [| |toks1 rest1 out1 ? L1 V1 K1]; subst. inversion H2 as [| |toks2 rest2 out2 ? L2 V2 K2]; subst.
  apply verdict_ok in V1 as [-> [v1 V1]]. apply verdict_ok in V2 as V2'. destruct V2' as [-> _].
  econstructor 3.
  - rewrite (lexed_blank _ _ _ _ L1), L2. reflexivity.
  - rewrite !strip_app. change (strip [NL; NL]) with (@nil string). rewrite app_nil_r.
    apply (verdict_app _ _ _ _ _ _ V1 V2).
  - apply converts_app; auto. eapply out_semi; eauto.
Qed.

Lemma nls_before_app : forall k a b, k <= List.length (strip b) -> nls_before k (a ++ b)%list = count_nl a + nls_before k b.
Proof.
  intros k a b H. induction a as [|t a IH]; [reflexivity|]. cbn [app nls_before]. unfold count_nl. cbn [filter].
  destruct (is_nl t) eqn:E.
  - cbn [List.length]. rewrite IH. reflexivity.
  - replace (Nat.leb (List.length (strip (t :: a ++ b)%list)) k) with false; [exact IH|].
    symmetry. apply Nat.leb_gt. cbn [strip filter]. rewrite E. cbn [negb List.length]. fold (strip (a ++ b)%list).
    rewrite strip_app, app_length. lia.
Qed.

Lemma line_of_blank : forall toks1 toks2 k, k <= List.length (strip toks2) ->
  line_of toks2 k + 1 <= line_of ((toks1 ++ [NL; NL]) ++ toks2)%list k <= line_of toks2 k + count_nl toks1 + 3.
Proof.
  intros toks1 toks2 k H.
  set (t2 := match toks2 with t :: l' => if is_nl t then l' else toks2 | [] => [] end).
  assert (A : exists a, nls_before k toks2 = a + nls_before k t2 /\ a <= 1).
  { unfold t2. destruct toks2 as [|t l']; [now exists 0; cbn; auto|]. destruct (is_nl t) eqn:E.
    - exists 1. cbn [nls_before]. rewrite E. auto.
    - exists 0. auto. }
  destruct A as (a & A & A1).
  assert (B : exists c, nls_before k (match ((toks1 ++ [NL; NL]) ++ toks2)%list with
      t :: l' => if is_nl t then l' else ((toks1 ++ [NL; NL]) ++ toks2)%list | [] => [] end)
      = c + nls_before k toks2 /\ 1 <= c <= count_nl toks1 + 2).
  { destruct toks1 as [|t toks1].
    - exists 1. cbn [app]. change (is_nl NL) with true. cbv iota. cbn. split; auto.
    - cbn [app]. destruct (is_nl t) eqn:E.
      + exists (count_nl toks1 + 2). rewrite nls_before_app by auto. rewrite count_nl_app. split; auto.
        unfold count_nl. cbn [filter]. rewrite E. cbn. lia.
      + exists (count_nl toks1 + 2). change (t :: (toks1 ++ [NL; NL]) ++ toks2)%list with ((t :: toks1 ++ [NL; NL]) ++ toks2)%list.
        rewrite nls_before_app by auto. change (t :: toks1 ++ [NL; NL])%list with ((t :: toks1) ++ [NL; NL])%list.
        rewrite count_nl_app. unfold count_nl. cbn [filter]. rewrite E. split; auto. lia. }
  destruct B as (c & B & B1). unfold line_of. rewrite B. fold t2. lia.
Qed.

Theorem compose_rejected : forall d s1 s2 ts1 line near, accepted s1 d ts1 -> rejected s2 d line near ->
  exists line', rejected (s1 ++ blank ++ s2) d line' near /\ line + 1 <= line' <= line + line_feeds s1 + 3.
Proof.
  intros d s1 s2 ts1 line near H1 H2. apply returns_stage in H1, H2.
  inversion H1 as [| |toks1 rest1 out1 ? L1 V1 K1]; subst.
  pose proof (lexed_from d (runes_of s1)) as F. rewrite L1 in F. destruct F as [_ F]. rewrite line_feeds_runes in F.
  apply verdict_ok in V1 as [-> [v1 V1]].
  inversion H2 as [e L2|toks2 rest2 L2 V2|]; subst.
  - exists (count_nl (toks1 ++ [NL; NL])%list + line). split.
    + apply returns_stage. econstructor 1. rewrite (lexed_blank _ _ _ _ L1), L2. reflexivity.
    + rewrite count_nl_app. change (count_nl [NL; NL]) with 2. lia.
  - exists (line_of ((toks1 ++ [NL; NL]) ++ toks2)%list (List.length rest2)). split.
    + apply returns_stage. econstructor 2.
      * rewrite (lexed_blank _ _ _ _ L1), L2. reflexivity.
      * rewrite !strip_app. change (strip [NL; NL]) with (@nil string). rewrite app_nil_r.
        apply (verdict_app _ _ _ _ _ _ V1 V2).
    + destruct V2 as [_ [n V2]]. apply exec_err_suffix in V2 as [l1 V2].
      pose proof (line_of_blank toks1 toks2 (List.length rest2)) as X. rewrite V2, app_length in X. lia.
Qed.
