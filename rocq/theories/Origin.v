(** Where tokens come from. *)
From Coq Require Import String Ascii NArith List Bool Arith Lia.
From Verif Require Import GoStr Types Lexer VBase Exec Grammar GrammarFacts Parse Emit Fuel Scan Spec Pipe Text Utf8 Tokens Meaning NoPanic.
Import ListNotations.
Open Scope nat_scope.
Open Scope string_scope.

Lemma subseq_refl : forall A (l : list A), subseq l l.
Proof. induction l; constructor; auto. Qed.
Lemma subseq_app : forall A (a b c e : list A), subseq a b -> subseq c e -> subseq (a ++ c) (b ++ e).
Proof.
  intros A a b c e H K. induction H; cbn; try (constructor; auto; fail).
  induction l; cbn; auto. constructor; auto.
Qed.
Lemma subseq_r : forall A (a b c : list A), subseq a b -> subseq a (b ++ c).
Proof. intros A a b c H. rewrite <- (app_nil_r a). apply subseq_app; auto. constructor. Qed.
Lemma subseq_l : forall A (a b c : list A), subseq a b -> subseq a (c ++ b).
Proof. intros A a b c H. rewrite <- (app_nil_l a). apply subseq_app; auto. constructor. Qed.

Lemma taken_more : forall u rs v t, taken rs t -> taken (u ++ rs ++ v) t.
Proof.
  intros u rs v t [(x & w & y & -> & E)|[Q (w & S & E)]].
  - left. exists (u ++ x)%list, w, (y ++ v)%list. split; auto. rewrite !app_assoc. reflexivity.
  - right. split; auto. exists w. split; auto. now apply subseq_l, subseq_r.
Qed.
Lemma taken_right : forall rs v t, taken rs t -> taken (rs ++ v) t.
Proof. intros rs v t H. now apply (taken_more [] rs v). Qed.

Lemma utf8_snoc : forall w c, utf8 (w ++ [c]) = utf8 w ++ utf8_rune c.
Proof. intros. rewrite utf8_app. cbn [utf8]. now rewrite append_nil_r. Qed.

Definition ends (past : list rune) (t : string) (c : list rune) : Prop :=
  t <> NL /\ exists u w, past = (u ++ w ++ c)%list /\ t = utf8 w.
Definition pend (past : list rune) (m : mode) : Prop :=
  match m with
  | M0 t | M2 t => ends past t []
  | MHyphen t => ends past t [c_minus]
  | MSlash t => ends past t [c_slash]
  | MStar t => ends past t [c_star]
  | MLine m => m = M0 "" \/ m = M2 ""
  | MBlock | MBlockStar | MBlockSkip => True
  | MQuote _ str stk | MQSkip _ str stk =>
      quoted any_quote str = true /\ Forall (fun x => quoted any_quote (snd x) = true) stk /\
      exists ws w, str = utf8 w /\ map snd stk = map utf8 ws /\ subseq (concat (rev ws) ++ w) past
  end.

Lemma rune_NL : forall c, utf8_rune c = NL -> c = c_nl.
Proof.
  intros c H. destruct (rune_head c) as (b & s & E & B). rewrite H in E. inversion E; subst. cbn in B.
  destruct B as [B|B]; [now symmetry|]. exfalso. revert B. vm_compute. congruence.
Qed.
Lemma snoc_NL : forall t c, c <> c_nl -> t ++ utf8_rune c <> NL.
Proof.
  intros t c N H. destruct t as [|b t]; [cbn in H; now apply rune_NL in H|].
  inversion H. apply append_nonempty in H2; auto. apply utf8_rune_nonempty.
Qed.
Lemma ends_nil : forall past, ends past "" [].
Proof. intros. split; [discriminate|]. exists past, []. now rewrite app_nil_r. Qed.
Lemma ends_snoc : forall past t c, ends past t [] -> c <> c_nl -> ends (past ++ [c]) (t ++ utf8_rune c) [].
Proof.
  intros past t c (N & u & w & -> & ->) M. split; [now apply snoc_NL|]. exists u, (w ++ [c])%list. rewrite utf8_snoc. split; auto.
  rewrite !app_nil_r, !app_assoc. reflexivity.
Qed.
Lemma ends_move : forall past t c, ends past t [c] -> c <> c_nl -> ends past (t ++ utf8_rune c) [].
Proof.
  intros past t c (N & u & w & -> & ->) M. split; [now apply snoc_NL|]. exists u, (w ++ [c])%list. rewrite utf8_snoc. split; auto.
  now rewrite app_nil_r.
Qed.
Lemma ends_next : forall past t c, ends past t [] -> ends (past ++ [c]) t [c].
Proof. intros past t c (N & u & w & -> & ->). split; auto. exists u, w. split; auto. now rewrite app_nil_r, <- app_assoc. Qed.
Lemma ends_taken : forall past t c, ends past t c -> taken past t.
Proof. intros past t c (N & u & w & -> & ->). left. exists u, w, c. auto. Qed.
Lemma flush_taken : forall past t, taken past t -> Forall (taken past) (flush t).
Proof. intros past t H. unfold flush. destruct (t =? ""); constructor; auto. Qed.
Lemma last_taken : forall past c, taken (past ++ [c]) (utf8_rune c).
Proof. intros. left. exists past, [c], []. split; auto. cbn. now rewrite append_nil_r. Qed.

Definition nls (rs : list rune) : nat := List.length (filter (fun c => c =? c_nl)%N rs).
Lemma nls_cons : forall c rs, nls (c :: rs) = (if (c =? c_nl)%N then 1 else 0) + nls rs.
Proof. intros. unfold nls. cbn. destruct (c =? c_nl)%N; reflexivity. Qed.

Definition act_from (past : list rune) (c : rune) (a : act) : Prop :=
  match a with
  | Go out nl m => Forall (taken (past ++ [c])) out /\ pend (past ++ [c]) m /\ (nl = true -> c = c_nl) /\
      count_nl out = (if nl then 1 else 0)
  | Stop near => taken (past ++ [c]) near /\ near <> EOF
  end.

(** a token that is not a line break *)
Lemma flush_count : forall t, t <> NL -> count_nl (flush t) = 0.
Proof.
  intros t N. unfold flush. destruct (t =? ""); auto. unfold count_nl, is_nl. cbn [filter].
  destruct (t =? NL) eqn:E; auto. apply String.eqb_eq in E. contradiction.
Qed.

Lemma step2_from : forall d past t c, ends past t [] -> act_from past c (step2 d t c).
Proof.
  intros d past t c E.
  assert (F : Forall (taken (past ++ [c])) (flush t)).
  { apply flush_taken, taken_right. eapply ends_taken; eauto. }
  assert (N : count_nl (flush t) = 0) by (apply flush_count, E).
  assert (Q : is_quote c = true -> act_from past c (Go (flush t) false (MQuote c (utf8_rune c) []))).
  { intros Q. split; [exact F|]. split; [|split; [discriminate|lia]]. split; [|split; [constructor|]].
    - unfold is_quote in Q. apply orb_true_iff in Q as [Q|Q]; [apply orb_true_iff in Q as [Q|Q]|]; apply N.eqb_eq in Q; now subst.
    - exists [], [c]. split; [cbn; now rewrite append_nil_r|]. split; auto. apply subseq_l, subseq_refl. }
  assert (S : utf8_rune c <> EOF -> act_from past c (Stop (utf8_rune c))).
  { intros X. split; auto. apply last_taken. }
  unfold step2.
  destruct (c =? c_dquote)%N eqn:E1; [apply Q; unfold is_quote; now rewrite E1|].
  destruct (c =? c_squote)%N eqn:E2; [apply Q; unfold is_quote; now rewrite E1, E2|].
  destruct (c =? c_bquote)%N eqn:E3.
  { assert (B : is_quote c = true) by (unfold is_quote; now rewrite E1, E2, E3).
    apply N.eqb_eq in E3. destruct d; try (apply Q; auto). subst c. apply S. discriminate. }
  assert (A : c <> c_nl -> act_from past c (Go [] false (M0 (t ++ utf8_rune c)))).
  { intros M. split; [constructor|]. split; [now apply ends_snoc|]. split; [discriminate|reflexivity]. }
  destruct (c =? c_sharp)%N eqn:E4.
  { apply N.eqb_eq in E4. destruct d; try (apply A; now subst c).
    split; [exact F|]. split; [now left|]. split; [discriminate|lia]. }
  destruct (_ || _)%N eqn:E5.
  { split; [exact F|]. split; [apply ends_nil|]. split; [discriminate|lia]. }
  destruct (c =? c_nl)%N eqn:E6.
  { apply N.eqb_eq in E6. split; [apply Forall_app; split; [exact F|]; constructor; auto|].
    - subst. apply (last_taken past c_nl).
    - split; [apply ends_nil|]. split; auto. rewrite count_nl_app, N. reflexivity. }
  apply N.eqb_neq in E6.
  destruct (is_symbol c) eqn:E7.
  { split; [apply Forall_app; split; [exact F|]; constructor; auto; apply last_taken|].
    split; [apply ends_nil|]. split; [discriminate|]. rewrite count_nl_app, N.
    unfold count_nl, is_nl. cbn. destruct (utf8_rune c =? NL) eqn:X; auto.
    apply String.eqb_eq, rune_NL in X. contradiction. }
  destruct (c =? c_wide)%N eqn:E8; [|now apply A].
  apply N.eqb_eq in E8. subst. apply S. discriminate.
Qed.

Lemma count_NL : count_nl [NL] = 1.
Proof. reflexivity. Qed.
Lemma is_quote_quoted : forall c s, is_quote c = true -> quoted any_quote (utf8_rune c ++ s) = true.
Proof.
  intros c s Q. unfold is_quote in Q.
  apply orb_true_iff in Q as [Q|Q]; [apply orb_true_iff in Q as [Q|Q]|]; apply N.eqb_eq in Q; now subst.
Qed.
Lemma quoted_ext : forall t s, quoted any_quote t = true -> quoted any_quote (t ++ s) = true.
Proof. intros t s H. rewrite quoted_app; auto. intros ->. discriminate. Qed.
Lemma quoted_NL : forall t, quoted any_quote t = true -> count_nl [t] = 0.
Proof.
  intros t H. unfold count_nl, is_nl. cbn. destruct (t =? NL) eqn:E; auto. apply String.eqb_eq in E. subst. discriminate.
Qed.

Lemma step_from : forall d past m c, pend past m -> act_from past c (step d m c).
Proof.
  intros d past m c P.
  assert (LE : forall m, act_from past c (Go [] false m) <-> pend (past ++ [c]) m).
  { intros m'. split; [intros (_ & X & _); exact X|]. intros X. split; [constructor|]. split; auto. split; [discriminate|reflexivity]. }
  assert (NLE : c = c_nl -> forall m, pend (past ++ [c]) m -> act_from past c (Go [NL] true m)).
  { intros -> m' X. split; [constructor; [apply (last_taken past c_nl)|constructor]|]. split; auto. }
  assert (FL : forall t k m, ends past t k -> pend (past ++ [c]) m -> act_from past c (Go (flush t) false m)).
  { intros t k m' X Y. split; [|split; [exact Y|split; [discriminate|rewrite flush_count; [lia|apply X]]]].
    apply flush_taken, taken_right. eapply ends_taken; eauto. }
  destruct m as [t|t|t|t|t|m| | | |q str stk|q str stk]; cbn [step].
  - destruct (c =? c_minus)%N eqn:E1; [apply N.eqb_eq in E1; subst; apply LE; now apply ends_next|].
    destruct (c =? c_slash)%N eqn:E2; [apply N.eqb_eq in E2; subst; apply LE; now apply ends_next|].
    destruct (c =? c_star)%N eqn:E3; [apply N.eqb_eq in E3; subst; apply LE; now apply ends_next|].
    now apply step2_from.
  - now apply step2_from.
  - destruct (c =? c_minus)%N; [eapply FL; [exact P|now right]|].
    apply step2_from. apply ends_move; [exact P|discriminate].
  - destruct (c =? c_star)%N; [eapply FL; [exact P|exact I]|].
    apply step2_from. apply ends_move; [exact P|discriminate].
  - destruct (c =? c_slash)%N.
    + split; [|discriminate]. destruct P as (_ & u & w & -> & _). left. exists (u ++ w)%list, [c_star], [c].
      split; [|reflexivity]. now rewrite <- !app_assoc.
    + apply step2_from. apply ends_move; [exact P|discriminate].
  - destruct (c =? c_nl)%N eqn:E; [apply N.eqb_eq in E; apply NLE; auto|now apply LE].
    destruct P as [-> | ->]; apply ends_nil.
  - destruct (c =? c_nl)%N eqn:E; [apply N.eqb_eq in E; apply NLE; auto; exact I|].
    destruct (c =? c_star)%N; [apply LE; exact I|]. destruct (c =? c_slash)%N; apply LE; exact I.
  - destruct (c =? c_slash)%N; apply LE; [apply ends_nil|exact I].
  - apply LE. exact I.
  - destruct P as (Q & F & ws & w & -> & E & S).
    destruct (c =? c_nl)%N eqn:E1.
    { apply N.eqb_eq in E1. apply NLE; auto. split; auto. split; auto. exists ws, w. split; auto. split; auto. now apply subseq_r. }
    destruct (c =? q)%N eqn:E2.
    + destruct stk as [|[q' str'] stk]; cbn [close].
      * split; [|split; [apply ends_nil|split; [discriminate|]]].
        -- constructor; auto. right. split; [now apply quoted_ext|]. exists (w ++ [c])%list. split; [|now rewrite utf8_snoc].
           destruct ws; [|discriminate]. apply subseq_app; auto. apply subseq_refl.
        -- rewrite quoted_NL; auto. now apply quoted_ext.
      * apply LE. inversion F; subst. cbn [snd] in *. split; [now apply quoted_ext|]. split; auto.
        destruct ws as [|w' ws]; [discriminate|]. cbn [map] in E. inversion E as [[Ea Eb]]. cbn [snd] in *.
        exists ws, (w' ++ w ++ [c])%list. split; [rewrite !utf8_app; cbn [utf8]; now rewrite append_nil_r|]. split; auto.
        cbn [rev] in S. rewrite concat_app in S. cbn [concat] in S. rewrite app_nil_r in S.
        replace (concat (rev ws) ++ w' ++ w ++ [c])%list with (((concat (rev ws) ++ w') ++ w) ++ [c])%list by now rewrite <- !app_assoc.
        apply subseq_app; auto. apply subseq_refl.
    + destruct (is_quote c) eqn:E3; apply LE.
      * split; [rewrite <- (append_nil_r (utf8_rune c)); now apply is_quote_quoted|]. split; [constructor; auto|].
        exists (w :: ws), [c]. split; [cbn; now rewrite append_nil_r|]. split; [cbn; now rewrite E|].
        cbn [rev]. rewrite concat_app. cbn [concat]. rewrite app_nil_r. apply subseq_app; auto. apply subseq_refl.
      * split; [now apply quoted_ext|]. split; auto. exists ws, (w ++ [c])%list. split; [now rewrite utf8_snoc|]. split; auto.
        rewrite app_assoc. apply subseq_app; auto. apply subseq_refl.
  - apply LE. destruct P as (Q & F & ws & w & -> & E & S). split; auto. split; auto. exists ws, w. split; auto. split; auto.
    now apply subseq_r.
Qed.

Lemma finish_from : forall m past, pend past m ->
  match finish m with
  | TOk l => Forall (taken past) l /\ count_nl l = 0
  | TErr n near => n = 0 /\ near = EOF
  end.
Proof.
  assert (X : forall past t c, c <> c_nl -> ends past t [c] -> Forall (taken past) [t ++ utf8_rune c] /\ count_nl [t ++ utf8_rune c] = 0).
  { intros past t c N E. apply ends_move in E; auto. split.
    - constructor; auto. eapply ends_taken; eauto.
    - unfold count_nl, is_nl. cbn. destruct (t ++ utf8_rune c =? NL) eqn:Y; auto.
      apply String.eqb_eq in Y. now apply snoc_NL in Y. }
  intros m past P. destruct m; cbn [finish pend] in *; auto;
    try (apply X; [discriminate|exact P]); try (split; [apply flush_taken; eapply ends_taken; eauto|apply flush_count, P]).
  destruct P as [-> | ->]; cbn; auto.
Qed.

Theorem scan_from : forall d rs past m, pend past m ->
  match scan d m rs with
  | TOk l => Forall (taken (past ++ rs)) l /\ count_nl l <= nls rs
  | TErr n near => n <= nls rs /\ (near = EOF \/ taken (past ++ rs) near)
  end.
Proof.
  induction rs as [|c rs IH]; intros past m P; cbn [scan].
  - rewrite app_nil_r. pose proof (finish_from m past P) as F. destruct (finish m); destruct F as [F1 F2]; split; auto; lia.
  - pose proof (step_from d past m c P) as S. rewrite nls_cons. destruct (step d m c) as [out nl m'|near]; cbn [act_from] in S.
    + destruct S as (S1 & S2 & S3 & S4). specialize (IH _ _ S2). rewrite <- app_assoc in IH. cbn [app] in IH.
      assert (B : (if nl then 1 else 0) <= if (c =? c_nl)%N then 1 else 0).
      { destruct nl; [|lia]. rewrite S3, N.eqb_refl; auto. }
      destruct (scan d m' rs) as [l|n near]; cbn [pre].
      * destruct IH as [I1 I2]. split; [|rewrite count_nl_app; lia]. apply Forall_app. split; auto.
        eapply Forall_impl; [|exact S1]. intros t T. apply (taken_right _ rs) in T. now rewrite <- app_assoc in T.
      * destruct IH as [I1 I2]. split; auto. destruct nl; lia.
    + destruct S as [S1 S2]. split; [lia|]. right. apply (taken_right _ rs) in S1. now rewrite <- app_assoc in S1.
Qed.

Theorem lexed_from : forall d rs,
  match lexed d rs with
  | LexOk l => Forall (taken rs) l /\ count_nl l <= nls rs
  | LexErr e => 1 <= err_line e <= 1 + nls rs /\ (err_near e = EOF \/ taken rs (err_near e))
  | LexOutOfFuel => False
  end.
Proof.
  intros d rs. unfold lexed. pose proof (scan_from d rs [] (M0 "") (ends_nil [])) as H. cbn [app] in H.
  destruct (scan d (M0 "") rs) as [l|n near]; cbn [emb]; cbn; auto. destruct H. split; auto. lia.
Qed.

(** Line feeds are counted in bytes or in characters. *)
Lemma byte_feed : forall b, (128 <= N_of_ascii b)%N -> Ascii.eqb b "010" = false.
Proof. intros b H. apply Ascii.eqb_neq. intros ->. revert H. vm_compute. congruence. Qed.
Lemma nls_big : forall r rs, (128 <= r)%N -> nls (r :: rs) = nls rs.
Proof.
  intros r rs H. rewrite nls_cons. destruct (r =? c_nl)%N eqn:E; auto. apply N.eqb_eq in E. subst.
  revert H. vm_compute. congruence.
Qed.
Lemma line_feeds_runes : forall ddl, nls (runes_of ddl) = line_feeds ddl.
Proof.
  intros ddl. remember (String.length ddl) as k. revert ddl Heqk.
  induction k as [k IH] using lt_wf_ind. intros ddl ->.
  destruct ddl as [|b0 s1]; [reflexivity|].
  assert (I1 : nls (runes_of s1) = line_feeds s1) by (eapply IH; [|reflexivity]; cbn; lia).
  assert (R : forall r, (128 <= N_of_ascii b0)%N -> (128 <= r)%N -> nls (r :: runes_of s1) = line_feeds (String b0 s1)).
  { intros r B R. rewrite nls_big by auto. cbn [line_feeds]. now rewrite byte_feed. }
  cbn [runes_of]. destruct (N_of_ascii b0 <? 128)%N eqn:E0.
  { rewrite nls_cons, I1. cbn [line_feeds]. f_equal.
    destruct (N_of_ascii b0 =? c_nl)%N eqn:E.
    - apply N.eqb_eq in E. assert (b0 = "010"%char) as ->; [|reflexivity].
      rewrite <- (ascii_N_embedding b0), E. reflexivity.
    - destruct (Ascii.eqb b0 "010") eqn:E'; auto. apply Ascii.eqb_eq in E'. subst. discriminate. }
  apply N.ltb_ge in E0.
  assert (BAD : nls (65533%N :: runes_of s1) = line_feeds (String b0 s1)) by (apply R; auto; lia).
  destruct (in_range 194 223 b0) eqn:E1.
  { destruct s1 as [|b1 s2]; [exact BAD|]. destruct (in_range 128 191 b1) eqn:F1; [|exact BAD].
    apply in_range_N in E1, F1. rewrite nls_big by (unfold low6; lia). cbn [line_feeds]. rewrite !byte_feed by lia.
    cbn [Nat.add]. apply (IH (String.length s2)); auto. cbn. lia. }
  destruct (in_range 224 239 b0) eqn:E2.
  { destruct s1 as [|b1 [|b2 s3]]; [exact BAD|exact BAD|].
    destruct (in_range _ _ b1 && in_range 128 191 b2) eqn:F1; [|exact BAD].
    apply andb_true_iff in F1 as [F1 F2]. apply in_range_N in E2, F1, F2.
    assert (128 <= N_of_ascii b1)%N by (destruct (N_of_ascii b0 =? 224)%N; lia).
    rewrite nls_big.
    2:{ unfold low6. destruct (N_of_ascii b0 =? 224)%N eqn:G; [apply N.eqb_eq in G|apply N.eqb_neq in G]; lia. }
    cbn [line_feeds]. rewrite !byte_feed by lia.
    cbn [Nat.add]. apply (IH (String.length s3)); auto. cbn. lia. }
  destruct (in_range 240 244 b0) eqn:E3; [|exact BAD].
  destruct s1 as [|b1 [|b2 [|b3 s4]]]; [exact BAD|exact BAD|exact BAD|].
  destruct (in_range _ _ b1 && in_range 128 191 b2 && in_range 128 191 b3) eqn:F1; [|exact BAD].
  apply andb_true_iff in F1 as [F1 F3]. apply andb_true_iff in F1 as [F1 F2]. apply in_range_N in E3, F1, F2, F3.
  assert (128 <= N_of_ascii b1)%N by (destruct (N_of_ascii b0 =? 240)%N; lia).
  rewrite nls_big.
  2:{ unfold low6. destruct (N_of_ascii b0 =? 240)%N eqn:G; [apply N.eqb_eq in G|apply N.eqb_neq in G]; lia. }
  cbn [line_feeds]. rewrite !byte_feed by lia.
  cbn [Nat.add]. apply (IH (String.length s4)); auto. cbn. lia.
Qed.

Lemma nls_before_le : forall k l, nls_before k l <= count_nl l.
Proof.
  intros k. induction l as [|t l IH]; cbn [nls_before]; auto. unfold count_nl in *. cbn [filter].
  destruct (is_nl t); cbn [List.length]; [lia|]. destruct (Nat.leb _ _); lia.
Qed.
Lemma line_of_le : forall l k, 1 <= line_of l k <= 1 + count_nl l.
Proof.
  intros l k. unfold line_of. split; [lia|]. apply le_n_S. etransitivity; [apply nls_before_le|].
  destruct l as [|t l]; auto. destruct (is_nl t) eqn:E; unfold count_nl; cbn [filter]; rewrite E; cbn; lia.
Qed.
Lemma exec_err_suffix : forall A (m : V A) l rest, exec m l = EErr rest -> exists l1, l = (l1 ++ rest)%list.
Proof.
  induction m as [a|k IH|k IH|t k IH| | |]; intros l rest H; cbn [exec] in H; try discriminate.
  - eapply IH; eauto.
  - destruct l as [|t l]; [eapply IH; eauto|]. apply IH in H as [l1 ->]. now exists (t :: l1).
  - destruct (exec k l) eqn:E; try discriminate. inversion H; subst. now apply IH.
  - inversion H; subst. now exists [].
Qed.

Theorem error_position : forall ddl d ts e, returns ddl d ts (Some e) ->
  ts = [] /\ 1 <= err_line e <= lines ddl /\ (err_near e = EOF \/ taken (runes_of ddl) (err_near e)).
Proof.
  intros ddl d ts e H. apply returns_stage in H. unfold lines. rewrite <- line_feeds_runes.
  pose proof (lexed_from d (runes_of ddl)) as F.
  inversion H as [e' L|toks rest L V|]; subst; rewrite L in F.
  - split; auto.
  - split; auto. destruct F as [F1 F2]. cbn [err_line err_near]. split.
    + pose proof (line_of_le toks (List.length rest)). lia.
    + destruct V as [_ [n V]]. apply exec_err_suffix in V as [l1 V]. destruct rest as [|t rest]; [now left|].
      right. cbn [hd_error tok]. rewrite Forall_forall in F1. apply F1.
      assert (I : In t (strip toks)) by (rewrite V; apply in_or_app; right; now left).
      unfold strip in I. now apply filter_In in I.
Qed.
