(** The lexer divides all texts as described in Lexical.v. *)
From Coq Require Import String Ascii NArith List Bool Arith Lia.
From Verif Require Import GoStr GoNum Types Lexer VBase Exec Grammar Parse Scan Utf8 Spec Pipe Conv Meaning Decide Layout LayoutFacts Lexical.
From Verif Require Witness.
Import ListNotations.
Open Scope nat_scope.
Open Scope string_scope.
Open Scope list_scope.

Lemma in_range_upto : forall lo hi c, in_range lo hi c = true -> (lo <= N_of_ascii c <= hi)%N.
Proof. intros. now apply in_range_N. Qed.
Theorem runes_scalars : forall s, scalars (runes_of s).
Proof.
  assert (F : is_scalar 65533%N = true) by reflexivity.
  assert (G : forall n s, String.length s <= n -> scalars (runes_of s)).
  { induction n as [|n IH]; intros [|b0 s] L; cbn [String.length] in L; try lia; [constructor..|].
    assert (T : scalars (runes_of s)) by (apply IH; lia). cbn [runes_of].
    destruct (N_of_ascii b0 <? 128)%N eqn:E0; [constructor; auto; apply orb_true_iff; left; apply N.ltb_lt in E0; apply N.ltb_lt; lia|].
    destruct (in_range 194 223 b0) eqn:E1.
    { destruct s as [|b1 s2]; [constructor; auto|]. destruct (in_range 128 191 b1) eqn:E2; [|constructor; auto].
      constructor; [|apply IH; cbn in L; lia]. apply in_range_upto in E1, E2. apply orb_true_iff. left. apply N.ltb_lt. unfold low6. lia. }
    destruct (in_range 224 239 b0) eqn:E2.
    { destruct s as [|b1 [|b2 s3]]; try (constructor; auto; fail).
      destruct (in_range (if (N_of_ascii b0 =? 224)%N then 160 else 128) (if (N_of_ascii b0 =? 237)%N then 159 else 191) b1 && in_range 128 191 b2) eqn:E3; [|constructor; auto].
      apply andb_true_iff in E3 as [E3 E4]. constructor; [|apply IH; cbn in L; lia].
      apply in_range_upto in E2, E3, E4. unfold is_scalar, low6. rewrite orb_true_iff, andb_true_iff, !N.ltb_lt, N.leb_le.
      destruct (N_of_ascii b0 =? 224)%N eqn:X; destruct (N_of_ascii b0 =? 237)%N eqn:Y; [apply N.eqb_eq in X, Y; lia|apply N.eqb_eq in X; apply N.eqb_neq in Y|apply N.eqb_eq in Y; apply N.eqb_neq in X|apply N.eqb_neq in X, Y]; lia. }
    destruct (in_range 240 244 b0) eqn:E3; [|constructor; auto].
    destruct s as [|b1 [|b2 [|b3 s4]]]; try (constructor; auto; fail).
    destruct (in_range (if (N_of_ascii b0 =? 240)%N then 144 else 128) (if (N_of_ascii b0 =? 244)%N then 143 else 191) b1 && in_range 128 191 b2 && in_range 128 191 b3) eqn:E4; [|constructor; auto].
    rewrite !andb_true_iff in E4. destruct E4 as [[E4 E5] E6]. constructor; [|apply IH; cbn in L; lia].
    apply in_range_upto in E3, E4, E5, E6. unfold is_scalar, low6. rewrite orb_true_iff, andb_true_iff, !N.ltb_lt, N.leb_le.
    destruct (N_of_ascii b0 =? 240)%N eqn:X; destruct (N_of_ascii b0 =? 244)%N eqn:Y; [apply N.eqb_eq in X, Y; lia|apply N.eqb_eq in X; apply N.eqb_neq in Y|apply N.eqb_eq in Y; apply N.eqb_neq in X|apply N.eqb_neq in X, Y]; lia. }
  intros s. apply (G (String.length s)), le_n.
Qed.

Definition out_of (r : reading) : lout := match r with Tokens l => TOk l | Bad n near => TErr n near end.
Lemma out_and : forall l r, out_of (and_then l r) = after_toks l (out_of r).
Proof.
  intros l []; cbn [and_then out_of after_toks]; auto. f_equal. f_equal. unfold count_nl. f_equal. apply filter_ext. intros a. unfold is_nl. apply String.eqb_sym.
Qed.
Lemma count_nls : forall n, count_nl (repeat NL n) = n.
Proof. induction n; [reflexivity|]. cbn [repeat]. unfold count_nl in *. cbn. now rewrite IHn. Qed.

(** ** Quoted text *)
Lemma mark_rune : forall q, quote_mark q = true -> (q = 34 \/ q = 39 \/ q = 96)%N.
Proof. intros q H. apply one_of_spec in H. cbn in H. intuition. Qed.
Lemma mark_not_nl : forall q, quote_mark q = true -> (q =? c_nl)%N = false.
Proof. intros q H. now destruct (mark_rune q H) as [->|[->| ->]]. Qed.
Lemma is_quote_mark : forall q, is_quote q = quote_mark q.
Proof. intros q. unfold is_quote, quote_mark, one_of. cbn [existsb]. now rewrite orb_false_r, orb_assoc. Qed.

Definition closing (d : rdbms) (s : string) (stk : list (rune * string)) (rest : list rune) : lout :=
  let '(o, m) := close s stk in pre o false (scan d m rest).
Lemma quotation_scan : forall d q body n s, quotation q body n s -> quote_mark q = true -> forall str stk rest,
  scan d (MQuote q str stk) (body ++ rest) = after_toks (repeat NL n) (closing d (str ++ utf8 s)%string stk rest).
Proof.
  intros d q body n s H. induction H as [q|q body n s H IH|q c body n s N M H IH|q c body n s x body' n' s' N M H IH H' IH'];
    intros Q str stk rest.
  - cbn [app scan step repeat]. rewrite (mark_not_nl _ Q), N.eqb_refl, after_nil, utf8_one. unfold closing.
    destruct (close (str ++ utf8_rune q) stk). reflexivity.
  - cbn [app scan step]. change (nl =? c_nl)%N with true. cbv iota. rewrite IH by auto. rewrite pre_after by reflexivity. now rewrite <- after_app.
  - cbn [app scan step]. apply N.eqb_neq in N. change nl with c_nl in N. rewrite N, is_quote_mark, M.
    assert (E : (c =? q)%N = false) by (apply N.eqb_neq; intros ->; congruence). rewrite E, pre_nil, IH by auto. cbn [utf8].
    now rewrite append_assoc.
  - cbn [app scan step]. rewrite (mark_not_nl _ M). apply N.eqb_neq in N. rewrite N, is_quote_mark, M, pre_nil, <- app_assoc, IH by auto.
    unfold closing at 1. cbn [close app scan step]. rewrite !pre_nil, IH' by auto. rewrite <- after_app, repeat_app. do 2 f_equal.
    cbn [utf8]. now rewrite utf8_app, !append_assoc.
Qed.
Lemma unended_scan : forall d q body n, unended q body n -> quote_mark q = true -> forall str stk,
  scan d (MQuote q str stk) body = TErr n EOF.
Proof.
  intros d q body n H. induction H as [q|q body n H IH|q c body n N M H IH|q c body n s x body' n' N M H H' IH'|q c body n s N M H|q c body n N M H IH];
    intros Q str stk.
  - reflexivity.
  - cbn [scan step]. change (nl =? c_nl)%N with true. cbv iota. now rewrite IH.
  - cbn [scan step]. apply N.eqb_neq in N. change nl with c_nl in N. rewrite N, is_quote_mark, M.
    assert (E : (c =? q)%N = false) by (apply N.eqb_neq; intros ->; congruence). now rewrite E, pre_nil, IH.
  - cbn [scan step]. rewrite (mark_not_nl _ M). apply N.eqb_neq in N. rewrite N, is_quote_mark, M, pre_nil, (quotation_scan d _ _ _ _ H) by auto.
    unfold closing. cbn [close app scan step]. rewrite !pre_nil, IH' by auto. cbn. now rewrite count_nls.
  - cbn [scan step]. rewrite (mark_not_nl _ M). apply N.eqb_neq in N. rewrite N, is_quote_mark, M, pre_nil.
    rewrite <- (app_nil_r body), (quotation_scan d _ _ _ _ H) by auto.
    unfold closing. cbn [close app scan finish pre after_toks]. rewrite count_nls. now rewrite Nat.add_0_r.
  - cbn [scan step]. rewrite (mark_not_nl _ M). apply N.eqb_neq in N. now rewrite N, is_quote_mark, M, pre_nil, IH.
Qed.

(** ** Comments *)
Lemma line_scan : forall d m rest body, ~ In nl body -> scan d (MLine m) (body ++ nl :: rest) = pre [NL] true (scan d m rest).
Proof.
  intros d m rest. induction body as [|c body IH]; intros H; [reflexivity|]. cbn [app scan step]. cbn [In] in H.
  assert (E : (c =? c_nl)%N = false) by (apply N.eqb_neq; intros ->; apply H; now left). rewrite E, IH, pre_nil; auto.
Qed.
Lemma line_scan_end : forall d m body, ~ In nl body -> scan d (MLine m) body = finish m.
Proof.
  intros d m. induction body as [|c body IH]; intros H; [reflexivity|]. cbn [scan step]. cbn [In] in H.
  assert (E : (c =? c_nl)%N = false) by (apply N.eqb_neq; intros ->; apply H; now left). rewrite E, IH, pre_nil; auto.
Qed.
Lemma block_scan_open : forall d n body, List.length body <= n -> block_open body = true ->
  scan d MBlock body = TErr (block_breaks body) EOF.
Proof.
  intros d. induction n as [|n IH]; intros [|c body] L H; cbn [List.length] in L; try lia; try reflexivity.
  cbn [block_open] in H. cbn [block_breaks scan step]. change c_nl with nl. change c_star with aster. change c_slash with slash.
  destruct (c =? aster)%N eqn:E1.
  - assert (N : (c =? nl)%N = false) by (apply N.eqb_eq in E1; subst; reflexivity). rewrite N. cbn [orb].
    destruct body as [|b body]; [reflexivity|]. apply andb_true_iff in H as [H1 H2]. apply negb_true_iff in H1.
    cbn [scan step]. change c_slash with slash. rewrite H1, !pre_nil. apply IH; cbn in L; auto; lia.
  - destruct (c =? slash)%N eqn:E2.
    + assert (N : (c =? nl)%N = false) by (apply N.eqb_eq in E2; subst; reflexivity). rewrite N. cbn [orb].
      destruct body as [|b body]; [reflexivity|]. cbn [scan step]. rewrite !pre_nil. apply IH; cbn in L; auto; lia.
    + destruct (c =? nl)%N; rewrite IH by (auto; lia); reflexivity.
Qed.

(** ** Words *)
Lemma comment_word : forall d c, comment_char c = true -> word_char d c = true.
Proof. intros d c H. apply one_of_spec in H. cbn in H. destruct H as [<-|[<-|[<-|[]]]]; now destruct d. Qed.
Lemma step_plain : forall d t c, comment_char c = false -> step d (M0 t) c = step2 d t c.
Proof.
  intros d t c C. cbn [step]. change c_minus with dash. change c_slash with slash. change c_star with aster.
  now rewrite (one_of_false _ _ C dash), (one_of_false _ _ C slash), (one_of_false _ _ C aster) by (cbn; auto).
Qed.
(** A character that ends a word, after [t] and after nothing. *)
Lemma step2_stop : forall d (t : string) c, is_scalar c = true -> word_char d c = false ->
  (exists o b m, (forall t, step2 d t c = Go (flush t ++ o) b m) /\ count_nl o = if b then 1 else 0) \/
  (exists near, forall t, step2 d t c = Stop near).
Proof.
  intros d t c S W. unfold word_char in W. rewrite S in W. cbn [andb] in W.
  destruct (symbol c) eqn:E1.
  { left. exists [utf8_rune c], false, (M0 ""). split.
    - intros t'. now destruct (symbol_rune c E1) as [->|[->|[->|[->| ->]]]].
    - now destruct (symbol_rune c E1) as [->|[->|[->|[->| ->]]]]. }
  destruct (quote_mark c) eqn:E2.
  { destruct (mark_rune c E2) as [->|[->| ->]].
    1, 2: left; eexists [], false, _; split; [intros t'; rewrite app_nil_r; reflexivity|reflexivity].
    destruct d; try (left; eexists [], false, _; split; [intros t'; rewrite app_nil_r; reflexivity|reflexivity]).
    right. eexists. reflexivity. }
  destruct (blank_char c) eqn:E3.
  { left. exists [], false, (M0 ""). split; [|reflexivity]. intros t'. rewrite app_nil_r. apply one_of_spec in E3. cbn in E3.
    destruct E3 as [<-|[<-|[]]]; reflexivity. }
  destruct (c =? nl)%N eqn:E4.
  { apply N.eqb_eq in E4. subst. left. exists [NL], true, (M0 ""). split; reflexivity. }
  destruct (c =? wide)%N eqn:E5.
  { apply N.eqb_eq in E5. subst. right. eexists. reflexivity. }
  cbn [negb andb] in W. destruct d; try discriminate. destruct (c =? sharp)%N eqn:E6; [|discriminate].
  apply N.eqb_eq in E6. subst. left. exists [], false, (MLine (M0 "")). split; [|reflexivity]. intros t'. now rewrite app_nil_r.
Qed.
Lemma scan_stop : forall d t m c rest, is_scalar c = true -> word_char d c = false -> t <> "" -> is_nl t = false ->
  step d m c = step2 d t c -> scan d m (c :: rest) = after_toks [t] (scan d (M0 "") (c :: rest)).
Proof.
  intros d t m c rest S W T N H. cbn [scan]. rewrite H.
  assert (C : comment_char c = false) by (apply not_true_is_false; intros C; apply (comment_word d) in C; congruence).
  rewrite (step_plain d "" c C).
  destruct (step2_stop d t c S W) as [(o & b & m' & E & K)|(near & E)]; rewrite (E t), (E "").
  - cbn [flush String.eqb app]. rewrite !pre_after.
    + rewrite <- after_app. f_equal. unfold flush. apply String.eqb_neq in T. now rewrite T.
    + exact K.
    + rewrite LayoutFacts.count_nl_app, K. unfold flush. apply String.eqb_neq in T. rewrite T. unfold count_nl. cbn. now rewrite N.
  - cbn. unfold count_nl. cbn. now rewrite N.
Qed.

Definition ready (d : rdbms) (fresh : bool) (t : string) (m : mode) (rs : list rune) : Prop :=
  if fresh then m = M0 t
  else match rs with [] => finish m = TOk (flush t) | c :: _ => step d m c = step2 d t c end.
Lemma word_scan : forall d fresh w rest, word_at d fresh w rest -> scalars rest -> forall t m, ready d fresh t m (w ++ rest) ->
  (t ++ utf8 w)%string <> "" -> is_nl (t ++ utf8 w) = false ->
  scan d m (w ++ rest) = after_toks [(t ++ utf8 w)%string] (scan d (M0 "") rest).
Proof.
  intros d fresh w rest H. induction H as [fresh|fresh c rest W|a b rest P|fresh c w rest W F H IH|c w rest C P H IH];
    intros S t m R T N.
  - cbn [utf8] in T, N |- *. rewrite Utf8.append_nil_r in *. cbn [app] in R. cbn.
    assert (E : finish m = TOk (flush t)) by (destruct fresh; cbn in R; subst; auto). rewrite E. unfold flush.
    apply String.eqb_neq in T. now rewrite T.
  - cbn [utf8] in T, N |- *. rewrite Utf8.append_nil_r in *. cbn [app] in R |- *. inversion S; subst. apply scan_stop; auto.
    destruct fresh; cbn in R; auto. subst m. apply step_plain. apply not_true_is_false. intros C. apply (comment_word d) in C. congruence.
  - cbn [utf8] in T, N |- *. rewrite Utf8.append_nil_r in *. cbn [app ready] in R |- *. subst m. unfold flush, comment_pair in *.
    assert (FT : flush t = [t]) by (unfold flush; apply String.eqb_neq in T; now rewrite T).
    assert (K : count_nl [t] = 0) by (unfold count_nl; cbn; now rewrite N).
    rewrite !orb_true_iff, !andb_true_iff, !N.eqb_eq in P. destruct P as [[[-> ->]|[-> ->]]|[-> ->]].
    + cbn -[flush]. rewrite FT, !pre_nil. now apply pre_after.
    + cbn -[flush]. rewrite FT, !pre_nil. now apply pre_after.
    + cbn -[flush count_nl]. now rewrite K.
  - cbn [app scan]. 
    assert (E : step d m c = step2 d t c).
    { destruct fresh; cbn [ready app] in R; auto. subst m. apply step_plain. now destruct F. }
    rewrite E, step2_word, pre_nil by auto. cbn [utf8] in T, N |- *. rewrite <- append_assoc in *. apply IH; auto. reflexivity.
  - cbn [app ready] in R |- *. subst m. cbn [utf8] in T, N |- *. rewrite <- append_assoc in *. cbn [scan].
    assert (E : exists m', step d (M0 t) c = Go [] false m' /\ ready d false (t ++ utf8_rune c) m' (w ++ rest)).
    { pose proof C as C'. apply one_of_spec in C. cbn [In] in C.
      destruct C as [<-|[<-|[<-|[]]]]; (eexists; split; [reflexivity|]); unfold ready; destruct (w ++ rest) as [|b r] eqn:B.
      1, 3, 5: cbn [finish]; unfold flush; destruct t; reflexivity.
      all: specialize (P b r eq_refl); cbn [step]; unfold comment_pair in P; rewrite !N.eqb_refl in P; cbn [andb orb] in P.
      - change c_minus with dash. rewrite orb_false_iff in P. destruct P as [P _]. rewrite orb_false_iff in P. destruct P as [P _]. now rewrite P.
      - change c_star with aster. rewrite !orb_false_iff in P. destruct P as [P _]. destruct P as [_ P]. now rewrite P.
      - change c_slash with slash. rewrite !orb_false_iff in P. destruct P as [_ P]. now rewrite P. }
    destruct E as (m' & E & R). rewrite E, pre_nil. apply IH; auto.
Qed.

Lemma word_at_chars : forall d fresh w rest, word_at d fresh w rest -> forallb (word_char d) w = true.
Proof.
  intros d fresh w rest H. induction H as [| | |fresh c w rest W F H IH|c w rest C P H IH]; auto; cbn [forallb]; apply andb_true_iff; split; auto.
  now apply comment_word.
Qed.
Lemma word_fine : forall d w, forallb (word_char d) w = true -> w <> [] -> utf8 w <> "" /\ is_nl (utf8 w) = false.
Proof.
  intros d w F N. split; [now apply utf8_nonempty|]. apply not_nl; [eapply word_scalars, F|]. intros ->. now destruct d.
Qed.

(** ** The whole text *)
Definition mode_of (fresh : bool) : mode := if fresh then M0 "" else M2 "".
Lemma step_fresh : forall d fresh c, comment_char c = false -> step d (mode_of fresh) c = step2 d "" c.
Proof. intros d [] c C; [now apply step_plain|reflexivity]. Qed.
Lemma quote_of_mark : forall d q, quote_of d q = true -> quote_mark q = true.
Proof. intros d q H. now apply andb_true_iff in H as [H _]. Qed.
Lemma step_quote : forall d fresh q, quote_of d q = true -> step d (mode_of fresh) q = Go [] false (MQuote q (utf8_rune q) []).
Proof.
  intros d fresh q H. pose proof (quote_of_mark _ _ H) as M.
  destruct (mark_rune q M) as [->|[->| ->]]; destruct fresh, d; try reflexivity; discriminate.
Qed.
Lemma scalars_app : forall a b, scalars (a ++ b) -> scalars a /\ scalars b.
Proof. intros a b H. now apply Forall_app in H. Qed.

Theorem reads_scan : forall d fresh rs r, reads d fresh rs r -> scalars rs -> scan d (mode_of fresh) rs = out_of r.
Proof.
  intros d fresh rs r H. induction H as [fresh|fresh c rest r B H IH|fresh rest r H IH|fresh c rest r B H IH|fresh w rest r N W H IH
    |fresh q body n s rest r Q B H IH|body rest r B H IH|body B|fresh body rest r D B H IH|fresh body D B|body rest r B H IH
    |fresh rest|fresh q rest M Q|rest|fresh q body n Q U|body B]; intros S; rewrite ?out_and.
  - now destruct fresh.
  - inversion S; subst. rewrite <- IH by auto. cbn [scan]. apply one_of_spec in B. cbn [In] in B.
    destruct B as [<-|[<-|[]]]; rewrite step_fresh by reflexivity; cbn [step2 N.eqb Pos.eqb orb c_dquote c_squote c_bquote c_sharp c_space c_tab flush String.eqb]; apply pre_nil.
  - inversion S; subst. rewrite <- IH by auto. cbn [scan]. rewrite step_fresh by reflexivity.
    change (step2 d "" nl) with (Go [NL] true (M0 "")). now apply pre_after.
  - inversion S; subst. rewrite <- IH by auto. cbn [scan].
    destruct (symbol_rune c B) as [->|[->|[->|[->| ->]]]]; rewrite step_fresh by reflexivity; now apply (pre_after _ false).
  - apply scalars_app in S as [S1 S2]. rewrite <- IH by auto. pose proof (word_at_chars _ _ _ _ W) as C.
    destruct (word_fine d w C N) as [F1 F2]. change (utf8 w) with ("" ++ utf8 w)%string in F1, F2 |- *.
    apply (word_scan d fresh); auto. destruct fresh; cbn [ready mode_of]; auto. now destruct (w ++ rest).
  - cbn [scan]. rewrite (step_quote _ _ _ Q), pre_nil, (quotation_scan d _ _ _ _ B) by (eapply quote_of_mark, Q).
    inversion S as [|? ? _ S']; subst. apply scalars_app in S' as [_ S']. unfold closing. cbn [close]. change (M0 "") with (mode_of true).
    rewrite IH by auto. rewrite pre_after.
    + rewrite <- after_app. reflexivity.
    + unfold count_nl. cbn [filter]. enough (is_nl (utf8_rune q ++ utf8 s) = false) as -> by reflexivity.
      apply quote_of_mark in Q. destruct (mark_rune q Q) as [->|[->| ->]]; reflexivity.
  - inversion S as [|? ? _ S']; subst. inversion S' as [|? ? _ S2]; subst. apply scalars_app in S2 as [_ S2]. inversion S2; subst.
    change (scan d (mode_of true) (dash :: dash :: body ++ nl :: rest)) with (pre [] false (pre [] false (scan d (MLine (M2 "")) (body ++ nl :: rest)))).
    rewrite !pre_nil, line_scan by auto.
    change (M2 "") with (mode_of false). rewrite IH by auto. now apply pre_after.
  - change (scan d (mode_of true) (dash :: dash :: body)) with (pre [] false (pre [] false (scan d (MLine (M2 "")) body))).
    rewrite !pre_nil, line_scan_end by auto. reflexivity.
  - subst d. inversion S as [|? ? _ S']; subst. apply scalars_app in S' as [_ S2]. inversion S2; subst.
    cbn [scan]. rewrite step_fresh by reflexivity. change (step2 MySQL "" sharp) with (Go [] false (MLine (M0 ""))). cbv iota. rewrite pre_nil, line_scan by auto.
    change (M0 "") with (mode_of true). rewrite IH by auto. now apply pre_after.
  - subst d. cbn [scan]. rewrite step_fresh by reflexivity. change (step2 MySQL "" sharp) with (Go [] false (MLine (M0 ""))). cbv iota.
    rewrite pre_nil, line_scan_end by auto. reflexivity.
  - inversion S as [|? ? _ S']; subst. inversion S' as [|? ? _ S2]; subst. apply scalars_app in S2 as [_ S2].
    inversion S2 as [|? ? _ S3]; subst. inversion S3; subst.
    change (scan d (mode_of true) (slash :: aster :: body ++ aster :: slash :: rest)) with (pre [] false (pre [] false (scan d MBlock (body ++ aster :: slash :: rest)))).
    rewrite !pre_nil, (scan_block d rest (List.length body)) by auto. change (M2 "") with (mode_of false). now rewrite IH.
  - cbn [scan]. rewrite step_fresh by reflexivity. reflexivity.
  - cbn [scan]. unfold quote_of in Q. rewrite M in Q. cbn [andb] in Q. apply negb_false_iff in Q. destruct d; try discriminate.
    apply N.eqb_eq in Q. subst. rewrite step_fresh by reflexivity. reflexivity.
  - reflexivity.
  - cbn [scan]. rewrite (step_quote _ _ _ Q), pre_nil. apply unended_scan; auto. eapply quote_of_mark, Q.
  - change (scan d (mode_of true) (slash :: aster :: body)) with (pre [] false (pre [] false (scan d MBlock body))).
    rewrite !pre_nil. now apply (block_scan_open d (List.length body)).
Qed.

(** ** Every text is read *)
Lemma quote_total : forall n rs q, List.length rs <= n -> quote_mark q = true ->
  (exists body rest k s, rs = body ++ rest /\ quotation q body k s /\ body <> []) \/ (exists k, unended q rs k).
Proof.
  induction n as [|n IH]; intros [|c rs] q L Q; cbn [List.length] in L; try lia; [right; exists 0; constructor..|].
  destruct (N.eq_dec c q) as [->|N]; [left; exists [q], rs, 0, [q]; repeat split; [constructor|discriminate]|].
  destruct (N.eq_dec c nl) as [->|N2].
  { destruct (IH rs q) as [(body & rest & k & s & -> & H & _)|(k & H)]; [lia|auto| |].
    - left. exists (nl :: body), rest, (S k), s. repeat split; [now constructor|discriminate].
    - right. exists (S k). now constructor. }
  destruct (quote_mark c) eqn:M.
  2:{ destruct (IH rs q) as [(body & rest & k & s & -> & H & _)|(k & H)]; [lia|auto| |].
    - left. exists (c :: body), rest, k, (c :: s). repeat split; [now constructor|discriminate].
    - right. exists k. now constructor. }
  destruct (IH rs c) as [(body & rest & k & s & -> & H & NE)|(k & H)]; [lia|auto| |].
  2:{ right. exists k. now apply u_inner_open. }
  destruct rest as [|x rest]; [right; exists k; rewrite app_nil_r; now apply (u_inner_end _ _ _ _ s)|].
  destruct (IH rest q) as [(body' & rest' & k' & s' & -> & H' & _)|(k' & H')]; auto.
  { rewrite app_length in L. cbn in L. lia. }
  - left. exists (c :: body ++ x :: body'), rest', (k + k'), (c :: s ++ s'). split; [cbn; now rewrite <- app_assoc|].
    split; [now apply q_inner|discriminate].
  - right. exists (k + k'). now apply (u_inner _ _ _ _ s).
Qed.
Lemma line_total : forall rs : list rune, ~ In nl rs \/ exists body rest, rs = body ++ nl :: rest /\ ~ In nl body.
Proof.
  induction rs as [|c rs IH]; [left; intros []|]. destruct (N.eq_dec c nl) as [->|N]; [right; now exists [], rs|].
  destruct IH as [H|(body & rest & -> & H)].
  - left. intros [E|E]; auto.
  - right. exists (c :: body), rest. split; [reflexivity|]. intros [E|E]; auto.
Qed.
Lemma block_total : forall n rs, List.length rs <= n -> scalars rs ->
  block_open rs = true \/ exists body rest, rs = body ++ aster :: slash :: rest /\ block_ok body = true.
Proof.
  induction n as [|n IH]; intros [|c rs] L S; cbn [List.length] in L; try lia; auto. inversion S as [|? ? S1 S2]; subst.
  cbn [block_open]. destruct (c =? aster)%N eqn:E1.
  - destruct rs as [|b rs]; auto. inversion S2 as [|? ? S3 S4]; subst. destruct (b =? slash)%N eqn:E2.
    + apply N.eqb_eq in E1, E2. subst. right. now exists [], rs.
    + cbn [List.length] in L. destruct (IH rs) as [H|(body & rest & -> & H)]; [lia|auto|left; now rewrite H|].
      right. exists (c :: b :: body), rest. split; [reflexivity|]. cbn [block_ok]. now rewrite S1, E1, S3, E2, H.
  - destruct (c =? slash)%N eqn:E2.
    + destruct rs as [|b rs]; auto. inversion S2 as [|? ? S3 S4]; subst. cbn [List.length] in L.
      destruct (IH rs) as [H|(body & rest & -> & H)]; [lia|auto|auto|].
      right. exists (c :: b :: body), rest. split; [reflexivity|]. cbn [block_ok]. now rewrite S1, E1, E2, S3, H.
    + destruct (IH rs) as [H|(body & rest & -> & H)]; [lia|auto|auto|].
      right. exists (c :: body), rest. split; [reflexivity|]. cbn [block_ok]. now rewrite S1, E1, E2.
Qed.
Lemma word_total : forall d rs fresh, exists w rest, rs = w ++ rest /\ word_at d fresh w rest.
Proof.
  intros d. induction rs as [|c rs IH]; intros fresh; [exists [], []; split; [reflexivity|constructor]|].
  destruct (word_char d c) eqn:W; [|exists [], (c :: rs); split; [reflexivity|now constructor]].
  destruct (fresh && comment_char c) eqn:F.
  - apply andb_true_iff in F as [-> C]. destruct rs as [|b rs].
    + exists [c], []. split; [reflexivity|]. apply w_lone; auto; [discriminate|constructor].
    + destruct (comment_pair c b) eqn:P; [exists [], (c :: b :: rs); split; [reflexivity|now constructor]|].
      destruct (IH false) as (w & rest & E & H). exists (c :: w), rest. split; [now rewrite E|]. apply w_lone; auto.
      intros b' r E'. rewrite <- E in E'. now injection E' as <- <-.
  - destruct (IH true) as (w & rest & -> & H). exists (c :: w), rest. split; [reflexivity|]. apply w_plain; auto.
    apply andb_false_iff in F. tauto.
Qed.

Theorem reads_total : forall d n rs fresh, List.length rs <= n -> scalars rs -> exists r, reads d fresh rs r.
Proof.
  intros d. induction n as [|n IH]; intros [|c rs] fresh L S; cbn [List.length] in L; try lia; [eexists; constructor..|].
  inversion S as [|? ? S1 S2]; subst.
  destruct (quote_mark c) eqn:M.
  { destruct (quote_of d c) eqn:Q; [|eexists; now apply r_mark].
    destruct (quote_total (List.length rs) rs c (le_n _) M) as [(body & rest & k & s & -> & H & NE)|(k & H)]; [|eexists; apply r_unended; eauto].
    apply scalars_app in S2 as [_ S2]. rewrite app_length in L. destruct (IH rest true) as [r R]; [lia|auto|]. eexists. eapply r_quoted; eauto. }
  destruct (blank_char c) eqn:B; [destruct (IH rs true) as [r R]; [lia|auto|]; eexists; eapply r_space; eauto|].
  destruct (symbol c) eqn:Y; [destruct (IH rs true) as [r R]; [lia|auto|]; eexists; eapply r_symbol; eauto|].
  destruct (N.eq_dec c nl) as [->|N1]; [destruct (IH rs true) as [r R]; [lia|auto|]; eexists; eapply r_break; eauto|].
  destruct (N.eq_dec c wide) as [->|N2]; [eexists; apply r_wide|].
  destruct (word_char d c) eqn:W.
  2:{ unfold word_char in W. apply N.eqb_neq in N1, N2. rewrite S1, M, B, Y, N1, N2 in W. cbn [negb andb] in W. destruct d; try discriminate.
      apply negb_false_iff, N.eqb_eq in W. subst c. destruct (line_total rs) as [H|(body & rest & -> & H)]; [eexists; now apply r_sharp_end|].
      apply scalars_app in S2 as [_ S2]. inversion S2; subst. rewrite app_length in L. cbn in L. destruct (IH rest true) as [r R]; [lia|auto|].
      eexists. eapply r_sharp; eauto. }
  assert (X : (exists b rs', fresh = true /\ rs = b :: rs' /\ comment_pair c b = true) \/
    (fresh = false \/ forall b rs', rs = b :: rs' -> comment_pair c b = false)).
  { destruct fresh; auto. destruct rs as [|b rs]; [right; right; discriminate|]. destruct (comment_pair c b) eqn:P; [left; eauto|].
    right. right. intros b' rs' E. now injection E as <- <-. }
  destruct X as [(b & rs' & -> & -> & P)|X].
  - unfold comment_pair in P. rewrite !orb_true_iff, !andb_true_iff, !N.eqb_eq in P. inversion S2 as [|? ? S3 S4]; subst. cbn [List.length] in L.
    destruct P as [[[-> ->]|[-> ->]]|[-> ->]].
    + destruct (line_total rs') as [H|(body & rest & -> & H)]; [eexists; now apply r_dash_end|].
      apply scalars_app in S4 as [_ S4]. inversion S4; subst. rewrite app_length in L. cbn in L. destruct (IH rest false) as [r R]; [lia|auto|].
      eexists. eapply r_dash; eauto.
    + destruct (block_total _ rs' (le_n _) S4) as [H|(body & rest & -> & H)]; [eexists; now apply r_block_open|].
      apply scalars_app in S4 as [_ S4]. inversion S4 as [|? ? _ S5]; subst. inversion S5; subst. rewrite app_length in L. cbn in L.
      destruct (IH rest false) as [r R]; [lia|auto|]. eexists. eapply r_block; eauto.
    + eexists. apply r_stray.
  - destruct (word_total d (c :: rs) fresh) as (w & rest & E & H).
    assert (NE : w <> []).
    { intros ->. cbn in E. subst rest. inversion H; subst; [congruence|]. destruct X as [X|X]; [discriminate|]. specialize (X _ _ eq_refl). congruence. }
    rewrite E. assert (SR : scalars rest) by (rewrite E in S; now apply scalars_app in S as [_ S]).
    assert (LR : List.length rest <= n).
    { apply (f_equal (@List.length _)) in E. rewrite app_length in E. destruct w; [congruence|]. cbn in E. lia. }
    destruct (IH rest true LR SR) as [r R]. eexists. eapply r_word; eauto.
Qed.

Lemma out_of_inj : forall r r', out_of r = out_of r' -> r = r'.
Proof. intros [] []; cbn; congruence. Qed.
Theorem reads_iff : forall d rs r, scalars rs -> (reads d true rs r <-> scan d (M0 "") rs = out_of r).
Proof.
  intros d rs r S. split; intros H; [now apply (reads_scan d true)|].
  destruct (reads_total d (List.length rs) rs true (le_n _) S) as [r' R]. pose proof (reads_scan d true rs r' R S) as E.
  change (mode_of true) with (M0 "") in E. rewrite H in E. now rewrite (out_of_inj _ _ E).
Qed.
Theorem reads_one : forall d ddl, exists! r, reads d true (runes_of ddl) r.
Proof.
  intros d ddl. destruct (reads_total d (List.length (runes_of ddl)) (runes_of ddl) true (le_n _) (runes_scalars ddl)) as [r R].
  exists r. split; auto. intros r' R'. pose proof (runes_scalars ddl) as S. apply (reads_iff d _ _ S) in R, R'. apply out_of_inj. congruence.
Qed.
Lemma lexed_scan : forall d ddl toks, lexes d ddl toks <-> scan d (M0 "") (runes_of ddl) = TOk toks.
Proof.
  intros d ddl toks. split.
  - intros [n H]. destruct (Lex_eq n d ddl) as [E|E]; rewrite E in H; [discriminate|]. unfold lexed in H.
    destruct (scan d (M0 "") (runes_of ddl)); congruence.
  - intros H. exists (enough ddl). rewrite Lex_enough by lia. unfold lexed. now rewrite H.
Qed.
Theorem lexes_reads : forall d ddl toks, lexes d ddl toks <-> reads d true (runes_of ddl) (Tokens toks).
Proof. intros d ddl toks. rewrite (reads_iff d _ _ (runes_scalars ddl)). apply lexed_scan. Qed.
Theorem bad_reads : forall d ddl n near, reads d true (runes_of ddl) (Bad n near) -> rejected ddl d (S n) near.
Proof.
  intros d ddl n near H. apply (reads_iff d _ _ (runes_scalars ddl)) in H. cbn [out_of] in H.
  apply returns_stage. apply st_lex. unfold lexed. now rewrite H.
Qed.
Lemma strip_words : forall toks, strip toks = filter (fun t => negb (line_break =? t)%string) toks.
Proof. intros toks. unfold strip. apply filter_ext. intros a. unfold is_nl. now rewrite String.eqb_sym. Qed.
Theorem says_reads : forall d ddl stmts, says d ddl stmts <->
  exists toks out, reads d true (runes_of ddl) (Tokens toks) /\ lang (script d) (filter (fun t => negb (line_break =? t)%string) toks) None out stmts.
Proof.
  intros d ddl stmts. split.
  - intros (l & out & (n & toks & L & ->) & S). exists toks, out. split; [apply lexes_reads; now exists n|]. now rewrite <- strip_words.
  - intros (toks & out & R & S). apply lexes_reads in R as [n L]. exists (strip toks), out. split; [now exists n, toks|]. now rewrite strip_words.
Qed.
Theorem text_reads : forall d rs toks, scalars rs -> (lexes d (utf8 rs) toks <-> reads d true rs (Tokens toks)).
Proof. intros d rs toks S. rewrite lexes_reads, runes_of_utf8 by auto. reflexivity. Qed.
Theorem rejected_reads : forall d ddl line near, rejected ddl d line near ->
  (exists n, line = S n /\ reads d true (runes_of ddl) (Bad n near)) \/ exists toks, reads d true (runes_of ddl) (Tokens toks).
Proof.
  intros d ddl line near H. destruct (reads_one d ddl) as (r & R & _). destruct r as [toks|n near']; [right; eauto|left]. exists n.
  pose proof (bad_reads _ _ _ _ R) as H'. destruct (Witness.returns_det _ _ _ _ _ _ H H') as [_ E]. injection E as -> ->. auto.
Qed.
