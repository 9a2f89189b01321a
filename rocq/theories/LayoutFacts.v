(** The lexer on texts that are laid out as in Layout.v. *)
From Coq Require Import String Ascii NArith List Bool Arith Lia.
From Verif Require Import GoStr GoNum Types Lexer VBase Exec Scan Utf8 Spec Pipe Conv Meaning Decide Layout.
Import ListNotations.
Open Scope nat_scope.
Open Scope string_scope.

Lemma utf8_one : forall c, utf8 [c] = utf8_rune c.
Proof. intros c. cbn. induction (utf8_rune c); cbn; congruence. Qed.
Lemma utf8_snoc : forall w c, utf8 (w ++ [c]) = utf8 w ++ utf8_rune c.
Proof. intros. now rewrite utf8_app, utf8_one. Qed.
Lemma utf8_nonempty : forall w, w <> [] -> utf8 w <> "".
Proof.
  intros [|c w] H; [congruence|]. cbn. pose proof (utf8_rune_nonempty c). destruct (utf8_rune c); [congruence|discriminate].
Qed.

(** ** Steps *)
Lemma one_of_spec : forall l c, one_of l c = true <-> In c l.
Proof.
  intros l c. unfold one_of. rewrite existsb_exists. split.
  - intros (x & I & E). apply N.eqb_eq in E. now subst.
  - intros I. exists c. split; auto. apply N.eqb_refl.
Qed.
Lemma one_of_false : forall l c, one_of l c = false -> forall x, In x l -> N.eqb c x = false.
Proof.
  intros l c H x I. apply N.eqb_neq. intros ->. apply one_of_spec in I. congruence.
Qed.

Definition plain (d : rdbms) (c : rune) : Prop := word_char d c = true.
Lemma step2_word : forall d t c, word_char d c = true -> step2 d t c = Go [] false (M0 (t ++ utf8_rune c)).
Proof.
  intros d t c H. unfold word_char in H. rewrite !andb_true_iff, !negb_true_iff in H.
  destruct H as ((((((_ & H1) & H2) & H3) & H4) & H5) & H6). unfold step2.
  rewrite (one_of_false _ _ H2 c_dquote), (one_of_false _ _ H2 c_squote), (one_of_false _ _ H2 c_bquote) by (cbn; auto).
  rewrite (one_of_false _ _ H3 c_space), (one_of_false _ _ H3 c_tab) by (cbn; auto).
  change c_nl with nl. rewrite H4. unfold is_symbol.
  rewrite (one_of_false _ _ H1 c_lpar), (one_of_false _ _ H1 c_rpar), (one_of_false _ _ H1 c_comma),
    (one_of_false _ _ H1 c_dot), (one_of_false _ _ H1 c_semi) by (cbn; auto 6).
  change c_wide with wide. rewrite H5. cbn [orb]. change c_sharp with sharp.
  destruct (c =? sharp)%N eqn:E; auto. destruct d; auto. discriminate.
Qed.

(** The lexer holds the word [w]. *)
Definition holds (w : list rune) (m : mode) : Prop :=
  m = M0 (utf8 w) \/
  exists w', (w = (w' ++ [dash])%list /\ m = MHyphen (utf8 w')) \/ (w = (w' ++ [slash])%list /\ m = MSlash (utf8 w')) \/
             (w = (w' ++ [aster])%list /\ m = MStar (utf8 w')).

(** Any other character than - / * is read as if the word was complete. *)
Lemma holds_step : forall d w m c, holds w m -> comment_char c = false -> step d m c = step2 d (utf8 w) c.
Proof.
  intros d w m c H C. pose proof (one_of_false _ _ C dash) as C1. pose proof (one_of_false _ _ C slash) as C2.
  pose proof (one_of_false _ _ C aster) as C3. cbn [In] in C1, C2, C3.
  assert (D1 : (c =? c_minus)%N = false) by auto. assert (D2 : (c =? c_slash)%N = false) by auto.
  assert (D3 : (c =? c_star)%N = false) by auto.
  destruct H as [->|[w' [[-> ->]|[[-> ->]|[-> ->]]]]]; cbn [step]; rewrite ?D1, ?D2, ?D3; auto; now rewrite utf8_snoc.
Qed.
Lemma holds_more : forall d w m c, holds w m -> word_char d c = true -> comment_pair (last w 0%N) c = false ->
  exists m', step d m c = Go [] false m' /\ holds (w ++ [c]) m'.
Proof.
  intros d w m c H W P. destruct (comment_char c) eqn:C.
  - apply one_of_spec in C. cbn [In] in C.
    assert (M : m = M0 (utf8 w) \/ m <> M0 (utf8 w)) by (destruct H as [H|[w' [[_ ->]|[[_ ->]|[_ ->]]]]]; [now left|right; discriminate..]).
    destruct M as [->|M].
    + destruct C as [<-|[<-|[<-|[]]]]; cbn [step]; eexists; (split; [reflexivity|]); right; exists w; auto.
    + destruct H as [->|[w' H]]; [congruence|].
      assert (Q : step d m c = step2 d (utf8 w) c).
      { destruct H as [[-> ->]|[[-> ->]|[-> ->]]]; rewrite last_last in P; cbn [step]; rewrite utf8_snoc;
        destruct C as [<-|[<-|[<-|[]]]]; auto; discriminate. }
      rewrite Q, step2_word by auto. eexists. split; [reflexivity|]. left. now rewrite utf8_snoc.
  - rewrite (holds_step _ _ _ _ H C), step2_word by auto. eexists. split; [reflexivity|]. left. now rewrite utf8_snoc.
Qed.

Definition after_toks (o : list string) (r : lout) : lout :=
  match r with
  | TOk l => TOk (o ++ l)%list
  | TErr n near => TErr (count_nl o + n) near
  end.

Lemma pre_nil : forall r, pre [] false r = r.
Proof. now intros []. Qed.

Lemma scan_word : forall d rest w2 w1 m, holds w1 m -> w1 <> [] -> forallb (word_char d) w2 = true ->
  no_pairs (last w1 0%N :: w2) = true ->
  exists m', holds (w1 ++ w2) m' /\ scan d m (w2 ++ rest) = scan d m' rest.
Proof.
  intros d rest. induction w2 as [|c w2 IH]; intros w1 m H N W P.
  - exists m. rewrite app_nil_r. auto.
  - cbn [forallb] in W. apply andb_true_iff in W as [W1 W2]. cbn [no_pairs] in P. apply andb_true_iff in P as [P1 P2].
    apply negb_true_iff in P1. destruct (holds_more d _ _ _ H W1 P1) as (m' & S & H').
    apply (IH (w1 ++ [c])%list) in H' as (m2 & H2 & E).
    + exists m2. split; [now rewrite <- app_assoc in H2|]. cbn [app scan]. now rewrite S, pre_nil.
    + now destruct w1.
    + auto.
    + now rewrite last_last.
Qed.

(** ** One item *)
Definition word_of (b : option item) : list rune := match b with Some (IWord w) => w | _ => [] end.
Definition pend (b : option item) : list string := match b with Some (IWord w) => [utf8 w] | _ => [] end.
Definition state (d : rdbms) (b : option item) (m : mode) : Prop :=
  match b with
  | Some (IWord w) => holds w m /\ word_ok d w = true
  | Some (IDash _) | Some (IBlock _) => m = M2 ""
  | _ => m = M0 ""
  end.

Lemma word_char_facts : forall d c, word_char d c = true -> is_scalar c = true /\ (c =? nl)%N = false.
Proof.
  intros d c H. unfold word_char in H. rewrite !andb_true_iff, !negb_true_iff in H. tauto.
Qed.
Lemma word_scalars : forall d w, forallb (word_char d) w = true -> scalars w.
Proof.
  intros d w H. rewrite forallb_forall in H. apply Forall_forall. intros c I. apply H in I.
  now apply word_char_facts in I.
Qed.
Lemma not_nl : forall w, scalars w -> w <> [nl] -> is_nl (utf8 w) = false.
Proof.
  intros w S N. unfold is_nl. apply String.eqb_neq. intros E. apply N.
  rewrite <- (runes_of_utf8 w S), E. reflexivity.
Qed.
Lemma word_not_nl : forall d w, word_ok d w = true -> is_nl (utf8 w) = false.
Proof.
  intros d w H. unfold word_ok in H. rewrite !andb_true_iff in H. destruct H as [[_ H] _].
  apply not_nl; [eauto using word_scalars|]. intros ->. cbn [forallb] in H. rewrite andb_true_r in H.
  apply word_char_facts in H as [_ H]. discriminate.
Qed.
Lemma state_step : forall d b m c, state d b m -> comment_char c = false -> step d m c = step2 d (utf8 (word_of b)) c.
Proof.
  intros d b m c S C. destruct b as [[]|]; cbn [state word_of] in *; try (subst m; reflexivity).
  1: destruct S as [S _]; now apply holds_step.
  all: subst m; apply (holds_step d []); auto; left; reflexivity.
Qed.
Lemma flush_pend : forall d b m, state d b m -> flush (utf8 (word_of b)) = pend b /\ count_nl (pend b) = 0.
Proof.
  intros d b m S. destruct b as [[w| | | | | | |]|]; cbn [state word_of pend] in *; auto. destruct S as [_ S]. split.
  - apply flush_nonempty, utf8_nonempty. now destruct w.
  - unfold count_nl. cbn [filter]. now rewrite (word_not_nl _ _ S).
Qed.
Lemma holds_M0 : forall w m, holds w m -> comment_char (last w 0%N) = false -> m = M0 (utf8 w).
Proof.
  intros w m [->|[w' [[-> ->]|[[-> ->]|[-> ->]]]]] H; auto; rewrite last_last in H; discriminate.
Qed.
Lemma state_M0 : forall d b m, state d b m ->
  match b with
  | Some (IWord w) => negb (comment_char (last w 0%N))
  | Some (IDash _) | Some (IBlock _) => false
  | _ => true
  end = true -> m = M0 (utf8 (word_of b)).
Proof.
  intros d b m S F. destruct b as [[]|]; cbn [state word_of] in *; auto; try discriminate.
  apply negb_true_iff in F. destruct S. now apply holds_M0.
Qed.

Lemma after_nil : forall r, after_toks [] r = r.
Proof. now intros []. Qed.
Lemma count_nl_app : forall a b, count_nl (a ++ b) = count_nl a + count_nl b.
Proof. intros. unfold count_nl. now rewrite filter_app, app_length. Qed.
Lemma after_app : forall a b r, after_toks (a ++ b) r = after_toks a (after_toks b r).
Proof. intros a b []; cbn; rewrite ?count_nl_app; [now rewrite <- app_assoc|]. f_equal. lia. Qed.
Lemma pre_after : forall o b r, count_nl o = (if b : bool then 1 else 0) -> pre o b r = after_toks o r.
Proof. intros o b [] H; cbn; auto. rewrite H. now destruct b. Qed.

Definition comes (d : rdbms) (b : option item) (i : item) : Prop :=
  forall m rest, state d b m -> exists m' o, state d (Some i) m' /\ (pend b ++ item_tokens i = o ++ pend (Some i))%list /\
    scan d m (chars_of i ++ rest) = after_toks o (scan d m' rest).

Lemma symbol_rune : forall c, symbol c = true -> c = 40%N \/ c = 41%N \/ c = 44%N \/ c = 46%N \/ c = 59%N.
Proof. intros c H. apply one_of_spec in H. cbn [In] in H. intuition. Qed.

Lemma comes_one : forall d b i c o (nl : bool), chars_of i = [c] -> comment_char c = false -> pend (Some i) = [] ->
  state d (Some i) (M0 "") -> item_tokens i = o -> count_nl o = (if nl then 1 else 0) ->
  (forall t, step2 d t c = Go (flush t ++ o) nl (M0 "")) -> comes d b i.
Proof.
  intros d b i c o n C CC P SI T N H m rest S. exists (M0 ""), (pend b ++ o)%list. split; auto. split.
  - now rewrite P, app_nil_r, T.
  - rewrite C. cbn [app scan]. rewrite (state_step _ _ _ _ S CC), H. destruct (flush_pend _ _ _ S) as [F F2].
    rewrite F. apply pre_after. rewrite count_nl_app, F2. exact N.
Qed.

Lemma scan_quote : forall d q rest body str, quote_mark q = true ->
  forallb (fun c => is_scalar c && negb (c =? nl)%N && negb (quote_mark c)) body = true ->
  scan d (MQuote q str []) (body ++ q :: rest) = pre [str ++ utf8 (body ++ [q])] false (scan d (M0 "") rest).
Proof.
  intros d q rest. induction body as [|c body IH]; intros str Q H.
  - cbn [app scan step]. assert (E : (q =? c_nl)%N = false).
    { apply one_of_spec in Q. cbn [In] in Q. destruct Q as [<-|[<-|[<-|[]]]]; reflexivity. }
    rewrite E, N.eqb_refl. cbn [close]. now rewrite utf8_one.
  - cbn [forallb] in H. apply andb_true_iff in H as [H1 H2]. rewrite !andb_true_iff, !negb_true_iff in H1.
    destruct H1 as [[_ H1] H3]. cbn [app scan step]. change c_nl with nl. rewrite H1.
    assert (E : (c =? q)%N = false) by (apply N.eqb_neq; intros ->; congruence).
    assert (E2 : is_quote c = false).
    { unfold is_quote. now rewrite (one_of_false _ _ H3 c_dquote), (one_of_false _ _ H3 c_squote), (one_of_false _ _ H3 c_bquote)
        by (cbn; auto). }
    rewrite E, E2, IH, pre_nil by auto. cbn [utf8]. now rewrite append_assoc.
Qed.

Lemma scan_line : forall d m rest body, forallb (fun c => is_scalar c && negb (c =? nl)%N) body = true ->
  scan d (MLine m) (body ++ nl :: rest) = pre [NL] true (scan d m rest).
Proof.
  intros d m rest. induction body as [|c body IH]; intros H; [reflexivity|].
  cbn [forallb] in H. apply andb_true_iff in H as [H1 H2]. rewrite !andb_true_iff, !negb_true_iff in H1.
  cbn [app scan step]. change c_nl with nl. destruct H1 as [_ ->]. now rewrite IH, pre_nil.
Qed.

Lemma scan_block : forall d rest n body, List.length body <= n -> block_ok body = true ->
  scan d MBlock (body ++ aster :: slash :: rest) = after_toks (repeat NL (block_breaks body)) (scan d (M2 "") rest).
Proof.
  intros d rest. induction n as [|n IH]; intros [|c body] L H; cbn [List.length] in L; try lia.
  1, 2: cbn; now rewrite !pre_nil, after_nil.
  cbn [block_ok] in H. cbn [block_breaks app scan step]. change c_nl with nl. change c_star with aster.
  change c_slash with slash. apply andb_true_iff in H as [_ H].
  destruct (c =? aster)%N eqn:E1.
  - assert (N : (c =? nl)%N = false) by (apply N.eqb_eq in E1; subst; reflexivity). rewrite N. cbn [orb].
    destruct body as [|b body]; [discriminate|]. rewrite !andb_true_iff, negb_true_iff in H. destruct H as [[_ H1] H2].
    cbn [app scan step]. change c_slash with slash. rewrite H1, !pre_nil. apply IH; cbn in L; auto; lia.
  - destruct (c =? slash)%N eqn:E2.
    + assert (N : (c =? nl)%N = false) by (apply N.eqb_eq in E2; subst; reflexivity). rewrite N. cbn [orb].
      destruct body as [|b body]; [discriminate|]. rewrite !andb_true_iff in H. destruct H as [_ H2].
      cbn [app scan step]. rewrite !pre_nil. apply IH; cbn in L; auto; lia.
    + destruct (c =? nl)%N; rewrite IH by (auto; lia).
      * cbn [repeat]. rewrite pre_after by reflexivity. now rewrite <- after_app.
      * cbn [orb]. now rewrite pre_nil.
Qed.

Lemma item_comes : forall d b i, item_ok d i = true -> fits b i = true -> comes d b i.
Proof.
  intros d b i OK F. destruct i as [w|c|q body|c| |body|body|body]; cbn [item_ok fits] in *.
  - intros m rest S. destruct w as [|c w]; [discriminate|]. pose proof OK as OK'. unfold word_ok in OK.
    rewrite !andb_true_iff in OK. destruct OK as [[_ OK] NP]. cbn [forallb] in OK. apply andb_true_iff in OK as [OK1 OK2].
    assert (H : exists m', step d m c = Go [] false m' /\ holds [c] m').
    { destruct (comment_char c) eqn:C.
      - assert (M : m = M0 "" \/ m = M2 "") by (destruct b as [[]|]; cbn [state] in S; auto; discriminate).
        apply one_of_spec in C. cbn [In] in C. destruct M as [-> | ->].
        + destruct C as [<-|[<-|[<-|[]]]]; cbn [step]; eexists; (split; [reflexivity|]); right; exists []; auto.
        + cbn [step]. rewrite step2_word by auto. eexists. split; [reflexivity|]. left. now rewrite utf8_one.
      - rewrite (state_step _ _ _ _ S C), step2_word by auto. eexists. split; [reflexivity|]. left.
        rewrite utf8_one. now destruct b as [[]|]. }
    destruct H as (m' & S1 & H). destruct (scan_word d rest w [c] m' H) as (m2 & H2 & E); auto; [discriminate|].
    exists m2, []. split; [now split|]. split.
    + destruct b as [[]|]; try discriminate; reflexivity.
    + cbn [chars_of app scan]. now rewrite S1, pre_nil, after_nil.
  - apply (comes_one d b (ISym c) c [utf8 [c]] false); auto.
    + now destruct (symbol_rune c OK) as [->|[->|[->|[->| ->]]]].
    + reflexivity.
    + now destruct (symbol_rune c OK) as [->|[->|[->|[->| ->]]]].
    + intros t. now destruct (symbol_rune c OK) as [->|[->|[->|[->| ->]]]].
  - rewrite !andb_true_iff, negb_true_iff in OK. destruct OK as [[Q PG] B]. intros m rest S.
    exists (M0 ""), (pend b ++ [utf8 (q :: body ++ [q])])%list. split; [reflexivity|]. split; [now rewrite app_nil_r|].
    assert (C : comment_char q = false).
    { apply one_of_spec in Q. cbn [In] in Q. destruct Q as [<-|[<-|[<-|[]]]]; reflexivity. }
    cbn [chars_of app scan]. rewrite (state_step _ _ _ _ S C). destruct (flush_pend _ _ _ S) as [F1 F2].
    assert (E : step2 d (utf8 (word_of b)) q = Go (pend b) false (MQuote q (utf8_rune q) [])).
    { rewrite <- F1. apply one_of_spec in Q. cbn [In] in Q. destruct Q as [<-|[<-|[<-|[]]]]; auto.
      destruct d; auto; discriminate. }
    rewrite E, <- app_assoc. cbn [app]. rewrite scan_quote by auto. rewrite pre_after by auto.
    rewrite pre_after; [now rewrite <- after_app|]. unfold count_nl. cbn [filter].
    enough (is_nl (utf8_rune q ++ utf8 (body ++ [q])) = false) as -> by reflexivity.
    unfold is_nl. apply String.eqb_neq. intros E2. apply one_of_spec in Q. cbn [In] in Q.
    destruct Q as [<-|[<-|[<-|[]]]]; discriminate.
  - apply one_of_spec in OK. cbn [In] in OK.
    apply (comes_one d b (ISpace c) c [] false); auto; try reflexivity; destruct OK as [<-|[<-|[]]]; auto;
    intros t; rewrite app_nil_r; reflexivity.
  - now apply (comes_one d b IBreak nl [NL] true).
  - intros m rest S. rewrite (state_M0 _ _ _ S F). exists (M2 ""), (pend b ++ [NL])%list. split; [reflexivity|].
    split; [now rewrite app_nil_r|]. cbn [chars_of app scan step]. cbn [step N.eqb dash c_minus Pos.eqb].
    destruct (flush_pend _ _ _ S) as [F1 F2]. rewrite F1, <- app_assoc. cbn [app]. rewrite scan_line by exact OK.
    now rewrite pre_nil, !pre_after, <- after_app.
  - destruct d; try discriminate. intros m rest S. exists (M0 ""), (pend b ++ [NL])%list. split; [reflexivity|].
    split; [now rewrite app_nil_r|]. cbn [chars_of app scan]. rewrite (state_step _ _ _ _ S) by reflexivity.
    cbn -[flush scan utf8]. rewrite <- app_assoc. cbn [app]. rewrite scan_line by exact OK.
    destruct (flush_pend _ _ _ S) as [F1 F2]. now rewrite F1, !pre_after, <- after_app.
  - intros m rest S. rewrite (state_M0 _ _ _ S F). exists (M2 ""), (pend b ++ repeat NL (block_breaks body))%list.
    split; [reflexivity|].
    split; [now rewrite app_nil_r|]. cbn [chars_of app scan step]. cbn [step N.eqb slash aster c_minus c_slash c_star Pos.eqb].
    destruct (flush_pend _ _ _ S) as [F1 F2]. rewrite F1, <- app_assoc. cbn [app].
    rewrite (scan_block d rest (List.length body)) by auto. now rewrite pre_nil, !pre_after, <- after_app.
Qed.

(** ** All items *)
Lemma layout_scan : forall d l b m rest, layout_from d b l = true -> state d b m ->
  exists m' o, state d (end_of b l) m' /\ (pend b ++ layout_tokens l = o ++ pend (end_of b l))%list /\
    scan d m (chars l ++ rest) = after_toks o (scan d m' rest).
Proof.
  intros d. induction l as [|i l IH]; intros b m rest L S.
  - exists m, []. split; auto. split; [apply app_nil_r|]. now rewrite after_nil.
  - cbn [layout_from] in L. rewrite !andb_true_iff in L. destruct L as [[L1 L2] L3].
    destruct (item_comes d b i L1 L2 m (chars l ++ rest)%list S) as (m1 & o1 & S1 & E1 & C1).
    destruct (IH _ _ rest L3 S1) as (m2 & o2 & S2 & E2 & C2). exists m2, (o1 ++ o2)%list. split; auto. split.
    + cbn [layout_tokens flat_map end_of fold_left]. fold (layout_tokens l). fold (end_of (Some i) l).
      rewrite app_assoc, E1, <- !app_assoc. now f_equal.
    + cbn [chars flat_map]. fold (chars l). rewrite <- app_assoc, C1, C2. symmetry. apply after_app.
Qed.

Lemma finish_state : forall d b m, state d b m -> finish m = TOk (pend b).
Proof.
  intros d b m S. destruct b as [[w| | | | | | |]|]; cbn [state pend] in *; try (subst m; reflexivity).
  destruct S as [H W]. destruct H as [->|[w' [[-> ->]|[[-> ->]|[-> ->]]]]]; cbn [finish]; try now rewrite utf8_snoc.
  now rewrite flush_nonempty by (apply utf8_nonempty; now destruct w).
Qed.

Lemma forall_scalars : forall (f : rune -> bool) l, (forall c, f c = true -> is_scalar c = true) -> forallb f l = true -> scalars l.
Proof.
  intros f l H F. rewrite forallb_forall in F. apply Forall_forall. intros c I. apply H. now apply F.
Qed.
Lemma block_scalars : forall n body, List.length body <= n -> block_ok body = true -> scalars body.
Proof.
  induction n as [|n IH]; intros [|c body] L H; cbn in L; try lia; try constructor; cbn [block_ok] in H; rewrite andb_true_iff in H; destruct H as [H1 H2]; auto.
  destruct (c =? aster)%N.
  - destruct body as [|b body]; [discriminate|]. rewrite !andb_true_iff in H2. destruct H2 as [[H2 _] H3]. constructor; auto.
    apply IH; auto. cbn in L. lia.
  - destruct (c =? slash)%N; [|apply IH; auto; lia].
    destruct body as [|b body]; [discriminate|]. rewrite !andb_true_iff in H2. destruct H2 as [H2 H3]. constructor; auto.
    apply IH; auto. cbn in L. lia.
Qed.
Lemma one_of_scalar : forall l c, forallb is_scalar l = true -> one_of l c = true -> is_scalar c = true.
Proof. intros l c H O. apply one_of_spec in O. rewrite forallb_forall in H. auto. Qed.
Lemma item_scalars : forall d i, item_ok d i = true -> scalars (chars_of i).
Proof.
  intros d i H. destruct i as [w|c|q body|c| |body|body|body]; cbn [item_ok chars_of] in *.
  - unfold word_ok in H. rewrite !andb_true_iff in H. eapply word_scalars. apply H.
  - constructor; [|constructor]. eapply one_of_scalar; [|exact H]. reflexivity.
  - rewrite !andb_true_iff in H. destruct H as [[H _] H2].
    assert (Q : is_scalar q = true) by (eapply one_of_scalar; [|exact H]; reflexivity). constructor; auto.
    apply Forall_app. split; [|repeat constructor; auto].
    eapply forall_scalars; [|exact H2]. intros c X. rewrite !andb_true_iff in X. tauto.
  - constructor; [|constructor]. eapply one_of_scalar; [|exact H]. reflexivity.
  - now repeat constructor.
  - do 2 (constructor; [reflexivity|]). apply Forall_app. split; [|now repeat constructor].
    eapply forall_scalars; [|exact H]. intros c X. rewrite !andb_true_iff in X. tauto.
  - destruct d; try discriminate. constructor; [reflexivity|]. apply Forall_app. split; [|now repeat constructor].
    eapply forall_scalars; [|exact H]. intros c X. rewrite !andb_true_iff in X. tauto.
  - do 2 (constructor; [reflexivity|]). apply Forall_app. split; [|now repeat constructor].
    eapply block_scalars; eauto.
Qed.
Lemma layout_scalars : forall d l b, layout_from d b l = true -> scalars (chars l).
Proof.
  intros d. induction l as [|i l IH]; intros b H; [constructor|]. cbn [layout_from] in H. rewrite !andb_true_iff in H.
  destruct H as [[H1 _] H2]. apply Forall_app. split; [exact (item_scalars d i H1)|exact (IH _ H2)].
Qed.

(** What follows a layout. *)
Theorem layout_then : forall d l rest, layout d l = true -> scalars rest ->
  exists m o, state d (end_of None l) m /\ (layout_tokens l = o ++ pend (end_of None l))%list /\
    lexed d (runes_of (utf8 (chars l ++ rest))) =
      match after_toks o (scan d m rest) with TOk l => LexOk l | TErr n near => LexErr (mk_verror (S n) near) end.
Proof.
  intros d l rest L S. destruct (layout_scan d l None (M0 "") rest L eq_refl) as (m & o & S1 & E & C).
  exists m, o. split; auto. split; [exact E|]. rewrite runes_of_utf8, <- C; [reflexivity|].
  apply Forall_app. split; [exact (layout_scalars d l None L)|exact S].
Qed.

Theorem layout_lexes : forall d l, layout d l = true -> lexes d (text_of l) (layout_tokens l).
Proof.
  intros d l L. destruct (layout_then d l [] L (Forall_nil _)) as (m & o & S & -> & E). rewrite app_nil_r in E.
  cbn [scan] in E. rewrite (finish_state _ _ _ S) in E. exists (enough (text_of l)). now rewrite Lex_enough.
Qed.
Lemma strip_repeat : forall n, strip (repeat NL n) = [].
Proof. induction n; auto. Qed.
Lemma item_strip : forall d i, item_ok d i = true -> strip (item_tokens i) = lexeme i.
Proof.
  intros d i H. unfold item_tokens. change (String "010" "") with NL. unfold strip. rewrite filter_app. fold (strip (repeat NL (breaks i))).
  rewrite strip_repeat, app_nil_r. destruct i as [w|c|q body|c| |body|body|body]; cbn [lexeme item_ok filter] in *; auto.
  - now rewrite (word_not_nl _ _ H).
  - now destruct (symbol_rune c H) as [->|[->|[->|[->| ->]]]].
  - pose proof (item_scalars d (IQuoted q body) H) as X. rewrite not_nl; auto. destruct body; discriminate.
Qed.
Lemma layout_strip : forall d l b, layout_from d b l = true -> strip (layout_tokens l) = lexemes l.
Proof.
  intros d. induction l as [|i l IH]; intros b H; auto. cbn [layout_from] in H. rewrite !andb_true_iff in H.
  destruct H as [[H1 _] H2]. cbn [layout_tokens lexemes flat_map]. unfold strip. rewrite filter_app.
  fold (strip (item_tokens i)). rewrite (item_strip d) by auto. f_equal. eapply IH; eauto.
Qed.
Theorem layout_tokens_are : forall d l, layout d l = true -> tokens d (text_of l) (lexemes l).
Proof.
  intros d l L. destruct (layout_lexes d l L) as [n H]. exists n, (layout_tokens l). split; auto. symmetry. eapply layout_strip; eauto.
Qed.

(** ** The same tokens *)
Lemma diverges_iff : forall d s, diverges s d <-> (forall ts err, ~ returns s d ts err).
Proof.
  intros d s. split.
  - intros D ts err [n H]. rewrite D in H. discriminate.
  - intros H. destruct (returns_or_diverges d s) as [(ts & err & R)|D]; auto. now apply H in R.
Qed.
Theorem same_lexes : forall d s s' l, lexes d s l -> lexes d s' l -> same_result d s s'.
Proof.
  enough (X : forall d s s' l, lexes d s l -> lexes d s' l -> forall ts err, returns s d ts err -> returns s' d ts err).
  { intros d s s' l L L'. assert (R : forall ts err, returns s d ts err <-> returns s' d ts err).
    { intros. split; eapply X; eauto. }
    split; auto. rewrite !diverges_iff. split; intros H ts err Y; apply (H ts err); apply R; auto. }
  intros d s s' l [n L] [n' L'] ts err H. destruct (Lex_eq n d s) as [E|E]; [congruence|]. destruct (Lex_eq n' d s') as [E'|E']; [congruence|].
  assert (Q : lexed d (runes_of s) = lexed d (runes_of s')) by congruence.
  apply returns_stage in H. apply returns_stage. inversion H; subst; rewrite Q in *; [eapply st_lex|eapply st_validate|eapply st_ok]; eauto.
Qed.
Theorem same_tokens : forall d s s' l, tokens d s l -> tokens d s' l -> alike d s s'.
Proof.
  assert (X : forall d s s' l, tokens d s l -> tokens d s' l -> forall ts, accepted s d ts -> accepted s' d ts).
  { intros d s s' l (t & L & ->)%tokens_lexed (t' & L' & E)%tokens_lexed ts H. apply returns_stage in H. apply returns_stage.
    inversion H as [| |t1 rest out ts1 L1 V C]; subst. rewrite L in L1. inversion L1; subst. rewrite E in V. eapply st_ok; eauto. }
  assert (Y : forall d s s' l, tokens d s l -> tokens d s' l -> forall near line, rejected s d line near -> exists line', rejected s' d line' near).
  { intros d s s' l (t & L & ->)%tokens_lexed (t' & L' & E)%tokens_lexed near line H. apply returns_stage in H.
    inversion H as [|t1 rest L1 V|]; subst; [congruence|]. rewrite L in L1. inversion L1; subst. rewrite E in V.
    eexists. apply returns_stage. eapply st_validate; eauto. }
  intros d s s' l L L'.
  assert (D : forall ts, accepted s d ts <-> accepted s' d ts) by (intros; split; eapply X; eauto).
  assert (D2 : forall near, (exists line, rejected s d line near) <-> (exists line, rejected s' d line near)).
  { intros near. split; intros [line H]; eapply Y; [exact L|exact L'|exact H|exact L'|exact L|exact H]. }
  split; [exact D|]. split; [exact D2|]. rewrite !diverges_iff.
  assert (Z : forall u ts err, returns u d ts err -> accepted u d ts \/ exists line near, rejected u d line near).
  { intros u ts err R. destruct err as [[line near]|]; [right|now left]. exists line, near. unfold rejected.
    pose proof R as R'. apply returns_stage in R'. inversion R'; subst; exact R. }
  split; intros H ts err R; destruct (Z _ _ _ R) as [A|(line & near & A)].
  - apply D in A. exact (H _ _ A).
  - assert (B : exists line, rejected s' d line near) by eauto. apply D2 in B as [l0 B]. exact (H _ _ B).
  - apply D in A. exact (H _ _ A).
  - assert (B : exists line, rejected s d line near) by eauto. apply D2 in B as [l0 B]. exact (H _ _ B).
Qed.

(** C06, C08 *)
Theorem layouts_alike : forall d l l', layout d l = true -> layout d l' = true -> lexemes l = lexemes l' ->
  alike d (text_of l) (text_of l').
Proof.
  intros d l l' L L' E. apply (same_tokens d _ _ (lexemes l)); [|rewrite E]; now apply layout_tokens_are.
Qed.
(** C07 *)
Theorem layouts_same : forall d l l', layout d l = true -> layout d l' = true -> layout_tokens l = layout_tokens l' ->
  same_result d (text_of l) (text_of l').
Proof.
  intros d l l' L L' E. apply (same_lexes d _ _ (layout_tokens l)); [|rewrite E]; now apply layout_lexes.
Qed.

(** ** Line comments at the end of the text *)
Lemma scan_line_end : forall d m body, forallb (fun c => is_scalar c && negb (c =? nl)%N) body = true ->
  scan d (MLine m) body = finish m.
Proof.
  intros d m. induction body as [|c body IH]; intros H; [reflexivity|].
  cbn [forallb] in H. apply andb_true_iff in H as [H1 H2]. rewrite !andb_true_iff, !negb_true_iff in H1.
  cbn [scan step]. change c_nl with nl. destruct H1 as [_ ->]. now rewrite IH, pre_nil.
Qed.
Lemma line_scalars : forall body, line_body body = true -> scalars body.
Proof. intros body H. eapply forall_scalars; [|exact H]. intros c X. rewrite !andb_true_iff in X. tauto. Qed.
Theorem comment_at_end : forall d l body, layout d l = true -> fits (end_of None l) (IDash body) = true -> line_body body = true ->
  lexes d (utf8 (chars l ++ dash :: dash :: body)) (layout_tokens l).
Proof.
  intros d l body L F B. destruct (layout_then d l (dash :: dash :: body) L) as (m & o & S & -> & E).
  { do 2 (constructor; [reflexivity|]). now apply line_scalars. }
  exists (enough (utf8 (chars l ++ dash :: dash :: body))). rewrite Lex_enough by auto. rewrite E, (state_M0 _ _ _ S F).
  cbn [scan step]. cbn [step N.eqb dash c_minus Pos.eqb]. destruct (flush_pend _ _ _ S) as [F1 F2].
  rewrite F1, (scan_line_end d (M2 "") body B). cbn. now rewrite app_nil_r.
Qed.
Theorem sharp_at_end : forall l body, layout MySQL l = true -> line_body body = true ->
  lexes MySQL (utf8 (chars l ++ sharp :: body)) (layout_tokens l).
Proof.
  intros l body L B. destruct (layout_then MySQL l (sharp :: body) L) as (m & o & S & -> & E).
  { constructor; [reflexivity|]. now apply line_scalars. }
  exists (enough (utf8 (chars l ++ sharp :: body))). rewrite Lex_enough by auto. rewrite E.
  cbn [scan]. rewrite (state_step _ _ _ _ S) by reflexivity. destruct (flush_pend _ _ _ S) as [F1 F2].
  cbn -[flush scan utf8]. rewrite F1, (scan_line_end MySQL (M0 "") body B). cbn. now rewrite app_nil_r.
Qed.

(** ** Errors *)
Lemma count_repeat : forall n, count_nl (repeat NL n) = n.
Proof. unfold count_nl. induction n; cbn; auto. Qed.
Lemma count_item : forall d i, item_ok d i = true -> count_nl (item_tokens i) = breaks i.
Proof.
  intros d i H. unfold item_tokens. change (String "010" "") with NL. rewrite count_nl_app, count_repeat.
  destruct i as [w|c|q body|c| |body|body|body]; cbn [lexeme item_ok filter count_nl] in *; auto; unfold count_nl; cbn [filter].
  - now rewrite (word_not_nl _ _ H).
  - now destruct (symbol_rune c H) as [->|[->|[->|[->| ->]]]].
  - pose proof (item_scalars d (IQuoted q body) H) as X. rewrite not_nl; auto. destruct body; discriminate.
Qed.
Lemma count_layout : forall d l b, layout_from d b l = true -> count_nl (layout_tokens l) = all_breaks l.
Proof.
  intros d. induction l as [|i l IH]; intros b H; auto. cbn [layout_from] in H. rewrite !andb_true_iff in H.
  destruct H as [[H1 _] H2]. cbn [layout_tokens flat_map all_breaks map list_sum fold_right].
  rewrite count_nl_app, (count_item d) by auto. f_equal. exact (IH _ H2).
Qed.
Lemma layout_error : forall d l rest n near, layout d l = true -> scalars rest ->
  (forall m, state d (end_of None l) m -> scan d m rest = TErr n near) ->
  rejected (utf8 (chars l ++ rest)) d (1 + all_breaks l + n) near.
Proof.
  intros d l rest n near L S H. destruct (layout_then d l rest L S) as (m & o & S1 & E1 & E2).
  rewrite (H m S1) in E2. cbn [after_toks] in E2. apply returns_stage. apply st_lex. rewrite E2. do 2 f_equal.
  rewrite <- (count_layout d l None L), E1, count_nl_app. destruct (flush_pend _ _ _ S1) as [_ ->]. lia.
Qed.

Theorem bad_char : forall d l c rest, layout d l = true -> scalars rest ->
  c = wide \/ (d = PostgreSQL /\ c = 96%N) ->
  rejected (utf8 (chars l ++ c :: rest)) d (1 + all_breaks l) (utf8 [c]).
Proof.
  intros d l c rest L S C. rewrite <- (Nat.add_0_r (1 + all_breaks l)). apply layout_error; auto.
  - constructor; auto. destruct C as [->|[_ ->]]; reflexivity.
  - intros m S1. cbn [scan]. rewrite (state_step _ _ _ _ S1) by (destruct C as [->|[_ ->]]; reflexivity).
    destruct C as [->|[-> ->]]; reflexivity.
Qed.
Theorem stray_end : forall d l rest, layout d l = true -> scalars rest -> fits (end_of None l) (IBlock []) = true ->
  rejected (utf8 (chars l ++ aster :: slash :: rest)) d (1 + all_breaks l) "*".
Proof.
  intros d l rest L S F. rewrite <- (Nat.add_0_r (1 + all_breaks l)). apply layout_error; auto.
  - do 2 (constructor; [reflexivity|]). auto.
  - intros m S1. now rewrite (state_M0 _ _ _ S1 F).
Qed.

(** Inside quoted text that began with [q]. *)
Definition inside (q : rune) (m : mode) : Prop :=
  match m with
  | MQuote q' _ stk | MQSkip q' _ stk => last (q' :: map fst stk) 0%N = q
  | _ => False
  end.
Lemma inside_step : forall d q m c, inside q m -> c <> q -> exists o b m', step d m c = Go o b m' /\ inside q m'.
Proof.
  intros d q m c I N. destruct m as [| | | | | | | | |q' str stk|q' str stk]; try contradiction; cbn [step].
  - destruct (c =? c_nl)%N; [eauto|]. destruct (c =? q')%N eqn:E.
    + apply N.eqb_eq in E. subst. destruct stk as [|[q2 s2] stk]; [now elim N|]. cbn [close]. do 3 eexists. split; [reflexivity|]. exact I.
    + destruct (is_quote c); do 3 eexists; (split; [reflexivity|]); exact I.
  - do 3 eexists. split; [reflexivity|]. exact I.
Qed.
Lemma inside_scan : forall d q rs m, inside q m -> ~ In q rs -> exists n, scan d m rs = TErr n EOF.
Proof.
  intros d q. induction rs as [|c rs IH]; intros m I N.
  - destruct m; try contradiction; eexists; reflexivity.
  - destruct (inside_step d q m c I) as (o & b & m' & E & I'); [intros ->; apply N; now left|].
    destruct (IH m' I') as [n H]; [intros X; apply N; now right|]. cbn [scan]. rewrite E, H. cbn. eauto.
Qed.
Definition feeds (rs : list rune) : nat := count_occ N.eq_dec rs nl.
Lemma inside_plain : forall d q rs str, quote_mark q = true -> forallb (fun c => negb (quote_mark c)) rs = true ->
  scan d (MQuote q str []) rs = TErr (feeds rs) EOF.
Proof.
  intros d q. unfold feeds. induction rs as [|c rs IH]; intros str Q H; [reflexivity|].
  cbn [forallb] in H. apply andb_true_iff in H as [H1 H2]. rewrite negb_true_iff in H1. cbn [scan step count_occ]. change c_nl with nl.
  destruct (N.eq_dec c nl) as [->|E].
  - rewrite N.eqb_refl, IH by auto. reflexivity.
  - apply N.eqb_neq in E. rewrite E.
    assert (E1 : (c =? q)%N = false) by (apply N.eqb_neq; intros ->; congruence).
    assert (E2 : is_quote c = false).
    { unfold is_quote. now rewrite (one_of_false _ _ H1 c_dquote), (one_of_false _ _ H1 c_squote), (one_of_false _ _ H1 c_bquote)
        by (cbn; auto). }
    rewrite E1, E2, IH by auto. reflexivity.
Qed.
Lemma open_quote : forall d b m q, state d b m -> quote_mark q = true -> (d = PostgreSQL -> q <> 96%N) ->
  step d m q = Go (pend b) false (MQuote q (utf8_rune q) []).
Proof.
  intros d b m q S Q P. destruct (flush_pend _ _ _ S) as [F1 F2]. rewrite <- F1.
  assert (C : comment_char q = false).
  { apply one_of_spec in Q. cbn [In] in Q. destruct Q as [<-|[<-|[<-|[]]]]; reflexivity. }
  rewrite (state_step _ _ _ _ S C). apply one_of_spec in Q. cbn [In] in Q. destruct Q as [<-|[<-|[<-|[]]]]; auto.
  destruct d; auto. now elim P.
Qed.
Lemma quote_scalar : forall q, quote_mark q = true -> is_scalar q = true.
Proof. intros q H. eapply one_of_scalar; [|exact H]. reflexivity. Qed.
Theorem open_end : forall d l q rest, layout d l = true -> quote_mark q = true -> (d = PostgreSQL -> q <> 96%N) ->
  scalars rest -> ~ In q rest -> exists line, rejected (utf8 (chars l ++ q :: rest)) d line EOF.
Proof.
  intros d l q rest L Q P S N.
  assert (X : inside q (MQuote q (utf8_rune q) [])) by reflexivity.
  destruct (inside_scan d q rest _ X N) as [n H]. exists (1 + all_breaks l + n). apply layout_error; auto.
  - constructor; auto. now apply quote_scalar.
  - intros m S1. cbn [scan]. rewrite (open_quote _ _ _ _ S1 Q P), H. reflexivity.
Qed.
Theorem open_end_line : forall d l q rest, layout d l = true -> quote_mark q = true -> (d = PostgreSQL -> q <> 96%N) ->
  scalars rest -> forallb (fun c => negb (quote_mark c)) rest = true ->
  rejected (utf8 (chars l ++ q :: rest)) d (1 + all_breaks l + count_occ N.eq_dec rest nl) EOF.
Proof.
  intros d l q rest L Q P S N. apply layout_error; auto.
  - constructor; auto. now apply quote_scalar.
  - intros m S1. cbn [scan]. rewrite (open_quote _ _ _ _ S1 Q P), inside_plain by auto. reflexivity.
Qed.

Lemma scan_open_block : forall d n body, List.length body <= n -> no_end body = true ->
  scan d MBlock body = TErr (block_breaks body) EOF.
Proof.
  intros d. induction n as [|n IH]; intros [|c body] L H; cbn [List.length] in L; try lia; [reflexivity..|].
  assert (T : no_end body = true).
  { cbn [no_end] in H. destruct body; [reflexivity|]. apply andb_true_iff in H. tauto. }
  cbn [block_breaks scan step]. change c_nl with nl. change c_star with aster.
  change c_slash with slash. destruct (c =? nl)%N; [rewrite IH by (auto; lia); reflexivity|].
  destruct (c =? aster)%N eqn:E1; cbn [orb].
  - destruct body as [|b body]; [reflexivity|]. cbn [no_end] in H. rewrite E1 in H. cbn [andb] in H.
    apply andb_true_iff in H as [H1 H2]. apply negb_true_iff in H1. cbn [scan step]. change c_slash with slash. rewrite H1, IH; [reflexivity|cbn in L; lia|].
    destruct body; auto. cbn [no_end] in T. apply andb_true_iff in T. tauto.
  - destruct (c =? slash)%N eqn:E2; [|rewrite IH by (auto; lia); reflexivity].
    destruct body as [|b body]; [reflexivity|]. cbn [scan step]. rewrite IH; [reflexivity|cbn in L; lia|].
    destruct body; auto. cbn [no_end] in T. apply andb_true_iff in T. tauto.
Qed.
Theorem open_comment : forall d l body, layout d l = true -> fits (end_of None l) (IBlock []) = true ->
  scalars body -> no_end body = true ->
  rejected (utf8 (chars l ++ slash :: aster :: body)) d (1 + all_breaks l + block_breaks body) EOF.
Proof.
  intros d l body L F S N. apply layout_error; auto.
  - do 2 (constructor; [reflexivity|]). auto.
  - intros m S1. rewrite (state_M0 _ _ _ S1 F). cbn [scan step]. cbn [step N.eqb slash aster c_minus c_slash c_star Pos.eqb].
    now rewrite (scan_open_block d (List.length body)).
Qed.

(** ** Comments put into a text *)
Lemma layout_tokens_mid : forall a i i' b, item_tokens i = item_tokens i' ->
  layout_tokens (a ++ i :: b) = layout_tokens (a ++ i' :: b).
Proof. intros a i i' b E. unfold layout_tokens. rewrite !flat_map_app. cbn [flat_map]. now rewrite E. Qed.
Theorem line_comment : forall d a b body, layout d (a ++ IBreak :: b) = true -> layout d (a ++ IDash body :: b) = true ->
  same_result d (text_of (a ++ IBreak :: b)) (text_of (a ++ IDash body :: b)).
Proof. intros. apply layouts_same; auto. now apply layout_tokens_mid. Qed.
Lemma sharp_layout : forall a bef b body, layout_from MySQL bef (a ++ IBreak :: b) = true -> line_body body = true ->
  layout_from MySQL bef (a ++ ISharp body :: b) = true.
Proof.
  induction a as [|i a IH]; intros bef b body H B; cbn [app layout_from] in *.
  - cbn [item_ok fits andb] in *. rewrite B. cbn [andb]. destruct b as [|j b]; auto.
  - rewrite !andb_true_iff in *. destruct H as [[H1 H2] H3]. auto.
Qed.
Theorem sharp_comment : forall a b body, layout MySQL (a ++ IBreak :: b) = true -> line_body body = true ->
  same_result MySQL (text_of (a ++ IBreak :: b)) (text_of (a ++ ISharp body :: b)).
Proof. intros. apply layouts_same; auto; [now apply sharp_layout|]. now apply layout_tokens_mid. Qed.
Theorem block_comment : forall d a b body, layout d (a ++ ISpace 32%N :: b) = true -> layout d (a ++ IBlock body :: b) = true ->
  alike d (text_of (a ++ ISpace 32%N :: b)) (text_of (a ++ IBlock body :: b)).
Proof. intros. apply layouts_alike; auto. unfold lexemes. now rewrite !flat_map_app. Qed.
Theorem block_comment_line : forall d a b body, layout d (a ++ ISpace 32%N :: b) = true -> layout d (a ++ IBlock body :: b) = true ->
  block_breaks body = 0 -> same_result d (text_of (a ++ ISpace 32%N :: b)) (text_of (a ++ IBlock body :: b)).
Proof. intros. apply layouts_same; auto. apply layout_tokens_mid. unfold item_tokens. cbn [lexeme breaks]. now rewrite H1. Qed.
