(** The tokens that the lexer makes. *)
From Coq Require Import String Ascii NArith List Bool Arith Lia.
From Verif Require Import GoStr Types Lexer Scan Grammar GrammarFacts Emit Utf8.
Import ListNotations.
Open Scope nat_scope.
Open Scope string_scope.

Lemma quoted_app : forall qs a b, a <> "" -> quoted qs (a ++ b) = quoted qs a.
Proof. intros qs [|c a] b H; [congruence|reflexivity]. Qed.

(** The first byte of the encoding of [c] is [c] itself or is at least 192. *)
Lemma rune_head : forall c, exists b s, utf8_rune c = String b s /\ (N_of_ascii b = c \/ 192 <= N_of_ascii b)%N.
Proof.
  intros c. unfold utf8_rune. set (x := if is_scalar c then c else 65533%N).
  assert (X : (x < 128 -> x = c)%N).
  { unfold x. destruct (is_scalar c); auto. lia. }
  assert (Y : (x < 1114112)%N).
  { unfold x. destruct (is_scalar c) eqn:E; [|lia]. unfold is_scalar in E.
    apply orb_true_iff in E as [E|E]; [apply N.ltb_lt in E; lia|].
    apply andb_true_iff in E as [_ E]. now apply N.ltb_lt in E. }
  destruct (x <? 128)%N eqn:E1.
  - apply N.ltb_lt in E1. do 2 eexists. split; [reflexivity|]. left. rewrite N_of_byte by lia. auto.
  - apply N.ltb_ge in E1. destruct (x <? 2048)%N eqn:E2; [|destruct (x <? 65536)%N eqn:E3].
    + apply N.ltb_lt in E2. do 2 eexists. split; [reflexivity|]. right.
      assert (x / 64 < 32)%N by (apply N.div_lt_upper_bound; lia). rewrite N_of_byte by lia. lia.
    + apply N.ltb_lt in E3. do 2 eexists. split; [reflexivity|]. right.
      assert (x / 4096 < 16)%N by (apply N.div_lt_upper_bound; lia). rewrite N_of_byte by lia. lia.
    + do 2 eexists. split; [reflexivity|]. right.
      assert (x / 262144 < 16)%N by (apply N.div_lt_upper_bound; lia). rewrite N_of_byte by lia. lia.
Qed.

Lemma quoted_byte : forall b s, quoted any_quote (String b s) = true ->
  (N_of_ascii b = 34 \/ N_of_ascii b = 39 \/ N_of_ascii b = 96)%N.
Proof.
  intros b s H. cbn [quoted] in H. apply contains_spec in H. cbn in H.
  destruct H as [H|[H|[H|[]]]]; inversion H; subst; auto.
Qed.

Lemma rune_not_quoted : forall c, is_quote c = false -> quoted any_quote (utf8_rune c) = false.
Proof.
  intros c H. unfold is_quote, c_dquote, c_squote, c_bquote in H.
  apply orb_false_iff in H as [H H3]. apply orb_false_iff in H as [H1 H2].
  apply N.eqb_neq in H1, H2, H3.
  destruct (quoted any_quote (utf8_rune c)) eqn:Q; auto. exfalso.
  destruct (rune_head c) as (b & s & E & B). rewrite E in Q. apply quoted_byte in Q. lia.
Qed.

(** text between separators: no quotation mark at the beginning *)
Definition wordish (t : string) : Prop := quoted any_quote t = false.

Fixpoint mode_ok (m : mode) : Prop :=
  match m with
  | M0 t | M2 t | MHyphen t | MSlash t | MStar t => wordish t
  | MLine m => mode_ok m
  | MBlock | MBlockStar | MBlockSkip => True
  | MQuote _ str stk | MQSkip _ str stk => str <> "" /\ Forall (fun x => snd x <> "") stk
  end.

Lemma wordish_good : forall t, t <> "" -> wordish t -> good t.
Proof. intros t N W. split; auto. unfold wordish in W. congruence. Qed.
Lemma flush_good : forall t, wordish t -> Forall good (flush t).
Proof.
  intros t W. unfold flush. destruct (t =? "") eqn:E; [constructor|].
  apply String.eqb_neq in E. constructor; auto. now apply wordish_good.
Qed.
Lemma wordish_app : forall t c, wordish t -> is_quote c = false -> wordish (t ++ utf8_rune c).
Proof.
  intros t c W Q. unfold wordish. destruct t as [|b t]; [now apply rune_not_quoted|].
  rewrite quoted_app by discriminate. exact W.
Qed.

Definition act_ok (a : act) : Prop :=
  match a with Go out _ m => Forall good out /\ mode_ok m | Stop _ => True end.

Lemma NL_good : good NL.
Proof. split; [discriminate|]. discriminate. Qed.

Lemma step2_ok : forall d t c, wordish t -> act_ok (step2 d t c).
Proof.
  intros d t c W. unfold step2.
  assert (Q : forall c, act_ok (Go (flush t) false (MQuote c (utf8_rune c) []))).
  { intros c'. split; [now apply flush_good|]. cbn. split; [apply utf8_rune_nonempty|constructor]. }
  destruct (c =? c_dquote)%N eqn:E1; [apply Q|].
  destruct (c =? c_squote)%N eqn:E2; [apply Q|].
  destruct (c =? c_bquote)%N eqn:E3; [destruct d; try apply Q; exact I|].
  assert (NQ : is_quote c = false) by (unfold is_quote; now rewrite E1, E2, E3).
  assert (A : act_ok (Go [] false (M0 (t ++ utf8_rune c)))).
  { split; [constructor|]. now apply wordish_app. }
  destruct (c =? c_sharp)%N eqn:E4.
  { destruct d; try exact A. split; [now apply flush_good|]. reflexivity. }
  destruct (_ || _)%N eqn:E5; [split; [now apply flush_good|reflexivity]|].
  destruct (c =? c_nl)%N eqn:E6.
  { split; [|reflexivity]. apply Forall_app. split; [now apply flush_good|]. constructor; auto using NL_good. }
  destruct (is_symbol c) eqn:E7.
  { split; [|reflexivity]. apply Forall_app. split; [now apply flush_good|]. constructor; auto.
    apply wordish_good; [apply utf8_rune_nonempty|]. now apply rune_not_quoted. }
  destruct (c =? c_wide)%N; [exact I|exact A].
Qed.

Lemma close_good : forall s, s <> "" -> forall c, good (s ++ utf8_rune c).
Proof.
  intros s N c. split; [apply append_nonempty, utf8_rune_nonempty|]. intros _.
  destruct s as [|b s]; [congruence|]. pose proof (utf8_rune_nonempty c). destruct (utf8_rune c) as [|b' r]; [congruence|].
  cbn [append String.length]. clear. induction s; cbn; lia.
Qed.

Lemma step_ok : forall d m c, mode_ok m -> act_ok (step d m c).
Proof.
  intros d m c W. destruct m as [t|t|t|t|t|m| | | |q str stk|q str stk]; cbn [step mode_ok] in *.
  - destruct (c =? c_minus)%N; [now split|]. destruct (c =? c_slash)%N; [now split|].
    destruct (c =? c_star)%N; [now split|]. now apply step2_ok.
  - now apply step2_ok.
  - destruct (c =? c_minus)%N; [split; [now apply flush_good|reflexivity]|]. apply step2_ok. now apply wordish_app.
  - destruct (c =? c_star)%N; [split; [now apply flush_good|exact I]|]. apply step2_ok. now apply wordish_app.
  - destruct (c =? c_slash)%N; [exact I|]. apply step2_ok. now apply wordish_app.
  - destruct (c =? c_nl)%N; split; auto using NL_good.
  - destruct (c =? c_nl)%N; [split; auto; constructor; auto using NL_good|].
    destruct (c =? c_star)%N; [split; auto; exact I|]. destruct (c =? c_slash)%N; split; auto; exact I.
  - destruct (c =? c_slash)%N; split; auto; cbn; auto. reflexivity.
  - split; auto; exact I.
  - destruct W as [W1 W2]. destruct (c =? c_nl)%N; [split; [constructor; auto using NL_good|split; auto]|].
    destruct (c =? q)%N.
    + destruct stk as [|[q' str'] stk]; cbn [close].
      * split; [|reflexivity]. constructor; auto. now apply close_good.
      * split; auto. inversion W2; subst. cbn in *. split; auto.
        destruct str'; [congruence|discriminate].
    + destruct (is_quote c).
      * split; auto. split; [apply utf8_rune_nonempty|]. constructor; auto.
      * split; auto. split; auto. destruct str; [congruence|discriminate].
  - split; auto.
Qed.

Lemma finish_ok : forall m l, mode_ok m -> finish m = TOk l -> Forall good l.
Proof.
  induction m; cbn [finish mode_ok]; intros l W E; try discriminate; auto; inversion E; subst;
    try (now apply flush_good); constructor; auto; (apply wordish_good; [apply append_nonempty, utf8_rune_nonempty|now apply wordish_app]).
Qed.

Theorem scan_good : forall d rs m l, mode_ok m -> scan d m rs = TOk l -> Forall good l.
Proof.
  induction rs as [|c rs IH]; intros m l W E; cbn [scan] in E; [eapply finish_ok; eauto|].
  pose proof (step_ok d m c W) as S. destruct (step d m c) as [out nl m'|near]; [|discriminate].
  destruct S as [S1 S2]. destruct (scan d m' rs) eqn:X; [|discriminate]. inversion E; subst.
  apply Forall_app. split; auto. eapply IH; eauto.
Qed.

Theorem lexed_good : forall d rs l, lexed d rs = LexOk l -> Forall good l.
Proof.
  intros d rs l H. unfold lexed in H. destruct (scan d (M0 "") rs) eqn:E; [|discriminate].
  inversion H; subst. eapply scan_good; [|exact E]. reflexivity.
Qed.
