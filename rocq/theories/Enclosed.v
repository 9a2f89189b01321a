(** A token that begins with a quotation mark ends with the same one. *)
From Coq Require Import String Ascii NArith List Bool Arith Lia.
From Verif Require Import GoStr GoNum Types Lexer Scan Grammar Spec Pipe Emit Tokens Meaning.
Import ListNotations.
Open Scope nat_scope.
Open Scope string_scope.

Definition enclosed (t : string) : Prop :=
  quoted any_quote t = true -> exists q s, t = String q (s ++ String q "").

Definition opened (q : rune) (str : string) : Prop :=
  exists b s, utf8_rune q = String b "" /\ str = String b s.
Fixpoint mode_enc (m : mode) : Prop :=
  match m with
  | M0 t | M2 t | MHyphen t | MSlash t | MStar t => wordish t
  | MLine m => mode_enc m
  | MBlock | MBlockStar | MBlockSkip => True
  | MQuote q str stk | MQSkip q str stk => opened q str /\ Forall (fun x => opened (fst x) (snd x)) stk
  end.
Definition act_enc (a : act) : Prop :=
  match a with Go out _ m => Forall enclosed out /\ mode_enc m | Stop _ => True end.

Lemma wordish_enc : forall t, wordish t -> enclosed t.
Proof. intros t W Q. unfold wordish in W. congruence. Qed.
Lemma flush_enc : forall t, wordish t -> Forall enclosed (flush t).
Proof. intros t W. unfold flush. destruct (t =? ""); constructor; auto using wordish_enc. Qed.
Lemma NL_enc : enclosed NL.
Proof. now apply wordish_enc. Qed.
Lemma opened_quote : forall c, is_quote c = true -> opened c (utf8_rune c).
Proof.
  intros c H. unfold is_quote in H. rewrite !orb_true_iff, !N.eqb_eq in H.
  destruct H as [[->| ->]| ->]; eexists _, ""; split; reflexivity.
Qed.
Lemma opened_app : forall q str s, opened q str -> opened q (str ++ s).
Proof. intros q str s (b & r & E & ->). exists b, (r ++ s). now split. Qed.
Lemma close_enc : forall q str, opened q str -> enclosed (str ++ utf8_rune q).
Proof. intros q str (b & r & E & ->) _. exists b, r. now rewrite E. Qed.

Lemma step2_enc : forall d t c, wordish t -> act_enc (step2 d t c).
Proof.
  intros d t c W. unfold step2.
  assert (Q : forall c, is_quote c = true -> act_enc (Go (flush t) false (MQuote c (utf8_rune c) []))).
  { intros c' H. split; [now apply flush_enc|]. split; [now apply opened_quote|constructor]. }
  destruct (c =? c_dquote)%N eqn:E1; [apply Q; unfold is_quote; now rewrite E1|].
  destruct (c =? c_squote)%N eqn:E2; [apply Q; unfold is_quote; now rewrite E2, orb_true_r|].
  destruct (c =? c_bquote)%N eqn:E3; [destruct d; try exact I; apply Q; unfold is_quote; now rewrite E3, orb_true_r|].
  assert (NQ : is_quote c = false) by (unfold is_quote; now rewrite E1, E2, E3).
  assert (A : act_enc (Go [] false (M0 (t ++ utf8_rune c)))).
  { split; [constructor|]. now apply wordish_app. }
  destruct (c =? c_sharp)%N eqn:E4.
  { destruct d; try exact A. split; [now apply flush_enc|]. reflexivity. }
  destruct (_ || _)%N eqn:E5; [split; [now apply flush_enc|reflexivity]|].
  destruct (c =? c_nl)%N eqn:E6.
  { split; [|reflexivity]. apply Forall_app. split; [now apply flush_enc|]. constructor; auto using NL_enc. }
  destruct (is_symbol c) eqn:E7.
  { split; [|reflexivity]. apply Forall_app. split; [now apply flush_enc|]. constructor; auto.
    apply wordish_enc. now apply rune_not_quoted. }
  destruct (c =? c_wide)%N; [exact I|exact A].
Qed.

Lemma step_enc : forall d m c, mode_enc m -> act_enc (step d m c).
Proof.
  intros d m c W. destruct m as [t|t|t|t|t|m| | | |q str stk|q str stk]; cbn [step mode_enc] in *.
  - destruct (c =? c_minus)%N; [now split|]. destruct (c =? c_slash)%N; [now split|].
    destruct (c =? c_star)%N; [now split|]. now apply step2_enc.
  - now apply step2_enc.
  - destruct (c =? c_minus)%N; [split; [now apply flush_enc|reflexivity]|]. apply step2_enc. now apply wordish_app.
  - destruct (c =? c_star)%N; [split; [now apply flush_enc|exact I]|]. apply step2_enc. now apply wordish_app.
  - destruct (c =? c_slash)%N; [exact I|]. apply step2_enc. now apply wordish_app.
  - destruct (c =? c_nl)%N; split; auto using NL_enc.
  - destruct (c =? c_nl)%N; [split; auto; constructor; auto using NL_enc|].
    destruct (c =? c_star)%N; [split; auto; exact I|]. destruct (c =? c_slash)%N; split; auto; exact I.
  - destruct (c =? c_slash)%N; split; auto; cbn; auto. reflexivity.
  - split; auto; exact I.
  - destruct W as [W1 W2]. destruct (c =? c_nl)%N; [split; [constructor; auto using NL_enc|split; auto]|].
    destruct (N.eqb_spec c q) as [->|N].
    + destruct stk as [|[q' str'] stk]; cbn [close].
      * split; [|reflexivity]. constructor; auto. now apply close_enc.
      * split; auto. inversion W2; subst. cbn in *. split; auto. now apply opened_app.
    + destruct (is_quote c) eqn:Q.
      * split; auto. split; [now apply opened_quote|]. constructor; auto.
      * split; auto. split; auto. now apply opened_app.
  - split; auto.
Qed.

Lemma finish_enc : forall m l, mode_enc m -> finish m = TOk l -> Forall enclosed l.
Proof.
  induction m; cbn [finish mode_enc]; intros l W E; try discriminate; auto; inversion E; subst;
    try (now apply flush_enc); constructor; auto; apply wordish_enc; now apply wordish_app.
Qed.

Lemma scan_enc : forall d rs m l, mode_enc m -> scan d m rs = TOk l -> Forall enclosed l.
Proof.
  induction rs as [|c rs IH]; intros m l W E; cbn [scan] in E; [eapply finish_enc; eauto|].
  pose proof (step_enc d m c W) as S. destruct (step d m c) as [out nl m'|near]; [|discriminate].
  destruct S as [S1 S2]. destruct (scan d m' rs) eqn:X; [|discriminate]. inversion E; subst.
  apply Forall_app. split; auto. eapply IH; eauto.
Qed.

Theorem tokens_enclosed : forall d ddl l, tokens d ddl l -> Forall enclosed l.
Proof.
  intros d ddl l (t & L & ->)%tokens_lexed. unfold lexed in L.
  destruct (scan d (M0 "") (runes_of ddl)) eqn:E; [|discriminate]. inversion L; subst.
  assert (F : Forall enclosed t) by (eapply scan_enc; [|exact E]; reflexivity).
  apply Forall_forall. intros x [I _]%filter_In. rewrite Forall_forall in F. auto.
Qed.
