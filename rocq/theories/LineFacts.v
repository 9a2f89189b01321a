(** The line of an error, exactly. *)
From Coq Require Import String Ascii NArith List Bool Arith Lia.
From Verif Require Import GoStr Types Lexer VBase Exec Parse Spec Pipe ErrorAt Utf8 Layout LayoutFacts Lexical LexicalFacts Inside InsideFacts Lines.
Import ListNotations.
Open Scope nat_scope.
Open Scope list_scope.

Lemma no_pair_part : forall a b x y z, no_pair a b (x ++ y ++ z) -> no_pair a b y.
Proof. intros a b x y z H (u & v & ->). apply H. exists (x ++ u), (v ++ z). now rewrite <- !app_assoc. Qed.
Lemma calm_part : forall x y z, calm (x ++ y ++ z) -> calm y.
Proof.
  intros x y z (A & S & Q). split; [eapply no_pair_part; eauto|]. split; [eapply no_pair_part; eauto|]. destruct Q as [[q Q]|Q]; [left|right].
  - exists q. intros c I. apply Q. rewrite !in_app_iff. auto.
  - intros q M. eapply no_pair_part; eauto.
Qed.
Lemma calm_l : forall x y, calm (x ++ y) -> calm x.
Proof. intros x y H. apply (calm_part [] x y). exact H. Qed.
Lemma calm_r : forall x y, calm (x ++ y) -> calm y.
Proof. intros x y H. apply (calm_part x y []). now rewrite app_nil_r. Qed.
Lemma calm_tl : forall c y, calm (c :: y) -> calm y.
Proof. intros c y. apply (calm_r [c]). Qed.

Lemma not_break : forall c a, c <> nl -> line_breaks (c :: a) = line_breaks a.
Proof. intros c a H. unfold line_breaks. cbn [count_occ]. destruct (N.eq_dec c nl); [contradiction|reflexivity]. Qed.
Lemma by_test : forall (f : rune -> bool) c, f c = true -> f nl = false -> c <> nl.
Proof. intros f c H N ->. congruence. Qed.
Lemma mark_not_break : forall c, quote_mark c = true -> c <> nl.
Proof. intros c H. now apply (by_test quote_mark). Qed.
(** What is between the marks ends with the mark. *)
Lemma quotation_last : forall q body n s, quotation q body n s -> exists b, body = b ++ [q].
Proof.
  intros q body n s H. induction H as [q|q body n s H [b ->]|q c body n s N M H [b ->]|q c body n s x body' n' s' N M H _ H' [b ->]].
  - now exists [].
  - now exists (nl :: b).
  - now exists (c :: b).
  - exists (c :: body ++ x :: b). cbn [app]. now rewrite <- app_assoc.
Qed.
Definition quiet (q : rune) (body : list rune) : Prop :=
  (forall c, In c body -> quote_mark c = true -> c = q) \/ forall m, quote_mark m = true -> no_pair m nl body.
Lemma quiet_tl : forall q c body, quiet q (c :: body) -> quiet q body.
Proof.
  intros q c body [H|H]; [left; intros x I; apply H; now right|right]. intros m M. apply (no_pair_part m nl [c] body []). rewrite app_nil_r. now apply H.
Qed.
Lemma quiet_inner : forall q c body rest, c <> q -> quote_mark c = true -> quiet q (c :: body ++ rest) -> quiet c body.
Proof.
  intros q c body rest N M [H|H]; [elim N; apply H; [now left|exact M]|]. right. intros m K. apply (no_pair_part m nl [c] body rest). now apply H.
Qed.
Lemma quiet_rest : forall q c body x rest, quiet q (c :: body ++ x :: rest) -> quiet q rest.
Proof.
  intros q c body x rest [H|H]; [left; intros y I; apply H; right; apply in_app_iff; right; now right|right].
  intros m K. apply (no_pair_part m nl (c :: body ++ [x]) rest []). cbn [app]. rewrite app_nil_r, <- app_assoc. now apply H.
Qed.
Lemma inner_not_break : forall q c body n s x rest, c <> q -> quote_mark c = true -> quotation c body n s -> quiet q (c :: body ++ x :: rest) -> x <> nl.
Proof.
  intros q c body n s x rest N M H [Q|Q] ->; [apply N, Q; [now left|exact M]|]. apply quotation_last in H as [b ->].
  apply (Q c M). exists (c :: b), rest. cbn [app]. now rewrite <- app_assoc.
Qed.
Lemma quotation_breaks : forall q body n s, quotation q body n s -> quote_mark q = true -> quiet q body -> n = line_breaks body.
Proof.
  intros q body n s H. induction H as [q|q body n s H IH|q c body n s N M H IH|q c body n s x body' n' s' N M H IH H' IH']; intros Q K.
  - rewrite not_break; [reflexivity|]. now apply mark_not_break.
  - rewrite breaks_nl, <- IH; eauto using quiet_tl.
  - rewrite not_break by auto. eauto using quiet_tl.
  - rewrite not_break by (now apply mark_not_break). rewrite breaks_app, not_break by (eapply inner_not_break; eauto).
    rewrite <- IH, <- IH'; eauto using quiet_inner, quiet_rest.
Qed.
Lemma unended_exact : forall q body n, unended q body n -> quote_mark q = true -> quiet q body -> n = line_breaks body.
Proof.
  intros q body n H. induction H as [q|q body n H IH|q c body n N M H IH|q c body n s x body' n' N M H H' IH'|q c body n s N M H|q c body n N M H IH]; intros Q K.
  - reflexivity.
  - rewrite breaks_nl, <- IH; eauto using quiet_tl.
  - rewrite not_break by auto. eauto using quiet_tl.
  - rewrite not_break by (now apply mark_not_break). rewrite breaks_app, not_break by (eapply inner_not_break; eauto).
    rewrite <- (quotation_breaks _ _ _ _ H), <- IH'; eauto using quiet_inner, quiet_rest.
  - rewrite not_break by (now apply mark_not_break). rewrite <- (quotation_breaks _ _ _ _ H); auto. apply (quiet_inner q c body []); auto. now rewrite app_nil_r.
  - rewrite not_break by (now apply mark_not_break). apply IH; auto. apply (quiet_inner q c body []); auto. now rewrite app_nil_r.
Qed.
Lemma block_exact : forall body, no_pair aster nl body -> no_pair slash nl body -> block_breaks body = line_breaks body.
Proof.
  fix IH 1. intros [|c body] A S; [reflexivity|]. cbn [block_breaks].
  assert (T : forall a x y, no_pair a nl (x :: y) -> no_pair a nl y).
  { intros a x y H. apply (no_pair_part a nl [x] y []). now rewrite app_nil_r. }
  destruct (c =? nl)%N eqn:E; [apply N.eqb_eq in E; subst c; rewrite breaks_nl, IH; eauto|].
  apply N.eqb_neq in E. rewrite not_break by auto.
  destruct ((c =? aster)%N || (c =? slash)%N) eqn:Q; [|eauto].
  destruct body as [|x body]; [reflexivity|]. rewrite not_break; [apply IH; eapply T, T; eassumption|]. intros ->.
  apply orb_true_iff in Q as [Q|Q]; apply N.eqb_eq in Q; subst c; [apply A|apply S]; now exists [], body.
Qed.
Lemma word_no_break : forall d fresh w rest, word_at d fresh w rest -> line_breaks w = 0.
Proof.
  intros d fresh w rest H. induction H as [| | |fresh c w rest H O H' IH|c w rest H O H' IH]; try reflexivity.
  - rewrite not_break; auto. apply (by_test (word_char d)); auto.
  - rewrite not_break; auto. now apply (by_test comment_char).
Qed.

(** ** Tokens *)

Definition token_at (rs : list rune) (p : list string) (t : string) : Prop :=
  exists a w b s, rs = a ++ w ++ b /\ w <> [] /\ shown s w /\ t = utf8 s /\ count_nl p = line_breaks (a ++ w).
Definition exact_read (rs : list rune) (r : reading) : Prop :=
  match r with
  | Tokens toks => count_nl toks = line_breaks rs /\ forall p t q, toks = p ++ t :: q -> t <> line_break -> token_at rs p t
  | Bad n near => exists before, error_place rs before near /\ n = line_breaks before
  end.
Lemma at_after : forall x rs l p t, token_at rs p t -> count_nl l = line_breaks x -> token_at (x ++ rs) (l ++ p) t.
Proof.
  intros x rs l p t (a & w & b & s & -> & W & S & -> & L) K. exists (x ++ a), w, b, s. rewrite <- app_assoc. repeat split; auto.
  rewrite count_nl_app, <- app_assoc, (breaks_app x). lia.
Qed.
Lemma exact_after : forall x l rs r, exact_read rs r -> count_nl l = line_breaks x ->
  (forall p t q rest, l = p ++ t :: q -> t <> line_break -> token_at (x ++ rest) p t) -> exact_read (x ++ rs) (and_then l r).
Proof.
  intros x l rs [toks|n near] H K P; cbn [and_then exact_read] in *.
  - destruct H as [C H]. split; [rewrite count_nl_app, breaks_app; lia|]. intros p t q E N.
    destruct (app_split _ _ _ _ _ E) as [[q1 ->]|(p2 & -> & ->)]; [eapply P; eauto|].
    apply at_after; auto. eapply H; eauto.
  - destruct H as (before & E & L). exists (x ++ before). rewrite count_lb, breaks_app. split; [|lia].
    destruct E as [[-> ->]|(a & w & b & s & -> & -> & W & S & ->)]; [left; auto|].
    right. exists (x ++ a), w, b, s. rewrite <- !app_assoc. auto.
Qed.
Lemma exact_blank : forall x rs r, exact_read rs r -> line_breaks x = 0 -> exact_read (x ++ rs) r.
Proof.
  intros x rs r H Z. assert (E : r = and_then [] r) by (destruct r; reflexivity). rewrite E. apply exact_after; auto.
  intros [|? p] t q rest E'; discriminate.
Qed.
Lemma exact_breaks : forall x n rs r, n = line_breaks x -> exact_read rs r -> exact_read (x ++ rs) (and_then (repeat line_break n) r).
Proof.
  intros x n rs r L H. apply exact_after; auto; [now rewrite count_repeat|]. intros p t q rest E N. elim N.
  assert (I : In t (repeat line_break n)) by (rewrite E; apply in_elt). now apply repeat_spec in I.
Qed.
Lemma exact_token : forall x n s rs r, x <> [] -> shown s x -> n = line_breaks x -> utf8 s <> line_break -> exact_read rs r ->
  exact_read (x ++ rs) (and_then (repeat line_break n ++ [utf8 s]) r).
Proof.
  intros x n s rs r X S L U H. apply exact_after; auto.
  - rewrite count_nl_app, count_repeat, count_one by auto. lia.
  - intros p t q rest E N. destruct (app_split _ _ _ _ _ E) as [[q1 R]|(p2 & -> & E2)].
    + elim N. assert (I : In t (repeat line_break n)) by (rewrite R; apply in_elt). now apply repeat_spec in I.
    + destruct p2 as [|y p2]; [|destruct p2; discriminate]. injection E2 as <-. exists [], x, rest, s. repeat split; auto.
      rewrite app_nil_r, count_repeat. exact L.
Qed.
Lemma calm_quiet : forall q body rest, quote_mark q = true -> calm (q :: body ++ rest) -> quiet q body.
Proof.
  intros q body rest M (_ & _ & [[m H]|H]); [left|right].
  - intros c I K. rewrite (H c), (H q); auto; [now left|]. right. apply in_app_iff. now left.
  - intros m K. apply (no_pair_part m nl [q] body rest). now apply H.
Qed.
Lemma reads_exact : forall d fresh rs r, reads d fresh rs r -> calm rs -> exact_read rs r.
Proof.
  intros d fresh rs r H. induction H; intros K.
  - split; [auto|]. intros [|? p] t q E; discriminate.
  - apply (exact_blank [c]); [eauto using calm_tl|]. rewrite not_break; [reflexivity|]. now apply (by_test blank_char).
  - apply (exact_breaks [nl] 1); [reflexivity|eauto using calm_tl].
  - apply (exact_token [c] 0 [c]); eauto using calm_tl; [discriminate|now left| |now apply (char_not_break symbol)].
    rewrite not_break; [reflexivity|]. now apply (by_test symbol).
  - apply (exact_token w 0 w); eauto using calm_r; [now left|symmetry; eapply word_no_break; eauto|].
    destruct w as [|c w]; [contradiction|]. intros E. apply utf8_nl in E. apply word_first in H0. contradiction.
  - destruct (quotation_among _ _ _ _ H0) as [A _].
    assert (Q : quote_mark q = true) by (unfold quote_of in H; now apply andb_true_iff in H).
    change (q :: body ++ rest) with ((q :: body) ++ rest) in *. apply exact_token; eauto using calm_r; [discriminate| | |].
    + right. exists q, s, body. auto.
    + rewrite not_break by (now apply mark_not_break). eapply quotation_breaks; eauto using calm_quiet.
    + now apply (char_not_break quote_mark).
  - change (dash :: dash :: body ++ nl :: rest) with ((dash :: dash :: body) ++ [nl] ++ rest) in *. rewrite app_assoc in *.
    apply (exact_breaks _ 1); eauto using calm_r. rewrite breaks_app, !not_break, breaks_none by (auto; discriminate). reflexivity.
  - split; [|intros [|? p] t q E; discriminate]. rewrite !not_break, breaks_none by (auto; discriminate). reflexivity.
  - change (sharp :: body ++ nl :: rest) with ((sharp :: body) ++ [nl] ++ rest) in *. rewrite app_assoc in *.
    apply (exact_breaks _ 1); eauto using calm_r. rewrite breaks_app, !not_break, breaks_none by (auto; discriminate). reflexivity.
  - split; [|intros [|? p] t q E; discriminate]. rewrite !not_break, breaks_none by (auto; discriminate). reflexivity.
  - change (slash :: aster :: body ++ aster :: slash :: rest) with ([slash; aster] ++ body ++ ([aster; slash] ++ rest)) in *.
    assert (B : calm body) by (eapply calm_part; eauto). assert (R : calm rest) by (do 3 apply calm_r in K; exact K).
    rewrite app_assoc in *. rewrite (app_assoc _ [aster; slash] rest).
    apply exact_breaks; auto. rewrite !breaks_app. change (line_breaks [slash; aster]) with 0. change (line_breaks [aster; slash]) with 0.
    destruct B as (B1 & B2 & _). rewrite block_exact by auto. lia.
  - exists [wide]. split; [|reflexivity]. right. exists [], [wide], rest, [wide]. repeat split; auto; [discriminate|now left].
  - exists [q]. split; [right; exists [], [q], rest, [q]; repeat split; auto; [discriminate|now left]|]. rewrite not_break; [reflexivity|]. now apply mark_not_break.
  - exists [aster]. split; [|reflexivity]. right. exists [], [aster], (slash :: rest), [aster]. repeat split; auto; [discriminate|now left].
  - exists (q :: body). split; [left; auto|].
    assert (Q : quote_mark q = true) by (unfold quote_of in H; now apply andb_true_iff in H).
    rewrite not_break by (now apply mark_not_break). eapply unended_exact; eauto. apply (calm_quiet q body []); auto. now rewrite app_nil_r.
  - exists (slash :: aster :: body). split; [left; auto|]. rewrite !not_break by discriminate.
    destruct K as (A & S & _). apply block_exact; [apply (no_pair_part _ _ [slash; aster] body [])|apply (no_pair_part _ _ [slash; aster] body [])]; now rewrite app_nil_r.
Qed.
Lemma first_token : forall d fresh c rs toks, letter c = true -> reads d fresh (c :: rs) (Tokens toks) -> exists t l, toks = t :: l /\ is_nl t = false.
Proof.
  assert (X : forall (f : rune -> bool) c, letter c = true -> f c = true -> (forall x, f x = true -> letter x = false) -> False).
  { intros f c L F H. rewrite (H c F) in L. discriminate. }
  intros d fresh c rs toks L H. remember (c :: rs) as y eqn:E. remember (Tokens toks) as r eqn:R.
  destruct H as [|fresh c' rest r B H|fresh rest r H|fresh c' rest r B H|fresh w rest r N W H|fresh q body n s rest r B Q H|body rest r B H|body B|fresh body rest r D B H|fresh body D B|body rest r B H| | | | |]; try discriminate.
  - injection E as -> ->. unfold blank_char, one_of in B. cbn [existsb] in B. exfalso. clear - L B.
    repeat (apply orb_true_iff in B as [B|B]; [apply N.eqb_eq in B; subst c; discriminate|]). discriminate.
  - injection E as <- _. discriminate.
  - injection E as -> ->. exfalso. clear - L B. unfold symbol, one_of in B. cbn [existsb] in B.
    repeat (apply orb_true_iff in B as [B|B]; [apply N.eqb_eq in B; subst c; discriminate|]). discriminate.
  - destruct r as [l|]; [|discriminate]. injection R as <-. exists (utf8 w), l. split; auto. destruct w as [|a w]; [contradiction|].
    destruct (is_nl (utf8 (a :: w))) eqn:I; auto. unfold is_nl in I. apply String.eqb_eq in I. apply utf8_nl in I. apply word_first in W. contradiction.
  - injection E as -> _. exfalso. clear - L B. unfold quote_of, quote_mark, one_of in B. apply andb_true_iff in B as [B _]. cbn [existsb] in B.
    repeat (apply orb_true_iff in B as [B|B]; [apply N.eqb_eq in B; subst c; discriminate|]). discriminate.
  - injection E as <- _. discriminate.
  - injection E as <- _. discriminate.
  - injection E as <- _. discriminate.
  - injection E as <- _. discriminate.
  - injection E as <- _. discriminate.
Qed.
Theorem exact_line : forall d ddl line near c rs, runes_of ddl = c :: rs -> letter c = true -> calm (runes_of ddl) -> rejected ddl d line near ->
  exists before, error_place (runes_of ddl) before near /\ line = 1 + line_breaks before.
Proof.
  intros d ddl line near c rs E L K H. destruct (rejected_reads _ _ _ _ H) as [(n & -> & R)|[toks R]]; pose proof (reads_exact _ _ _ _ R K) as W; cbn [exact_read] in W.
  - destruct W as (before & P & ->). exists before. auto.
  - assert (F : exists t l, toks = t :: l /\ is_nl t = false) by (rewrite E in R; eapply first_token; eauto). destruct F as (t0 & l0 & F & N0).
    apply lexes_reads in R. destruct W as [C W].
    destruct (first_bad _ _ _ _ _ H R) as [(-> & -> & _)|(p & q & E' & N & -> & _)].
    + exists (runes_of ddl). split; [left; auto|]. unfold line_after. subst toks. rewrite N0. now rewrite C.
    + destruct (W p near q E' N) as (a & w & b & s & X & W' & S & -> & Q). exists (a ++ w). split; [right; exists a, w, b, s; auto|].
      unfold line_after. destruct p as [|t p]; [rewrite <- Q; reflexivity|]. rewrite F in E'. cbn [app] in E'. injection E' as <- _. now rewrite N0, Q.
Qed.
(** Line breaks before the first token: the first of them is not counted. *)
Theorem late_line : forall d ddl line near toks, lexes d ddl (line_break :: toks) -> calm (runes_of ddl) -> rejected ddl d line near ->
  exists before, error_place (runes_of ddl) before near /\ line = line_breaks before.
Proof.
  intros d ddl line near toks T K H. pose proof (proj1 (lexes_reads _ _ _) T) as R.
  pose proof (reads_exact _ _ _ _ R K) as [C W].
  destruct (first_bad _ _ _ _ _ H T) as [(-> & -> & _)|(p & q & E' & N & -> & _)].
  - exists (runes_of ddl). split; [left; auto|]. rewrite <- C. reflexivity.
  - destruct (W p near q E' N) as (a & w & b & s & X & W' & S & -> & Q). exists (a ++ w). split; [right; exists a, w, b, s; auto|].
    destruct p as [|t p]; [injection E' as E' _; elim N; symmetry; exact E'|]. injection E' as <- _. rewrite <- Q. reflexivity.
Qed.
