(** Errors are in the text. *)
From Coq Require Import String Ascii NArith List Bool Arith Lia.
From Verif Require Import GoStr Types Lexer VBase Exec Parse Spec Pipe ErrorAt Utf8 Layout LayoutFacts Lexical LexicalFacts Inside.
Import ListNotations.
Open Scope nat_scope.
Open Scope list_scope.

Lemma breaks_app : forall a b, line_breaks (a ++ b) = line_breaks a + line_breaks b.
Proof. intros. apply count_occ_app. Qed.
Lemma breaks_cons : forall c a, line_breaks (c :: a) = line_breaks [c] + line_breaks a.
Proof. intros c a. change (c :: a) with ([c] ++ a). apply breaks_app. Qed.
Lemma breaks_nl : forall a, line_breaks (nl :: a) = S (line_breaks a).
Proof. intros a. unfold line_breaks. cbn [count_occ]. destruct (N.eq_dec nl nl); [reflexivity|contradiction]. Qed.
Lemma breaks_le : forall c a, line_breaks a <= line_breaks (c :: a).
Proof. intros c a. rewrite breaks_cons. lia. Qed.
Lemma breaks_none : forall a, ~ In nl a -> line_breaks a = 0.
Proof. intros a H. unfold line_breaks. now apply count_occ_not_In. Qed.
Lemma among_app : forall a b c d, among a b -> among c d -> among (a ++ c) (b ++ d).
Proof.
  intros a b c d H K. induction H as [w| |]; cbn [app]; try (constructor; assumption).
  induction w as [|x w IH]; [exact K|]. cbn [app]. now constructor.
Qed.
Lemma quotation_among : forall q body n s, quotation q body n s -> among s body /\ n <= line_breaks body.
Proof.
  intros q body n s H. induction H as [q|q body n s H [IH B]|q c body n s N M H [IH B]|q c body n s x body' n' s' N M H [IH B] H' [IH' B']].
  - split; [repeat constructor|lia].
  - split; [now constructor|]. rewrite breaks_nl. lia.
  - split; [now constructor|]. pose proof (breaks_le c body). lia.
  - split; [constructor; apply among_app; [exact IH|now constructor]|].
    pose proof (breaks_le c (body ++ x :: body')) as L. rewrite breaks_app in L. pose proof (breaks_le x body'). lia.
Qed.
Lemma unended_breaks : forall q body n, unended q body n -> n <= line_breaks body.
Proof.
  intros q body n H. induction H as [q|q body n H B|q c body n N M H B|q c body n s x body' n' N M H H' B'|q c body n s N M H|q c body n N M H B].
  - lia.
  - rewrite breaks_nl. lia.
  - pose proof (breaks_le c body). lia.
  - apply quotation_among in H as [_ B]. pose proof (breaks_le c (body ++ x :: body')) as L. rewrite breaks_app in L. pose proof (breaks_le x body'). lia.
  - apply quotation_among in H as [_ B]. pose proof (breaks_le c body). lia.
  - pose proof (breaks_le c body). lia.
Qed.
Lemma block_breaks_le : forall body, block_breaks body <= line_breaks body.
Proof.
  fix IH 1. intros [|c body]; [cbn; lia|]. cbn [block_breaks]. destruct (c =? nl)%N eqn:E.
  { apply N.eqb_eq in E. subst c. rewrite breaks_nl. pose proof (IH body). lia. }
  pose proof (breaks_le c body) as L. destruct ((c =? aster)%N || (c =? slash)%N).
  - destruct body as [|x body]; [lia|]. pose proof (IH body). pose proof (breaks_le x body). lia.
  - pose proof (IH body). lia.
Qed.
Lemma count_lb : forall l, length (filter (String.eqb line_break) l) = count_nl l.
Proof. intros l. unfold count_nl. f_equal. apply filter_ext. intros a. unfold is_nl. now rewrite String.eqb_sym. Qed.
Lemma count_repeat : forall n, count_nl (repeat line_break n) = n.
Proof. induction n as [|n IH]; [reflexivity|]. cbn [repeat]. change (count_nl (line_break :: repeat line_break n)) with (S (count_nl (repeat line_break n))). now rewrite IH. Qed.
Lemma count_one : forall t, t <> line_break -> count_nl [t] = 0.
Proof. intros t H. unfold count_nl, is_nl. cbn [filter]. destruct (String.eqb_spec t NL) as [E|E]; [now elim H|reflexivity]. Qed.
Lemma app_split : forall (l l' p q : list string) t, l ++ l' = p ++ t :: q ->
  (exists q1, l = p ++ t :: q1) \/ exists p2, p = l ++ p2 /\ l' = p2 ++ t :: q.
Proof.
  induction l as [|x l IH]; intros l' p q t H; [right; exists p; auto|]. destruct p as [|y p]; cbn [app] in H; injection H as -> H.
  - left. now exists l.
  - destruct (IH _ _ _ _ H) as [[q1 ->]|(p2 & -> & ->)]; [left; now exists q1|right; exists p2; auto].
Qed.

(** Where the token after [p] is. *)
Definition token_place (rs : list rune) (p : list string) (t : string) : Prop :=
  exists a w b s, rs = a ++ w ++ b /\ w <> [] /\ shown s w /\ t = utf8 s /\ count_nl p <= line_breaks (a ++ w).
Lemma place_after : forall x rs l p t, token_place rs p t -> count_nl l <= line_breaks x -> token_place (x ++ rs) (l ++ p) t.
Proof.
  intros x rs l p t (a & w & b & s & -> & W & S & -> & L) K. exists (x ++ a), w, b, s. rewrite <- app_assoc. repeat split; auto.
  rewrite count_nl_app, <- app_assoc, (breaks_app x). lia.
Qed.
Definition well_read (rs : list rune) (r : reading) : Prop :=
  match r with
  | Tokens toks => count_nl toks <= line_breaks rs /\ forall p t q, toks = p ++ t :: q -> t <> line_break -> token_place rs p t
  | Bad n near => exists before, error_place rs before near /\ n <= line_breaks before
  end.
Lemma well_after : forall x l rs r, well_read rs r -> count_nl l <= line_breaks x ->
  (forall p t q rest, l = p ++ t :: q -> t <> line_break -> token_place (x ++ rest) p t) -> well_read (x ++ rs) (and_then l r).
Proof.
  intros x l rs [toks|n near] H K P; cbn [and_then well_read] in *.
  - destruct H as [C H]. split; [rewrite count_nl_app, breaks_app; lia|]. intros p t q E N.
    destruct (app_split _ _ _ _ _ E) as [[q1 ->]|(p2 & -> & ->)]; [eapply P; eauto|].
    apply place_after; auto. eapply H; eauto.
  - destruct H as (before & E & L). exists (x ++ before). rewrite count_lb, breaks_app. split; [|lia].
    destruct E as [[-> ->]|(a & w & b & s & -> & -> & W & S & ->)]; [left; auto|].
    right. exists (x ++ a), w, b, s. rewrite <- !app_assoc. auto.
Qed.
Lemma well_blank : forall x rs r, well_read rs r -> well_read (x ++ rs) r.
Proof.
  intros x rs r H. assert (E : r = and_then [] r) by (destruct r; reflexivity). rewrite E. apply well_after; auto; [cbn; lia|].
  intros [|? p] t q rest E'; discriminate.
Qed.
Lemma well_breaks : forall x n rs r, n <= line_breaks x -> well_read rs r -> well_read (x ++ rs) (and_then (repeat line_break n) r).
Proof.
  intros x n rs r L H. apply well_after; auto; [now rewrite count_repeat|]. intros p t q rest E N. elim N.
  assert (I : In t (repeat line_break n)) by (rewrite E; apply in_elt). now apply repeat_spec in I.
Qed.
Lemma well_token : forall x n s rs r, x <> [] -> shown s x -> n <= line_breaks x -> utf8 s <> line_break -> well_read rs r ->
  well_read (x ++ rs) (and_then (repeat line_break n ++ [utf8 s]) r).
Proof.
  intros x n s rs r X S L U H. apply well_after; auto.
  - rewrite count_nl_app, count_repeat, count_one by auto. lia.
  - intros p t q rest E N. symmetry in E. symmetry in E. destruct (app_split _ _ _ _ _ E) as [[q1 R]|(p2 & -> & E2)].
    + elim N. assert (I : In t (repeat line_break n)) by (rewrite R; apply in_elt). now apply repeat_spec in I.
    + destruct p2 as [|y p2]; [|destruct p2; discriminate]. injection E2 as <-. exists [], x, rest, s. repeat split; auto.
      rewrite app_nil_r, count_repeat. exact L.
Qed.
Lemma utf8_nl : forall c s, utf8 (c :: s) = line_break -> c = nl.
Proof.
  intros c s H. cbn [utf8] in H. unfold utf8_rune in H.
  assert (R : (exists r, r = (if is_scalar c then c else 65533%N) /\ (r < 1114112)%N /\ (r < 128 -> r = c)%N)).
  { unfold is_scalar. destruct (c <? 55296)%N eqn:E1; cbn [orb].
    - apply N.ltb_lt in E1. exists c. repeat split; auto. lia.
    - destruct ((57344 <=? c)%N && (c <? 1114112)%N) eqn:E2.
      + apply andb_true_iff in E2 as [_ E2]. apply N.ltb_lt in E2. exists c. auto.
      + exists 65533%N. repeat split; lia. }
  destruct R as (r & E & B & K). rewrite <- E in H. clear E.
  assert (X : forall n x, (n < 256)%N -> String (byte n) x = line_break -> n = 10%N).
  { intros n x L Q. injection Q as Q _. apply (f_equal N_of_ascii) in Q. unfold byte in Q. rewrite N_ascii_embedding in Q by auto. exact Q. }
  destruct (r <? 128)%N eqn:E1.
  { apply N.ltb_lt in E1. cbn [append] in H. apply X in H; [|lia]. rewrite <- K by auto. exact H. }
  destruct (r <? 2048)%N eqn:E2.
  { apply N.ltb_lt in E2. assert (D : (r / 64 < 32)%N) by (apply N.div_lt_upper_bound; lia). cbn [append] in H. apply X in H; lia. }
  destruct (r <? 65536)%N eqn:E3.
  { apply N.ltb_lt in E3. assert (D : (r / 4096 < 16)%N) by (apply N.div_lt_upper_bound; lia). cbn [append] in H. apply X in H; lia. }
  assert (D : (r / 262144 < 5)%N) by (apply N.div_lt_upper_bound; lia). cbn [append] in H. apply X in H; lia.
Qed.
Lemma char_not_break : forall (f : rune -> bool) c s, f c = true -> f nl = false -> utf8 (c :: s) <> line_break.
Proof. intros f c s H N E. apply utf8_nl in E. congruence. Qed.
Lemma word_first : forall d fresh c w rest, word_at d fresh (c :: w) rest -> c <> nl.
Proof.
  intros d fresh c w rest H ->. remember (nl :: w) as x eqn:E. destruct H as [|fr c0 r H|a b0 r H|fr c0 w0 r H0 H1 H2|c0 w0 r H0 H1 H2]; try discriminate; injection E as -> ->.
  - destruct d; discriminate.
  - discriminate.
Qed.
Lemma reads_well : forall d fresh rs r, reads d fresh rs r -> well_read rs r.
Proof.
  intros d fresh rs r H. induction H.
  - split; [auto|]. intros [|? p] t q E; discriminate.
  - apply (well_blank [c]). exact IHreads.
  - apply (well_breaks [nl] 1); [rewrite breaks_nl; lia|exact IHreads].
  - apply (well_token [c] 0 [c]); auto; [discriminate|now left|lia|]. now apply (char_not_break symbol).
  - apply (well_token w 0 w); auto; [now left|lia|]. destruct w as [|c w]; [contradiction|]. intros E. apply utf8_nl in E. apply word_first in H0. contradiction.
  - destruct (quotation_among _ _ _ _ H0) as [A B].
    assert (Q : quote_mark q = true) by (unfold quote_of in H; now apply andb_true_iff in H).
    change (q :: body ++ rest) with ((q :: body) ++ rest). apply well_token; auto; [discriminate| | |].
    + right. exists q, s, body. auto.
    + pose proof (breaks_le q body). lia.
    + now apply (char_not_break quote_mark).
  - change (dash :: dash :: body ++ nl :: rest) with ((dash :: dash :: body) ++ [nl] ++ rest). rewrite app_assoc.
    apply (well_breaks _ 1); auto. rewrite breaks_app. change (line_breaks [nl]) with 1. lia.
  - split; [apply Nat.le_0_l|]. intros [|? p] t q E; discriminate.
  - change (sharp :: body ++ nl :: rest) with ((sharp :: body) ++ [nl] ++ rest). rewrite app_assoc.
    apply (well_breaks _ 1); auto. rewrite breaks_app. change (line_breaks [nl]) with 1. lia.
  - split; [apply Nat.le_0_l|]. intros [|? p] t q E; discriminate.
  - change (slash :: aster :: body ++ aster :: slash :: rest) with ((slash :: aster :: body) ++ [aster; slash] ++ rest). rewrite app_assoc.
    apply well_breaks; auto. rewrite breaks_app. pose proof (block_breaks_le body). pose proof (breaks_le aster body).
    pose proof (breaks_le slash (aster :: body)). lia.
  - exists [wide]. split; [|lia]. right. exists [], [wide], rest, [wide]. repeat split; auto; [discriminate|now left].
  - exists [q]. split; [|lia]. right. exists [], [q], rest, [q]. repeat split; auto; [discriminate|now left].
  - exists [aster]. split; [|lia]. right. exists [], [aster], (slash :: rest), [aster]. repeat split; auto; [discriminate|now left].
  - exists (q :: body). split; [left; auto|]. apply unended_breaks in H0. pose proof (breaks_le q body). lia.
  - exists (slash :: aster :: body). split; [left; auto|]. pose proof (block_breaks_le body). pose proof (breaks_le aster body).
    pose proof (breaks_le slash (aster :: body)). lia.
Qed.
Lemma line_after_le : forall p, 1 <= line_after p <= 1 + count_nl p.
Proof.
  intros [|t p]; unfold line_after; [cbn; lia|]. destruct (is_nl t) eqn:E; [|lia]. unfold count_nl. cbn [filter]. rewrite E. cbn [length]. lia.
Qed.
Theorem inside : forall d ddl line near, rejected ddl d line near ->
  exists before, error_place (runes_of ddl) before near /\ 1 <= line <= 1 + line_breaks before.
Proof.
  intros d ddl line near H. destruct (rejected_reads _ _ _ _ H) as [(n & -> & R)|[toks R]]; pose proof (reads_well _ _ _ _ R) as W; cbn [well_read] in W.
  - destruct W as (before & E & L). exists before. split; [exact E|lia].
  - apply lexes_reads in R. destruct W as [C W].
    destruct (first_bad _ _ _ _ _ H R) as [(-> & -> & _)|(p & q & E & N & -> & _)].
    + exists (runes_of ddl). split; [left; auto|]. pose proof (line_after_le toks). lia.
    + destruct (W p near q E N) as (a & w & b & s & E' & W' & S & -> & L). exists (a ++ w). split; [right; exists a, w, b, s; auto|].
      pose proof (line_after_le p). lia.
Qed.
Lemma place_prefix : forall rs before near, error_place rs before near -> exists b, rs = before ++ b.
Proof.
  intros rs before near [[_ ->]|(a & w & b & s & -> & -> & _)]; [exists []; now rewrite app_nil_r|exists b; now rewrite <- app_assoc].
Qed.
Theorem line_in_text : forall d ddl line near, rejected ddl d line near -> 1 <= line <= 1 + line_breaks (runes_of ddl).
Proof.
  intros d ddl line near H. destruct (inside _ _ _ _ H) as (before & E & L). destruct (place_prefix _ _ _ E) as [b ->].
  rewrite breaks_app. lia.
Qed.
