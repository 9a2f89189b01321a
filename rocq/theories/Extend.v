(** Texts that are continued, and statements that are skipped. *)
From Coq Require Import String Ascii ZArith List Bool Arith NArith Lia.
From Verif Require Import GoStr GoNum Types Lexer VBase Exec Grammar GrammarFacts Ast Converter Parse Fuel Scan Spec Pipe
  Text Utf8 Tokens Accept Meaning NoPanic Total Decide Origin Local Read Compose.
From Verif Require PartsFacts.
From Verif Require GSqlite GPostgres GMysql.
Import ListNotations.
Open Scope nat_scope.
Open Scope string_scope.
Open Scope list_scope.

(** ** Decoding a text that is continued: at most its last bytes are read differently *)

Definition bad : rune := 65533%N.

Lemma cont_high : forall lo hi b, (128 <= lo)%N -> in_range lo hi b = true -> (N_of_ascii b <? 128)%N = false.
Proof. intros lo hi b L H. apply in_range_N in H. apply N.ltb_ge. lia. Qed.
Lemma cont_one : forall lo hi b s, (128 <= lo)%N -> (hi <= 191)%N -> in_range lo hi b = true -> runes_of (String b s) = bad :: runes_of s.
Proof.
  intros lo hi b s L H R. cbn [runes_of]. rewrite (cont_high _ _ _ L R). apply in_range_N in R.
  assert (X : forall u v, (192 <= u)%N -> in_range u v b = false).
  { intros u v Y. apply not_true_is_false. intros Z. apply in_range_N in Z. lia. }
  rewrite !X by (vm_compute; discriminate). reflexivity.
Qed.

Ltac byif := match goal with |- context [if ?x then _ else _] => destruct x end; lia.
Lemma runes_more : forall a b, exists p k q, runes_of a = p ++ repeat bad k /\ runes_of (a ++ b) = p ++ q.
Proof.
  intros a b. remember (String.length a) as m. revert a Heqm.
  induction m as [m IH] using lt_wf_ind. intros a ->.
  destruct a as [|b0 s1]; [exists [], 0, (runes_of b); auto|].
  assert (C : forall s x, String.length s < String.length (String b0 s1) ->
    runes_of (String b0 s1) = x :: runes_of s -> runes_of (String b0 s1 ++ b) = x :: runes_of (s ++ b) ->
    exists p k q, runes_of (String b0 s1) = p ++ repeat bad k /\ runes_of (String b0 s1 ++ b) = p ++ q).
  { intros s x L E1 E2. destruct (IH _ L s eq_refl) as (p & k & q & P1 & P2).
    exists (x :: p), k, q. rewrite E1, E2, P1, P2. auto. }
  assert (Z : forall k, runes_of (String b0 s1) = repeat bad k ->
    exists p k q, runes_of (String b0 s1) = p ++ repeat bad k /\ runes_of (String b0 s1 ++ b) = p ++ q).
  { intros k E. exists [], k, (runes_of (String b0 s1 ++ b)). auto. }
  revert C Z. cbn [append runes_of].
  destruct (N_of_ascii b0 <? 128)%N; [intros C _; eapply (C s1); [cbn; lia|reflexivity|reflexivity]|].
  destruct (in_range 194 223 b0).
  { destruct s1 as [|b1 s2]; cbn [append]; intros C Z; [now apply (Z 1)|].
    destruct (in_range 128 191 b1); [eapply (C s2); [cbn; lia|reflexivity|reflexivity]|eapply (C (String b1 s2)); [cbn; lia|reflexivity|reflexivity]]. }
  destruct (in_range 224 239 b0).
  { destruct s1 as [|b1 [|b2 s3]]; cbn [append]; intros C Z.
    - now apply (Z 1).
    - destruct (in_range (if (N_of_ascii b0 =? 224)%N then 160 else 128) (if (N_of_ascii b0 =? 237)%N then 159 else 191) b1) eqn:R.
      + apply (Z 2). cbn [repeat]. f_equal. eapply cont_one; [| |exact R]; clear; byif.
      + eapply (C (String b1 "")); [cbn; lia|reflexivity|]. destruct b; cbn [append]; rewrite ?R, ?R2, ?andb_false_r; reflexivity.
    - destruct (_ && _); [eapply (C s3); [cbn; lia|reflexivity|reflexivity]|eapply (C (String b1 (String b2 s3))); [cbn; lia|reflexivity|reflexivity]]. }
  destruct (in_range 240 244 b0); [|intros C _; eapply (C s1); [cbn; lia|reflexivity|reflexivity]].
  destruct s1 as [|b1 [|b2 [|b3 s4]]]; cbn [append]; intros C Z.
  - now apply (Z 1).
  - destruct (in_range (if (N_of_ascii b0 =? 240)%N then 144 else 128) (if (N_of_ascii b0 =? 244)%N then 143 else 191) b1) eqn:R.
    + apply (Z 2). cbn [repeat]. f_equal. eapply cont_one; [| |exact R]; clear; byif.
    + eapply (C (String b1 "")); [cbn; lia|reflexivity|]. destruct b as [|x [|y b]]; cbn [append]; rewrite ?R, ?R2, ?andb_false_r; reflexivity.
  - destruct (in_range (if (N_of_ascii b0 =? 240)%N then 144 else 128) (if (N_of_ascii b0 =? 244)%N then 143 else 191) b1) eqn:R.
    + destruct (in_range 128 191 b2) eqn:R2.
      * apply (Z 3). cbn [repeat]. f_equal.
        rewrite (cont_one _ _ b1 (String b2 "")) with (3 := R); [|clear; byif|clear; byif].
        f_equal. rewrite (cont_one _ _ b2 "") with (3 := R2); [reflexivity|lia|lia].
      * eapply (C (String b1 (String b2 ""))); [cbn; lia|reflexivity|]. destruct b as [|x b]; cbn [append]; rewrite ?R, ?R2, ?andb_false_r; reflexivity.
    + eapply (C (String b1 (String b2 ""))); [cbn; lia|reflexivity|]. destruct b as [|x b]; cbn [append]; rewrite ?R, ?R2, ?andb_false_r; reflexivity.
  - destruct (_ && _ && _); [eapply (C s4); [cbn; lia|reflexivity|reflexivity]|eapply (C (String b1 (String b2 (String b3 s4)))); [cbn; lia|reflexivity|reflexivity]].
Qed.

(** ** The lexer on a text that is continued *)

(** the pending token is not ";"; the pending quotation marks are quotation marks *)
Definition calm (m : mode) : Prop :=
  match m with
  | M0 t | M2 t => t <> ";"
  | MLine m => m = M0 "" \/ m = M2 ""
  | MQuote q _ stk | MQSkip q _ stk => is_quote q = true /\ Forall (fun x => is_quote (fst x) = true) stk
  | _ => True
  end.

Lemma snoc_semi : forall t c, is_symbol c = false -> (t ++ utf8_rune c)%string <> ";".
Proof.
  intros t c N H. destruct t as [|b t]; cbn [append] in H.
  - destruct (rune_head c) as (b & s & E & B). rewrite H in E. injection E as <- <-. cbn in B.
    destruct B as [B|B]; [subst c; discriminate|]. revert B. vm_compute. congruence.
  - injection H as _ H. apply append_nonempty in H; auto. apply utf8_rune_nonempty.
Qed.
Lemma step2_calm : forall d t c, match step2 d t c with Go _ _ m => calm m | Stop _ => True end.
Proof.
  intros d t c. unfold step2.
  repeat match goal with
  | |- context [if ?b then _ else _] => destruct b eqn:?
  | |- match (match d with _ => _ end) with _ => _ end => destruct d
  end; cbn [calm]; auto; try discriminate; unfold is_quote; rewrite ?Heqb, ?Heqb0, ?Heqb1; auto; apply snoc_semi; auto.
  all: apply N.eqb_eq in Heqb2; subst; reflexivity.
Qed.
Lemma step_calm : forall d m c, calm m -> match step d m c with Go _ _ m' => calm m' | Stop _ => True end.
Proof.
  intros d m c H. destruct m as [t|t|t|t|t|m| | | |q str stk|q str stk]; cbn [step];
    repeat match goal with |- context [if ?b then _ else _] => destruct b eqn:? end; cbn [calm]; auto; try apply step2_calm; try discriminate.
  - destruct H as [-> | ->]; discriminate.
  - unfold close. destruct H as [H1 H2]. destruct stk as [|[q' s'] stk]; cbn; [discriminate|]. inversion H2; subst; auto.
  - destruct H as [H1 H2]. split; auto.
Qed.

Fixpoint walk (d : rdbms) (m : mode) (rs : list rune) : option (list string * mode) :=
  match rs with
  | [] => Some ([], m)
  | c :: rs =>
    match step d m c with
    | Go out _ m => match walk d m rs with Some (o, m') => Some (out ++ o, m') | None => None end
    | Stop _ => None
    end
  end.
Lemma walk_calm : forall d rs m o m', calm m -> walk d m rs = Some (o, m') -> calm m'.
Proof.
  intros d. induction rs as [|c rs IH]; cbn [walk]; intros m o m' C H; [now injection H as _ <-|].
  pose proof (step_calm d m c C) as S. destruct (step d m c) as [out nl m1|]; [|discriminate].
  destruct (walk d m1 rs) as [[o1 m2]|] eqn:E; [|discriminate]. injection H as _ <-. eauto.
Qed.
Lemma scan_walk : forall d p m q l, scan d m (p ++ q) = TOk l ->
  exists o m' l', walk d m p = Some (o, m') /\ scan d m' q = TOk l' /\ l = o ++ l'.
Proof.
  intros d. induction p as [|c p IH]; intros m q l H; cbn [app walk] in *.
  - exists [], m, l. auto.
  - cbn [scan] in H. destruct (step d m c) as [out nl m1|]; [|discriminate].
    destruct (scan d m1 (p ++ q)) as [l1|] eqn:E; [|discriminate]. cbn [pre] in H. injection H as <-.
    destruct (IH _ _ _ E) as (o & m' & l' & -> & S & ->). exists (out ++ o), m', l'. rewrite app_assoc. auto.
Qed.

Definition no_semi (l : list string) : Prop := l = [] \/ exists x, l = [x] /\ x <> ";" /\ is_nl x = false.
Lemma flush_no_semi : forall t, t <> ";" -> t <> NL -> no_semi (flush t).
Proof.
  intros t H N. unfold flush. destruct (t =? "")%string; [now left|]. right. exists t. split; auto. split; auto.
  now apply String.eqb_neq.
Qed.
(** modes in which nothing is pending *)
Definition idle (m : mode) : Prop := m = M0 "" \/ m = M2 "" \/ exists m', m = MLine m'.
Definition busy (m : mode) : Prop :=
  match m with M0 t => t <> "" | MBlock => True | MQuote _ _ _ => True | _ => False end.
Lemma busy_idle : forall m, busy m -> idle m -> False.
Proof. intros m B [->|[->|[m' ->]]]; cbn in B; auto. Qed.
Lemma step2_bad : forall d t, step2 d t bad = Go [] false (M0 (t ++ utf8_rune bad)).
Proof. intros []; reflexivity. Qed.
Lemma step_bad : forall d m o nl m', calm m -> step d m bad = Go o nl m' -> (exists x, m = MLine x) \/ busy m'.
Proof.
  assert (B : forall t, busy (M0 (t ++ utf8_rune bad))).
  { intros t H. apply append_nonempty in H; auto. apply utf8_rune_nonempty. }
  intros d m o nl m' C H. destruct m as [t|t|t|t|t|m| | | |q str stk|q str stk]; eauto; cbn [step] in H; change (bad =? c_minus)%N with false in H; change (bad =? c_slash)%N with false in H;
    change (bad =? c_star)%N with false in H; change (bad =? c_nl)%N with false in H; rewrite ?step2_bad in H; try (injection H as _ _ <-; auto; exact I).
  - right. destruct C as [C _]. destruct (bad =? q)%N eqn:E; [apply N.eqb_eq in E; subst q; discriminate|]. now injection H as _ _ <-.
  - right. now injection H as _ _ <-.
Qed.
Lemma busy_bad : forall d m o nl m', calm m -> busy m -> step d m bad = Go o nl m' -> busy m'.
Proof. intros d m o nl m' C B H. destruct (step_bad _ _ _ _ _ C H) as [[x ->]|]; auto. destruct B. Qed.
Lemma walk_busy : forall d k m o m', calm m -> busy m -> walk d m (repeat bad k) = Some (o, m') -> busy m'.
Proof.
  intros d. induction k as [|k IH]; cbn [repeat walk]; intros m o m' C B H; [now injection H as _ <-|].
  pose proof (step_calm d m bad C) as S. destruct (step d m bad) as [out nl m1|] eqn:E; [|discriminate].
  destruct (walk d m1 (repeat bad k)) as [[o1 m2]|] eqn:W; [|discriminate]. injection H as _ <-.
  eapply IH; [exact S| |exact W]. exact (busy_bad _ _ _ _ _ C B E).
Qed.
Lemma walk_bad : forall d k m o m', calm m -> idle m' -> walk d m (repeat bad k) = Some (o, m') -> o = [].
Proof.
  intros d. induction k as [|k IH]; cbn [repeat walk]; intros m o m' C B H; [now injection H as <- _|].
  pose proof (step_calm d m bad C) as S. destruct (step d m bad) as [out nl m1|] eqn:E; [|discriminate].
  destruct (walk d m1 (repeat bad k)) as [[o1 m2]|] eqn:W; [|discriminate]. injection H as <- <-.
  rewrite (IH _ _ _ S B W), app_nil_r. destruct (step_bad _ _ _ _ _ C E) as [[x ->]|Y].
  - cbn in E. now injection E as <- _ _.
  - exfalso. eapply busy_idle; [|exact B]. eapply walk_busy; eauto.
Qed.

Lemma step_pend : forall d rs past m o m', pend past m -> walk d m rs = Some (o, m') -> exists past', pend past' m'.
Proof.
  intros d. induction rs as [|c rs IH]; cbn [walk]; intros past m o m' P H; [injection H as _ <-; eauto|].
  pose proof (step_from d past m c P) as S. destruct (step d m c) as [out nl m1|]; [|discriminate].
  destruct S as (_ & S2 & _). destruct (walk d m1 rs) as [[o1 m2]|] eqn:W; [|discriminate]. injection H as _ <-. eauto.
Qed.
Lemma finish_idle : forall past m l, calm m -> pend past m -> finish m = TOk l -> (idle m /\ l = []) \/ exists x, l = [x] /\ x <> ";" /\ is_nl x = false.
Proof.
  assert (W : forall t, t <> ";" -> t <> NL -> (t = "" /\ flush t = []) \/ exists x, flush t = [x] /\ x <> ";" /\ is_nl x = false).
  { intros t H N. unfold flush. destruct (t =? "")%string eqn:E; [apply String.eqb_eq in E; now left|].
    right. exists t. split; auto. split; auto. now apply String.eqb_neq. }
  assert (V : forall t c, is_symbol c = false -> c <> c_nl -> exists x, [(t ++ utf8_rune c)%string] = [x] /\ x <> ";" /\ is_nl x = false).
  { intros t c S N. eexists. split; [reflexivity|]. split; [now apply snoc_semi|]. apply String.eqb_neq. now apply snoc_NL. }
  intros past m l C P F. unfold idle. destruct m as [t|t|t|t|t|m| | | |q str stk|q str stk]; cbn [finish] in F; try discriminate.
  - injection F as <-. destruct (W t C (proj1 P)) as [[-> ->]|X]; auto.
  - injection F as <-. destruct (W t C (proj1 P)) as [[-> ->]|X]; auto.
  - injection F as <-. right. apply V; [reflexivity|discriminate].
  - injection F as <-. right. apply V; [reflexivity|discriminate].
  - injection F as <-. right. apply V; [reflexivity|discriminate].
  - left. split; [right; right; eauto|]. destruct C as [-> | ->]; now injection F as <-.
Qed.

Theorem lexed_more : forall d s1 s2 l1 l, lexed d (runes_of s1) = LexOk l1 -> (strip l1 = [] \/ semi (strip l1)) ->
  lexed d (runes_of (s1 ++ s2)) = LexOk l -> exists l2, l = l1 ++ l2.
Proof.
  intros d s1 s2 l1 l H1 E H. destruct (runes_more s1 s2) as (p & k & q & P1 & P2).
  unfold lexed in *. rewrite P1 in H1. rewrite P2 in H.
  destruct (scan d (M0 "") (p ++ repeat bad k)) as [x1|] eqn:S1; [|discriminate]. injection H1 as <-.
  destruct (scan d (M0 "") (p ++ q)) as [x|] eqn:S; [|discriminate]. injection H as <-.
  destruct (scan_walk _ _ _ _ _ S1) as (o & m & l' & W & S1' & ->). destruct (scan_walk _ _ _ _ _ S) as (o' & m' & l2 & W' & S' & ->).
  rewrite W in W'. injection W' as <- <-. cbn [app] in *.
  assert (C : calm m) by (eapply walk_calm; [|exact W]; discriminate).
  rewrite <- (app_nil_r (repeat bad k)) in S1'. destruct (scan_walk _ _ _ _ _ S1') as (o2 & m2 & l3 & W2 & F & ->). cbn [scan] in F.
  destruct (step_pend d p [] (M0 "") _ _ (ends_nil []) W) as [past P]. destruct (step_pend d _ _ _ _ _ P W2) as [past2 P2'].
  assert (C2 : calm m2) by (eapply walk_calm; [exact C|exact W2]).
  destruct (finish_idle _ _ _ C2 P2' F) as [[I ->]|(x & -> & X1 & X2)].
  - rewrite (walk_bad _ _ _ _ _ C I W2), !app_nil_r. eauto.
  - exfalso. rewrite app_assoc, strip_app in E. unfold strip at 2 4 in E. cbn [filter] in E. rewrite X2 in E. cbn [negb] in E.
    destruct E as [E|[y E]]; [now apply app_eq_nil in E as [_ E]|]. apply app_inj_tail in E as [_ E]. auto.
Qed.

(** ** The tokens of a script end with ";" *)

Fixpoint closing {A} (g : gr A) : bool :=
  match g with
  | One _ (CW [w]) => (w =? ";")%string
  | Seq g h => closing h
  | Cond _ g h => closing g && closing h
  | Map _ g => closing g
  | _ => false
  end.
Lemma closing_tokens : forall A (g : gr A), closing g = true -> forall l nxt o v, lang g l nxt o v -> semi l.
Proof.
  induction g; cbn [closing lang]; intros Q l nxt o v H; try discriminate.
  - destruct c as [[|w [|? ?]]| | | |]; try discriminate.
    apply String.eqb_eq in Q. subst. destruct H as (M & -> & ->). cbn [cmem] in M. apply match_semi in M. subst. now exists [].
  - destruct H as (l1 & l2 & o1 & o2 & -> & -> & H1 & H2). destruct (IHg2 Q _ _ _ _ H2) as [q ->].
    exists (l1 ++ q). now rewrite app_assoc.
  - destruct H as (a & -> & H). eapply IHg; eauto.
  - apply andb_true_iff in Q as [Q1 Q2]. destruct H as [H|H]; [eapply IHg1|eapply IHg2]; eauto.
Qed.
Lemma statement_closing : forall d, closing (statement d) = true.
Proof. intros []; reflexivity. Qed.
Theorem tokens_semi : forall d l nxt o v, lang (script d) l nxt o v -> l = [] \/ semi l.
Proof.
  intros d l nxt o v. rewrite script_while. intros [hs H]. induction H as [|t l1 l2 nxt o1 o2 v vs hs H1 H2 IH]; [now left|].
  apply (semi_app (t :: l1)); auto. right. eapply closing_tokens; [apply statement_closing|exact H1].
Qed.

(** ** The validator and the converter on what is continued *)

Theorem verdict_split : forall d l1 o1 v l2 out, lang (script d) l1 None o1 v -> verdict d (l1 ++ l2) (EOk tt [] out) ->
  exists o2, verdict d l2 (EOk tt [] o2) /\ out = o1 ++ o2.
Proof.
  intros d l1 o1 v l2 out H V. rewrite script_while in H. destruct H as [hs H].
  destruct (exec_star _ _ _ _ _ _ H l2) as (n0 & k & E). apply verdict_le in V as [n1 X].
  destruct (E (n0 + n1)) as [K Y]; [lia|]. rewrite X in Y by lia.
  destruct (exec (prog (script d) (n0 + n1 - k)) l2) as [u rest o2|rest| |] eqn:Z; cbn in Y; try discriminate.
  destruct u. injection Y as <- ->. exists o2. split; auto. split; [discriminate|eauto].
Qed.
Theorem converts_split : forall d l1 l2 ts1 ts, (l1 = [] \/ semi l1) -> converts d l1 ts1 -> converts d (l1 ++ l2) ts ->
  exists ts2, converts d l2 ts2 /\ ts = ts1 ++ ts2.
Proof.
  intros d l1 l2 ts1 ts S (n1 & r1 & H1) (n2 & r2 & H2).
  revert l1 ts1 r1 S H1 ts r2 H2. revert n2. induction n1 as [|n1 IH]; intros n2 l1 ts1 r1 S H1 ts r2 H2; [discriminate|].
  destruct S as [->|S].
  - cbn in H1. injection H1 as <- <-. exists ts. split; auto. exists n2, r2. exact H2.
  - cbn [convert] in H1. assert (N : l1 <> []) by (destruct S as [q ->]; now destruct q).
    destruct l1 as [|t0 l1]; [congruence|]. unfold cbind in H1.
    destruct (convertTable n1 d (t0 :: l1)) as [t r| |] eqn:E; try discriminate.
    destruct (convert n1 d r) as [ts' r'| |] eqn:E'; try discriminate. injection H1 as <- <-.
    destruct n2 as [|n2]; [discriminate|]. cbn [app convert] in H2. unfold cbind in H2.
    destruct (convertTable n2 d (t0 :: l1 ++ l2)) as [t2 r3| |] eqn:F; try discriminate.
    destruct (convert n2 d r3) as [ts3 r4| |] eqn:F'; try discriminate. injection H2 as <- <-.
    apply (table_mono_le _ (n1 + n2)) in E; [|lia]. apply (table_mono_le _ (n1 + n2)) in F; [|lia].
    destruct (full_table (n1 + n2) d) as [Fu _]. destruct (Fu _ _ _ S E) as [[p P] X].
    specialize (X l2). cbn [app] in X. rewrite X in F. injection F as <- <-.
    destruct (IH n2 r ts' _ (semi_suffix _ _ _ S P) E' ts3 _ F') as (ts2 & K & ->). exists ts2. auto.
Qed.

Theorem more_tables : forall d s1 s2 ts1 ts, accepted s1 d ts1 -> accepted (s1 ++ s2) d ts -> exists ts2, ts = ts1 ++ ts2.
Proof.
  intros d s1 s2 ts1 ts H1 H. apply returns_stage in H1, H.
  inversion H1 as [| |toks1 rest1 out1 ? L1 V1 K1]; subst. inversion H as [| |toks rest out ? L V K]; subst.
  apply verdict_ok in V1 as [-> [v1 V1]]. pose proof V as V'. apply verdict_ok in V' as [-> _].
  destruct (lexed_more _ _ _ _ _ L1 (tokens_semi _ _ _ _ _ V1) L) as [l2 ->]. rewrite strip_app in V.
  destruct (verdict_split _ _ _ _ _ _ V1 V) as (o2 & _ & ->).
  destruct (converts_split _ _ _ _ _ (out_semi _ _ _ _ _ V1) K1 K) as (ts2 & _ & ->). eauto.
Qed.
