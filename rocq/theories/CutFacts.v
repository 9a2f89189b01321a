(** Scripts that are cut after a statement. *)
From Coq Require Import String Ascii ZArith List Bool Arith NArith Lia Permutation.
From Verif Require Import GoStr GoNum Types Lexer VBase Exec Grammar GrammarFacts Ast Converter Parse Fuel Scan Spec Pipe
  Text Utf8 Tokens Accept Meaning Local Read Compose Extend Witness Safe Seen LexicalFacts.
From Verif Require PartsFacts.
From Verif Require Local.
Import ListNotations.
Open Scope nat_scope.
Open Scope string_scope.
Open Scope list_scope.

(** ** Between two characters, a text can be cut *)
Theorem runes_cut : forall s p q, runes_of s = p ++ q -> exists s1 s2, s = (s1 ++ s2)%string /\ runes_of s1 = p /\ runes_of s2 = q.
Proof.
  intros s. remember (String.length s) as m. revert s Heqm.
  induction m as [m IH] using lt_wf_ind. intros s -> p q E.
  destruct p as [|r p]; [exists "", s; auto|]. destruct s as [|b0 s1]; [discriminate|].
  assert (C : forall x s' pre, (String b0 s1 = pre ++ s')%string -> String.length s' < String.length (String b0 s1) ->
    runes_of (String b0 s1) = x :: runes_of s' ->
    (forall a b, (s' = a ++ b)%string -> runes_of (pre ++ a) = x :: runes_of a) ->
    exists a b, (String b0 s1 = a ++ b)%string /\ runes_of a = r :: p /\ runes_of b = q).
  { intros x s' pr P L R K. rewrite R in E. cbn [app] in E. injection E as -> E.
    destruct (IH _ L s' eq_refl p q E) as (a & b & -> & <- & <-). exists (pr ++ a)%string, b.
    split; [now rewrite P, append_assoc|]. split; [|reflexivity]. apply (K a b). reflexivity. }
  revert C. clear E IH. cbn [runes_of].
  destruct (N_of_ascii b0 <? 128)%N eqn:B.
  { intros C. eapply (C _ s1 (String b0 "")); [reflexivity|cbn; lia|reflexivity|]. intros a b _. cbn [append runes_of]. now rewrite B. }
  destruct (in_range 194 223 b0) eqn:B2.
  { destruct s1 as [|b1 s2]; intros C.
    - eapply (C _ "" (String b0 "")); [reflexivity|cbn; lia|reflexivity|]. intros [|? ?] b Q; [|discriminate]. cbn [append runes_of]. now rewrite B, B2.
    - destruct (in_range 128 191 b1) eqn:R1.
      + eapply (C _ s2 (String b0 (String b1 ""))); [reflexivity|cbn; lia|reflexivity|]. intros a b _. cbn [append runes_of]. now rewrite B, B2, R1.
      + eapply (C _ (String b1 s2) (String b0 "")); [reflexivity|cbn; lia|reflexivity|]. intros [|x a] b Q; cbn [append] in Q |- *; cbn [runes_of]; rewrite B, B2; [reflexivity|].
        injection Q as <- Q. now rewrite R1. }
  destruct (in_range 224 239 b0) eqn:B3.
  { set (lo := if (N_of_ascii b0 =? 224)%N then 160%N else 128%N) in *. set (hi := if (N_of_ascii b0 =? 237)%N then 159%N else 191%N) in *.
    assert (X : forall s1, match s1 with String b1 (String b2 _) => in_range lo hi b1 && in_range 128 191 b2 = false | _ => True end ->
      runes_of (String b0 s1) = 65533%N :: runes_of s1).
    { intros t T. cbn [runes_of]. rewrite B, B2, B3. destruct t as [|b1 [|b2 t]]; try reflexivity. fold lo hi. now rewrite T. }
    assert (Y : forall t, match t with String b1 (String b2 _) => in_range lo hi b1 && in_range 128 191 b2 = false | _ => True end ->
      forall a b, (t = a ++ b)%string -> runes_of (String b0 "" ++ a) = 65533%N :: runes_of a).
    { intros t T a b ->. cbn [append]. apply X. destruct a as [|b1 [|b2 a]]; auto. }
    destruct s1 as [|b1 [|b2 s3]]; intros C.
    - eapply (C _ "" (String b0 "")); [reflexivity|cbn; lia|reflexivity|]. now apply Y.
    - eapply (C _ (String b1 "") (String b0 "")); [reflexivity|cbn; lia|reflexivity|]. now apply Y.
    - destruct (in_range lo hi b1 && in_range 128 191 b2) eqn:R1.
      + eapply (C _ s3 (String b0 (String b1 (String b2 "")))); [reflexivity|cbn; lia|reflexivity|]. intros a b _. cbn [append runes_of]. rewrite B, B2, B3. fold lo hi. now rewrite R1.
      + eapply (C _ (String b1 (String b2 s3)) (String b0 "")); [reflexivity|cbn; lia|reflexivity|]. now apply Y. }
  destruct (in_range 240 244 b0) eqn:B4.
  - set (lo := if (N_of_ascii b0 =? 240)%N then 144%N else 128%N) in *. set (hi := if (N_of_ascii b0 =? 244)%N then 143%N else 191%N) in *.
    assert (X : forall s1, match s1 with String b1 (String b2 (String b3 _)) => in_range lo hi b1 && in_range 128 191 b2 && in_range 128 191 b3 = false | _ => True end ->
      runes_of (String b0 s1) = 65533%N :: runes_of s1).
    { intros t T. cbn [runes_of]. rewrite B, B2, B3, B4. destruct t as [|b1 [|b2 [|b3 t]]]; try reflexivity. fold lo hi. now rewrite T. }
    assert (Y : forall t, match t with String b1 (String b2 (String b3 _)) => in_range lo hi b1 && in_range 128 191 b2 && in_range 128 191 b3 = false | _ => True end ->
      forall a b, (t = a ++ b)%string -> runes_of (String b0 "" ++ a) = 65533%N :: runes_of a).
    { intros t T a b ->. cbn [append]. apply X. destruct a as [|b1 [|b2 [|b3 a]]]; auto. }
    destruct s1 as [|b1 [|b2 [|b3 s4]]]; intros C.
    + eapply (C _ "" (String b0 "")); [reflexivity|cbn; lia|reflexivity|]. now apply Y.
    + eapply (C _ (String b1 "") (String b0 "")); [reflexivity|cbn; lia|reflexivity|]. now apply Y.
    + eapply (C _ (String b1 (String b2 "")) (String b0 "")); [reflexivity|cbn; lia|reflexivity|]. now apply Y.
    + destruct (in_range lo hi b1 && in_range 128 191 b2 && in_range 128 191 b3) eqn:R1.
      * eapply (C _ s4 (String b0 (String b1 (String b2 (String b3 ""))))); [reflexivity|cbn; lia|reflexivity|]. intros a b _. cbn [append runes_of]. rewrite B, B2, B3, B4. fold lo hi. now rewrite R1.
      * eapply (C _ (String b1 (String b2 (String b3 s4))) (String b0 "")); [reflexivity|cbn; lia|reflexivity|]. now apply Y.
  - intros C. eapply (C _ s1 (String b0 "")); [reflexivity|cbn; lia|reflexivity|]. intros a b _. cbn [append runes_of]. now rewrite B, B2, B3, B4.
Qed.

(** ** After a semicolon, the lexer begins anew *)
Definition fine (m : mode) : Prop :=
  match m with
  | M0 t | M2 t | MHyphen t | MSlash t | MStar t => t <> ";"
  | MLine m => m = M0 "" \/ m = M2 ""
  | MQuote q s stk | MQSkip q s stk => s <> "" /\ Forall (fun x => snd x <> "") stk
  | _ => True
  end.
Lemma long_token : forall s c, s <> "" -> (s ++ utf8_rune c)%string <> ";".
Proof.
  intros s c N H. destruct s as [|b s]; [congruence|]. cbn [append] in H. injection H as _ H. apply append_nonempty in H; auto. apply utf8_rune_nonempty.
Qed.
Definition clean (o : list string) : Prop := ~ In ";" o.
Lemma flush_clean : forall t, t <> ";" -> clean (flush t).
Proof. intros t N I. unfold flush in I. destruct (t =? "")%string; cbn in I; intuition. Qed.
(** what a step does: it puts out no semicolon, or it puts out one, as the last token, and nothing is pending *)
Lemma step2_fine : forall d t c, t <> ";" ->
  match step2 d t c with
  | Go o nl m => fine m /\ (clean o \/ exists o', o = o' ++ [";"] /\ clean o' /\ m = M0 "")
  | Stop _ => True
  end.
Proof.
  intros d t c N. pose proof (flush_clean t N) as F. unfold step2.
  assert (X : forall x, x <> ";" -> clean (flush t ++ [x])) by (intros x Hx I; apply in_app_or in I as [I|[I|[]]]; auto).
  assert (Q : forall q, utf8_rune q <> "") by (intros; apply utf8_rune_nonempty).
  repeat match goal with
  | |- context [if ?b then _ else _] => destruct b eqn:?
  | |- match (match d with _ => _ end) with _ => _ end => destruct d
  end; cbn [fine]; auto; try (split; [solve [discriminate|auto|now apply snoc_semi]|]);
  try (left; (exact F || (intros []) || (apply X; discriminate))); auto.
  all: try solve [split; [|left; intros []]; apply snoc_semi; first [assumption|
    match goal with H : (_ =? c_sharp)%N = true |- _ => apply N.eqb_eq in H; subst; reflexivity end]].
  all: match goal with H : is_symbol _ = true |- _ => unfold is_symbol in H; rewrite !orb_true_iff, !N.eqb_eq in H; rename H into Y end.
  all: destruct Y as [[[[-> | ->]| ->]| ->]| ->]; try (left; apply X; discriminate); right; exists (flush t); auto.
Qed.
Lemma step_fine : forall d m c, fine m ->
  match step d m c with
  | Go o nl m' => fine m' /\ (clean o \/ exists o', o = o' ++ [";"] /\ clean o' /\ m' = M0 "")
  | Stop _ => True
  end.
Proof.
  intros d m c H.
  destruct m as [t|t|t|t|t|m| | | |q str stk|q str stk]; cbn [step];
    repeat match goal with |- context [if ?b then _ else _] => destruct b eqn:? end; cbn [fine]; auto;
    try (apply step2_fine; solve [exact H|apply snoc_semi; reflexivity]);
    try (split; [solve [exact I|auto|discriminate]|left; solve [intros []|intros [I|[]]; discriminate I]]).
  - split; [auto|]. left. now apply flush_clean.
  - split; [auto|]. left. now apply flush_clean.
  - split; [destruct H as [-> | ->]; discriminate|]. left. intros [I|[]]. discriminate I.
  - destruct H as [H1 H2]. unfold close. destruct stk as [|[q' s'] stk].
    + split; [discriminate|]. left. intros [I|[]]. revert I. now apply long_token.
    + inversion H2 as [|? ? H3 H4]; subst. cbn [snd] in H3. cbn [fine]. split; [|left; intros []]. split; [|exact H4].
      destruct s'; [congruence|discriminate].
  - destruct H as [H1 H2]. split; [|left; intros []]. split; [apply utf8_rune_nonempty|]. constructor; auto.
  - destruct H as [H1 H2]. split; [|left; intros []]. split; [|exact H2]. intros E. apply append_nonempty in E; auto. apply utf8_rune_nonempty.
Qed.
Lemma finish_fine : forall m l, fine m -> finish m = TOk l -> clean l.
Proof.
  assert (X : forall t c, is_symbol c = false -> clean [(t ++ utf8_rune c)%string]) by (intros t c S [I|[]]; revert I; now apply snoc_semi).
  destruct m as [t|t|t|t|t|m| | | |q str stk|q str stk]; cbn [finish fine]; intros l H E; try discriminate; try (injection E as <-); try (now apply flush_clean); try (now apply X).
  destruct H as [-> | ->]; cbn in E; injection E as <-; intros [].
Qed.
Lemma cut_list : forall (o l t1 t2 : list string), clean o -> o ++ l = t1 ++ ";" :: t2 -> exists t1', t1 = o ++ t1' /\ l = t1' ++ ";" :: t2.
Proof.
  induction o as [|x o IH]; intros l t1 t2 C E; [exists t1; auto|]. destruct t1 as [|y t1]; cbn [app] in E; injection E as E0 E.
  - exfalso. apply C. left. exact E0.
  - destruct (IH l t1 t2) as (t1' & -> & ->); [intros I; apply C; now right|exact E|]. exists t1'. cbn [app]. now rewrite E0.
Qed.
Theorem scan_cut : forall d rs m t1 t2, fine m -> scan d m rs = TOk (t1 ++ ";" :: t2) ->
  exists p q, rs = p ++ q /\ scan d m p = TOk (t1 ++ [";"]) /\ scan d (M0 "") q = TOk t2.
Proof.
  intros d. induction rs as [|c rs IH]; intros m t1 t2 F E; cbn [scan] in E.
  - apply finish_fine in E; auto. elim E. apply in_or_app. right. now left.
  - pose proof (step_fine d m c F) as S. destruct (step d m c) as [o nl m'|near] eqn:ST; [|discriminate]. destruct S as [F' S].
    destruct (scan d m' rs) as [l|] eqn:R; [|discriminate]. cbn [pre] in E. injection E as E.
    destruct S as [C|(o' & -> & C & ->)].
    + destruct (cut_list _ _ _ _ C E) as (t1' & -> & ->). destruct (IH _ _ _ F' R) as (p & q & -> & P & Q).
      exists (c :: p), q. split; auto. split; auto. cbn [scan]. rewrite ST, P. cbn [pre]. now rewrite app_assoc.
    + rewrite <- app_assoc in E. destruct (cut_list _ _ _ _ C E) as (t1' & -> & K). cbn [app] in K.
      destruct t1' as [|x t1']; cbn [app] in K.
      * injection K as K. subst l. exists [c], rs. split; auto. split; auto. cbn [scan]. rewrite ST. cbn [finish flush pre]. now rewrite !app_nil_r.
      * injection K as K0 K. subst l. destruct (IH _ _ _ F' R) as (p & q & -> & P & Q).
        exists (c :: p), q. split; auto. split; auto. cbn [scan]. rewrite ST, P. cbn [pre]. rewrite <- !app_assoc. cbn [app]. now rewrite K0.
Qed.

(** ** Scripts *)
Lemma strip_cut : forall toks l1 l2, strip toks = l1 ++ ";" :: l2 -> exists t1 t2, toks = t1 ++ ";" :: t2 /\ strip t1 = l1 /\ strip t2 = l2.
Proof.
  induction toks as [|t toks IH]; intros l1 l2 E; [destruct l1; discriminate|]. unfold strip in E. cbn [filter] in E. fold (strip toks) in E.
  destruct (is_nl t) eqn:N; cbn [negb] in E.
  - destruct (IH _ _ E) as (t1 & t2 & -> & <- & <-). exists (t :: t1), t2. split; auto. split; auto. unfold strip. cbn [filter]. now rewrite N.
  - destruct l1 as [|x l1]; cbn [app] in E; injection E as -> E.
    + exists [], toks. auto.
    + destruct (IH _ _ E) as (t1 & t2 & -> & <- & <-). exists (x :: t1), t2. split; auto. split; auto. unfold strip. cbn [filter]. now rewrite N.
Qed.
Theorem tokens_cut : forall d ddl l1 l2, tokens d ddl (l1 ++ l2) -> (l1 = [] \/ semi l1) ->
  exists s1 s2, ddl = (s1 ++ s2)%string /\ tokens d s1 l1 /\ tokens d s2 l2.
Proof.
  intros d ddl l1 l2 T S. destruct S as [->|[l0 ->]].
  - exists "", ddl. split; auto. split; auto. exists 1, []. split; reflexivity.
  - destruct T as (f & toks & L & T). rewrite <- app_assoc in T. cbn [app] in T.
    symmetry in T. destruct (strip_cut _ _ _ T) as (t1 & t2 & -> & <- & <-).
    assert (X : lexes d ddl (t1 ++ ";" :: t2)) by (now exists f). apply lexed_scan in X.
    apply scan_cut in X as (p & q & R & P & Q); [|discriminate]. apply runes_cut in R as (s1 & s2 & -> & <- & <-).
    apply lexed_scan in P as [f1 P], Q as [f2 Q]. exists s1, s2. split; auto. split.
    + exists f1, (t1 ++ [";"]). split; auto. now rewrite strip_app.
    + exists f2, t2. auto.
Qed.
Theorem says_cut : forall d ddl v1 v2, says d ddl (v1 ++ v2) -> exists s1 s2, ddl = (s1 ++ s2)%string /\ says d s1 v1 /\ says d s2 v2.
Proof.
  intros d ddl v1 v2 (l & o & T & L). destruct v2 as [|s v2].
  - rewrite app_nil_r in L. exists ddl, "". split; [now rewrite append_nil_r|]. split; [exists l, o; auto|].
    exists [], []. split; [exists 1, []; split; reflexivity|]. rewrite script_while. exists []. constructor.
  - destruct (PartsFacts.script_split _ _ _ _ L v1 s v2 eq_refl) as (m1 & m2 & m3 & p1 & p2 & p3 & -> & -> & K1 & K2 & K3).
    assert (K : lang (script d) (m2 ++ m3) None (p2 ++ p3) (s :: v2)).
    { rewrite script_while in K3 |- *. destruct K3 as [h K3]. destruct (PartsFacts.statement_cons _ _ _ _ _ K2) as (t & m2' & ->).
      exists (t :: h). constructor; auto. eapply Local.nxtfree_lang; [apply Local.statement_nxtfree|exact K2]. }
    destruct (tokens_cut _ _ _ _ T) as (s1 & s2 & -> & T1 & T2); [eapply tokens_semi, K1|].
    exists s1, s2. split; auto. split; [exists m1, p1; auto|exists (m2 ++ m3), (p2 ++ p3); auto].
Qed.

(** A script in pieces, one for each statement. *)
Theorem says_pieces : forall d stmts ddl, says d ddl stmts -> stmts <> [] ->
  exists ps, ddl = String.concat "" ps /\ Forall2 (fun p s => says d p [s]) ps stmts.
Proof.
  intros d. induction stmts as [|s stmts IH]; intros ddl H N; [congruence|]. destruct stmts as [|s' stmts].
  - exists [ddl]. split; [reflexivity|]. constructor; [exact H|constructor].
  - change (s :: s' :: stmts) with ([s] ++ (s' :: stmts)) in H. apply says_cut in H as (s1 & s2 & -> & H1 & H2).
    destruct (IH s2 H2) as (ps & -> & F); [discriminate|]. exists (s1 :: ps). split; [|constructor; auto].
    inversion F; subst. reflexivity.
Qed.
(** Accepted texts, in any order *)
Lemma join_accepted : forall d ps, Forall (fun p => accepted (fst p) d (snd p)) ps ->
  accepted (String.concat blank (map fst ps)) d (List.concat (map snd ps)).
Proof.
  intros d ps F. induction F as [|[s ts] ps H F IH]; [exists 9; destruct d; reflexivity|].
  destruct ps as [|p ps].
  - cbn in *. now rewrite app_nil_r.
  - cbn [map fst snd List.concat] in IH |- *. change (String.concat blank (s :: fst p :: map fst ps)) with (s ++ blank ++ String.concat blank (fst p :: map fst ps))%string.
    now apply compose_accepted.
Qed.
Theorem any_order : forall d ps ps', Forall (fun p => accepted (fst p) d (snd p)) ps -> Permutation ps ps' ->
  accepted (String.concat blank (map fst ps')) d (List.concat (map snd ps')).
Proof.
  intros d ps ps' F P. apply join_accepted. rewrite Forall_forall in *. intros x I. apply F. eapply Permutation_in; [symmetry; exact P|exact I].
Qed.
Theorem cut_readable : forall d ddl v1 v2, says d ddl (v1 ++ v2) -> readable (v1 ++ v2) = true ->
  exists s1 s2 ts1 ts2, ddl = (s1 ++ s2)%string /\ says d s1 v1 /\ says d s2 v2 /\ accepted s1 d ts1 /\ accepted s2 d ts2 /\ accepted ddl d (ts1 ++ ts2).
Proof.
  intros d ddl v1 v2 S R. pose proof (says_seen _ _ _ S R) as A. unfold readable in R. rewrite forallb_app in R. apply andb_true_iff in R as [R1 R2].
  destruct (says_cut _ _ _ _ S) as (s1 & s2 & E & S1 & S2). exists s1, s2, (tables_of d (seen v1)), (tables_of d (seen v2)).
  do 3 (split; [assumption|]). split; [now apply says_seen|]. split; [now apply says_seen|].
  replace (tables_of d (seen v1) ++ tables_of d (seen v2)) with (tables_of d (seen (v1 ++ v2))); [exact A|].
  unfold seen, tables_of. rewrite ?map_app, ?flat_map_app. reflexivity.
Qed.
Theorem pieces_readable : forall d ddl stmts, says d ddl stmts -> readable stmts = true -> stmts <> [] ->
  exists ps, ddl = String.concat "" (map fst ps) /\ accepted ddl d (List.concat (map snd ps)) /\
    Forall2 (fun p s => says d (fst p) [s] /\ accepted (fst p) d (snd p)) ps stmts /\
    forall ps', Permutation ps ps' -> accepted (String.concat blank (map fst ps')) d (List.concat (map snd ps')).
Proof.
  intros d ddl stmts S R N. destruct (says_pieces _ _ _ S N) as (ps & E & F).
  set (f := fun s => tables_of d (seen [s])).
  assert (X : exists qs, map fst qs = ps /\ map snd qs = map f stmts /\ Forall2 (fun p s => says d (fst p) [s] /\ accepted (fst p) d (snd p)) qs stmts).
  { clear - F R. induction F as [|p s ps stmts H F IH]; [exists []; auto|]. cbn [readable forallb] in R. apply andb_true_iff in R as [R1 R2].
    destruct (IH R2) as (qs & <- & Q & K). exists ((p, f s) :: qs). cbn [map fst snd]. rewrite Q. split; auto. split; auto. constructor; auto.
    cbn [fst snd]. split; auto. apply says_seen; auto. cbn [readable forallb]. now rewrite R1. }
  destruct X as (qs & <- & Q & K). exists qs. split; auto. split; [|split; [exact K|]].
  - rewrite Q. replace (List.concat (map f stmts)) with (tables_of d (seen stmts)); [now apply says_seen|].
    unfold f. clear. induction stmts as [|s stmts IH]; [reflexivity|]. cbn [map List.concat]. rewrite <- IH.
    unfold seen, tables_of. cbn [map flat_map]. now rewrite app_nil_r.
  - intros ps' P. apply any_order with (ps := qs); auto. clear - K. induction K as [|p s qs stmts [_ H] K IH]; constructor; auto.
Qed.
