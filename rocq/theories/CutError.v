(** What comes before an error. *)
From Coq Require Import String Ascii ZArith List Bool Arith NArith Lia.
From Verif Require Import GoStr GoNum Types Lexer VBase Exec Grammar GrammarFacts Ast Converter Parse Fuel Scan Spec Pipe
  Text Utf8 Tokens Accept Meaning Total Origin Local Read Compose Extend Witness Safe Seen LexicalFacts CutFacts SkippedFacts Layout Inside Lines LineFacts.
Import ListNotations.
Open Scope nat_scope.
Open Scope string_scope.
Open Scope list_scope.

Lemma statement_loops : forall d, loops_eat (statement d) = true.
Proof. intros []; reflexivity. Qed.
(** The statements up to the one with the error. *)
Lemma first_wrong : forall d n l rest, exec (while_loop (prog (statement d)) (mk_la [] true false) n) l = EErr rest ->
  exists l1 l2 o1 v1, l = l1 ++ l2 /\ lang (script d) l1 None o1 v1 /\ (forall a b o s, l2 = a ++ b -> ~ lang (statement d) a None o s).
Proof.
  intros d. induction n as [|n IH]; intros l rest; [discriminate|]. cbn [while_loop]. rewrite (exec_if _ _ _ _ _ _ (exec_look_la _ l)).
  destruct (la_mem (mk_la [] true false) (hd_error l)); [|discriminate]. rewrite exec_bind.
  destruct (exec (prog (statement d) n) l) as [[] r1 o1|r1| |] eqn:E1; cbn [ebind]; try discriminate.
  - intros H. destruct (exec (while_loop (prog (statement d)) (mk_la [] true false) n) r1) as [[] r2 o2|r2| |] eqn:E2; try discriminate H.
    apply (sound _ _ (statement_loops d)) in E1 as (a & v & -> & K).
    apply IH in E2 as (l1 & l2 & p1 & v1 & -> & L & N).
    exists (a ++ l1), l2, (o1 ++ p1), (v :: v1). split; [now rewrite app_assoc|]. split; [|exact N].
    rewrite script_while in L |- *. destruct L as [h L]. destruct (PartsFacts.statement_cons _ _ _ _ _ K) as (t & a' & ->).
    exists (t :: h). constructor; auto. eapply nxtfree_lang; [apply statement_nxtfree|exact K].
  - intros _. exists [], l, [], []. split; auto. split; [rewrite script_while; exists []; constructor|].
    intros a b o s -> K. destruct (complete _ _ _ (statement_ok d) a b o s (nxtfree_lang _ _ (statement_nxtfree d) _ _ _ _ _ K) (within_any _)) as [n1 X].
    specialize (X (n + n1) ltac:(lia)). unfold accepts in X. destruct (prog_mono_le _ (statement d) n (n + n1) ltac:(lia) (a ++ b)) as [E|E]; congruence.
Qed.
Lemma cut_line : forall t1 t2 k, k <= List.length (strip t2) ->
  line_of t2 k <= line_of (t1 ++ t2) k <= line_of t2 k + count_nl t1 + 1 /\ line_of t2 k + count_nl t1 <= line_of (t1 ++ t2) k + 1.
Proof.
  intros t1 t2 k H.
  set (x2 := match t2 with t :: l' => if is_nl t then l' else t2 | [] => [] end).
  assert (A : exists a, nls_before k t2 = a + nls_before k x2 /\ a <= 1).
  { unfold x2. destruct t2 as [|t l']; [now exists 0; cbn; auto|]. destruct (is_nl t) eqn:E.
    - exists 1. cbn [nls_before]. rewrite E. auto.
    - exists 0. auto. }
  destruct A as (a & A & A1). unfold line_of. fold x2. destruct t1 as [|t t1]; cbn [app]; [fold x2; change (count_nl []) with 0; lia|].
  destruct (is_nl t) eqn:E.
  - assert (C : count_nl (t :: t1) = 1 + count_nl t1) by (unfold count_nl; cbn [filter]; now rewrite E). rewrite C, nls_before_app by auto. lia.
  - change (t :: t1 ++ t2) with ((t :: t1) ++ t2). rewrite nls_before_app by auto. lia.
Qed.
Lemma lexes_eq : forall d ddl toks, lexes d ddl toks <-> lexed d (runes_of ddl) = LexOk toks.
Proof.
  intros d ddl toks. rewrite lexed_scan. unfold lexed. destruct (scan d (M0 "") (runes_of ddl)); cbn; split; intros H; inversion H; reflexivity.
Qed.
Lemma lexes_cut : forall d ddl toks l1 l2, lexes d ddl toks -> strip toks = l1 ++ l2 -> (l1 = [] \/ semi l1) ->
  exists s1 s2 t1 t2, ddl = (s1 ++ s2)%string /\ runes_of ddl = runes_of s1 ++ runes_of s2 /\ toks = t1 ++ t2 /\ lexes d s1 t1 /\ lexes d s2 t2 /\ strip t1 = l1 /\ strip t2 = l2.
Proof.
  intros d ddl toks l1 l2 X E [->|[l0 ->]].
  - exists "", ddl, [], toks. repeat split; auto. exists 1. reflexivity.
  - rewrite <- app_assoc in E. cbn [app] in E. destruct (strip_cut _ _ _ E) as (t1 & t2 & -> & <- & <-).
    apply lexed_scan in X. apply scan_cut in X as (p & q & R & P & Q); [|discriminate]. pose proof R as R0. apply runes_cut in R as (s1 & s2 & -> & <- & <-).
    apply lexed_scan in P, Q. exists s1, s2, (t1 ++ [";"]), t2. repeat split; auto; [now rewrite <- app_assoc|now rewrite strip_app].
Qed.
Lemma breaks_feeds : forall s, line_breaks (runes_of s) = line_feeds s.
Proof.
  intros s. rewrite <- line_feeds_runes. unfold line_breaks, nls. generalize (runes_of s). intros rs. induction rs as [|c rs IH]; [reflexivity|].
  cbn [count_occ filter]. destruct (N.eq_dec c Layout.nl) as [->|N]; [change (Layout.nl =? c_nl)%N with true; cbn [List.length]; now rewrite IH|]. replace (c =? c_nl)%N with false; [exact IH|].
  symmetry. now apply N.eqb_neq.
Qed.
Theorem before_error : forall d ddl toks line near, lexes d ddl toks -> rejected ddl d line near ->
  exists s1 s2 stmts line2, ddl = (s1 ++ s2)%string /\ says d s1 stmts /\ rejected s2 d line2 near /\
    (forall p q s, s2 = (p ++ q)%string -> ~ says d p [s]) /\ line2 <= line <= line2 + line_feeds s1 + 1 /\
    (calm (runes_of ddl) -> line2 + line_feeds s1 <= line + 1).
Proof.
  intros d ddl toks line near X R. apply returns_stage in R.
  assert (L : lexed d (runes_of ddl) = LexOk toks) by (destruct X as [f X]; destruct (Lex_eq f d ddl); congruence).
  inversion R as [e L'|toks0 rest L' V|]; subst; [congruence|]. rewrite L in L'. injection L' as <-.
  destruct V as [V0 [n V]]. pose proof V as V1. rewrite script_while in V1. cbn [prog] in V1.
  apply first_wrong in V1 as (l1 & l2 & o1 & v1 & E & K & N).
  destruct (lexes_cut _ _ _ _ _ X E (tokens_semi _ _ _ _ _ K)) as (s1 & s2 & t1 & t2 & -> & RR & -> & X1 & X2 & <- & <-).
  rewrite strip_app in V. destruct (verdict_back d (strip t1) o1 v1 (strip t2) (EErr rest) K) as (e & V2 & V3); [split; [discriminate|eauto]|].
  destruct e as [? ? ?|rest2| |]; try discriminate V3. cbn [epre] in V3. injection V3 as <-.
  exists s1, s2, v1, (line_of t2 (List.length rest)). split; [reflexivity|]. split.
  { exists (strip t1), o1. split; auto. destruct X1 as [f X1]. exists f, t1. auto. }
  split; [apply returns_stage, st_validate; [now apply lexes_eq|exact V2]|]. split.
  - intros p q s -> (l & o & T & H). apply Meaning.tokens_lexed in T as (tp & TP & ->).
    apply lexes_eq in X2. pose proof (tokens_semi _ _ _ _ _ H) as S.
    destruct (lexed_more _ _ _ _ _ TP S X2) as (l2 & ->).
    rewrite script_while in H. destruct H as [hs H]. inversion H as [|t m1 m2 nx p1 p2 v vs hs' H1 H2]; subst.
    inversion H2; subst. rewrite !app_nil_r in *. apply (N (t :: m1) (strip l2) p1 s); [|exact H1].
    rewrite strip_app. congruence.
  - destruct V2 as [_ [n2 V2]]. apply exec_err_suffix in V2 as [m V2].
    pose proof (cut_line t1 t2 (List.length rest)) as B. rewrite V2, app_length in B.
    split; [|intros Q; rewrite RR in Q; apply calm_l in Q; apply lexes_reads in X1; destruct (reads_exact _ _ _ _ X1 Q) as [C _];
             rewrite breaks_feeds in C; lia].
    apply lexes_eq in X1. pose proof (lexed_from d (runes_of s1)) as F. rewrite X1 in F. destruct F as [_ F]. rewrite line_feeds_runes in F. lia.
Qed.
