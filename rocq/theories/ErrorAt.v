(** A syntax error depends only on the tokens up to the one it names. *)
From Coq Require Import String Ascii List Bool Arith NArith Lia.
From Verif Require Import GoStr GoNum Types Lexer VBase Exec Grammar Parse Fuel Scan Spec Pipe Text NoPanic Meaning Origin Local Compose Viable.
Import ListNotations.
Open Scope nat_scope.
Open Scope string_scope.

Lemma lexes_lexed : forall d ddl toks, lexes d ddl toks <-> lexed d (runes_of ddl) = LexOk toks.
Proof.
  intros d ddl toks. split.
  - intros [fuel H]. destruct (Lex_eq fuel d ddl); congruence.
  - intros H. exists (enough ddl). now rewrite Lex_enough.
Qed.

Lemma exec_err_local : forall A (m : V A) l t l2, exec m l = EErr (t :: l2) ->
  exists l1, l = (l1 ++ t :: l2)%list /\ forall l2', exec m (l1 ++ t :: l2')%list = EErr (t :: l2').
Proof.
  induction m as [a|k IH|k IH|x k IH| | |]; intros l t l2 H; cbn [exec] in H; try discriminate.
  - apply IH in H as (l1 & -> & H). exists l1. split; auto. intros l2'. cbn [exec].
    destruct l1; cbn [app hd_error] in *; auto.
  - destruct l as [|y l].
    + apply IH in H as (l1 & H & _). destruct l1; discriminate.
    + apply IH in H as (l1 & -> & H). exists (y :: l1). split; auto.
  - destruct (exec k l) eqn:E; try discriminate. cbn in H. inversion H; subst. apply IH in E as (l1 & -> & E).
    exists l1. split; auto. intros l2'. cbn [exec]. now rewrite E.
  - inversion H; subst. exists []. auto.
Qed.

(** A tail of the stripped list comes from a tail of the list. *)
Lemma strip_split : forall toks l1 t l2, strip toks = (l1 ++ t :: l2)%list ->
  exists p q, toks = (p ++ t :: q)%list /\ strip p = l1 /\ strip q = l2 /\ is_nl t = false.
Proof.
  induction toks as [|x toks IH]; intros l1 t l2 H; cbn [strip filter] in H.
  - destruct l1; discriminate.
  - fold (strip toks) in H. destruct (is_nl x) eqn:E; cbn [negb] in H.
    + apply IH in H as (p & q & -> & <- & <- & N). exists (x :: p), q. cbn [app strip filter]. rewrite E. auto.
    + destruct l1 as [|y l1]; cbn [app] in H; inversion H; subst.
      * exists [], toks. auto.
      * apply IH in H2 as (p & q & -> & <- & <- & N). exists (y :: p), q. cbn [app strip filter]. rewrite E. auto.
Qed.

Lemma line_of_split : forall p t q, is_nl t = false ->
  line_of (p ++ t :: q) (List.length (t :: strip q)) = line_after p.
Proof.
  intros p t q N. unfold line_of, line_after.
  assert (S : List.length (t :: strip q) = List.length (strip (t :: q))) by (cbn [strip filter]; now rewrite N).
  f_equal. destruct p as [|x p]; cbn [app].
  - rewrite N, S. exact (nls_before_split [] (t :: q) N).
  - rewrite S. destruct (is_nl x).
    + exact (nls_before_split p (t :: q) N).
    + exact (nls_before_split (x :: p) (t :: q) N).
Qed.

Lemma line_of_end : forall l, line_of l 0 = line_after l.
Proof.
  intros l. unfold line_of, line_after. f_equal.
  set (l' := match l with t :: l0 => if is_nl t then l0 else l | [] => [] end). clearbody l'.
  rewrite <- (app_nil_r l') at 1. exact (nls_before_split l' [] I).
Qed.

Theorem error_at : forall d ddl line near toks, rejected ddl d line near -> lexed d (runes_of ddl) = LexOk toks ->
  (near = EOF /\ line = line_after toks) \/
  (exists p q, toks = (p ++ near :: q)%list /\ line = line_after p /\
    forall ddl' q', lexed d (runes_of ddl') = LexOk (p ++ near :: q')%list -> rejected ddl' d line near).
Proof.
  intros d ddl line near toks H L. apply returns_stage in H. inversion H as [e L'|toks' rest L' V|]; subst; [congruence|].
  rewrite L in L'. inversion L'; subst toks'. destruct rest as [|t l2].
  - left. split; auto. apply line_of_end.
  - right. destruct V as [_ [n V]]. apply exec_err_local in V as (l1 & S & V). cbn [hd_error tok].
    apply strip_split in S as (p & q & -> & <- & <- & N). exists p, q. split; auto. split; [now apply line_of_split|].
    intros ddl' q' L2. apply returns_stage. rewrite line_of_split by auto. rewrite <- (line_of_split p t q') by auto.
    apply (st_validate ddl' d _ (t :: strip q') L2).
    split; [discriminate|]. exists n. rewrite strip_app. cbn [strip filter]. rewrite N. cbn [negb]. apply V.
Qed.

(** Nothing that follows after a blank line matters, as long as it can be divided into tokens. *)
Theorem error_stays : forall d s1 s2 line near, rejected s1 d line near -> near <> EOF ->
  (exists toks1, lexed d (runes_of s1) = LexOk toks1) -> (exists toks2, lexed d (runes_of s2) = LexOk toks2) ->
  rejected (s1 ++ blank ++ s2) d line near.
Proof.
  intros d s1 s2 line near H N [toks1 L1] [toks2 L2].
  destruct (error_at _ _ _ _ _ H L1) as [[E _]|(p & q & -> & -> & X)]; [contradiction|].
  apply (X _ (q ++ [NL; NL] ++ toks2)%list). rewrite (lexed_blank _ _ _ _ L1), L2. cbn [shift].
  now rewrite <- !app_assoc.
Qed.

(** ** Which token is blamed *)

Theorem error_first : forall d ddl line near toks, rejected ddl d line near -> lexed d (runes_of ddl) = LexOk toks ->
  (near = EOF /\ line = line_after toks /\ continues d (strip toks) /\
     forall out stmts, ~ lang (script d) (strip toks) None out stmts) \/
  (exists p q, toks = (p ++ near :: q)%list /\ near <> NL /\ line = line_after p /\
     continues d (strip p) /\ ~ continues d (strip p ++ [near])).
Proof.
  intros d ddl line near toks H L. apply returns_stage in H. inversion H as [e L'|toks' rest L' V|]; subst; [congruence|].
  rewrite L in L'. inversion L'; subst toks'. destruct (error_viable _ _ _ V) as (l1 & more & out & stmts & S & C).
  destruct rest as [|t l2].
  - left. rewrite app_nil_r in S. subst l1. split; auto. split; [apply line_of_end|]. split; [now exists more, out, stmts|].
    intros out' stmts' X. assert (Y : verdict d (strip toks) (EOk tt [] out')) by (apply verdict_ok; eauto).
    pose proof (verdict_det _ _ _ _ V Y). discriminate.
  - right. cbn [hd_error tok].
    destruct V as [_ [n V]]. apply exec_err_local in V as (l1' & S' & V). rewrite S' in S. apply app_inv_tail in S. subst l1'.
    apply strip_split in S' as (p & q & -> & <- & <- & N). exists p, q. split; auto.
    split; [now intros ->|]. split; [now apply line_of_split|]. split; [now exists more, out, stmts|].
    intros (more' & out' & stmts' & X). rewrite <- app_assoc in X. cbn [app] in X.
    assert (Y : verdict d (strip p ++ t :: more')%list (EOk tt [] out')) by (apply verdict_ok; eauto).
    assert (Z : verdict d (strip p ++ t :: more')%list (EErr (t :: more'))) by (split; [discriminate|]; eauto).
    pose proof (verdict_det _ _ _ _ Z Y). discriminate.
Qed.

(** The same with [lexes] instead of the automaton. *)
Theorem located : forall d ddl line near toks, rejected ddl d line near -> lexes d ddl toks ->
  (near = EOF /\ line = line_after toks) \/
  (exists p q, toks = (p ++ near :: q)%list /\ line = line_after p /\
    forall ddl' q', lexes d ddl' (p ++ near :: q')%list -> rejected ddl' d line near).
Proof.
  intros d ddl line near toks H L. apply lexes_lexed in L. destruct (error_at _ _ _ _ _ H L) as [X|(p & q & E & E2 & X)]; auto.
  right. exists p, q. split; auto. split; auto. intros ddl' q' L'. apply lexes_lexed in L'. eauto.
Qed.
Theorem stays : forall d s1 s2 line near toks1 toks2, rejected s1 d line near -> near <> EOF ->
  lexes d s1 toks1 -> lexes d s2 toks2 -> rejected (s1 ++ String "010" (String "010" "") ++ s2) d line near.
Proof.
  intros d s1 s2 line near toks1 toks2 H N L1 L2. apply lexes_lexed in L1, L2.
  apply (error_stays d s1 s2 line near H N); eauto.
Qed.
Theorem first_bad : forall d ddl line near toks, rejected ddl d line near -> lexes d ddl toks ->
  (near = EOF /\ line = line_after toks /\ continues d (strip toks) /\
     forall out stmts, ~ lang (script d) (strip toks) None out stmts) \/
  (exists p q, toks = (p ++ near :: q)%list /\ near <> NL /\ line = line_after p /\
     continues d (strip p) /\ ~ continues d (strip p ++ [near])).
Proof. intros d ddl line near toks H L. apply lexes_lexed in L. eauto using error_first. Qed.
