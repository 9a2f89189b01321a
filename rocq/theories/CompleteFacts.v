(** Which texts can be completed. *)
From Coq Require Import String Ascii List Bool Arith NArith Lia.
From Verif Require Import GoStr GoNum Types Lexer VBase Exec Grammar GrammarFacts Parse Fuel Scan Spec Pipe Meaning Compose Viable ErrorAt.
Import ListNotations.
Open Scope nat_scope.
Open Scope string_scope.
Open Scope list_scope.

Lemma text_of : forall d l, Forall (fun t => writable d t = true) l -> exists s toks, lexed d (runes_of s) = LexOk toks /\ strip toks = l.
Proof.
  intros d l H. induction H as [|t l W H (s & toks & L & S)].
  - exists "", []. split; [destruct d|]; reflexivity.
  - apply writable_lexed in W as [W N]. exists (t ++ blank ++ s)%string, ([t] ++ [NL; NL] ++ toks). rewrite (lexed_blank _ _ _ _ W), L.
    split; [reflexivity|]. rewrite !strip_app, S. cbn [strip filter]. now rewrite N.
Qed.
Theorem completed : forall d s line toks, rejected s d line EOF -> lexes d s toks -> ~ In EOF toks ->
  exists s' stmts, says d (s ++ blank ++ s')%string stmts.
Proof.
  intros d s line toks H L N. apply lexes_lexed in L. apply returns_stage in H. inversion H as [e L'|toks' rest L' V|]; subst; [congruence|].
  rewrite L in L'. injection L' as <-. destruct (error_writable _ _ _ V) as (l1 & more & out & stmts & S & W & C).
  destruct rest as [|t rest].
  2:{ exfalso. apply N. apply strip_split in S as (p & q & -> & _). apply in_app_iff. right. left.
      match goal with X : _ = EOF |- _ => exact X | X : EOF = _ |- _ => exact (eq_sym X) end. }
  rewrite app_nil_r in S. subst l1. apply text_of in W as (s' & toks' & L' & E). exists s', stmts, (strip toks ++ more), out. split; auto.
  assert (X : lexed d (runes_of (s ++ blank ++ s')) = LexOk ((toks ++ [NL; NL]) ++ toks')) by (now rewrite (lexed_blank _ _ _ _ L), L').
  apply lexes_lexed in X as [n X]. exists n, ((toks ++ [NL; NL]) ++ toks'). split; auto. rewrite !strip_app, E. change (strip [NL; NL]) with (@nil string).
  now rewrite app_nil_r.
Qed.
Theorem incomplete : forall d s s' line near toks stmts, rejected s d line near -> lexes d s toks -> says d (s ++ blank ++ s')%string stmts -> near = EOF.
Proof.
  intros d s s' line near toks stmts H L (l & out & (n & toks' & T & ->) & S). destruct (string_dec near EOF) as [E|N]; auto. exfalso.
  assert (X : lexes d (s ++ blank ++ s') toks') by (now exists n). apply lexes_lexed in X.
  pose proof L as L0. apply lexes_lexed in L0. pose proof (lexed_blank _ _ s' _ L0) as Y. rewrite X in Y.
  destruct (lexed d (runes_of s')) as [toks2|e|] eqn:L2; try discriminate.
  assert (Z : rejected (s ++ blank ++ s') d line near) by (eapply error_stays; eauto).
  apply returns_stage in Z. inversion Z as [e L'|toks3 rest L' V|]; subst; [congruence|]. rewrite X in L'. injection L' as <-.
  assert (Q : verdict d (strip toks') (EOk tt [] out)) by (apply verdict_ok; eauto).
  pose proof (verdict_det _ _ _ _ V Q). discriminate.
Qed.
(** An error at a token stays, whatever follows. *)
Lemma stuck : forall d s toks n t rest, lexed d (runes_of s) = LexOk toks -> exec (prog (script d) n) (strip toks) = EErr (t :: rest) ->
  forall s' stmts, ~ says d (s ++ blank ++ s')%string stmts.
Proof.
  intros d s toks n t rest L E s' stmts (l & out & (m & toks' & T & ->) & S).
  assert (X : lexes d (s ++ blank ++ s') toks') by (now exists m). apply lexes_lexed in X.
  rewrite (lexed_blank _ _ _ _ L) in X. destruct (lexed d (runes_of s')) as [toks2|e|]; try discriminate. cbn [shift] in X. injection X as <-.
  apply exec_err_local in E as (l1 & E1 & E2). rewrite !strip_app in S. rewrite E1 in S. change (strip [NL; NL]) with (@nil string) in S.
  rewrite app_nil_r, <- app_assoc in S. cbn [app] in S.
  assert (Q : verdict d (l1 ++ t :: rest ++ strip toks2) (EOk tt [] out)) by (apply verdict_ok; eauto).
  assert (V : verdict d (l1 ++ t :: rest ++ strip toks2) (EErr (t :: rest ++ strip toks2))) by (split; [discriminate|eauto]).
  pose proof (verdict_det _ _ _ _ V Q). discriminate.
Qed.
Lemma stuck_computed : forall d s n,
  match lexed d (runes_of s) with
  | LexOk toks => match exec (prog (script d) n) (strip toks) with EErr (_ :: _) => true | _ => false end
  | _ => false
  end = true -> forall s' stmts, ~ says d (s ++ blank ++ s')%string stmts.
Proof.
  intros d s n H. destruct (lexed d (runes_of s)) as [toks| |] eqn:L; try discriminate.
  destruct (exec _ _) as [| [|t rest]| |] eqn:E; try discriminate. eapply stuck; eauto.
Qed.
