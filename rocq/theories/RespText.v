(** Texts whose tokens the validator does not tell apart. *)
From Coq Require Import String Ascii List Bool Arith NArith Lia.
From Verif Require Import GoStr GoNum Types Lexer VBase Exec Grammar GrammarFacts Ast Parse Fuel Scan Spec Pipe Meaning Resp.
Import ListNotations.
Open Scope nat_scope.
Open Scope string_scope.

Lemma Forall2_length : forall A B (R : A -> B -> Prop) l l', Forall2 R l l' -> List.length l = List.length l'.
Proof. induction 1; cbn; auto. Qed.

Section Texts.
Context (d : rdbms) (S : string -> string -> Prop) (S_refl : forall t, S t t) (S_nl : forall t t', S t t' -> is_nl t = is_nl t').
Context (S_verdict : forall l l', Forall2 S l l' -> forall n, like S (exec (prog (script d) n) l) (exec (prog (script d) n) l')).

Lemma resp_strip : forall l l', Forall2 S l l' -> Forall2 S (strip l) (strip l').
Proof.
  intros l l' F. induction F as [|t t' l l' H F IH]; [constructor|]. unfold strip in *. cbn.
  rewrite (S_nl _ _ H). destruct (is_nl t'); cbn; auto.
Qed.
Lemma resp_line : forall l l' k, Forall2 S l l' -> line_of l k = line_of l' k.
Proof.
  intros l l' k F. unfold line_of. f_equal.
  assert (H : forall a b, Forall2 S a b -> nls_before k a = nls_before k b).
  { clear - S_nl. intros a b F. induction F as [|t t' l l' H F IH]; auto. cbn [nls_before].
    pose proof (resp_strip _ _ (Forall2_cons _ _ H F)) as E. apply Forall2_length in E.
    rewrite (S_nl _ _ H), IH, E. reflexivity. }
  destruct F as [|t t' l l' E F]; auto. rewrite (S_nl _ _ E). destruct (is_nl t'); auto.
Qed.
Theorem resp_says : forall ddl ddl' toks toks' stmts, lexes d ddl toks -> lexes d ddl' toks' ->
  Forall2 S toks toks' -> says d ddl stmts -> exists stmts', says d ddl' stmts'.
Proof.
  intros ddl ddl' toks toks' stmts [f X] [f' X'] F (l & o & T & L).
  assert (V : verdict d l (EOk tt [] o)) by (apply verdict_ok; eauto). destruct V as [_ [n V]].
  assert (l = strip toks) as ->.
  { eapply tokens_det; [exact T|]. exists f, toks. auto. }
  pose proof (S_verdict _ _ (resp_strip _ _ F) n) as K. rewrite V in K. cbn in K.
  destruct (exec (prog (script d) n) (strip toks')) as [[] rest' out'|rest'| |] eqn:E; try tauto.
  destruct K as (_ & K & _). inversion K; subst.
  assert (V' : verdict d (strip toks') (EOk tt [] out')) by (split; [discriminate|eauto]).
  apply verdict_ok in V' as [_ [s' L']]. exists s', (strip toks'), out'. split; auto. exists f', toks'. auto.
Qed.
Theorem resp_rejected : forall ddl ddl' toks toks' line near, lexes d ddl toks -> lexes d ddl' toks' ->
  Forall2 S toks toks' -> rejected ddl d line near -> exists near', rejected ddl' d line near' /\ S near near'.
Proof.
  intros ddl ddl' toks toks' line near [f X] [f' X'] F R. apply returns_stage in R.
  inversion R as [e L|toks0 rest L V|]; subst.
  - destruct (Lex_eq f d ddl); congruence.
  - assert (toks0 = toks) as -> by (destruct (Lex_eq f d ddl); congruence).
    destruct V as [_ [n V]].
    pose proof (S_verdict _ _ (resp_strip _ _ F) n) as K. rewrite V in K. cbn in K.
    destruct (exec (prog (script d) n) (strip toks')) as [[] rest' out'|rest'| |] eqn:E; try tauto.
    exists (tok (hd_error rest')). split.
    + apply returns_stage. rewrite (resp_line _ _ _ F), (Forall2_length _ _ _ _ _ K). apply st_validate.
      * destruct (Lex_eq f' d ddl'); congruence.
      * split; [discriminate|eauto].
    + destruct K; cbn; [apply S_refl|auto].
Qed.
Context (S_sym : forall t t', S t t' -> S t' t).
Theorem resp_scripts : forall ddl ddl' toks toks', lexes d ddl toks -> lexes d ddl' toks' ->
  Forall2 S toks toks' ->
  ((exists stmts, says d ddl stmts) <-> (exists stmts, says d ddl' stmts)).
Proof.
  intros ddl ddl' toks toks' X X' F. split; intros [s SA].
  - eapply resp_says; [exact X|exact X'|exact F|exact SA].
  - eapply resp_says; [exact X'|exact X| |exact SA]. clear - F S_sym. induction F; constructor; auto.
Qed.
End Texts.
