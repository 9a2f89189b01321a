(** ParseForce. *)
From Coq Require Import String List.
From Verif Require Import GoStr GoNum Types Lexer VBase Converter Parse.
Import ListNotations.
Open Scope string_scope.

Lemma force_loop_nil : forall fuel ddl ls tables err,
  parse_force_loop fuel ddl ls None = Returns tables err ->
  err = None /\
  ((exists ls1 d ls2, ls = (ls1 ++ d :: ls2)%list /\ Parse fuel ddl d = Returns tables None /\
      Forall (fun d' => exists e, Parse fuel ddl d' = Returns [] (Some e)) ls1)
   \/ (tables = [] /\ Forall (fun d' => exists e, Parse fuel ddl d' = Returns [] (Some e)) ls)).
Proof.
  intros fuel ddl. induction ls as [|d ls IH]; cbn [parse_force_loop]; intros tables err H.
  - inversion H; subst. split; auto.
  - destruct (Parse fuel ddl d) as [ts [e|]| |] eqn:E; try discriminate.
    + assert (ts = []).
      { unfold Parse in E. destruct (Lex fuel d ddl); try discriminate; [|congruence].
        destruct (Validate fuel d tokens); try discriminate; [|congruence].
        destruct (Convert fuel d tokens0); discriminate. }
      subst. apply IH in H as [-> [(ls1 & d' & ls2 & -> & P & F)|[-> F]]]; split; auto.
      * left. exists (d :: ls1), d', ls2. split; auto. split; auto. constructor; eauto.
      * right. split; auto. constructor; eauto.
    + inversion H; subst. split; auto. left. exists [], d, ls. auto.
Qed.
