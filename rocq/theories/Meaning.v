(** Parse on texts whose tokens are a script of the grammar. *)
From Coq Require Import String Ascii List Bool Arith NArith Lia.
From Verif Require Import GoStr GoNum Types Lexer VBase Exec Grammar GrammarFacts Ast Converter Parse Fuel Scan Spec Pipe
  Safe Seen Emit Conv Derive Tokens Accept Read.
From Verif Require GSqlite GPostgres GMysql DSqlite DPostgres DMysql.
Import ListNotations.
Open Scope nat_scope.
Open Scope string_scope.

Lemma script_ok_eof : forall d, ok (script d) [FEof] = true.
Proof. intros []; [apply sqlite_ok|apply postgres_ok|apply mysql_ok|apply sqlite_ok]. Qed.
Lemma script_loops : forall d, loops_eat (script d) = true.
Proof. intros []; [apply sqlite_loops|apply postgres_loops|apply mysql_loops|apply sqlite_loops]. Qed.

(** The validator's verdict is "ok" on exactly the scripts of the grammar. *)
Theorem verdict_ok : forall d l rest out,
  verdict d l (EOk tt rest out) <-> rest = [] /\ exists v, lang (script d) l None out v.
Proof.
  intros d l rest out. split.
  - intros [_ [n H]].
    assert (rest = []) as ->.
    { destruct d; cbn [script] in H; unfold GSqlite.script, GPostgres.script, GMysql.script in H;
        cbn [prog] in H; eapply script_end; exact H. }
    apply (sound _ _ (script_loops d)) in H as (l1 & v & H1 & H2). rewrite app_nil_r in H1. subst. eauto.
  - intros [-> [v H]]. split; [discriminate|].
    assert (W : within [FEof] (hd_error (@nil string))).
    { exists FEof. split; [now left|reflexivity]. }
    destruct (complete _ _ _ (script_ok_eof d) l [] out v H W) as [n0 X].
    exists n0. specialize (X n0 (le_n _)). unfold accepts in X. now rewrite app_nil_r in X.
Qed.

Lemma strip_good : forall l, Forall good l -> Forall good (strip l).
Proof. intros l H. unfold strip. apply Forall_forall. intros x I. apply filter_In in I as [I _]. rewrite Forall_forall in H. auto. Qed.

Lemma lang_em : forall d l o v, Forall good l -> lang (script d) l None o v -> em_script d v o.
Proof.
  intros [] l o v G H; cbn [script] in H.
  - eapply DSqlite.em_script_; eauto. now left.
  - eapply DPostgres.em_script_; eauto.
  - eapply DMysql.em_script_; eauto.
  - eapply DSqlite.em_script_; eauto. right. eauto.
Qed.

Lemma tokens_lexed : forall d ddl l, tokens d ddl l <->
  exists toks, lexed d (runes_of ddl) = LexOk toks /\ l = strip toks.
Proof.
  intros d ddl l. split.
  - intros (fuel & toks & L & ->). destruct (Lex_eq fuel d ddl) as [E|E]; [congruence|].
    exists toks. split; congruence.
  - intros (toks & L & ->). exists (enough ddl), toks. split; auto. now rewrite Lex_enough by lia.
Qed.
Lemma tokens_det : forall d ddl l l', tokens d ddl l -> tokens d ddl l' -> l = l'.
Proof. intros d ddl l l' (t & L & ->)%tokens_lexed (t' & L' & ->)%tokens_lexed. congruence. Qed.
Lemma tokens_good : forall d ddl l, tokens d ddl l -> Forall good l.
Proof. intros d ddl l (t & L & ->)%tokens_lexed. apply strip_good. eapply lexed_good; eauto. Qed.

Theorem says_seen : forall d ddl stmts, says d ddl stmts -> readable stmts = true ->
  accepted ddl d (tables_of d (seen stmts)).
Proof.
  intros d ddl stmts (l & out & (toks & L & ->)%tokens_lexed & H) S. apply returns_stage.
  econstructor 3; [exact L|apply verdict_ok; eauto|].
  assert (E : em_script d stmts out).
  { eapply lang_em; [|exact H]. apply strip_good. eapply lexed_good; eauto. }
  destruct (script_seen d stmts out E S) as [n X].
  exists n, []. apply X. lia.
Qed.
Theorem says_tables : forall d ddl stmts, says d ddl stmts -> safe stmts = true ->
  accepted ddl d (tables_of d stmts).
Proof. intros d ddl stmts H S. rewrite <- (seen_same stmts S) at 1. apply says_seen; auto. now apply safe_readable. Qed.

(** Every accepted text is a script. *)
Theorem accepted_says : forall d ddl ts, accepted ddl d ts -> exists stmts, says d ddl stmts.
Proof.
  intros d ddl ts H. apply returns_stage in H. inversion H as [| |toks rest out ts' L V K]; subst.
  apply verdict_ok in V as [_ [v V]]. exists v, (strip toks), out. split; [apply tokens_lexed; eauto|exact V].
Qed.

(** A text is one script only. *)
Theorem says_det : forall d ddl s s', says d ddl s -> says d ddl s' -> s = s'.
Proof.
  intros d ddl s s' (l & o & T & H) (l' & o' & T' & H').
  rewrite (tokens_det _ _ _ _ T' T) in H'.
  assert (W : within [FEof] (hd_error (@nil string))) by (exists FEof; split; [now left|reflexivity]).
  now destruct (lang_det _ (script d) [FEof] l l [] [] o o' s s' (script_ok_eof d) H W H' W eq_refl) as (_ & _ & E).
Qed.

(** For examples: the script that a text is. *)
Definition script_of (n : nat) (d : rdbms) (ddl : string) : option (list a_stmt) :=
  match Lex n d ddl with
  | LexOk toks =>
      match read (script d) n (strip toks) with
      | Some (v, [], _) => Some v
      | _ => None
      end
  | _ => None
  end.
Lemma script_of_says : forall n d ddl v, script_of n d ddl = Some v -> says d ddl v.
Proof.
  intros n d ddl v H. unfold script_of in H. destruct (Lex n d ddl) as [toks|e|] eqn:L; try discriminate.
  destruct (read (script d) n (strip toks)) as [[[v' [|t r]] o]|] eqn:R; try discriminate. inversion H; subst.
  apply (read_sound _ _ (script_loops d)) in R as (l1 & E & R). rewrite app_nil_r in E. subst.
  exists (strip toks), o. split; auto. exists n, toks. auto.
Qed.
