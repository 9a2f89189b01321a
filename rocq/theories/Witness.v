(** Tactics and lemmas for the concrete cases in Properties.v. *)
From Coq Require Import String List.
From Verif Require Import GoStr GoNum Types Ast Safe Seen Parse Spec Lexer VBase Exec Pipe Meaning Decide.
Import ListNotations.

Lemma accepted_answer : forall d ddl ts, answer_of d ddl = Answer ts None -> accepted ddl d ts.
Proof. intros d ddl ts H. now apply answer_returns. Qed.
Lemma rejected_answer : forall d ddl line near, answer_of d ddl = Answer nil (Some (mk_verror line near)) ->
  rejected ddl d line near.
Proof. intros d ddl line near H. now apply answer_returns. Qed.
Lemma not_accepted : forall d ddl ts, answer_of d ddl <> Answer ts None -> ~ accepted ddl d ts.
Proof. intros d ddl ts H A. now apply H, answer_returns. Qed.
Lemma returns_det : forall d ddl ts err ts' err', returns ddl d ts err -> returns ddl d ts' err' -> ts = ts' /\ err = err'.
Proof. intros d ddl ts err ts' err' H H'. apply answer_returns in H, H'. split; congruence. Qed.
Lemma diverges_returns : forall d ddl ts err, diverges ddl d -> returns ddl d ts err -> False.
Proof. intros d ddl ts err H H'. apply answer_forever in H. apply answer_returns in H'. congruence. Qed.

Lemma accepted_tables : forall d ddl ts, accepted ddl d ts ->
  exists stmts, says d ddl stmts /\ (forall stmts', says d ddl stmts' -> stmts' = stmts) /\
    (safe stmts = true -> ts = tables_of d stmts).
Proof.
  intros d ddl ts H. destruct (accepted_says _ _ _ H) as [stmts S]. exists stmts. split; auto. split.
  - intros stmts' S'. eapply says_det; eauto.
  - intros F. eapply returns_det; [exact H|]. now apply says_tables.
Qed.

(** A script is not rejected. *)
Lemma says_no_error : forall d ddl stmts ts e, says d ddl stmts -> returns ddl d ts (Some e) -> False.
Proof.
  intros d ddl stmts ts e (l & out & (toks & L & ->)%tokens_lexed & H) R. apply returns_stage in R.
  assert (V : verdict d (strip toks) (EOk tt [] out)) by (apply verdict_ok; eauto).
  inversion R as [e' L'|toks' rest L' V'|]; subst; [congruence|].
  rewrite L in L'. inversion L'; subst. pose proof (verdict_det _ _ _ _ V V'). discriminate.
Qed.
Lemma tokens_are : forall n d ddl toks l, Lex n d ddl = LexOk toks -> tokens d ddl l -> l = strip toks.
Proof. intros n d ddl toks l H T. eapply tokens_det; [exact T|]. exists n, toks. auto. Qed.

Definition is_table (s : a_stmt) : bool := match s with STable _ => true | SOther => false end.
Lemma table_count : forall ddl d ts stmts, accepted ddl d ts -> says d ddl stmts -> readable stmts = true ->
  List.length ts = List.length (filter is_table stmts).
Proof.
  intros ddl d ts stmts H S F. destruct (returns_det _ _ _ _ _ _ H (says_seen _ _ _ S F)) as [-> _].
  clear. unfold tables_of. induction stmts as [|[] l IH]; cbn; auto.
Qed.

(** [says d ddl stmts] for a concrete [ddl]. *)
Ltac reads := eapply (script_of_says 1000); vm_compute; reflexivity.
(** [accepted ddl d ts] and so on for concrete arguments. *)
Ltac computes := solve
  [ apply accepted_answer; vm_compute; reflexivity
  | apply rejected_answer; vm_compute; reflexivity
  | apply answer_returns; vm_compute; reflexivity
  | apply answer_forever; vm_compute; reflexivity
  | apply not_accepted; vm_compute; discriminate ].
(** The tokens of a concrete text. *)
Ltac lexes H := eapply (tokens_are 1000) in H; [|vm_compute; reflexivity]; subst.
(** A concrete text that is no script. *)
Ltac no_script H := exfalso; eapply says_no_error; [exact H|]; apply answer_returns; vm_compute; reflexivity.
