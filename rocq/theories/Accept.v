(** Acceptance by a validator that is equivalent to the parser of a grammar. *)
From Coq Require Import String Ascii List Bool Arith Lia.
From Verif Require Import GoStr GoNum Types Lexer VBase Exec Grammar GrammarFacts Equiv Ast.
From Verif Require VSqlite GSqlite ESqlite VPostgres GPostgres EPostgres VMysql GMysql EMysql.
Import ListNotations.
Open Scope string_scope.

Lemma validate_ok_exec : forall p l out,
  validate_with p l = ValidateOk out <-> exists rest, exec p (strip l) = EOk tt rest out.
Proof.
  intros p l out. pose proof (validate_with_exec p l) as H.
  destruct (exec p (strip l)) as [[] rest o|rest| |].
  - rewrite H. split; [intros E; inversion E; eauto | intros [r E]; congruence].
  - destruct H as [line ->]. split; [discriminate | intros [r E]; discriminate].
  - rewrite H. split; [discriminate | intros [r E]; discriminate].
  - rewrite H. split; [discriminate | intros [r E]; discriminate].
Qed.

(** A loop "until the end of the text" ends at the end of the text. *)
Lemma script_end : forall body n l u rest out,
  exec (while_loop body (mk_la [] true false) n) l = EOk u rest out -> rest = [].
Proof.
  intros body n l u rest out H. apply while_ends in H. destruct rest as [|t rest]; auto.
  discriminate.
Qed.

Lemma script_accepts : forall A (g : gr A) (p : nat -> V unit),
  (forall n, equiv (p n) (prog (While (mk_la [] true false) g) n)) ->
  loops_eat (While (mk_la [] true false) g) = true ->
  ok (While (mk_la [] true false) g) [FEof] = true ->
  forall tokens out,
  (exists fuel, validate_with (p fuel) tokens = ValidateOk out) <->
  (exists v, lang (While (mk_la [] true false) g) (strip tokens) None out v).
Proof.
  intros A g p E LE OK tokens out. split.
  - intros [fuel H]. apply validate_ok_exec in H as [rest H]. rewrite (E fuel) in H.
    pose proof (script_end _ _ _ _ _ _ H) as ->.
    apply (sound _ _ LE) in H as (l1 & v & H1 & H2). rewrite app_nil_r in H1. subst. eauto.
  - intros [v H]. assert (W : within [FEof] (hd_error (@nil string))).
    { exists FEof. split; [now left|reflexivity]. }
    destruct (complete _ _ _ OK (strip tokens) [] out v H W) as [n0 X].
    exists n0. apply validate_ok_exec. exists []. rewrite (E n0).
    specialize (X n0 (le_n _)). unfold accepts in X. now rewrite app_nil_r in X.
Qed.

Lemma sqlite_ok : ok GSqlite.script [FEof] = true.
Proof. vm_compute. reflexivity. Qed.
Lemma sqlite_loops : loops_eat GSqlite.script = true.
Proof. vm_compute. reflexivity. Qed.

Theorem sqlite_accepts : forall tokens out,
  (exists fuel, VSqlite.Validate fuel tokens = ValidateOk out) <->
  (exists stmts, lang GSqlite.script (strip tokens) None out stmts).
Proof.
  exact (script_accepts _ GSqlite.statement VSqlite.validate ESqlite.validate_prog sqlite_loops sqlite_ok).
Qed.

Lemma postgres_ok : ok GPostgres.script [FEof] = true.
Proof. vm_compute. reflexivity. Qed.
Lemma postgres_loops : loops_eat GPostgres.script = true.
Proof. vm_compute. reflexivity. Qed.

Theorem postgres_accepts : forall tokens out,
  (exists fuel, VPostgres.Validate fuel tokens = ValidateOk out) <->
  (exists stmts, lang GPostgres.script (strip tokens) None out stmts).
Proof.
  exact (script_accepts _ GPostgres.statement VPostgres.validate EPostgres.validate_prog postgres_loops postgres_ok).
Qed.

Lemma mysql_ok : ok GMysql.script [FEof] = true.
Proof. vm_compute. reflexivity. Qed.
Lemma mysql_loops : loops_eat GMysql.script = true.
Proof. vm_compute. reflexivity. Qed.

Theorem mysql_accepts : forall tokens out,
  (exists fuel, VMysql.Validate fuel tokens = ValidateOk out) <->
  (exists stmts, lang GMysql.script (strip tokens) None out stmts).
Proof.
  exact (script_accepts _ GMysql.statement VMysql.validate EMysql.validate_prog mysql_loops mysql_ok).
Qed.
