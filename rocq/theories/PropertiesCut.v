(** C75, C76: scripts may be cut after a statement, and statements may be put in any order; what comes before an error. *)
From Coq Require Import String Ascii List Bool Arith NArith Permutation.
From Verif Require Import GoStr Types Lexer Grammar Ast Safe Seen Spec Decide Witness PartsFacts Meaning Text Layout Lines CutFacts CutError.
From Verif Require PropertiesLine.
Import ListNotations.
Open Scope nat_scope.
Open Scope string_scope.
Open Scope list_scope.

Definition blank_line : string := String "010" (String "010" "").

(** Between any two of its statements a script can be cut, into two scripts. *)
Theorem C75_cut : forall d ddl stmts1 stmts2, says d ddl (stmts1 ++ stmts2) ->
  exists s1 s2, ddl = (s1 ++ s2)%string /\ says d s1 stmts1 /\ says d s2 stmts2.
Proof. exact CutFacts.says_cut. Qed.
Print Assumptions C75_cut.
(** ... so that a text that is not empty consists of pieces with one statement each. *)
Theorem C75_pieces : forall d stmts ddl, says d ddl stmts -> stmts <> [] ->
  exists ps, ddl = String.concat "" ps /\ Forall2 (fun p s => says d p [s]) ps stmts.
Proof. exact CutFacts.says_pieces. Qed.
Print Assumptions C75_pieces.
(** The tables of a [readable] script (Seen.v) are those of its parts. *)
Theorem C75_tables_partial : forall d ddl stmts1 stmts2, says d ddl (stmts1 ++ stmts2) -> readable (stmts1 ++ stmts2) = true ->
  exists s1 s2 ts1 ts2, ddl = (s1 ++ s2)%string /\ says d s1 stmts1 /\ says d s2 stmts2 /\ accepted s1 d ts1 /\ accepted s2 d ts2 /\
    accepted ddl d (ts1 ++ ts2).
Proof. exact CutFacts.cut_readable. Qed.
Print Assumptions C75_tables_partial.
(** Accepted texts, joined in any order with blank lines between them, are an accepted text with the tables in that order. *)
Theorem C75_order : forall d ps ps', Forall (fun p => accepted (fst p) d (snd p)) ps -> Permutation ps ps' ->
  accepted (String.concat blank_line (map fst ps')) d (List.concat (map snd ps')).
Proof. exact CutFacts.any_order. Qed.
Print Assumptions C75_order.
(** A readable script is made of pieces, one for each statement, that may be put in any order. *)
Theorem C75_order_partial : forall d ddl stmts, says d ddl stmts -> readable stmts = true -> stmts <> [] ->
  exists ps, ddl = String.concat "" (map fst ps) /\ accepted ddl d (List.concat (map snd ps)) /\
    Forall2 (fun p s => says d (fst p) [s] /\ accepted (fst p) d (snd p)) ps stmts /\
    forall ps', Permutation ps ps' -> accepted (String.concat blank_line (map fst ps')) d (List.concat (map snd ps')).
Proof. exact CutFacts.pieces_readable. Qed.
Print Assumptions C75_order_partial.

Definition c75_script : string := "CREATE TABLE tt (aa INT); /* ; */ CREATE VIEW v AS SELECT ';'; -- none
CREATE TABLE uu (bb TEXT CHECK (bb <> ';')); -- end".
Example C75_example : exists s1 s2 s3, says PostgreSQL c75_script ([s1; s2] ++ [s3]) /\ readable [s1; s2; s3] = true.
Proof. do 3 eexists. split; [reads|reflexivity]. Qed.
Example C75_result :
  let ps := [("CREATE TABLE tt (aa INT);", ["tt"]); (" /* ; */ CREATE VIEW v AS SELECT ';';", []);
             (" -- none
CREATE TABLE uu (bb TEXT CHECK (bb <> ';')); -- end", ["uu"])] in
  c75_script = String.concat "" (map fst ps) /\ Forall (fun p => exists ts, accepted (fst p) PostgreSQL ts /\ map t_name ts = snd p) ps.
Proof.
  split; [reflexivity|]. repeat (apply Forall_cons; [eexists; split; [computes|reflexivity]|]). apply Forall_nil.
Qed.

(** That the parts of an accepted text are accepted is false: the table with the reference does not end without the other. *)
Theorem C75_refuted : exists s1 s2 v1 v2 ts, accepted (s1 ++ s2) SQLite ts /\ says SQLite (s1 ++ s2) (v1 ++ v2) /\
  says SQLite s1 v1 /\ says SQLite s2 v2 /\ diverges s1 SQLite.
Proof.
  exists "CREATE TABLE t (a INTEGER REFERENCES s.u);", " CREATE TABLE v (b TEXT);". eexists [_], [_], _. split; [computes|].
  split; [reads|]. split; [reads|]. split; [reads|computes].
Qed.
Print Assumptions C75_refuted.

(** C76: a text that is divided into tokens and rejected consists of a script, which may be empty, and a text that does
    not begin with a statement and is rejected at the same token.  If all line breaks are counted ([calm], see C69), the line is
    that in the rest plus the line breaks before it, give or take one. *)
Theorem C76_before_partial : forall d ddl toks line near, lexes d ddl toks -> rejected ddl d line near ->
  exists s1 s2 stmts line2, ddl = (s1 ++ s2)%string /\ says d s1 stmts /\ rejected s2 d line2 near /\
    (forall p q s, s2 = (p ++ q)%string -> ~ says d p [s]) /\ line2 <= line <= line2 + line_feeds s1 + 1 /\
    (calm (runes_of ddl) -> line2 + line_feeds s1 <= line + 1).
Proof. exact CutError.before_error. Qed.
Print Assumptions C76_before_partial.
Definition c76_good : string := "CREATE TABLE tt (aa TEXT);
CREATE VIEW v AS SELECT 1;".
Definition c76_bad : string := "
CREATE TABLE uu (aa TEXT,
  bb TEXT; CREATE TABLE vv (aa TEXT);".
Example C76_example : (exists toks, lexes MySQL (c76_good ++ c76_bad) toks) /\ rejected (c76_good ++ c76_bad) MySQL 4 ";" /\
  (exists s1 s2, says MySQL c76_good [s1; s2]) /\ rejected c76_bad MySQL 2 ";" /\
  calm (runes_of (c76_good ++ c76_bad)) /\ line_feeds c76_good = 1.
Proof.
  split; [eexists; exists 1000; vm_compute; reflexivity|]. split; [computes|]. split; [do 2 eexists; reads|]. split; [computes|]. split; [|reflexivity].
  split; [apply PropertiesLine.pair_free; vm_compute; reflexivity|]. split; [apply PropertiesLine.pair_free; vm_compute; reflexivity|].
  right. intros q Q. apply PropertiesLine.pair_free. unfold quote_mark, one_of in Q. cbn [existsb] in Q.
  repeat (apply orb_true_iff in Q as [Q|Q]; [apply N.eqb_eq in Q; subst q; vm_compute; reflexivity|]). discriminate.
Qed.
(** With a lexical error in what follows, the error is another one. *)
Theorem C76_refuted : forall d, In d [SQLite; PostgreSQL; MySQL] -> exists s1 s2 ts s3, accepted s1 d ts /\ rejected s2 d 1 ";" /\ rejected (s1 ++ s2 ++ s3) d 1 EOF.
Proof.
  intros d D. destruct D as [<-|[<-|[<-|[]]]]; exists "CREATE TABLE tt (aa TEXT);", "CREATE TABLE uu (;"; eexists; exists "CREATE TABLE vv (aa TEXT DEFAULT 'x);";
    (split; [computes|split; computes]).
Qed.
Print Assumptions C76_refuted.
