(** C65: the strings that are reported are together no longer than the text. *)
From Coq Require Import String Ascii NArith List Bool Arith Lia.
From Verif Require Import GoStr Unicode Types Lexer Spec Utf8 LexicalFacts Witness PartsFacts Ast Seen Size SizeFacts SizeRead.
Import ListNotations.
Open Scope nat_scope.
Open Scope string_scope.
Open Scope list_scope.

(** The text has no character with a longer upper case. *)
Theorem C65_text_partial : forall d rs ts, d <> MySQL -> scalars rs -> steady rs -> accepted (utf8 rs) d ts -> size ts <= String.length (utf8 rs).
Proof. exact SizeFacts.text_bound. Qed.
Print Assumptions C65_text_partial.
(** For MySQL the validator puts in PRIMARY before a KEY that stands alone. *)
Theorem C65_mysql_partial : forall rs ts, scalars rs -> steady rs -> accepted (utf8 rs) MySQL ts -> 3 * size ts <= 10 * String.length (utf8 rs).
Proof. exact SizeFacts.text_bound_mysql. Qed.
Print Assumptions C65_mysql_partial.
(** Any characters *)
Theorem C65_any_partial : forall d rs ts, d <> MySQL -> scalars rs -> accepted (utf8 rs) d ts -> 2 * size ts <= 3 * String.length (utf8 rs).
Proof. exact SizeFacts.any_bound. Qed.
Print Assumptions C65_any_partial.
Theorem C65_any_mysql_partial : forall rs ts, scalars rs -> accepted (utf8 rs) MySQL ts -> size ts <= 5 * String.length (utf8 rs).
Proof. exact SizeFacts.any_bound_mysql. Qed.
Print Assumptions C65_any_mysql_partial.
(** Any bytes *)
Theorem C65_bytes_partial : forall d ddl ts, d <> MySQL -> accepted ddl d ts -> size ts <= 3 * String.length ddl.
Proof. exact SizeFacts.byte_bound. Qed.
Print Assumptions C65_bytes_partial.
Theorem C65_mysql_bytes_partial : forall ddl ts, accepted ddl MySQL ts -> size ts <= 10 * String.length ddl.
Proof. exact SizeFacts.byte_bound_mysql. Qed.
Print Assumptions C65_mysql_bytes_partial.
(** For [readable] scripts (Seen.v) the bound holds in all dialects, whatever the characters. *)
Theorem C65_readable_partial : forall d rs stmts, scalars rs -> says d (utf8 rs) stmts -> readable stmts = true ->
  exists ts, accepted (utf8 rs) d ts /\ size ts <= String.length (utf8 rs).
Proof. exact SizeRead.readable_bound. Qed.
Print Assumptions C65_readable_partial.
Theorem C65_readable_bytes_partial : forall d ddl stmts, says d ddl stmts -> readable stmts = true ->
  exists ts, accepted ddl d ts /\ size ts <= 3 * String.length ddl.
Proof. exact SizeRead.readable_bytes. Qed.
Print Assumptions C65_readable_bytes_partial.
(** The result can be longer than the text: after INDEX the converter takes what the validator has put in for part of an expression. *)
Theorem C65_mysql_refuted : exists rs ts, scalars rs /\ accepted (utf8 rs) MySQL ts /\ String.length (utf8 rs) < size ts.
Proof.
  exists (runes_of "CREATE TABLE t(INDEX(a),b INT DEFAULT(x check),c INT KEY,d INT KEY,e INT KEY,f INT KEY,g INT KEY,h INT KEY,i INT KEY,j INT KEY,k INT KEY,l INT KEY,m INT KEY,n INT KEY,o INT KEY,p INT KEY,q INT KEY,INDEX(a));").
  eexists. split; [apply runes_scalars|]. split; [computes|]. apply Nat.ltb_lt. vm_compute. reflexivity.
Qed.
Print Assumptions C65_mysql_refuted.
(** After EXCLUDE the converter takes a name for a type, which it reports in upper case: the upper case of U+0250 has three bytes instead of two. *)
Theorem C65_upper_refuted : exists rs ts, scalars rs /\ accepted (utf8 rs) PostgreSQL ts /\ String.length (utf8 rs) < size ts.
Proof.
  exists (runes_of ("CREATE TABLE t (EXCLUDE (a WITH =), """ ++ utf8 (repeat 592%N 60) ++ """ INT);")%string).
  eexists. split; [apply runes_scalars|]. split; [computes|]. apply Nat.ltb_lt. vm_compute. reflexivity.
Qed.
Print Assumptions C65_upper_refuted.
(** A byte that is no character is reported as three. *)
Theorem C65_bytes_refuted : exists ddl ts, accepted ddl SQLite ts /\ String.length ddl < size ts.
Proof.
  exists ("CREATE TABLE """ ++ string_of_list_ascii (repeat "255"%char 20) ++ """ (a INTEGER);")%string.
  eexists. split; [computes|]. apply Nat.ltb_lt. vm_compute. reflexivity.
Qed.
Print Assumptions C65_bytes_refuted.

Example C65_example : exists ts, accepted (utf8 (runes_of "CREATE TABLE ss.tt (aa CHARACTER VARYING(3) DEFAULT 'é' CHECK (aa <> ''), UNIQUE (aa));")) PostgreSQL ts /\ size ts = 25 /\
  size ts <= String.length (utf8 (runes_of "CREATE TABLE ss.tt (aa CHARACTER VARYING(3) DEFAULT 'é' CHECK (aa <> ''), UNIQUE (aa));")).
Proof.
  eexists. match goal with |- ?A /\ _ => assert (X : A) by computes end. split; [exact X|]. split; [vm_compute; reflexivity|].
  apply (C65_text_partial PostgreSQL); [discriminate|apply runes_scalars|apply steady_if; vm_compute; reflexivity|exact X].
Qed.
Example C65_any_example : exists ts, accepted (utf8 (runes_of ("CREATE TABLE t (EXCLUDE (a WITH =), """ ++ utf8 (repeat 592%N 60) ++ """ INT);")%string)) PostgreSQL ts /\ size ts = 184 /\ 2 * size ts <= 492.
Proof.
  eexists. match goal with |- ?A /\ _ => assert (X : A) by computes end. split; [exact X|]. split; [vm_compute; reflexivity|].
  exact (C65_any_partial PostgreSQL _ _ ltac:(discriminate) (runes_scalars _) X).
Qed.
Example C65_any_mysql_example : exists ts, accepted (utf8 (runes_of "CREATE TABLE t (a INT KEY, b CHAR(2) COLLATE bin);")) MySQL ts /\ size ts = 13 /\ size ts <= 250.
Proof.
  eexists. match goal with |- ?A /\ _ => assert (X : A) by computes end. split; [exact X|]. split; [vm_compute; reflexivity|].
  exact (C65_any_mysql_partial _ _ (runes_scalars _) X).
Qed.
Example C65_mysql_example : exists ts, accepted (utf8 (runes_of "CREATE TABLE t (a INT KEY, b CHAR(2) COLLATE bin);")) MySQL ts /\ size ts = 13 /\ 3 * size ts <= 500.
Proof.
  eexists. match goal with |- ?A /\ _ => assert (X : A) by computes end. split; [exact X|]. split; [vm_compute; reflexivity|].
  refine (C65_mysql_partial _ _ (runes_scalars _) _ X). apply steady_if. vm_compute. reflexivity.
Qed.
Example C65_bytes_example : exists ts, accepted ("CREATE TABLE t (a INTEGER DEFAULT '" ++ String "255"%char "');")%string SQLite ts /\ size ts = 12 /\ size ts <= 117.
Proof.
  eexists. match goal with |- ?A /\ _ => assert (X : A) by computes end. split; [exact X|]. split; [vm_compute; reflexivity|].
  exact (C65_bytes_partial SQLite _ _ ltac:(discriminate) X).
Qed.
Example C65_readable_example : exists stmts, says MySQL (utf8 (runes_of "CREATE TABLE `ɐɐ` (a INT KEY, b CHAR(2) COLLATE `ɐ`);")) stmts /\ readable stmts = true /\ stmts <> [].
Proof. eexists. split; [reads|]. split; [reflexivity|discriminate]. Qed.
