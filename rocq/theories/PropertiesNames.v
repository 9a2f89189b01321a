(** C11, C24, C34: names, unknown dialects, and the origin of the strings in the result. *)
From Coq Require Import String Ascii List Bool Arith ZArith.
From Verif Require Import GoStr GoNum Types Lexer Grammar Converter Parse Ast Safe Seen Spec Decide Witness
  Unquote Unknown Sources SourcesFacts Names NamesFacts.
Import ListNotations.
Open Scope nat_scope.
Open Scope string_scope.

(** C11: every name in the result is a legal name of the text (without its quotes).  Missing: the statements that are
    not [readable], for which it is false. *)
Theorem C11_legal_names_partial : forall d ddl stmts ts, accepted ddl d ts -> says d ddl stmts -> readable stmts = true ->
  exists l, tokens d ddl l /\ Forall (table_legal d l) ts.
Proof. exact NamesFacts.legal_names. Qed.
Print Assumptions C11_legal_names_partial.
Definition c11_text : string :=
  "CREATE TABLE main.""My t"" (a INTEGER CONSTRAINT `x y` REFERENCES _u1 (""c""), b TEXT, CONSTRAINT z UNIQUE (a, b));".
Example C11_example : exists stmts ts, says SQLite c11_text stmts /\ readable stmts = true /\ accepted c11_text SQLite ts /\
  map t_name ts = ["My t"] /\ map (fun t => map col_name (t_columns t)) ts = [["a"; "b"]].
Proof. do 2 eexists. split; [reads|]. split; [reflexivity|]. split; [computes|]. split; reflexivity. Qed.
Ltac not_legal := let q := fresh in let I := fresh in let N := fresh in let H := fresh in
  intros [(q & ? & H & I)|[(q & ? & H & I & _) N]]; inversion H; subst; clear H;
  [cbn in I; intuition discriminate|first [apply N; vm_compute; tauto|vm_compute in I; intuition discriminate]].
Example C11_not_legal : ~ legal SQLite "Table" /\ ~ legal MySQL """t""" /\ ~ legal SQLite "1a".
Proof. repeat split; not_legal. Qed.
(** A table named by a reserved word; a column named by a comma. *)
Theorem C11_refuted : exists ddl ts, accepted ddl MySQL ts /\ ~ exists l, tokens MySQL ddl l /\ Forall (table_legal MySQL l) ts.
Proof.
  exists "CREATE TABLE t (a INT, INDEX (a), b INT, c INT);". eexists. split; [computes|].
  intros (l & T & F). lexes T. inversion F as [|? ? _ F']; subst. inversion F' as [|? ? (_ & (t & [I K] & E) & _) _]; subst.
  vm_compute in I. repeat (destruct I as [<-|I]; [first [discriminate E|revert K; not_legal]|]). exact I.
Qed.
Print Assumptions C11_refuted.
Example C11_witness : exists ts, accepted "CREATE TABLE t (EXCLUDE (id WITH x), id INT);" PostgreSQL ts /\
  map (fun t => map col_name (t_columns t)) ts = [[","]].
Proof. eexists. split; [computes|reflexivity]. Qed.

(** C24: the same texts are accepted, and rejected with the same errors. *)
Theorem C24_accepts : forall k ddl, (exists ts, accepted ddl SQLite ts) <-> (exists ts, accepted ddl (Other k) ts).
Proof. exact Unknown.unknown_accepts. Qed.
Print Assumptions C24_accepts.
Theorem C24_rejects : forall k ddl line near, rejected ddl SQLite line near <-> rejected ddl (Other k) line near.
Proof. exact Unknown.unknown_rejects. Qed.
Print Assumptions C24_rejects.
Theorem C24_diverges : forall k ddl, diverges ddl SQLite <-> diverges ddl (Other k).
Proof. exact Unknown.unknown_diverges. Qed.
Print Assumptions C24_diverges.
(** The tables are those of SQLite with the quotes left in place. *)
Theorem C24_tables : forall k ddl ts err,
  returns ddl SQLite ts err <-> exists ts', returns ddl (Other k) ts' err /\ ts = map un_table ts'.
Proof. exact Unknown.unknown_returns. Qed.
Print Assumptions C24_tables.
Example C24_example :
  let ddl := "CREATE TABLE `t` (""a"" TEXT DEFAULT 'x');" in
  (exists ts, accepted ddl SQLite ts /\ map t_name ts = ["t"]) /\
  (exists ts, accepted ddl (Other "Oracle") ts /\ map t_name ts = ["`t`"] /\
     map (fun t => map col_name (t_columns t)) ts = [["""a"""]]) /\
  rejected "CREATE TABLE t (a TEXT NOT);" SQLite 1 ")" /\ rejected "CREATE TABLE t (a TEXT NOT);" (Other "Oracle") 1 ")".
Proof. cbn zeta. split; [|split; [|split; computes]]; eexists; (split; [computes|]); repeat split; reflexivity. Qed.

(** C34: the strings are made from a list that consists of tokens of the text in order and words that the validator puts
    in: CREATE (in front of a statement, so the text has it too), and in MySQL PRIMARY and KEY. *)
Theorem C34_sources_partial : forall d ddl ts, accepted ddl d ts ->
  exists l out, tokens d ddl l /\ weave (put_in d) l out /\ Forall (table_from d out) ts /\
    (ts <> [] -> exists t, In t l /\ to_upper t = "CREATE").
Proof. exact SourcesFacts.sources. Qed.
Print Assumptions C34_sources_partial.
Example C34_example : exists ts, accepted "create table items (id double precision check (id > 0), b varchar(20) default 'x y');" PostgreSQL ts /\
  map (fun t => map (fun c => dt_name (col_type c)) (t_columns t)) ts = [["DOUBLE"; "VARCHAR"]].
Proof. eexists. split; [computes|reflexivity]. Qed.
(** A type named PRIMARY. *)
Theorem C34_refuted : exists ddl ts, accepted ddl MySQL ts /\ ~ exists l, tokens MySQL ddl l /\ Forall (table_from MySQL l) ts.
Proof.
  exists "CREATE TABLE t (a INT, INDEX (a), b INT DEFAULT 3 KEY);". eexists. split; [computes|].
  intros (l & T & F). lexes T. inversion F as [|? ? _ F']; subst. inversion F' as [|? ? (_ & _ & C & _) _]; subst.
  inversion C as [|? ? (_ & (t & I & [E|(v & J & K & _)] & _) & _) _]; subst.
  - vm_compute in I. repeat (destruct I as [<-|I]; [discriminate E|]). exact I.
  - vm_compute in J. repeat (destruct J as [<-|J]; [discriminate K|]). exact J.
Qed.
Print Assumptions C34_refuted.
