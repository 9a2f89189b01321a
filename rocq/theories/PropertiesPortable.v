(** C44, C45: the same text in several dialects. *)
From Coq Require Import String Ascii NArith ZArith List Bool.
From Verif Require Import GoStr GoNum Types Grammar Ast Seen Spec Portable Witness PartsFacts.
From Verif Require Alike ListedFacts.
Import ListNotations.
Open Scope string_scope.
Open Scope list_scope.

(** C44: a script of the common grammar is read alike in all the dialects. *)
Theorem C44_portable : forall three ddl l stmts, portable three l stmts -> (forall d, In d (dialects three) -> tokens d ddl l) ->
  exists ts, forall d, In d (dialects three) -> says d ddl stmts /\ accepted ddl d ts.
Proof. exact Alike.portable_alike. Qed.
Print Assumptions C44_portable.
(** ParseForce reads it like all of them. *)
Theorem C44_force : forall ddl l stmts, portable true l stmts -> (forall d, known d -> tokens d ddl l) ->
  exists ts, force_returns ddl ts None /\ forall d, known d -> accepted ddl d ts.
Proof. exact Alike.portable_force. Qed.
Print Assumptions C44_force.
(** Without number signs and back quotes the tokens are the same in all dialects. *)
Theorem C44_tokens : forall d d' ddl l, plain_text ddl -> tokens d ddl l -> tokens d' ddl l.
Proof. exact Alike.plain_tokens. Qed.
Print Assumptions C44_tokens.

Definition shop : string := "create table if not exists shop.item (
  id INTEGER PRIMARY KEY, -- the number
  name TEXT CONSTRAINT named NOT NULL UNIQUE DEFAULT 'none',
  price NUMERIC CHECK (price > 0) DEFAULT -1 NOT NULL,
  maker INTEGER REFERENCES maker (id) ON DELETE SET NULL MATCH FULL,
  UNIQUE (name, maker), CONSTRAINT dear CHECK (price < 100),
  FOREIGN KEY (id, maker) REFERENCES made (item, maker) ON UPDATE CASCADE);
CREATE INDEX named ON item (name);".
Definition log : string := "CREATE TABLE log (line VARCHAR(80) NOT NULL, at TIMESTAMP(3) WITHOUT TIME ZONE DEFAULT CURRENT_TIMESTAMP,
  cost DECIMAL(10, 2) CHECK (cost >= 0), PRIMARY KEY (line));".
Lemma plain_char : forall c s, existsb (Ascii.eqb c) (list_ascii_of_string s) = false -> ~ has_char c s.
Proof.
  intros c s H I. assert (E : existsb (Ascii.eqb c) (list_ascii_of_string s) = true) by (apply existsb_exists; exists c; split; [exact I|apply Ascii.eqb_refl]). congruence.
Qed.
Example C44_example : exists l stmts ts, portable true l stmts /\ plain_text shop /\ (forall d, known d -> tokens d shop l) /\
  (forall d, known d -> accepted shop d ts) /\ force_returns shop ts None /\
  map (fun t => (t_schema t, t_name t, t_if_not_exists t, map col_name (t_columns t))) ts = [("shop", "item", true, ["id"; "name"; "price"; "maker"])] /\
  map (fun c => (c_notnull (col_constraint c), c_default (col_constraint c))) (flat_map t_columns ts) =
    [(false, DNil); (true, DString "none"); (true, DFloat (FFin true 4503599627370496 (-52))); (false, DNil)].
Proof.
  assert (P : exists l stmts, portable true l stmts /\ tokens SQLite shop l).
  { do 2 eexists. split; [|is_tokens]. intros d [<-|[<-|[<-|[]]]]; eexists; is_part (@None string). }
  destruct P as (l & stmts & P & T). assert (X : plain_text shop) by (split; apply plain_char; vm_compute; reflexivity).
  assert (T' : forall d, known d -> tokens d shop l) by (intros d _; eapply C44_tokens; eauto).
  destruct (C44_force shop l stmts P T') as (ts & F & A). exists l, stmts, ts. repeat (split; [assumption|]).
  assert (E : exists ts', accepted shop SQLite ts' /\ map (fun t => (t_schema t, t_name t, t_if_not_exists t, map col_name (t_columns t))) ts' = [("shop", "item", true, ["id"; "name"; "price"; "maker"])] /\
    map (fun c => (c_notnull (col_constraint c), c_default (col_constraint c))) (flat_map t_columns ts') =
    [(false, DNil); (true, DString "none"); (true, DFloat (FFin true 4503599627370496 (-52))); (false, DNil)]).
  { eexists. split; [computes|split; reflexivity]. }
  destruct E as (ts' & B & E). rewrite (ListedFacts.accepted_det _ _ _ _ (A SQLite (or_introl eq_refl)) B). exact E.
Qed.
Example C44_example2 : exists l stmts, portable false l stmts /\ plain_text log /\ tokens MySQL log l /\ List.length (tables_of MySQL stmts) = 1.
Proof.
  assert (P : exists l stmts, portable false l stmts /\ tokens MySQL log l /\ says MySQL log stmts).
  { do 2 eexists. split; [|split; [is_tokens|reads]]. intros d [<-|[<-|[]]]; eexists; is_part (@None string). }
  destruct P as (l & stmts & P & T & S). exists l, stmts. split; [exact P|]. split; [split; apply plain_char; vm_compute; reflexivity|]. split; [exact T|].
  assert (E : exists stmts', says MySQL log stmts' /\ List.length (tables_of MySQL stmts') = 1) by (eexists; split; [reads|reflexivity]).
  destruct E as (stmts' & S' & E). now rewrite (Meaning.says_det _ _ _ _ S S').
Qed.

(** C45: two dialects that find the same statements in a text return the same tables. *)
Theorem C45_same_statements_partial : forall ddl stmts d d', known d -> known d' -> says d ddl stmts -> says d' ddl stmts -> readable stmts = true ->
  exists ts, accepted ddl d ts /\ accepted ddl d' ts.
Proof. exact Alike.same_statements. Qed.
Print Assumptions C45_same_statements_partial.
Example C45_example : exists stmts, let ddl := "CREATE TABLE t (aa INTEGER NOT NULL REFERENCES ""some t"" (bb), bb TEXT DEFAULT 'x' CHECK (aa != bb));" in
  says SQLite ddl stmts /\ says PostgreSQL ddl stmts /\ readable stmts = true.
Proof. eexists. split; [reads|]. split; [reads|reflexivity]. Qed.
(** In general the tables differ: MySQL takes the NOT of NOT NULL for that of NOT ENFORCED. *)
Theorem C45_refuted : exists ddl ts ts', accepted ddl PostgreSQL ts /\ accepted ddl SQLite ts /\ accepted ddl MySQL ts' /\
  map (fun c => (col_name c, c_notnull (col_constraint c))) (flat_map t_columns ts) = [("aa", true)] /\
  map (fun c => (col_name c, c_notnull (col_constraint c))) (flat_map t_columns ts') = [("aa", false)].
Proof.
  exists "CREATE TABLE t (aa INTEGER CHECK (aa > 0) NOT NULL);". do 2 eexists. split; [computes|]. split; [computes|]. split; [computes|]. split; reflexivity.
Qed.
Print Assumptions C45_refuted.
