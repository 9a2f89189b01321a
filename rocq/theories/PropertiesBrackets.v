(** C64: brackets. *)
From Coq Require Import String List Bool Arith.
From Verif Require Import GoStr Types Grammar Ast Emit Converter Parse Spec Decide Witness Parts PartsFacts Closed BracketsFacts.
Import ListNotations.
Open Scope nat_scope.
Open Scope string_scope.
Open Scope list_scope.

(** In the statement of every table of an accepted text, the brackets are matched. *)
Theorem C64_tables : forall d s vs1 t vs2, says d s (vs1 ++ STable t :: vs2) ->
  exists l1 l l2, tokens d s (l1 ++ l ++ l2) /\ (exists o1, lang (script d) l1 None o1 vs1) /\ (exists o, lang (script d) l None o [STable t]) /\
    (exists o2, lang (script d) l2 None o2 vs2) /\ unmatched l = (0, 0).
Proof. exact BracketsFacts.table_brackets. Qed.
Print Assumptions C64_tables.
(** A text is not accepted if the brackets of a CREATE TABLE, up to any semicolon, are not matched. *)
Theorem C64_unmatched : forall d s l1 v1 c t X, (exists o1, lang (script d) l1 None o1 v1) -> kwd "CREATE" c -> kwd "TABLE" t -> tokens d s (l1 ++ c :: t :: X) ->
  (forall p r, X = p ++ ";" :: r -> unmatched p <> (0, 0)) -> forall ts, ~ accepted s d ts.
Proof. exact BracketsFacts.unbalanced. Qed.
Print Assumptions C64_unmatched.
(** In other statements, brackets need not be matched. *)
Theorem C64_refuted : forall d, exists s l ts, accepted s d ts /\ tokens d s l /\ unmatched l <> (0, 0).
Proof.
  intros d. exists "CREATE VIEW v AS (;", ["CREATE"; "VIEW"; "v"; "AS"; "("; ";"], []. split; [|split; [|discriminate]].
  - exists 300. destruct d; vm_compute; reflexivity.
  - destruct d; is_tokens.
Qed.
Print Assumptions C64_refuted.
Example C64_example : exists l1 l l2, tokens SQLite "CREATE TABLE t (a NUMERIC CHECK ((a) IN (1)) , UNIQUE (a)); CREATE VIEW (;" (l1 ++ l ++ l2) /\
  (exists o, lang (script SQLite) l None o [STable (mk_atable false None "t" [EColumn (mk_acolumn "a" (mk_atype "NUMERIC" false None) None
    [ICheck ["("; "("; "a"; ")"; "IN"; "("; "1"; ")"; ")"]]); EConstraint None (BUnique ["a"])])]) /\ unmatched l = (0, 0).
Proof.
  edestruct (C64_tables SQLite "CREATE TABLE t (a NUMERIC CHECK ((a) IN (1)) , UNIQUE (a)); CREATE VIEW (;" []) as (l1 & l & l2 & T & _ & S & _ & U).
  - reads.
  - exists l1, l, l2. split; [exact T|]. split; [exact S|exact U].
Qed.
Example C64_unmatched_example : forall ts, ~ accepted "CREATE TABLE t (a NUMERIC CHECK (a, UNIQUE (a)); CREATE VIEW v (;" SQLite ts.
Proof.
  eapply (C64_unmatched SQLite _ [] [] "CREATE" "TABLE" ["t"; "("; "a"; "NUMERIC"; "CHECK"; "("; "a"; ","; "UNIQUE"; "("; "a"; ")"; ")"; ";"; "CREATE"; "VIEW"; "v"; "("; ";"]);
    [eexists; is_part (@None string)|reflexivity|reflexivity|is_tokens|].
  intros p r E.
  repeat (destruct p as [|? p]; [cbn [app] in E; first [discriminate E | vm_compute; discriminate]|cbn [app] in E; injection E as <- E]).
  destruct p; discriminate E.
Qed.
