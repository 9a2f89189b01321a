(** C82: reported strings and the messages of errors have no line breaks. *)
From Coq Require Import String Ascii NArith List Bool Arith.
From Verif Require Import GoStr Types Parse ErrorText Text Spec OneLine OneLineFacts Decide Witness Force.
Import ListNotations.
Open Scope nat_scope.
Open Scope string_scope.
Open Scope list_scope.

(** C82: no string in the tables has a line break, ... *)
Theorem C82_tables : forall ddl d ts, accepted ddl d ts -> forall t s, In t ts -> In s (table_strings t) -> line_feeds s = 0.
Proof. exact result_flat. Qed.
Print Assumptions C82_tables.
Theorem C82_force : forall ddl ts err, force_returns ddl ts err -> forall t s, In t ts -> In s (table_strings t) -> line_feeds s = 0.
Proof.
  intros ddl ts err [_ [(d & b & a & _ & A & _)|[-> _]]]%force_iff; [exact (C82_tables _ _ _ A)|contradiction].
Qed.
Print Assumptions C82_force.
(** ... and neither has the token of an error nor its message. *)
Theorem C82_near : forall ddl d line near, rejected ddl d line near -> line_feeds near = 0.
Proof. exact near_flat. Qed.
Print Assumptions C82_near.
Theorem C82_message : forall ddl d ts e, returns ddl d ts (Some e) -> line_feeds (Error e) = 0.
Proof. exact message_flat. Qed.
Print Assumptions C82_message.
(** with line breaks in a name, in a string and in an expression *)
Definition c82_text : string := ("CREATE TABLE ""a" ++ String "010" "b"" (cc TEXT DEFAULT 'x" ++ String "010" "y' CHECK (cc <> " ++ String "010" "'z" ++ String "010" "'));")%string.
Example C82_example : exists t, accepted c82_text PostgreSQL [t] /\ t_name t = "ab" /\ In "xy" (table_strings t) /\ In "(cc<>'z')" (table_strings t) /\ line_feeds c82_text = 4.
Proof. eexists. split; [computes|]. split; [reflexivity|]. split; [vm_compute; tauto|]. split; [vm_compute; tauto|reflexivity]. Qed.
Definition c82_wrong : string := ("CREATE TABLE t (aa 'x" ++ String "010" "y');")%string.
Example C82_example_message : exists line, rejected c82_wrong MySQL line "'xy'" /\ Error (mk_verror line "'xy'") = "ValidateError: Syntax error: near ''xy'' at line 2.".
Proof. exists 2. split; [computes|vm_compute; reflexivity]. Qed.
