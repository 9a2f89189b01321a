(** C80: the bytes of a text are read as UTF-8; and the functions of the library for one dialect (C04). *)
From Coq Require Import String Ascii NArith List Bool Arith.
From Verif Require Import GoStr Types Parse Spec Utf8 Decodes DecodesFacts Decide Witness.
From Verif Require LexicalFacts.
Import ListNotations.
Open Scope nat_scope.
Open Scope string_scope.
Open Scope list_scope.

(** C80: every sequence of bytes is read as exactly one sequence of characters (Decodes.v), these are the characters of the model, ... *)
Theorem C80_once : forall s, exists! rs, decodes s rs.
Proof. intros s. exists (runes_of s). split; [now apply decodes_iff|]. intros rs D. symmetry. now apply decodes_iff. Qed.
Print Assumptions C80_once.
Theorem C80_read : forall s rs, decodes s rs <-> rs = runes_of s.
Proof. exact decodes_iff. Qed.
Print Assumptions C80_read.
(** ... a text in UTF-8 is read as it is, ... *)
Theorem C80_valid : forall rs, Forall (fun r => is_scalar r = true) rs -> decodes (utf8 rs) rs.
Proof. intros rs S. apply decodes_iff. symmetry. now apply runes_of_utf8. Qed.
Print Assumptions C80_valid.
(** ... and nothing but the characters matters: with U+FFFD in place of the bytes that are none, the answer is the same. *)
Theorem C80_same : forall d s s' rs, decodes s rs -> decodes s' rs -> same_result d s s'.
Proof.
  intros d s s' rs ->%decodes_iff E%decodes_iff. assert (P : forall n, Parse n s d = Parse n s' d) by (intros n; now rewrite <- (repaired n s), E, repaired).
  split; [|split; intros H n; [rewrite <- P|rewrite P]; apply H]. intros ts err. split; intros [n H]; exists n; [rewrite <- P|rewrite P]; exact H.
Qed.
Print Assumptions C80_same.
Theorem C80_repaired : forall d s rs, decodes s rs -> same_result d s (utf8 rs).
Proof.
  intros d s rs D. apply (C80_same d s (utf8 rs) rs D). apply C80_valid. apply decodes_iff in D. rewrite D. apply LexicalFacts.runes_scalars.
Qed.
Print Assumptions C80_repaired.
(** An overlong encoding, half of a surrogate pair and a character that is cut off, in a string; the last byte before the quotation
    mark does not take it away. *)
Definition c80_bytes : string := String "192" (String "175" (String "237" (String "160" (String "128" (String "226" (String "130" "")))))).
Definition c80_text (s : string) : string := ("CREATE TABLE t (aa TEXT DEFAULT '" ++ s ++ "');")%string.
Example C80_example : decodes c80_bytes [65533; 65533; 65533; 65533; 65533; 65533; 65533]%N /\
  decodes (utf8 [8364; 65533; 128512]%N) [8364; 65533; 128512]%N /\
  exists ts, accepted (c80_text c80_bytes) SQLite ts /\ accepted (c80_text (utf8 [65533; 65533; 65533; 65533; 65533; 65533; 65533]%N)) SQLite ts.
Proof.
  split; [apply decodes_iff; vm_compute; reflexivity|]. split; [apply decodes_iff; vm_compute; reflexivity|]. eexists. split; computes.
Qed.

(** C04, C05: ParseSQLite, ParsePostgreSQL and ParseMySQL are Parse for these dialects. *)
Theorem C04_named : forall ddl ts err,
  (returns ddl SQLite ts err <-> exists fuel, ParseSQLite fuel ddl = Returns ts err) /\
  (returns ddl PostgreSQL ts err <-> exists fuel, ParsePostgreSQL fuel ddl = Returns ts err) /\
  (returns ddl MySQL ts err <-> exists fuel, ParseMySQL fuel ddl = Returns ts err).
Proof. intros ddl ts err. split; [|split]; reflexivity. Qed.
Print Assumptions C04_named.
Example C04_named_example : exists fuel t e, ParseMySQL fuel "CREATE TABLE t (aa ENUM('x'), KEY (aa));" = Returns [] (Some e) /\
  ParseSQLite fuel "CREATE TABLE t (aa TEXT) WITHOUT ROWID;" = Returns [t] None /\ exists e', ParsePostgreSQL fuel "CREATE TABLE t (aa TEXT) WITHOUT ROWID;" = Returns [] (Some e').
Proof. exists 400. do 2 eexists. split; [|split; [|eexists]]; vm_compute; reflexivity. Qed.
