(** C70: types are reported in upper case. *)
From Coq Require Import String Ascii NArith List Bool Arith Lia.
From Verif Require Import GoStr Unicode Types Lexer Spec Witness Upper UpperFacts.
Import ListNotations.
Open Scope nat_scope.
Open Scope string_scope.
Open Scope list_scope.

Theorem C70_types : forall ddl d ts, accepted ddl d ts -> forall t c, In t ts -> In c (t_columns t) -> capitals (dt_name (col_type c)).
Proof. exact UpperFacts.types_upper. Qed.
Print Assumptions C70_types.
(** What is in upper case stays as it is. *)
Theorem C70_upper : forall s, capitals (go_upper s) /\ go_upper (go_upper s) = go_upper s.
Proof. exact UpperFacts.upper_twice. Qed.
Print Assumptions C70_upper.
(** The upper case of the letters of Latin-1, of Greek and of Cyrillic, which lie in blocks of 32 and 16 (247 is no letter, 962 is a second
    form of sigma). *)
Theorem C70_letters : forall r, ((97 <= r <= 122 \/ 224 <= r <= 254 /\ r <> 247 \/ 945 <= r <= 969 /\ r <> 962 \/ 1072 <= r <= 1103 -> upper_rune r = r - 32) /\
  (1104 <= r <= 1119 -> upper_rune r = r - 80) /\ (r < 97 \/ 123 <= r <= 180 \/ 192 <= r <= 223 \/ r = 247 -> upper_rune r = r))%N.
Proof. exact UpperFacts.letters. Qed.
Print Assumptions C70_letters.

(** Also where the converter takes a name for a type: "é" is reported as "É". *)
Example C70_example : exists ts t c, accepted ("CREATE TABLE t (EXCLUDE (a WITH =), ""é"" INT);") PostgreSQL ts /\ In t ts /\ In c (t_columns t) /\
  dt_name (col_type c) = """É""" /\ capitals (dt_name (col_type c)) /\ ~ capitals """é""".
Proof.
  eexists. eexists. eexists. match goal with |- ?A /\ _ => assert (X : A) by computes end. split; [exact X|]. split; [now left|]. split; [now left|].
  split; [reflexivity|]. split; [refine (C70_types _ _ _ X _ _ (or_introl eq_refl) (or_introl eq_refl))|].
  intros C. assert (D : upper_rune 233%N = 233%N) by (eapply Forall_forall in C; [exact C|vm_compute; tauto]). vm_compute in D. discriminate D.
Qed.
Example C70_words : exists ts t c, accepted "create table tt (aa character varying(3) not null);" PostgreSQL ts /\ In t ts /\ In c (t_columns t) /\
  dt_name (col_type c) = "VARCHAR" /\ capitals (dt_name (col_type c)).
Proof.
  eexists. eexists. eexists. match goal with |- ?A /\ _ => assert (X : A) by computes end. split; [exact X|]. split; [now left|]. split; [now left|].
  split; [reflexivity|]. exact (C70_types _ _ _ X _ _ (or_introl eq_refl) (or_introl eq_refl)).
Qed.
