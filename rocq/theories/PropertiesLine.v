(** C69: the line of an error is the line on which what it names ends. *)
From Coq Require Import String Ascii NArith List Bool Arith Lia.
From Verif Require Import GoStr Types Spec Layout Witness Lexical Inside Lines LineFacts.
Import ListNotations.
Open Scope nat_scope.
Open Scope string_scope.
Open Scope list_scope.

(** The text begins with a letter, and in it no line break is overlooked (see [calm]). *)
Theorem C69_exact_partial : forall d ddl line near c rs, runes_of ddl = c :: rs -> letter c = true -> calm (runes_of ddl) ->
  rejected ddl d line near -> exists before, error_place (runes_of ddl) before near /\ line = 1 + line_breaks before.
Proof. exact LineFacts.exact_line. Qed.
Print Assumptions C69_exact_partial.
(** With line breaks before the first word, the line is one too small. *)
Theorem C69_late : forall d ddl line near toks, lexes d ddl (line_break :: toks) -> calm (runes_of ddl) -> rejected ddl d line near ->
  exists before, error_place (runes_of ddl) before near /\ line = line_breaks before.
Proof. exact LineFacts.late_line. Qed.
Print Assumptions C69_late.

(** The property is false of the code: *)
Definition late_text : string := "
F".
Lemma late_place : forall before, error_place (runes_of late_text) before "F" -> line_breaks before = 1.
Proof.
  change (runes_of late_text) with [10; 70]%N. intros before [[H _]|(a & w & b & s & E & -> & W & S & N)]; [discriminate|].
  assert (X : s = w).
  { destruct S as [S|(q & s' & w' & -> & -> & Q & _)]; [exact S|]. exfalso.
    destruct a as [|x [|y a]]; cbn [app] in E.
    - injection E as <- _. discriminate.
    - injection E as _ <- _. discriminate.
    - injection E as _ _ E. destruct a; discriminate. }
  subst s. destruct a as [|x [|y a]]; cbn [app] in E.
  - destruct w as [|u [|v w]]; [contradiction| |].
    + injection E as <- _. discriminate.
    + injection E as <- <- _. discriminate.
  - destruct w as [|u w]; [contradiction|]. injection E as <- <- E. destruct w; [reflexivity|discriminate].
  - injection E as _ _ E. destruct a; [|discriminate]. destruct w; [contradiction|discriminate].
Qed.
Theorem C69_refuted : exists d ddl line near, rejected ddl d line near /\
  forall before, error_place (runes_of ddl) before near -> line <> 1 + line_breaks before.
Proof.
  exists SQLite, late_text, 1, "F". split; [computes|]. intros before H. rewrite (late_place before H). discriminate.
Qed.
Print Assumptions C69_refuted.

Definition three_lines : string := "CREATE TABLE t ( -- c
  a TEXT DEFAULT 'x
  y' FOO);".
Lemma pair_free : forall a b rs, (fix go rs := match rs with c :: (e :: _) as r => negb ((c =? a)%N && (e =? b)%N) && go r | _ => true end) rs = true ->
  no_pair a b rs.
Proof.
  intros a b rs H (u & v & ->). induction u as [|x u IH]; cbn [app] in H.
  - now rewrite !N.eqb_refl in H.
  - apply IH. destruct u as [|y u]; cbn [app] in *; apply andb_true_iff in H; apply H.
Qed.
Example C69_example : calm (runes_of three_lines) /\ rejected three_lines SQLite 3 "FOO" /\
  exists before, error_place (runes_of three_lines) before "FOO" /\ 3 = 1 + line_breaks before.
Proof.
  assert (C : calm (runes_of three_lines)).
  { split; [apply pair_free; vm_compute; reflexivity|]. split; [apply pair_free; vm_compute; reflexivity|]. right. intros q Q. apply pair_free.
    unfold quote_mark, one_of in Q. cbn [existsb] in Q.
    repeat (apply orb_true_iff in Q as [Q|Q]; [apply N.eqb_eq in Q; subst q; vm_compute; reflexivity|]). discriminate. }
  split; [exact C|]. assert (X : rejected three_lines SQLite 3 "FOO") by computes. split; [exact X|].
  assert (E : runes_of three_lines = 67%N :: tl (runes_of three_lines)) by (vm_compute; reflexivity).
  exact (C69_exact_partial SQLite three_lines 3 "FOO" 67%N _ E eq_refl C X).
Qed.
Definition after_comment : string := "-- script
CREATE TABLE
a FOO".
Example C69_late_example : lexes SQLite after_comment (line_break :: ["CREATE"; "TABLE"; line_break; "a"; "FOO"]) /\
  rejected after_comment SQLite 2 "FOO".
Proof. split; [exists 500; vm_compute; reflexivity|computes]. Qed.
(** A line break after a star in a comment, and one after a quotation mark in a text quoted otherwise, is not counted either. *)
Example C69_star : rejected "CREATE /* *
*/ F" SQLite 1 "F" /\ rejected "CREATE 'a""b""
' F" SQLite 1 "'a""b""'".
Proof. split; computes. Qed.
