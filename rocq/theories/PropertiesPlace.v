(** C74: another token in one place of a text. *)
From Coq Require Import String Ascii List Bool Arith NArith ZArith.
From Verif Require Import GoStr GoNum Types Lexer Grammar Ast Spec Decide Witness PartsFacts Layout Utf8 DocWords Scan Pipe LexicalFacts Rename Number NumberFacts Literal Cased Respell Place PlaceFacts
  PropertiesRename PropertiesNumber PropertiesCase.
Import ListNotations.
Open Scope nat_scope.
Open Scope string_scope.
Open Scope list_scope.

(** All other tokens stay the same, or the text has the same lexical error. *)
Theorem C74_token : forall d a x x' b, scalars a -> scalars b -> token_begins d a -> token_ends d b -> lexeme d x -> lexeme d x' ->
  let ddl := utf8 (a ++ x ++ b) in let ddl' := utf8 (a ++ x' ++ b) in
  (exists before after, lexes d ddl (before ++ utf8 x :: after) /\ lexes d ddl' (before ++ utf8 x' :: after)) \/
  (exists line near, rejected ddl d line near /\ rejected ddl' d line near).
Proof. exact PlaceFacts.replaced_any. Qed.
Print Assumptions C74_token.
(** A name for a name ([renamed], [table_renamed]: Rename.v) *)
Theorem C74_name : forall d R a x x' b, scalars a -> scalars b -> token_begins d a -> token_ends d b -> lexeme d x -> lexeme d x' ->
  renamed d R (utf8 x) (utf8 x') ->
  answered_alike (renamed d R) (table_renamed d R (type_renamed d R)) d (utf8 (a ++ x ++ b)) (utf8 (a ++ x' ++ b)).
Proof. exact PlaceFacts.renamed_place. Qed.
Print Assumptions C74_name.
(** A number for a number (Number.v) *)
Theorem C74_number : forall d R a x x' b, scalars a -> scalars b -> token_begins d a -> token_ends d b -> lexeme d x -> lexeme d x' ->
  numbered d R (utf8 x) (utf8 x') ->
  answered_alike (numbered d R) (table_numbered d R) d (utf8 (a ++ x ++ b)) (utf8 (a ++ x' ++ b)).
Proof. exact PlaceFacts.numbered_place. Qed.
Print Assumptions C74_number.
(** A string for a string (Literal.v) *)
Theorem C74_string : forall d R a x x' b, scalars a -> scalars b -> token_begins d a -> token_ends d b -> lexeme d x -> lexeme d x' ->
  swapped d R (utf8 x) (utf8 x') ->
  answered_alike (swapped d R) (table_swapped d R) d (utf8 (a ++ x ++ b)) (utf8 (a ++ x' ++ b)).
Proof. exact PlaceFacts.swapped_place. Qed.
Print Assumptions C74_string.
(** A word in another letter case (Cased.v) *)
Theorem C74_case : forall d a x x' b, scalars a -> scalars b -> token_begins d a -> token_ends d b -> lexeme d x -> lexeme d x' ->
  respelled (utf8 x) (utf8 x') ->
  answered_alike respelled table_cased d (utf8 (a ++ x ++ b)) (utf8 (a ++ x' ++ b)).
Proof. exact PlaceFacts.respelled_place. Qed.
Print Assumptions C74_case.

(** A place after a comment and before a bracket. *)
Definition c74_before : list rune := runes_of "-- no 'name
CREATE TABLE /* the name: */".
Definition c74_after : list rune := runes_of "(aa TEXT DEFAULT 'x' );".
Ltac is_scalars := apply runes_scalars.
Example C74_place : scalars c74_before /\ scalars c74_after /\ token_begins PostgreSQL c74_before /\ token_ends PostgreSQL c74_after.
Proof.
  split; [is_scalars|]. split; [is_scalars|]. split; [|vm_compute; reflexivity].
  exists ["
"; "CREATE"; "TABLE"]. split; exists 1000; vm_compute; reflexivity.
Qed.
Example C74_lexemes : lexeme PostgreSQL (runes_of "tt") /\ lexeme PostgreSQL (runes_of """the name""") /\
  renamed PostgreSQL (fun _ _ => True) (utf8 (runes_of "tt")) (utf8 (runes_of """the name""")).
Proof.
  split; [left; vm_compute; reflexivity|]. split.
  - right. exists 34%N, (runes_of "the name"). split; [vm_compute; reflexivity|]. split; [reflexivity|]. split; [discriminate|vm_compute; reflexivity].
  - replace (utf8 (runes_of "tt")) with "tt" by (vm_compute; reflexivity).
    replace (utf8 (runes_of """the name""")) with """the name""" by (vm_compute; reflexivity).
    right. split; [exact I|]. split; is_name.
Qed.
Example C74_result : exists ts, accepted (utf8 (c74_before ++ runes_of """the name""" ++ c74_after)) PostgreSQL ts /\ map t_name ts = ["the name"].
Proof. eexists. split; [computes|reflexivity]. Qed.
Example C74_others : numbered SQLite (fun _ _ => True) "0" "-15e2" /\ respelled "CREATE" "create" /\
  swapped SQLite (fun _ _ => True) "'x'" "'; DROP'".
Proof.
  split; [right; split; [exact I|split; [is_number|split; [is_number|same_sign]]]|]. split; [is_respelled|].
  right. split; [exact I|]. split; do 2 eexists; (split; [|cbn; tauto]); [exact (eq_refl : "'x'" = ("'" ++ "x" ++ "'")%string)|exact (eq_refl : "'; DROP'" = ("'" ++ "; DROP" ++ "'")%string)].
Qed.
(** In a comment, in a quoted text and next to another word no token begins. *)
Example C74_no_place : ~ token_begins SQLite (runes_of "a -- ") /\ ~ token_begins SQLite (runes_of "a '") /\ ~ token_begins SQLite (runes_of "a b").
Proof.
  assert (X : forall A (b a : list A) t, b = a ++ [t] -> forall z, last b z = t) by (intros A b a t -> z; apply last_last).
  split; [|split]; intros (toks & A & B); apply lexed_scan in A; apply lexed_scan in B.
  - remember (toks ++ ["x"]) as l. vm_compute in A. injection A as A. subst l. apply X with (z := "") in A. discriminate A.
  - remember (toks ++ ["x"]) as l. vm_compute in A. discriminate A.
  - remember (toks ++ ["x"]) as l. vm_compute in A. injection A as A. subst l. apply X with (z := "") in A. discriminate A.
Qed.
