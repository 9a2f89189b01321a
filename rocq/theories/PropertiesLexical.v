(** C51: how texts are divided into tokens. *)
From Coq Require Import String Ascii NArith List Bool.
From Verif Require Import GoStr Types Grammar Ast Parse Utf8 Spec Layout Lexical Decide Witness.
From Verif Require LexicalFacts.
Import ListNotations.
Open Scope string_scope.
Open Scope list_scope.

(** The tokens of a text, with line breaks among them, are those described in Lexical.v, for all texts (bytes that are no UTF-8
    count as U+FFFD). *)
Theorem C51_tokens : forall d ddl toks, lexes d ddl toks <-> reads d true (runes_of ddl) (Tokens toks).
Proof. exact LexicalFacts.lexes_reads. Qed.
Print Assumptions C51_tokens.
Theorem C51_texts : forall d rs toks, scalars rs -> (lexes d (utf8 rs) toks <-> reads d true rs (Tokens toks)).
Proof. exact LexicalFacts.text_reads. Qed.
Print Assumptions C51_texts.
(** The texts that cannot be divided into tokens are rejected, at the place described; *)
Theorem C51_errors : forall d ddl n near, reads d true (runes_of ddl) (Bad n near) -> rejected ddl d (S n) near.
Proof. exact LexicalFacts.bad_reads. Qed.
Print Assumptions C51_errors.
(** and all other errors are errors of syntax. *)
Theorem C51_rejected : forall d ddl line near, rejected ddl d line near ->
  (exists n, line = S n /\ reads d true (runes_of ddl) (Bad n near)) \/ exists toks, reads d true (runes_of ddl) (Tokens toks).
Proof. exact LexicalFacts.rejected_reads. Qed.
Print Assumptions C51_rejected.
(** The description leaves nothing open. *)
Theorem C51_unique : forall d ddl, exists! r, reads d true (runes_of ddl) r.
Proof. exact LexicalFacts.reads_one. Qed.
Print Assumptions C51_unique.
(** Scripts, without reference to the lexer. *)
Theorem C51_scripts : forall d ddl stmts, says d ddl stmts <->
  exists toks out, reads d true (runes_of ddl) (Tokens toks) /\
    lang (script d) (filter (fun t => negb (line_break =? t)%string) toks) None out stmts.
Proof. exact LexicalFacts.says_reads. Qed.
Print Assumptions C51_scripts.

(** The rules, applied to a text: the character after an inner quoted text is left out, the comment after the comment is not seen,
    - / * are a word. *)
Definition c51_text : string := """a'b'xc""-/* --d" ++ String "010" "--e".
Example C51_example : reads SQLite true (runes_of c51_text) (Tokens ["""a'b'c"""; "-/*"; line_break; "--e"]).
Proof.
  change (runes_of c51_text) with ([34; 97; 39; 98; 39; 120; 99; 34; 45; 47; 42; 32; 45; 45; 100; 10; 45; 45; 101])%N.
  refine (r_quoted SQLite true 34%N [97; 39; 98; 39; 120; 99; 34]%N 0 [97; 39; 98; 39; 99; 34]%N [45; 47; 42; 32; 45; 45; 100; 10; 45; 45; 101]%N
    (Tokens ["-/*"; line_break; "--e"]) _ _ _); [reflexivity| |].
  { apply q_char; [discriminate|reflexivity|].
    refine (q_inner 34%N 39%N [98; 39]%N 0 [98; 39]%N 120%N [99; 34]%N 0 [99; 34]%N _ _ _ _); try discriminate; try reflexivity;
    (apply q_char; [discriminate|reflexivity|apply q_close]). }
  refine (r_word SQLite true [45; 47; 42]%N [32; 45; 45; 100; 10; 45; 45; 101]%N (Tokens [line_break; "--e"]) _ _ _); [discriminate| |].
  { apply w_lone; [reflexivity|intros b r E; now injection E as <- <-|]. apply w_plain; [reflexivity|now left|].
    apply w_lone; [reflexivity|intros b r E; now injection E as <- <-|]. now apply w_stop. }
  apply r_space; [reflexivity|].
  refine (r_dash SQLite [100]%N [45; 45; 101]%N (Tokens ["--e"]) _ _); [intros [E|[]]; discriminate|].
  refine (r_word SQLite false [45; 45; 101]%N [] (Tokens []) _ _ _); [discriminate| |constructor].
  apply w_plain; [reflexivity|now left|]. apply w_lone; [reflexivity|intros b r E; now injection E as <- <-|]. apply w_plain; [reflexivity|now left|].
  apply w_end.
Qed.
Example C51_error_example : reads PostgreSQL true (runes_of ("a /* " ++ String "010" "*")) (Bad 1 end_of_text) /\
  rejected ("a /* " ++ String "010" "*") PostgreSQL 2 "<EOF>".
Proof.
  assert (H : reads PostgreSQL true (runes_of ("a /* " ++ String "010" "*")) (Bad 1 end_of_text)).
  { change (runes_of ("a /* " ++ String "010" "*")) with ([97; 32; 47; 42; 32; 10; 42])%N.
    refine (r_word PostgreSQL true [97]%N [32; 47; 42; 32; 10; 42]%N (Bad 1 end_of_text) _ _ _); [discriminate| |].
    - apply w_plain; [reflexivity|now right|]. now apply w_stop.
    - apply r_space; [reflexivity|]. now refine (r_block_open PostgreSQL [32; 10; 42]%N _). }
  split; [exact H|exact (C51_errors _ _ _ _ H)].
Qed.
