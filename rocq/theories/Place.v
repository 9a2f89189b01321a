(** Places in a text where a token stands. *)
From Coq Require Import String Ascii NArith List Bool.
From Verif Require Import GoStr Types Lexer Spec Layout.
Import ListNotations.
Open Scope nat_scope.
Open Scope string_scope.

(** A token begins after [a]: the letters x and y, added to [a], are tokens of their own. *)
Definition token_begins (d : rdbms) (a : list rune) : Prop :=
  exists toks, lexes d (utf8 (a ++ [120%N])) (toks ++ ["x"]) /\ lexes d (utf8 (a ++ [121%N])) (toks ++ ["y"]).
(** Before [b] a word ends: [b] is empty or begins with a character that cannot be part of a word. *)
Definition token_ends (d : rdbms) (b : list rune) : Prop := match b with [] => True | c :: _ => word_char d c = false end.
(** A word, or a text in quotation marks without line feeds and other quotation marks. *)
Definition lexeme (d : rdbms) (x : list rune) : Prop :=
  word_ok d x = true \/
  exists q body, x = q :: body ++ [q] /\ quote_mark q = true /\ (d = PostgreSQL -> q <> 96%N) /\ verbatim body = true.

(** [ddl'] is answered like [ddl], with tables related by [T] and tokens in errors related by [S]. *)
Definition answered_alike (S : string -> string -> Prop) (T : table -> table -> Prop) (d : rdbms) (ddl ddl' : string) : Prop :=
  (forall ts, accepted ddl d ts -> exists ts', accepted ddl' d ts' /\ Forall2 T ts ts') /\
  (forall line near, rejected ddl d line near -> exists near', rejected ddl' d line near' /\ S near near') /\
  (diverges ddl d -> diverges ddl' d).
