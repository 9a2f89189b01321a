(** How the bytes of a text are read as characters. *)
From Coq Require Import String Ascii NArith List Bool.
From Verif Require Import GoStr.
Import ListNotations.
Open Scope string_scope.
Open Scope N_scope.

(** [decodes s rs]: a character of UTF-8 is read as that; a byte with which no character begins is read as U+FFFD, and reading goes on
    after this byte. *)
Inductive decodes : string -> list rune -> Prop :=
| decodes_nil : decodes "" []
| decodes_char r s rs : is_scalar r = true -> decodes s rs -> decodes (utf8_rune r ++ s) (r :: rs)
| decodes_bad b s rs : (forall r t, is_scalar r = true -> String b s <> utf8_rune r ++ t) -> decodes s rs ->
    decodes (String b s) (65533 :: rs).
