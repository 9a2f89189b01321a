(** The text of an error (internal/common/errors.go). *)
From Coq Require Import String Ascii NArith List Bool Arith.
From Verif Require Import GoStr Types.
Open Scope nat_scope.
Open Scope string_scope.

(** fmt's verb %d on a non-negative int: the digits are produced from the last one on, before those in [acc].  The
    line numbers of the model are natural numbers (by C03 at most the number of lines of the text). *)
Fixpoint fmt_digits (fuel : nat) (n : N) (acc : string) : string :=
  match fuel with
  | O => acc
  | S fuel =>
    let acc := String (ascii_of_N (48 + n mod 10)) acc in
    if (n / 10 =? 0)%N then acc else fmt_digits fuel (n / 10) acc
  end.
Definition fmt_d (n : nat) : string := fmt_digits (S n) (N.of_nat n) "".

(** errors.go:17-19 [ValidateError.Error]; the verb %s copies the bytes of the string. *)
Definition Error (e : verror) : string :=
  "ValidateError: Syntax error: near '" ++ err_near e ++ "' at line " ++ fmt_d (err_line e) ++ ".".
