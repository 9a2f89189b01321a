(** Numbers of DEFAULT clauses as they are written, and the float64 nearest to a number. *)
From Coq Require Import String Ascii NArith ZArith QArith Qabs Qpower List Bool.
From Verif Require Import Numbers.
Import ListNotations.
Open Scope string_scope.

(** ** Numerals: an optional sign, digits, an optional exponent *)

Inductive sign : string -> bool -> Prop :=
| sign_none : sign "" false
| sign_plus : sign "+" false
| sign_minus : sign "-" true.
Inductive exponent : string -> Z -> Prop :=
| exp_none : exponent "" 0
| exp_some c sg neg ds n : In c ["e"%char; "E"%char] -> sign sg neg -> decimal ds n ->
    exponent (String c (sg ++ ds)) (if neg then - Z.of_N n else Z.of_N n)%Z.
(** [s] is the number m * 10^x, or its negative *)
Inductive numeral : string -> bool -> N -> Z -> Prop :=
| numeral_intro sg neg ds m ex x : sign sg neg -> decimal ds m -> exponent ex x -> numeral (sg ++ ds ++ ex) neg m x.

Definition number (m : N) (x : Z) : Q := inject_Z (Z.of_N m) * (10 # 1) ^ x.

(** ** float64 *)

(** q * 2^e is the magnitude of a finite float64; the significand has 53 bits, except near zero, and zero is 0 * 2^0 *)
Definition magnitude (q : N) (e : Z) : Q := inject_Z (Z.of_N q) * (2 # 1) ^ e.
Definition is_double (q : N) (e : Z) : Prop := (q < 2 ^ 53)%N /\ (-1074 <= e <= 971)%Z.
Definition normal (q : N) (e : Z) : Prop := (2 ^ 52 <= q)%N \/ (0 < q)%N /\ e = (-1074)%Z \/ q = 0%N /\ e = 0%Z.

(** No float64 is nearer to [v] than q * 2^e; of two that are equally near it is the one with
    even significand. *)
Definition nearest (v : Q) (q : N) (e : Z) : Prop :=
  is_double q e /\ normal q e /\
  forall q' e', is_double q' e' ->
    (Qabs (v - magnitude q e) <= Qabs (v - magnitude q' e'))%Q /\
    ((Qabs (v - magnitude q e) == Qabs (v - magnitude q' e'))%Q ->
     (magnitude q' e' == magnitude q e)%Q \/ N.even q = true).

(** Half-way between the greatest finite float64 and 2^1024: this and all above is infinity
    in float64. *)
Definition too_large : Q := inject_Z (2 ^ 1024 - 2 ^ 970).
