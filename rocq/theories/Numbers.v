(** Numbers as they are written. *)
From Coq Require Import String Ascii NArith ZArith List.
Import ListNotations.
Open Scope string_scope.

Definition digit_table : list (ascii * N) :=
  [("0"%char, 0%N); ("1"%char, 1%N); ("2"%char, 2%N); ("3"%char, 3%N); ("4"%char, 4%N);
   ("5"%char, 5%N); ("6"%char, 6%N); ("7"%char, 7%N); ("8"%char, 8%N); ("9"%char, 9%N)].

(** [s] consists of digits and is the number [n] in base ten *)
Inductive decimal : string -> N -> Prop :=
| dec_one c k : In (c, k) digit_table -> decimal (String c "") k
| dec_more s n c k : decimal s n -> In (c, k) digit_table -> decimal (s ++ String c "") (10 * n + k).

(** a positive number that an int holds, with or without sign *)
Definition positive_int (s : string) (n : Z) : Prop :=
  exists ds m, (s = ds \/ s = String "+" ds) /\ decimal ds m /\ n = Z.of_N m /\ (0 < n < 2 ^ 63)%Z.
