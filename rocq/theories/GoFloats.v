(** Numbers as Go's strconv.ParseFloat reads them: decimal and hexadecimal, with underscores between digits. *)
From Coq Require Import String Ascii NArith ZArith QArith Qpower List Bool.
From Verif Require Import Numbers Floats.
Import ListNotations.
Open Scope string_scope.

Definition hex_table : list (ascii * N) :=
  (digit_table ++
   [("a"%char, 10%N); ("b"%char, 11%N); ("c"%char, 12%N); ("d"%char, 13%N); ("e"%char, 14%N); ("f"%char, 15%N);
    ("A"%char, 10%N); ("B"%char, 11%N); ("C"%char, 12%N); ("D"%char, 13%N); ("E"%char, 14%N); ("F"%char, 15%N)])%list.
Inductive hexadecimal : string -> N -> Prop :=
| hex_one c k : In (c, k) hex_table -> hexadecimal (String c "") k
| hex_more s n c k : hexadecimal s n -> In (c, k) hex_table -> hexadecimal (s ++ String c "") (16 * n + k).

(** [s] consists of the digits [ds], of which any two may be separated by an underscore *)
Inductive grouped (table : list (ascii * N)) : string -> string -> Prop :=
| group_last c k : In (c, k) table -> grouped table (String c "") (String c "")
| group_next c k s ds : In (c, k) table -> grouped table s ds -> grouped table (String c s) (String c ds)
| group_under c k s ds : In (c, k) table -> grouped table s ds -> grouped table (String c (String "_" s)) (String c ds).

(** digits with or without a point; [frac] of them are after the point *)
Inductive mantissa (table : list (ascii * N)) : string -> string -> nat -> Prop :=
| man_int s ds : grouped table s ds -> mantissa table s ds 0
| man_point s ds : grouped table s ds -> mantissa table (s ++ ".") ds 0
| man_frac s ds : grouped table s ds -> mantissa table ("." ++ s) ds (String.length ds)
| man_both s ds s' ds' : grouped table s ds -> grouped table s' ds' -> mantissa table (s ++ "." ++ s') (ds ++ ds') (String.length ds').

Inductive power (marks : list ascii) : string -> Z -> Prop :=
| power_intro c sg neg s ds n : In c marks -> sign sg neg -> grouped digit_table s ds -> decimal ds n ->
    power marks (String c (sg ++ s)) (if neg then - Z.of_N n else Z.of_N n)%Z.

(** [s] is the number m * 10^(x - frac) or, in base 16, m * 2^(x - 4 * frac), or the negative of this *)
Inductive go_numeral : string -> bool -> bool -> N -> nat -> Z -> Prop :=
| go_integer sg neg s ds frac m : sign sg neg -> mantissa digit_table s ds frac -> decimal ds m ->
    go_numeral (sg ++ s) neg false m frac 0
| go_decimal sg neg s ds frac m ex x : sign sg neg -> mantissa digit_table s ds frac -> decimal ds m -> power ["e"; "E"]%char ex x ->
    go_numeral (sg ++ s ++ ex) neg false m frac x
| go_hex sg neg c s ds frac m ex x : sign sg neg -> In c ["x"; "X"]%char -> mantissa hex_table s ds frac -> hexadecimal ds m ->
    power ["p"; "P"]%char ex x -> go_numeral (sg ++ String "0" (String c (s ++ ex))) neg true m frac x
| go_hex_under sg neg c s ds frac m ex x : sign sg neg -> In c ["x"; "X"]%char -> mantissa hex_table s ds frac ->
    (forall s', s <> String "." s') -> hexadecimal ds m ->
    power ["p"; "P"]%char ex x -> go_numeral (sg ++ String "0" (String c (String "_" (s ++ ex)))) neg true m frac x.
Definition go_value (hex : bool) (m : N) (frac : nat) (x : Z) : Q :=
  if hex then inject_Z (Z.of_N m) * (2 # 1) ^ (x - 4 * Z.of_nat frac)
  else inject_Z (Z.of_N m) * (10 # 1) ^ (x - Z.of_nat frac).

(** The exponent has at most five digits (apart from zeros in front), or the number is not extremely long. *)
Definition moderate (s : string) (x : Z) : Prop := (Z.abs x < 100000)%Z \/ (String.length s <= 2000)%nat.

(** the words for infinity and for "not a number", in any case *)
Definition lower_letter (c : ascii) : ascii :=
  if (65 <=? N_of_ascii c)%N && (N_of_ascii c <=? 90)%N then ascii_of_N (N_of_ascii c + 32) else c.
Fixpoint lower_letters (s : string) : string :=
  match s with EmptyString => EmptyString | String c s => String (lower_letter c) (lower_letters s) end.
Definition infinity_words : list string := ["inf"; "infinity"; "+inf"; "+infinity"].
Definition minus_infinity_words : list string := ["-inf"; "-infinity"].
