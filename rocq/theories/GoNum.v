(** strconv.Atoi and strconv.ParseFloat, as used by common/utils.go and converter.go.
    Go's int is 64 bits wide. *)
From Coq Require Import String Ascii NArith ZArith List Bool.
From Verif Require Import GoStr.
Import ListNotations.
Open Scope string_scope.

Definition is_digit (c : ascii) : bool := in_range 48 57 c.
Definition digit_val (c : ascii) : N := N_of_ascii c - 48.
Definition lower_char (c : ascii) : ascii := lower_ascii c.
Definition is_hex_letter (c : ascii) : bool := in_range 97 102 (lower_char c).

(** ** strconv.Atoi *)

(** Result of parsing an integer: the value comes with every kind of error, because
    converter.go:242,245 ignores the error and uses the value. *)
Inductive int_result := IOk (n : Z) | ISyntax | IRange (n : Z).

Inductive uint_result := UOk (n : N) | USyntax | URange.

(** strconv.ParseUint(s, 10, 64): digits from left to right; stops at the first bad
    character (syntax error) or overflow (range error). *)
Fixpoint parse_uint_loop (s : string) (n : N) : uint_result :=
  match s with
  | EmptyString => UOk n
  | String c s =>
    if negb (is_digit c) then USyntax
    else if (1844674407370955162 <=? n)%N then URange
    else
      let n1 := (n * 10 + digit_val c)%N in
      if (18446744073709551615 <? n1)%N then URange else parse_uint_loop s n1
  end.
Definition parse_uint (s : string) : uint_result :=
  match s with EmptyString => USyntax | _ => parse_uint_loop s 0 end.

(** strconv.Atoi(s) = strconv.ParseInt(s, 10, 0) with 64-bit int; the fast path of Atoi for
    short strings gives the same results and is not modelled separately. *)
Definition atoi (s : string) : int_result :=
  let '(neg, u) :=
    match s with
    | String "-" s' => (true, parse_uint s')
    | String "+" s' => (false, parse_uint s')
    | _ => (false, parse_uint s)
    end in
  match u with
  | USyntax => ISyntax
  | URange => IRange (if neg then -9223372036854775808 else 9223372036854775807)%Z
  | UOk n =>
    if neg then
      (if (9223372036854775808 <? n)%N then IRange (-9223372036854775808)%Z else IOk (- Z.of_N n)%Z)
    else
      (if (9223372036854775808 <=? n)%N then IRange 9223372036854775807%Z else IOk (Z.of_N n))
  end.

(** common/utils.go:47-53 [IsPositiveIntegerToken]. *)
Definition is_positive_integer_token (token : string) : bool :=
  match atoi token with IOk n => (0 <? n)%Z | _ => false end.

(** [n, _ = strconv.Atoi(token)] (converter.go:242,245). *)
Definition atoi_value (token : string) : Z :=
  match atoi token with IOk n => n | ISyntax => 0%Z | IRange n => n end.

(** ** strconv.ParseFloat(s, 64) *)

(** A float64: [FFin neg m e] is (-1)^neg * m * 2^e with m < 2^53; zero is written with e = 0. *)
Inductive float64 := FNaN | FInf (neg : bool) | FFin (neg : bool) (m : N) (e : Z).

(** Round the non-negative rational num/den to the nearest float64 magnitude, ties to even;
    [None] on overflow.  strconv computes the correctly rounded value by several
    algorithms (atof.go); this is their common specification. *)
Definition round_scaled (num den : N) : option (N * Z) :=
  if (num =? 0)%N then Some (0%N, 0%Z)
  else
    let scale_ge (k : Z) := (* 2^k <= num/den *)
      if (0 <=? k)%Z then (den * 2 ^ Z.to_N k <=? num)%N
      else (den <=? num * 2 ^ Z.to_N (- k))%N in
    let e0 := (Z.of_N (N.log2 num) - Z.of_N (N.log2 den))%Z in
    let k := if scale_ge e0 then e0 else (e0 - 1)%Z in
    let e := Z.max (k - 52) (-1074) in
    let n' := if (0 <=? e)%Z then num else (num * 2 ^ Z.to_N (- e))%N in
    let d' := if (0 <=? e)%Z then (den * 2 ^ Z.to_N e)%N else den in
    let q := (n' / d')%N in
    let r := (n' mod d')%N in
    let q := match (2 * r ?= d')%N with
             | Gt => (q + 1)%N | Eq => if N.even q then q else (q + 1)%N | Lt => q end in
    let '(q, e) := if (q =? 9007199254740992)%N then (4503599627370496%N, (e + 1)%Z) else (q, e) in
    if (971 <? e)%Z then None else Some (q, e).
Definition round_ratio (num den : N) : option (N * Z) :=
  match round_scaled num den with
  | Some (q, e) => Some (q, if (q =? 0)%N then 0%Z else e)
  | None => None
  end.

(** strconv/atoi.go [underscoreOK]: underscores only between digits (or after a base
    prefix).  [saw] is the kind of the previous character. *)
Inductive saw_kind := SawStart | SawDigit | SawUnderscore | SawOther.
Fixpoint underscore_loop (hex : bool) (saw : saw_kind) (s : string) : bool :=
  match s with
  | EmptyString => match saw with SawUnderscore => false | _ => true end
  | String c s =>
    if is_digit c || (hex && is_hex_letter c) then underscore_loop hex SawDigit s
    else if Ascii.eqb c "_" then
      match saw with SawDigit => underscore_loop hex SawUnderscore s | _ => false end
    else match saw with SawUnderscore => false | _ => underscore_loop hex SawOther s end
  end.
Definition underscore_ok (s : string) : bool :=
  let s := match s with
           | String "-" s' => s' | String "+" s' => s' | _ => s end in
  match s with
  | String "0" (String c s') =>
    let l := lower_char c in
    if Ascii.eqb l "b" || Ascii.eqb l "o" || Ascii.eqb l "x"
    then underscore_loop (Ascii.eqb l "x") SawDigit s'
    else underscore_loop false SawStart s
  | _ => underscore_loop false SawStart s
  end.

(** The mantissa loop of [readFloat] (strconv/atof.go): returns whether a digit was seen,
    the digits as one integer, how many of them come after the point, whether an underscore
    was seen, the number of characters read and the rest. *)
Fixpoint mantissa_loop (base16 sawdot sawdigits : bool) (m frac : N) (us : bool) (len : nat) (s : string)
  : bool * N * N * bool * nat * string :=
  match s with
  | EmptyString => (sawdigits, m, frac, us, len, s)
  | String c s' =>
    if Ascii.eqb c "_" then mantissa_loop base16 sawdot sawdigits m frac true (S len) s'
    else if Ascii.eqb c "." then
      (if sawdot then (sawdigits, m, frac, us, len, s)
       else mantissa_loop base16 true sawdigits m frac us (S len) s')
    else if is_digit c then
      mantissa_loop base16 sawdot true
        (m * (if base16 then 16 else 10) + digit_val c)%N
        (if sawdot then frac + 1 else frac)%N us (S len) s'
    else if base16 && is_hex_letter c then
      mantissa_loop base16 sawdot true
        (m * 16 + (N_of_ascii (lower_char c) - 97 + 10))%N
        (if sawdot then frac + 1 else frac)%N us (S len) s'
    else (sawdigits, m, frac, us, len, s)
  end.

(** The exponent digits of [readFloat]; the value saturates as in Go ([if e < 10000]). *)
Fixpoint exponent_loop (e : N) (us : bool) (len : nat) (s : string) : N * bool * nat * string :=
  match s with
  | EmptyString => (e, us, len, s)
  | String c s' =>
    if Ascii.eqb c "_" then exponent_loop e true (S len) s'
    else if is_digit c
    then exponent_loop (if (e <? 10000)%N then e * 10 + digit_val c else e)%N us (S len) s'
    else (e, us, len, s)
  end.

(** The value of a mantissa and exponent, rounded; [None] is a range error. *)
Definition float_value (neg base16 : bool) (m frac : N) (e : Z) : option float64 :=
  let x := if base16 then (e - 4 * Z.of_N frac)%Z else (e - Z.of_N frac)%Z in
  let b := if base16 then 2%N else 10%N in
  let r := if (0 <=? x)%Z then round_ratio (m * b ^ Z.to_N x) 1
           else round_ratio m (b ^ Z.to_N (- x)) in
  match r with
  | Some (q, e) => Some (FFin neg q e)
  | None => None
  end.

(** strconv/atof.go [special]: inf, infinity (optional sign) and nan, any letter case;
    restricted to a match of the whole string, because ParseFloat rejects trailing text. *)
Definition special_float (s : string) : option float64 :=
  let l := to_lower s in
  if (l =? "inf") || (l =? "infinity") || (l =? "+inf") || (l =? "+infinity")
  then Some (FInf false)
  else if (l =? "-inf") || (l =? "-infinity") then Some (FInf true)
  else if l =? "nan" then Some FNaN
  else None.

(** strconv.ParseFloat(s, 64): [None] when the error is not nil. *)
Definition parse_float (s : string) : option float64 :=
  match special_float s with
  | Some f => Some f
  | None =>
    let '(neg, signlen, s1) :=
      match s with
      | String "-" s' => (true, 1%nat, s') | String "+" s' => (false, 1%nat, s')
      | _ => (false, 0%nat, s) end in
    let '(base16, prefixlen, s2) :=
      match s1 with
      | String "0" (String c (String d s')) =>
        if Ascii.eqb (lower_char c) "x" then (true, 2%nat, String d s') else (false, 0%nat, s1)
      | _ => (false, 0%nat, s1) end in
    let '(sawdigits, m, frac, us, len, s3) :=
      mantissa_loop base16 false false 0 0 false (signlen + prefixlen)%nat s2 in
    if negb sawdigits then None
    else
      let finish (e : Z) (us : bool) (len : nat) (rest : string) :=
        if us && negb (underscore_ok (substring 0 len s)) then None
        else match rest with
             | EmptyString => float_value neg base16 m frac e
             | _ => None
             end in
      match s3 with
      | String c s4 =>
        if Ascii.eqb (lower_char c) (if base16 then "p" else "e") then
          let '(eneg, elen, s5) :=
            match s4 with
            | String "+" s' => (false, 1%nat, s') | String "-" s' => (true, 1%nat, s')
            | _ => (false, 0%nat, s4) end in
          match s5 with
          | String d _ =>
            if is_digit d then
              let '(e, us, len, s6) := exponent_loop 0 us (len + 1 + elen)%nat s5 in
              finish (if eneg then - Z.of_N e else Z.of_N e)%Z us len s6
            else None
          | EmptyString => None
          end
        else if base16 then None else finish 0%Z us len s3
      | EmptyString => if base16 then None else finish 0%Z us len s3
      end
  end.

(** common/utils.go:55-58 [IsNumericToken]. *)
Definition is_numeric_token (token : string) : bool :=
  match parse_float token with Some _ => true | None => false end.
