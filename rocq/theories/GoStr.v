(** Go strings and the string operations used by ddlparse.

    A Go [string] is a sequence of bytes: here Coq's [string] (a list of 8-bit [ascii]).
    A Go [rune] is a number: here [N]. *)
From Coq Require Import String Ascii NArith List Bool.
Import ListNotations.
Open Scope string_scope.
Open Scope N_scope.

Definition rune := N.

(** common/constants.go:11 [const EOF = "<EOF>"]. *)
Definition EOF : string := "<EOF>".

(** ** UTF-8 *)

(** Go conversion [string(r)] of one rune (used in lexer.go:94); runes that are not
    Unicode scalar values give the encoding of U+FFFD, as in the Go language. *)
Definition byte (n : N) : ascii := ascii_of_N n.
Definition is_scalar (r : rune) : bool :=
  (r <? 55296) || ((57344 <=? r) && (r <? 1114112)).

Definition utf8_rune (r : rune) : string :=
  let r := if is_scalar r then r else 65533 in
  if r <? 128 then String (byte r) ""
  else if r <? 2048 then
    String (byte (192 + r / 64)) (String (byte (128 + r mod 64)) "")
  else if r <? 65536 then
    String (byte (224 + r / 4096))
      (String (byte (128 + (r / 64) mod 64)) (String (byte (128 + r mod 64)) ""))
  else
    String (byte (240 + r / 262144))
      (String (byte (128 + (r / 4096) mod 64))
        (String (byte (128 + (r / 64) mod 64)) (String (byte (128 + r mod 64)) ""))).

(** The bytes of a text given as Unicode code points. *)
Fixpoint utf8 (rs : list rune) : string :=
  match rs with
  | [] => ""
  | r :: rs => utf8_rune r ++ utf8 rs
  end.

Definition in_range (lo hi : N) (c : ascii) : bool :=
  let n := N_of_ascii c in (lo <=? n) && (n <=? hi).
Definition low6 (c : ascii) : N := N_of_ascii c - 128.

(** Go conversion [[]rune(s)] (lexer.go:72): UTF-8 decoding; a byte that does not start a
    well-formed sequence (Unicode table 3-7, as in Go's unicode/utf8) gives U+FFFD and is
    skipped alone. *)
Fixpoint runes_of (s : string) : list rune :=
  match s with
  | EmptyString => []
  | String b0 s1 =>
    let n0 := N_of_ascii b0 in
    if n0 <? 128 then n0 :: runes_of s1
    else if in_range 194 223 b0 then
      match s1 with
      | String b1 s2 =>
        if in_range 128 191 b1
        then (n0 - 192) * 64 + low6 b1 :: runes_of s2
        else 65533 :: runes_of s1
      | EmptyString => 65533 :: runes_of s1
      end
    else if in_range 224 239 b0 then
      match s1 with
      | String b1 (String b2 s3) =>
        let lo := if n0 =? 224 then 160 else 128 in
        let hi := if n0 =? 237 then 159 else 191 in
        if in_range lo hi b1 && in_range 128 191 b2
        then (n0 - 224) * 4096 + low6 b1 * 64 + low6 b2 :: runes_of s3
        else 65533 :: runes_of s1
      | _ => 65533 :: runes_of s1
      end
    else if in_range 240 244 b0 then
      match s1 with
      | String b1 (String b2 (String b3 s4)) =>
        let lo := if n0 =? 240 then 144 else 128 in
        let hi := if n0 =? 244 then 143 else 191 in
        if in_range lo hi b1 && in_range 128 191 b2 && in_range 128 191 b3
        then (n0 - 240) * 262144 + low6 b1 * 4096 + low6 b2 * 64 + low6 b3 :: runes_of s4
        else 65533 :: runes_of s1
      | _ => 65533 :: runes_of s1
      end
    else 65533 :: runes_of s1
  end.

(** ** Letter case *)

(** [strings.ToUpper] / [strings.ToLower] of ASCII text: constant keywords, names that match the ASCII pattern of
    [isValidName] (the pattern is tested first), and tokens that have been matched against ASCII keywords.  For the
    calls with arbitrary tokens in the converter see Unicode.v. *)
Definition upper_ascii (c : ascii) : ascii :=
  let n := N_of_ascii c in
  if (97 <=? n) && (n <=? 122) then ascii_of_N (n - 32) else c.
Definition lower_ascii (c : ascii) : ascii :=
  let n := N_of_ascii c in
  if (65 <=? n) && (n <=? 90) then ascii_of_N (n + 32) else c.
Fixpoint to_upper (s : string) : string :=
  match s with EmptyString => "" | String c s => String (upper_ascii c) (to_upper s) end.
Fixpoint to_lower (s : string) : string :=
  match s with EmptyString => "" | String c s => String (lower_ascii c) (to_lower s) end.

(** ** common/utils.go *)

(** common/utils.go:25-32 [Contains]. *)
Definition contains (slice : list string) (key : string) : bool :=
  existsb (fun s => String.eqb s key) slice.

(** validator.go:99-105 and converter.go:82-88 [matchToken(keywords...)] applied to the
    current token: the token equals one of the keywords in all-lower or all-upper case
    ([common.MapSlice] is [map]). *)
Definition matches (keywords : list string) (token : string) : bool :=
  contains (map to_lower keywords ++ map to_upper keywords)%list token.

(** ** Slices *)

(** [token[0:1]]: panics on the empty string. *)
Definition slice01 (s : string) : option string :=
  match s with EmptyString => None | String c _ => Some (String c "") end.

(** [token[1 : len(token)-1]]: panics when the string has fewer than 2 bytes. *)
Definition slice_inner (s : string) : option string :=
  match String.length s with
  | O | S O => None
  | S (S n) => Some (substring 1 n s)
  end.

(** The regular expression [^[a-zA-Z_][a-zA-Z0-9_]*$] of [isValidName]
    (validator_sqlite.go:54, validator_postgresql.go:53, validator_mysql.go:54). *)
Definition name_start (c : ascii) : bool :=
  in_range 97 122 c || in_range 65 90 c || Ascii.eqb c "_".
Definition name_char (c : ascii) : bool := name_start c || in_range 48 57 c.
Fixpoint all_chars (p : ascii -> bool) (s : string) : bool :=
  match s with EmptyString => true | String c s => p c && all_chars p s end.
Definition name_pattern (s : string) : bool :=
  match s with EmptyString => false | String c s => name_start c && all_chars name_char s end.
