(** The grammar of JSON, RFC 8259, without white space between tokens.  Nothing in this file refers to the model. *)
From Coq Require Import String Ascii NArith List.
From Verif Require Import GoStr.
Import ListNotations.
Open Scope string_scope.

(** ** Numbers (section 6) *)
Definition one_char (s : string) (c : ascii) : Prop := In c (list_ascii_of_string s).
Definition all_chars (s t : string) : Prop := Forall (one_char s) (list_ascii_of_string t).
Definition digits (s : string) : Prop := all_chars "0123456789" s.
Definition json_int (s : string) : Prop := s = "0" \/ exists c t, s = String c t /\ one_char "123456789" c /\ digits t.
Definition json_frac (s : string) : Prop := s = "" \/ exists t, s = "." ++ t /\ t <> "" /\ digits t.
Definition json_exp (s : string) : Prop :=
  s = "" \/ exists e sign t, s = String e (sign ++ t) /\ one_char "eE" e /\ In sign [""; "+"; "-"] /\ t <> "" /\ digits t.
Definition json_number (s : string) : Prop :=
  exists sign i f e, s = sign ++ i ++ f ++ e /\ In sign [""; "-"] /\ json_int i /\ json_frac f /\ json_exp e.

(** ** Strings (section 7) *)
Inductive json_chars : string -> Prop :=
| jc_end : json_chars ""
| jc_plain r s : is_scalar r = true -> (32 <= r)%N -> r <> 34%N -> r <> 92%N -> json_chars s -> json_chars (utf8_rune r ++ s)
| jc_short c s : one_char """\/bfnrt" c -> json_chars s -> json_chars ("\" ++ String c s)
| jc_hex a b c d s : Forall (one_char "0123456789abcdefABCDEF") [a; b; c; d] -> json_chars s ->
    json_chars ("\u" ++ String a (String b (String c (String d s)))).
Definition json_string (s : string) : Prop := exists t, s = """" ++ t ++ """" /\ json_chars t.

(** ** Values (sections 3-5) *)
Inductive json_text : string -> Prop :=
| jt_word s : In s ["null"; "true"; "false"] -> json_text s
| jt_number s : json_number s -> json_text s
| jt_string s : json_string s -> json_text s
| jt_array s : elements s -> json_text ("[" ++ s ++ "]")
| jt_array_empty : json_text "[]"
| jt_object s : members s -> json_text ("{" ++ s ++ "}")
| jt_object_empty : json_text "{}"
with elements : string -> Prop :=
| el_one s : json_text s -> elements s
| el_more s t : json_text s -> elements t -> elements (s ++ "," ++ t)
with members : string -> Prop :=
| me_one k s : json_string k -> json_text s -> members (k ++ ":" ++ s)
| me_more k s t : json_string k -> json_text s -> members t -> members ((k ++ ":" ++ s) ++ "," ++ t).
