(** How a text is divided into tokens: a description of all texts, with the errors.  Nothing in this file refers to the model of
    the lexer. *)
From Coq Require Import String Ascii NArith List Bool Arith.
From Verif Require Import GoStr Types Layout.
Import ListNotations.
Open Scope list_scope.

(** The tokens, with line breaks among them as tokens, or an error: the number of line breaks before it, and the token. *)
Inductive reading := Tokens (l : list string) | Bad (breaks : nat) (near : string).
Definition line_break : string := String "010" "".
Definition end_of_text : string := "<EOF>".
Definition and_then (l : list string) (r : reading) : reading :=
  match r with Tokens l' => Tokens (l ++ l') | Bad n near => Bad (length (filter (String.eqb line_break) l) + n) near end.

(** Quoted text, after the opening mark [q]: [body] with [n] line breaks, and the text that is taken.  Line breaks are left out.
    Other quotation marks begin a quoted text of their own; the character after it is left out. *)
Inductive quotation : rune -> list rune -> nat -> list rune -> Prop :=
| q_close q : quotation q [q] 0 [q]
| q_break q body n s : quotation q body n s -> quotation q (nl :: body) (S n) s
| q_char q c body n s : c <> nl -> quote_mark c = false -> quotation q body n s -> quotation q (c :: body) n (c :: s)
| q_inner q c body n s x body' n' s' : c <> q -> quote_mark c = true -> quotation c body n s -> quotation q body' n' s' ->
    quotation q (c :: body ++ x :: body') (n + n') (c :: s ++ s').
(** Quoted text that does not end, with [n] line breaks. *)
Inductive unended : rune -> list rune -> nat -> Prop :=
| u_end q : unended q [] 0
| u_break q body n : unended q body n -> unended q (nl :: body) (S n)
| u_char q c body n : c <> nl -> quote_mark c = false -> unended q body n -> unended q (c :: body) n
| u_inner q c body n s x body' n' : c <> q -> quote_mark c = true -> quotation c body n s -> unended q body' n' ->
    unended q (c :: body ++ x :: body') (n + n')
| u_inner_end q c body n s : c <> q -> quote_mark c = true -> quotation c body n s -> unended q (c :: body) n
| u_inner_open q c body n : c <> q -> quote_mark c = true -> unended c body n -> unended q (c :: body) n.

(** A block comment that does not end: no / after *, where the character after * or / is left out. *)
Fixpoint block_open (body : list rune) : bool :=
  match body with
  | [] => true
  | c :: body =>
    if (c =? aster)%N then match body with b :: body' => negb (b =? slash)%N && block_open body' | [] => true end
    else if (c =? slash)%N then match body with _ :: body' => block_open body' | [] => true end
    else block_open body
  end.

Section Reads.
Variable d : rdbms.

(** A word [w] and what follows.  [fresh]: a comment may begin here; it may not after one of - / * that does not begin a comment. *)
Inductive word_at : bool -> list rune -> list rune -> Prop :=
| w_end fresh : word_at fresh [] []
| w_stop fresh c rest : word_char d c = false -> word_at fresh [] (c :: rest)
| w_comment a b rest : comment_pair a b = true -> word_at true [] (a :: b :: rest)
| w_plain fresh c w rest : word_char d c = true -> fresh = false \/ comment_char c = false -> word_at true w rest ->
    word_at fresh (c :: w) rest
| w_lone c w rest : comment_char c = true -> (forall b r, w ++ rest = b :: r -> comment_pair c b = false) -> word_at false w rest ->
    word_at true (c :: w) rest.

(** The quotation marks of the dialect. *)
Definition quote_of (q : rune) : bool := quote_mark q && negb (match d with PostgreSQL => (q =? 96)%N | _ => false end).

Inductive reads : bool -> list rune -> reading -> Prop :=
| r_end fresh : reads fresh [] (Tokens [])
| r_space fresh c rest r : blank_char c = true -> reads true rest r -> reads fresh (c :: rest) r
| r_break fresh rest r : reads true rest r -> reads fresh (nl :: rest) (and_then [line_break] r)
| r_symbol fresh c rest r : symbol c = true -> reads true rest r -> reads fresh (c :: rest) (and_then [utf8 [c]] r)
| r_word fresh w rest r : w <> [] -> word_at fresh w rest -> reads true rest r -> reads fresh (w ++ rest) (and_then [utf8 w] r)
| r_quoted fresh q body n s rest r : quote_of q = true -> quotation q body n s -> reads true rest r ->
    reads fresh (q :: body ++ rest) (and_then (repeat line_break n ++ [utf8 (q :: s)]) r)
(** comments; right after -- and /* */ comments no other such comment is recognised *)
| r_dash body rest r : ~ In nl body -> reads false rest r -> reads true (dash :: dash :: body ++ nl :: rest) (and_then [line_break] r)
| r_dash_end body : ~ In nl body -> reads true (dash :: dash :: body) (Tokens [])
| r_sharp fresh body rest r : d = MySQL -> ~ In nl body -> reads true rest r ->
    reads fresh (sharp :: body ++ nl :: rest) (and_then [line_break] r)
| r_sharp_end fresh body : d = MySQL -> ~ In nl body -> reads fresh (sharp :: body) (Tokens [])
| r_block body rest r : block_ok body = true -> reads false rest r ->
    reads true (slash :: aster :: body ++ aster :: slash :: rest) (and_then (repeat line_break (block_breaks body)) r)
(** errors: characters that are not allowed, the end of a comment outside of a comment, text and comments that do not end *)
| r_wide fresh rest : reads fresh (wide :: rest) (Bad 0 (utf8 [wide]))
| r_mark fresh q rest : quote_mark q = true -> quote_of q = false -> reads fresh (q :: rest) (Bad 0 (utf8 [q]))
| r_stray rest : reads true (aster :: slash :: rest) (Bad 0 (utf8 [aster]))
| r_unended fresh q body n : quote_of q = true -> unended q body n -> reads fresh (q :: body) (Bad n end_of_text)
| r_block_open body : block_open body = true -> reads true (slash :: aster :: body) (Bad (block_breaks body) end_of_text).
End Reads.
