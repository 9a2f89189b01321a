(** Texts as they are laid out: lexemes (words, symbols, quoted text) with white space and comments between them.
    Nothing in this file refers to the model of the lexer. *)
From Coq Require Import String Ascii NArith List Bool Arith.
From Verif Require Import GoStr Types.
Import ListNotations.
Open Scope N_scope.

Inductive item :=
| IWord (w : list rune)                    (* a word, a number, an operator *)
| ISym (c : rune)                          (* one of ( ) , . ; *)
| IQuoted (q : rune) (body : list rune)    (* q body q *)
| ISpace (c : rune)                        (* a space or a tab *)
| IBreak                                   (* a line feed *)
| IDash (body : list rune)                 (* -- body, line feed *)
| ISharp (body : list rune)                (* # body, line feed (MySQL) *)
| IBlock (body : list rune).               (* /* body */ *)

Definition nl : rune := 10.
Definition dash : rune := 45.
Definition slash : rune := 47.
Definition aster : rune := 42.
Definition sharp : rune := 35.

Definition one_of (l : list rune) (c : rune) : bool := existsb (N.eqb c) l.
Definition symbol : rune -> bool := one_of [40; 41; 44; 46; 59].       (* ( ) , . ; *)
Definition quote_mark : rune -> bool := one_of [34; 39; 96].           (* double, single and back quote *)
Definition blank_char : rune -> bool := one_of [32; 9].                (* space and tab *)
Definition comment_char : rune -> bool := one_of [dash; slash; aster]. (* - / * *)
Definition wide : rune := 12288.                                       (* full-width space *)

(** A character that can be part of a word. *)
Definition word_char (d : rdbms) (c : rune) : bool :=
  is_scalar c && negb (symbol c) && negb (quote_mark c) && negb (blank_char c) && negb (c =? nl) && negb (c =? wide) &&
  negb (match d with MySQL => c =? sharp | _ => false end).
(** The two characters begin or end a comment. *)
Definition comment_pair (a b : rune) : bool :=
  (a =? dash) && (b =? dash) || (a =? slash) && (b =? aster) || (a =? aster) && (b =? slash).
Fixpoint no_pairs (w : list rune) : bool :=
  match w with
  | a :: (b :: _) as w' => negb (comment_pair a b) && no_pairs w'
  | _ => true
  end.
Definition word_ok (d : rdbms) (w : list rune) : bool :=
  match w with [] => false | _ => true end && forallb (word_char d) w && no_pairs w.

(** A comment can be skipped: in the body the characters * and / are each followed by another character, which is
    not a / after a *. *)
Fixpoint block_ok (body : list rune) : bool :=
  match body with
  | [] => true
  | c :: body =>
    is_scalar c &&
    if c =? aster then match body with b :: body' => is_scalar b && negb (b =? slash) && block_ok body' | [] => false end
    else if c =? slash then match body with b :: body' => is_scalar b && block_ok body' | [] => false end
    else block_ok body
  end.
(** Line feeds in a comment, not counting one right after * or /. *)
Fixpoint block_breaks (body : list rune) : nat :=
  match body with
  | [] => 0
  | c :: body =>
    if c =? nl then S (block_breaks body)
    else if (c =? aster) || (c =? slash) then match body with _ :: body' => block_breaks body' | [] => 0 end
    else block_breaks body
  end.

Definition line_body (body : list rune) : bool := forallb (fun c => is_scalar c && negb (c =? nl)) body.

Definition item_ok (d : rdbms) (i : item) : bool :=
  match i with
  | IWord w => word_ok d w
  | ISym c => symbol c
  | IQuoted q body =>
      quote_mark q && negb (match d with PostgreSQL => q =? 96 | _ => false end) &&
      forallb (fun c => is_scalar c && negb (c =? nl) && negb (quote_mark c)) body
  | ISpace c => blank_char c
  | IBreak => true
  | IDash body => line_body body
  | ISharp body => match d with MySQL => line_body body | _ => false end
  | IBlock body => block_ok body
  end.

(** What an item may follow: words are separated; -- and /* do not stand right after a comment or after one of the
    characters - / *. *)
Definition fits (before : option item) (i : item) : bool :=
  match i with
  | IWord _ => match before with Some (IWord _) => false | _ => true end
  | IDash _ | IBlock _ =>
      match before with
      | Some (IWord w) => negb (comment_char (last w 0))
      | Some (IDash _) | Some (IBlock _) => false
      | _ => true
      end
  | _ => true
  end.

Fixpoint layout_from (d : rdbms) (before : option item) (l : list item) : bool :=
  match l with
  | [] => true
  | i :: l => item_ok d i && fits before i && layout_from d (Some i) l
  end.
Definition layout (d : rdbms) (l : list item) : bool := layout_from d None l.

(** The characters. *)
Definition chars_of (i : item) : list rune :=
  match i with
  | IWord w => w
  | ISym c => [c]
  | IQuoted q body => q :: body ++ [q]
  | ISpace c => [c]
  | IBreak => [nl]
  | IDash body => dash :: dash :: body ++ [nl]
  | ISharp body => sharp :: body ++ [nl]
  | IBlock body => slash :: aster :: body ++ [aster; slash]
  end.
Definition chars (l : list item) : list rune := flat_map chars_of l.
Definition text_of (l : list item) : string := utf8 (chars l).

(** The lexemes, and the line breaks that are reported. *)
Definition lexeme (i : item) : list string :=
  match i with
  | IWord w => [utf8 w]
  | ISym c => [utf8 [c]]
  | IQuoted q body => [utf8 (q :: body ++ [q])]
  | _ => []
  end.
Definition lexemes (l : list item) : list string := flat_map lexeme l.
Definition breaks (i : item) : nat :=
  match i with
  | IBreak | IDash _ | ISharp _ => 1
  | IBlock body => block_breaks body
  | _ => 0
  end.
(** The lexemes with the line breaks among them. *)
Definition item_tokens (i : item) : list string := (lexeme i ++ repeat (String "010" "") (breaks i))%list.
Definition layout_tokens (l : list item) : list string := flat_map item_tokens l.
Definition all_breaks (l : list item) : nat := list_sum (map breaks l).

(** The last item. *)
Definition end_of (b : option item) (l : list item) : option item := fold_left (fun _ i => Some i) l b.

(** A comment text without an end. *)
Fixpoint no_end (body : list rune) : bool :=
  match body with
  | a :: (b :: _) as body' => negb ((a =? aster) && (b =? slash)) && no_end body'
  | _ => true
  end.

(** Text that is taken literally between quotes. *)
Definition verbatim (body : list rune) : bool :=
  forallb (fun c => is_scalar c && negb (c =? nl) && negb (quote_mark c)) body.
Definition scalarsb (l : list rune) : bool := forallb is_scalar l.
