(** A small language of grammars, used to say which token sequences the three dialects accept
    and what they mean.

    A grammar [g : gr A] describes token sequences, each with a value of type [A].  The relation
    [lang g l nxt out v] reads: "the tokens [l], followed by the token [nxt] ([None]: by the end of
    the text), are an instance of [g] with the value [v]; [out] are those tokens of it that are
    subject to conversion".  The parameter [nxt] matters for [NotNext], [IsNext] and [Skip] only,
    which say what may follow.

    Nothing in this file refers to the model of the validators. *)
From Coq Require Import String Ascii List Bool.
From Verif Require Import GoStr GoNum Types Words.
Import ListNotations.
Open Scope string_scope.

(** ** Kinds of tokens *)

(** Quotation marks of the dialects. *)
Definition id_quotes (d : rdbms) : list string :=
  match d with
  | PostgreSQL => [""""]
  | MySQL => ["`"]
  | _ => [""""; "`"]
  end.
Definition str_quotes (d : rdbms) : list string :=
  match d with
  | MySQL => [""""; "'"]
  | _ => ["'"]
  end.
Definition reserved (d : rdbms) : list string :=
  match d with
  | PostgreSQL => ReservedWords_PostgreSQL
  | MySQL => ReservedWords_MySQL
  | _ => ReservedWords_SQLite
  end.

(** The token starts with one of the given quotation marks. *)
Definition quoted (qs : list string) (t : string) : bool :=
  match t with
  | EmptyString => false
  | String c _ => contains qs (String c "")
  end.

(** A quoted identifier, or a word that is not reserved. *)
Definition legal_name (d : rdbms) (t : string) : bool :=
  quoted (id_quotes d) t ||
  (name_pattern t && negb (contains (reserved d) (to_upper t))).

Definition literal_words : list string :=
  ["NULL"; "TRUE"; "FALSE"; "CURRENT_TIME"; "CURRENT_DATE"; "CURRENT_TIMESTAMP"].
Definition literal (d : rdbms) (t : string) : bool :=
  is_numeric_token t || quoted (str_quotes d) t || matches literal_words t.

Inductive tclass :=
| CW (ws : list string)      (* one of these words, all upper or all lower case *)
| CName (d : rdbms)          (* a legal name *)
| CPos                       (* a positive integer *)
| CLit (d : rdbms)           (* a literal *)
| CStr (d : rdbms).          (* a string *)

Definition cmem (c : tclass) (t : string) : bool :=
  match c with
  | CW ws => matches ws t
  | CName d => legal_name d t
  | CPos => is_positive_integer_token t
  | CLit d => literal d t
  | CStr d => quoted (str_quotes d) t
  end.

(** ** Grammars *)

(** A test on the next token: it is one of [la_words] ([la_neg = false]) or is none of them
    ([la_neg = true]); [la_eof] is the answer at the end of the text.  Tests do not
    contribute to the meaning of a grammar: they tell a parser how to go on. *)
Record la := mk_la { la_words : list string; la_neg : bool; la_eof : bool }.

Inductive gr : Type -> Type :=
| Eps : gr unit                                        (* nothing *)
| Put (out : list string) : gr unit                    (* nothing; contributes [out] to the converted tokens *)
| One (keep : bool) (c : tclass) : gr string           (* one token of the class *)
| NotNext (ws : list string) : gr unit                 (* nothing; the next token is not one of [ws] *)
| IsNext (ws : list string) : gr unit                  (* nothing; the next token is one of [ws] *)
| Brackets (keep : bool) : gr (list string)            (* "(" anything ")", balanced *)
| Skip : gr unit                                       (* anything up to a ";" outside BEGIN ... END *)
| Seq {A B} (g : gr A) (h : gr B) : gr (A * B)         (* g then h *)
| Map {A B} (f : A -> B) (g : gr A) : gr B             (* g, with another value *)
| Cond {A} (c : la) (g h : gr A) : gr A                (* g or h *)
| While {A} (c : la) (g : gr A) : gr (list A)          (* any number of g *)
| WhileU {A} (c : la) (key : string -> string) (g : gr A) : gr (list A)
                                                       (* any number of g, no two with the same key of their first word *)
| SepBy {A} (keep : bool) (g : gr A) : gr (list A).    (* g , g , ... , g *)

(** ** Meaning *)

Definition kept (keep : bool) (l : list string) : list string := if keep then l else [].

(** The next token when [l] is followed by [nxt]. *)
Definition hdr (l : list string) (nxt : option string) : option string :=
  match l with t :: _ => Some t | [] => nxt end.

(** Token lists with balanced brackets. *)
Inductive balanced : list string -> Prop :=
| bal_nil : balanced []
| bal_tok t l : t <> "(" -> t <> ")" -> balanced l -> balanced (t :: l)
| bal_br l1 l2 : balanced l1 -> balanced l2 -> balanced ("(" :: l1 ++ ")" :: l2).

(** What may stand in a statement that is skipped: no ";", except in BEGIN ... END blocks. *)
Inductive skipped : list string -> Prop :=
| sk_nil : skipped []
| sk_tok t l : matches ["BEGIN"] t = false -> t <> ";" -> skipped l -> skipped (t :: l)
| sk_block b mid e l : matches ["BEGIN"] b = true ->
    Forall (fun t => matches ["END"] t = false) mid -> matches ["END"] e = true ->
    skipped l -> skipped (b :: mid ++ e :: l).

Section Repetition.
Context {A : Type} (L : list string -> option string -> list string -> A -> Prop).

(** [star l nxt out vs heads]: [l] is a sequence of instances of [L], with first words [heads]. *)
Inductive star : list string -> option string -> list string -> list A -> list string -> Prop :=
| star_nil nxt : star [] nxt [] [] []
| star_cons t l1 l2 nxt o1 o2 v vs hs :
    L (t :: l1) (hdr l2 nxt) o1 v -> star l2 nxt o2 vs hs ->
    star (t :: l1 ++ l2) nxt (o1 ++ o2) (v :: vs) (t :: hs).

Inductive sepby (keep : bool) :
  list string -> option string -> list string -> list A -> Prop :=
| sep_one l nxt o v : L l nxt o v -> sepby keep l nxt o [v]
| sep_cons l1 l2 nxt o1 o2 v vs :
    L l1 (Some ",") o1 v -> sepby keep l2 nxt o2 vs ->
    sepby keep (l1 ++ "," :: l2) nxt (o1 ++ kept keep [","] ++ o2) (v :: vs).
End Repetition.

Fixpoint lang {A} (g : gr A) : list string -> option string -> list string -> A -> Prop :=
  match g in gr A return list string -> option string -> list string -> A -> Prop with
  | Eps => fun l nxt out _ => l = [] /\ out = []
  | Put o => fun l nxt out _ => l = [] /\ out = o
  | One keep c => fun l nxt out v => cmem c v = true /\ l = [v] /\ out = kept keep [v]
  | NotNext ws => fun l nxt out _ =>
      l = [] /\ out = [] /\ match nxt with Some t => matches ws t = false | None => True end
  | IsNext ws => fun l nxt out _ =>
      l = [] /\ out = [] /\ match nxt with Some t => matches ws t = true | None => False end
  | Brackets keep => fun l nxt out v =>
      exists l1, balanced l1 /\ l = ("(" :: l1 ++ [")"])%list /\ out = kept keep l /\ v = l
  | Skip => fun l nxt out _ => skipped l /\ out = [] /\ nxt = Some ";"
  | Seq g h => fun l nxt out v =>
      exists l1 l2 o1 o2, l = (l1 ++ l2)%list /\ out = (o1 ++ o2)%list /\
        lang g l1 (hdr l2 nxt) o1 (fst v) /\ lang h l2 nxt o2 (snd v)
  | Map f g => fun l nxt out v => exists a, v = f a /\ lang g l nxt out a
  | Cond c g h => fun l nxt out v => lang g l nxt out v \/ lang h l nxt out v
  | While c g => fun l nxt out vs => exists hs, star (lang g) l nxt out vs hs
  | WhileU c key g => fun l nxt out vs =>
      exists hs, star (lang g) l nxt out vs hs /\ NoDup (map key hs)
  | SepBy keep g => fun l nxt out vs => sepby (lang g) keep l nxt out vs
  end.

(** ** Abbreviations *)

Definition next_in (ws : list string) : la := mk_la ws false false.
(** keyword(s), kept or dropped by the validator *)
Notation kw ws := (One true (CW ws)).
Notation kw_ ws := (One false (CW ws)).
(** [opt ws g]: [ g ], where g begins with one of [ws] *)
Definition opt {A} (ws : list string) (g : gr A) : gr (option A) :=
  Cond (next_in ws) (Map Some g) (Map (fun _ => None) Eps).
(** optional word(s) *)
Definition optkw (keep : bool) (ws : list string) : gr (option string) := opt ws (One keep (CW ws)).

Declare Scope gr_scope.
Delimit Scope gr_scope with gr.
Bind Scope gr_scope with gr.
Notation "g ** h" := (Seq g h) (at level 58, right associativity) : gr_scope.
Notation "g ==> f" := (Map f g) (at level 59, left associativity) : gr_scope.
(** [Case ws g h]: g, which begins with one of [ws], or h *)
Notation "'Case' ws 'of' g 'or' h" := (Cond (next_in ws) g h)
  (at level 60, ws at next level, g at next level, h at level 60, right associativity) : gr_scope.
Open Scope gr_scope.

(** ** When one token of lookahead suffices *)

(** Sets of tokens: a word, a class of tokens without some words, the end of the text, anything. *)
Inductive fcl := FW (w : string) | FC (c : tclass) (ex : list string) | FEof | FAny.
Definition fmem (f : fcl) (o : option string) : bool :=
  match f, o with
  | FW w, Some t => matches [w] t
  | FC c ex, Some t => cmem c t && negb (matches ex t)
  | FEof, None => true
  | FAny, _ => true
  | _, _ => false
  end.

Definition la_mem (c : la) (o : option string) : bool :=
  match o with
  | None => la_eof c
  | Some t => xorb (matches (la_words c) t) (la_neg c)
  end.

(** The test answers [b] on the whole set. *)
Definition la_is (c : la) (b : bool) (f : fcl) : bool :=
  match f with
  | FW w => eqb (la_mem c (Some (to_lower w))) b && eqb (la_mem c (Some (to_upper w))) b
  | FC k ex =>
      forallb (fun w => contains ex w || negb (cmem k (to_lower w)) && negb (cmem k (to_upper w)))
        (la_words c)
      && eqb (la_neg c) b
  | FEof => eqb (la_eof c) b
  | FAny => false
  end.

Definition class_set (c : tclass) : list fcl :=
  match c with CW ws => map FW ws | c => [FC c []] end.

(** The set without some words (or a larger set). *)
Definition without (ws : list string) (f : fcl) : list fcl :=
  match f with
  | FC c ex => [FC c (ws ++ ex)]
  | f => if la_is (next_in ws) true f then [] else [f]
  end.

(** The tokens with which [g] followed by one of [fol] can begin. *)
Fixpoint look {A} (g : gr A) (fol : list fcl) : list fcl :=
  match g with
  | Eps => fol
  | Put _ => fol
  | One _ c => class_set c
  | NotNext ws => flat_map (without ws) fol
  | IsNext ws => map FW ws
  | Brackets _ => [FW "("]
  | Skip => [FAny; FEof]
  | Seq g h => look g (look h fol)
  | Map _ g => look g fol
  | Cond _ g h => look g fol ++ look h fol
  | While _ g => look g [FAny; FEof] ++ fol
  | WhileU _ _ g => look g [FAny; FEof] ++ fol
  | SepBy _ g => look g (FW "," :: fol)
  end.

(** All choices in [g] can be made by the tests, if [g] is followed by one of [fol]. *)
Fixpoint ok {A} (g : gr A) (fol : list fcl) : bool :=
  match g with
  | Eps | Put _ | One _ _ | NotNext _ | IsNext _ | Brackets _ | Skip => true
  | Seq g h => ok g (look h fol) && ok h fol
  | Map _ g => ok g fol
  | Cond c g h =>
      forallb (la_is c true) (look g fol) && forallb (la_is c false) (look h fol) &&
      ok g fol && ok h fol
  | While c g | WhileU c _ g =>
      forallb (la_is c true) (look g [FAny; FEof]) && forallb (la_is c false) fol &&
      ok g (look g [FAny; FEof] ++ fol)
  | SepBy _ g =>
      forallb (la_is (next_in [","]) false) fol && ok g (FW "," :: fol)
  end.
