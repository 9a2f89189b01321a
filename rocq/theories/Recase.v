(** Which tokens of a script are keywords, and changes of their letter case. *)
From Coq Require Import String Ascii List Bool.
From Verif Require Import GoStr GoNum Types Grammar.
Import ListNotations.
Open Scope string_scope.

(** Keywords that are reported as they are written: the collations of SQLite.  (So are the literals
    CURRENT_TIME, CURRENT_DATE and CURRENT_TIMESTAMP.) *)
Definition collations : list string := ["BINARY"; "NOCASE"; "RTRIM"].
Definition is_collations (ws : list string) : bool := if list_eq_dec string_dec ws collations then true else false.

(** The token [t] of the class [c] is a keyword that is not reported as it is written. *)
Definition keyword (c : tclass) (t : string) : bool :=
  match c with
  | CW ws => negb (is_collations ws)
  | CLit _ => matches ["NULL"; "TRUE"; "FALSE"] t
  | _ => false
  end.

Section Repetition.
Context {A : Type} (L : list string -> option string -> A -> list bool -> Prop).

Inductive mstar : list string -> option string -> list A -> list bool -> list string -> Prop :=
| mstar_nil nxt : mstar [] nxt [] [] []
| mstar_cons t l1 l2 nxt k1 k2 v vs hs :
    L (t :: l1) (hdr l2 nxt) v k1 -> mstar l2 nxt vs k2 hs ->
    mstar (t :: l1 ++ l2) nxt (v :: vs) (k1 ++ k2) (t :: hs).

Inductive msepby : list string -> option string -> list A -> list bool -> Prop :=
| msep_one l nxt v k : L l nxt v k -> msepby l nxt [v] k
| msep_cons l1 l2 nxt v vs k1 k2 :
    L l1 (Some ",") v k1 -> msepby l2 nxt vs k2 ->
    msepby (l1 ++ "," :: l2) nxt (v :: vs) (k1 ++ false :: k2).
End Repetition.

(** [marked g l nxt v ks]: as [lang g l nxt out v] for some [out] (see [marked_lang] in RecaseFacts.v); [ks] has an entry
    for each token, which is [true] if the token is a keyword of the grammar.  The tokens of expressions and of
    skipped statements are not marked. *)
Fixpoint marked {A} (g : gr A) : list string -> option string -> A -> list bool -> Prop :=
  match g in gr A return list string -> option string -> A -> list bool -> Prop with
  | Eps | Put _ => fun l nxt _ ks => l = [] /\ ks = []
  | One _ c => fun l nxt v ks => cmem c v = true /\ l = [v] /\ ks = [keyword c v]
  | NotNext ws => fun l nxt _ ks =>
      l = [] /\ ks = [] /\ match nxt with Some t => matches ws t = false | None => True end
  | IsNext ws => fun l nxt _ ks =>
      l = [] /\ ks = [] /\ match nxt with Some t => matches ws t = true | None => False end
  | Brackets _ => fun l nxt v ks =>
      exists l1, balanced l1 /\ l = ("(" :: l1 ++ [")"])%list /\ v = l /\ ks = map (fun _ => false) l
  | Skip => fun l nxt _ ks => skipped l /\ nxt = Some ";" /\ ks = map (fun _ => false) l
  | Seq g h => fun l nxt v ks =>
      exists l1 l2 k1 k2, l = (l1 ++ l2)%list /\ ks = (k1 ++ k2)%list /\
        marked g l1 (hdr l2 nxt) (fst v) k1 /\ marked h l2 nxt (snd v) k2
  | Map f g => fun l nxt v ks => exists a, v = f a /\ marked g l nxt a ks
  | Cond _ g h => fun l nxt v ks => marked g l nxt v ks \/ marked h l nxt v ks
  | While _ g => fun l nxt vs ks => exists hs, mstar (marked g) l nxt vs ks hs
  | WhileU _ key g => fun l nxt vs ks => exists hs, mstar (marked g) l nxt vs ks hs /\ NoDup (map key hs)
  | SepBy _ g => fun l nxt vs ks => msepby (marked g) l nxt vs ks
  end.

(** [recased ks l l']: [l'] is [l] with some of the marked tokens in all-upper or in all-lower case. *)
Inductive recased : list bool -> list string -> list string -> Prop :=
| rc_nil : recased [] [] []
| rc_same b t ks l l' : recased ks l l' -> recased (b :: ks) (t :: l) (t :: l')
| rc_case t t' ks l l' : t' = to_upper t \/ t' = to_lower t -> recased ks l l' ->
    recased (true :: ks) (t :: l) (t' :: l').
