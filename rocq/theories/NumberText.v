(** Other numbers in a text that is laid out. *)
From Coq Require Import String Ascii List Bool Arith NArith Lia.
From Verif Require Import GoStr Types Lexer VBase Exec Grammar Ast Parse Spec Layout LayoutFacts Number NumberFacts Utf8.
Import ListNotations.
Open Scope nat_scope.
Open Scope string_scope.

Theorem numbered_text : forall d a w w' b, numbered d (fun _ _ => True) (utf8 w) (utf8 w') ->
  layout d (a ++ IWord w :: b) = true -> layout d (a ++ IWord w' :: b) = true ->
  exists toks toks', lexes d (text_of (a ++ IWord w :: b)) toks /\ lexes d (text_of (a ++ IWord w' :: b)) toks' /\
    Forall2 (numbered d (fun _ _ => True)) toks toks'.
Proof.
  intros d a w w' b N L L'. do 2 eexists. split; [now apply layout_lexes|]. split; [now apply layout_lexes|].
  unfold layout_tokens. rewrite !flat_map_app.
  assert (Z : forall l, Forall2 (numbered d (fun _ _ => True)) l l) by (induction l; constructor; auto; now left).
  apply Forall2_app; auto. cbn [flat_map]. apply Forall2_app; auto. constructor; [exact N|constructor].
Qed.
