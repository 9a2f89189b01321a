(** The tokens of a text that is made of pieces with blanks between them. *)
From Coq Require Import String Ascii NArith ZArith List Bool Arith Lia.
From Verif Require Import GoStr GoNum Types Grammar Ast Spec Numbers NumbersFacts Utf8 Layout LayoutFacts Print ErrorTextFacts.
Import ListNotations.
Open Scope nat_scope.
Open Scope string_scope.
Open Scope list_scope.

(** ** Pieces *)

Definition piece (d : rdbms) (p : string) (l : list string) : Prop :=
  exists its, layout d its = true /\ text_of its = p /\ lexemes its = l.
Inductive spells (d : rdbms) : list string -> list string -> Prop :=
| spells_nil : spells d [] []
| spells_cons p l ps l' : piece d p l -> spells d ps l' -> spells d (p :: ps) (l ++ l').

Lemma layout_app : forall d a b c, layout_from d b (a ++ c) = layout_from d b a && layout_from d (end_of b a) c.
Proof. intros d a. induction a as [|i a IH]; intros b c; cbn; [reflexivity|]. rewrite IH. now rewrite !andb_assoc. Qed.
Lemma layout_after_space : forall d its, layout_from d (Some (ISpace 32%N)) its = layout d its.
Proof. intros d [|i its]; [reflexivity|]. unfold layout. cbn. destruct i; reflexivity. Qed.
Lemma end_space : forall its b, end_of b (its ++ [ISpace 32%N]) = Some (ISpace 32%N).
Proof. intros. unfold end_of. rewrite fold_left_app. reflexivity. Qed.

Lemma spells_piece : forall d ps l, spells d ps l -> piece d (spaced ps) l.
Proof.
  induction 1 as [|p l ps l' (a & A1 & A2 & A3) H (b & B1 & B2 & B3)]; [exists []; now repeat split|].
  exists ((a ++ [ISpace 32%N]) ++ b). split; [|split].
  - unfold layout. rewrite layout_app, layout_app, end_space, layout_after_space. fold (layout d a). rewrite A1, B1. reflexivity.
  - unfold text_of, chars in *. rewrite !flat_map_app, !utf8_app, A2, B2. cbn [flat_map chars_of app spaced fold_right].
    change (utf8 [32%N]) with " ". now rewrite append_assoc.
  - unfold lexemes in *. rewrite !flat_map_app, A3, B3. cbn. now rewrite app_nil_r.
Qed.
Theorem spells_tokens : forall d ps l, spells d ps l -> tokens d (spaced ps) l.
Proof. intros d ps l H. apply spells_piece in H as (its & L & <- & <-). now apply layout_tokens_are. Qed.

Lemma spells_app : forall d ps l ps' l', spells d ps l -> spells d ps' l' -> spells d (ps ++ ps') (l ++ l').
Proof. induction 1; intros H'; [exact H'|]. cbn. rewrite <- app_assoc. constructor; auto. Qed.
Lemma spells_one : forall d p ps l, piece d p [p] -> spells d ps l -> spells d (p :: ps) (p :: l).
Proof. intros. change (p :: l) with ([p] ++ l). now constructor. Qed.
(** pieces that are single tokens *)
Lemma spells_same : forall d ps, Forall (fun p => piece d p [p]) ps -> spells d ps ps.
Proof. induction 1; [constructor|]. now apply spells_one. Qed.
Lemma spells_if : forall d (b : bool) ps l, (b = false -> spells d ps l) -> spells d (if b then [] else ps) (if b then [] else l).
Proof. intros d [] ps l H; [constructor|auto]. Qed.

(** ** Words *)

Lemma utf8_ascii : forall s, forallb (fun c => (N_of_ascii c <? 128)%N) (list_ascii_of_string s) = true ->
  utf8 (map N_of_ascii (list_ascii_of_string s)) = s.
Proof.
  induction s as [|c s IH]; [reflexivity|]. cbn [list_ascii_of_string forallb map]. intros [A B]%andb_true_iff.
  change (utf8 (N_of_ascii c :: map N_of_ascii (list_ascii_of_string s))) with (utf8_rune (N_of_ascii c) ++ utf8 (map N_of_ascii (list_ascii_of_string s)))%string.
  rewrite IH by auto. unfold utf8_rune, is_scalar. apply N.ltb_lt in A as A'.
  replace (N_of_ascii c <? 55296)%N with true by (symmetry; apply N.ltb_lt; lia). cbn [orb]. rewrite A.
  unfold byte. now rewrite ascii_N_embedding.
Qed.


Definition wordy (c : ascii) : bool := name_char c || Ascii.eqb c "-".
Lemma wordy_char : forall d c, wordy c = true -> word_char d (N_of_ascii c) = true /\ (N_of_ascii c <? 128)%N = true.
Proof. intros d [[] [] [] [] [] [] [] []]; vm_compute; intros H; try discriminate; destruct d; auto. Qed.
Lemma word_piece : forall d s, s <> "" -> forallb wordy (list_ascii_of_string s) = true ->
  no_pairs (map N_of_ascii (list_ascii_of_string s)) = true -> piece d s [s].
Proof.
  intros d s N W P. set (l := list_ascii_of_string s) in *.
  assert (L : l <> []) by (destruct s; [congruence|discriminate]).
  assert (U : utf8 (map N_of_ascii l) = s).
  { apply utf8_ascii. fold l. rewrite forallb_forall in *. intros c I. now apply (wordy_char d), W. }
  exists [IWord (map N_of_ascii l)]. split; [|split].
  - unfold layout. cbn [layout_from item_ok fits]. rewrite !andb_true_r. unfold word_ok. rewrite P, andb_true_r.
    apply andb_true_iff. split; [now destruct l|]. apply forallb_forall. intros r (c & <- & I)%in_map_iff.
    rewrite forallb_forall in W. now apply wordy_char, W.
  - unfold text_of, chars. cbn [flat_map chars_of]. now rewrite app_nil_r.
  - unfold lexemes. cbn [flat_map lexeme app]. now rewrite U.
Qed.
Lemma sym_piece : forall d s, In s ["("; ")"; ","; "."; ";"] -> piece d s [s].
Proof.
  intros d s H. cbn in H. destruct H as [<-|[<-|[<-|[<-|[<-|[]]]]]];
    [exists [ISym 40%N]|exists [ISym 41%N]|exists [ISym 44%N]|exists [ISym 46%N]|exists [ISym 59%N]]; repeat split; reflexivity.
Qed.
Lemma quoted_piece : forall d q rs, quote_mark q = true -> negb (match d with PostgreSQL => (q =? 96)%N | _ => false end) = true ->
  verbatim rs = true -> piece d (utf8 [q] ++ utf8 rs ++ utf8 [q])%string [(utf8 [q] ++ utf8 rs ++ utf8 [q])%string].
Proof.
  intros d q rs Q D V. assert (U : utf8 (q :: rs ++ [q]) = (utf8 [q] ++ utf8 rs ++ utf8 [q])%string).
  { change (q :: rs ++ [q]) with ([q] ++ rs ++ [q]). now rewrite !utf8_app. }
  exists [IQuoted q rs]. split; [|split].
  - unfold layout. cbn [layout_from item_ok fits]. rewrite Q, D. fold (verbatim rs). now rewrite V.
  - unfold text_of, chars. cbn [flat_map chars_of]. now rewrite app_nil_r.
  - unfold lexemes. cbn [flat_map lexeme app]. now rewrite U.
Qed.

Lemma name_piece : forall d s, name_ok s -> piece d (in_quotes d s) [in_quotes d s].
Proof.
  intros d s (rs & -> & V). unfold in_quotes. destruct d; cbn [quote].
  1,2,4: change """" with (utf8 [34%N]); now apply quoted_piece.
  change "`" with (utf8 [96%N]). now apply quoted_piece.
Qed.
Lemma string_piece : forall d s, name_ok s -> piece d ("'" ++ s ++ "'")%string [("'" ++ s ++ "'")%string].
Proof. intros d s (rs & -> & V). change "'" with (utf8 [39%N]). apply quoted_piece; auto. now destruct d. Qed.

Lemma all_chars_forallb : forall f s, all_chars f s = forallb f (list_ascii_of_string s).
Proof. induction s as [|c s IH]; cbn; [reflexivity|]. now rewrite IH. Qed.
Definition uncomment (c : ascii) : bool := negb (comment_char (N_of_ascii c)).
Lemma pairs_app : forall l r, forallb uncomment l = true -> no_pairs r = true -> no_pairs (map N_of_ascii l ++ r) = true.
Proof.
  induction l as [|a l IH]; intros r U P; [exact P|]. cbn [forallb] in U. apply andb_true_iff in U as [A U]. cbn [map app no_pairs].
  specialize (IH r U P). destruct (map N_of_ascii l ++ r) as [|b w]; [reflexivity|]. rewrite IH, andb_true_r.
  unfold uncomment in A. revert A. unfold comment_char, one_of, comment_pair. cbn [existsb].
  set (x := N_of_ascii a). clearbody x. destruct (x =? dash)%N, (x =? slash)%N, (x =? aster)%N; cbn; auto; discriminate.
Qed.
Lemma pairs_none : forall l, forallb uncomment l = true -> no_pairs (map N_of_ascii l) = true.
Proof. intros l U. rewrite <- (app_nil_r (map _ l)). now apply pairs_app. Qed.
Lemma name_char_un : forall c, name_char c = true -> uncomment c = true /\ wordy c = true.
Proof. intros c H. split; [|unfold wordy; now rewrite H]. revert c H. intros [[] [] [] [] [] [] [] []]; vm_compute; auto. Qed.
Lemma forallb_imp : forall A (f g : A -> bool) l, (forall x, f x = true -> g x = true) -> forallb f l = true -> forallb g l = true.
Proof. intros A f g l H F. rewrite forallb_forall in *. auto. Qed.

Lemma key_piece : forall d s, key_ok d s -> piece d s [s].
Proof.
  intros d s [(q & rs & -> & I & V)|[P _]].
  - destruct d; cbn [id_quotes In] in I; repeat destruct I as [I|I]; try contradiction; subst q.
    1,3,5: change """" with (utf8 [34%N]); now apply quoted_piece.
    all: change "`" with (utf8 [96%N]); now apply quoted_piece.
  - assert (N : forallb name_char (list_ascii_of_string s) = true).
    { destruct s as [|c s]; [discriminate|]. cbn [name_pattern] in P. apply andb_true_iff in P as [A B]. cbn [list_ascii_of_string forallb].
      rewrite all_chars_forallb in B. rewrite B. unfold name_char at 1. now rewrite A. }
    apply word_piece.
    + now intros ->.
    + eapply forallb_imp; [|exact N]. intros c H. now apply name_char_un.
    + apply pairs_none. eapply forallb_imp; [|exact N]. intros c H. now apply name_char_un.
Qed.
Lemma key_legal : forall d s, key_ok d s -> legal_name d s = true.
Proof.
  intros d s [(q & rs & -> & I & V)|[P R]].
  - unfold legal_name. replace (quoted (id_quotes d) _) with true; [reflexivity|].
    destruct d; cbn [id_quotes In] in I; repeat destruct I as [I|I]; try contradiction; subst q; reflexivity.
  - unfold legal_name. rewrite P. cbn [andb]. replace (contains (reserved d) (to_upper s)) with false; [now rewrite orb_true_r|].
    symmetry. apply not_true_iff_false. intros H. apply GrammarFacts.contains_spec in H. auto.
Qed.
Lemma name_legal : forall d s, legal_name d (in_quotes d s) = true.
Proof. intros []; reflexivity. Qed.

(** ** Numerals *)

Lemma size_bound : forall n, (n < 2 ^ N.of_nat (N.size_nat n))%N.
Proof. intros n. destruct n as [|p]; [reflexivity|]. cbn [N.size_nat]. induction p as [p IH|p IH|]; [| |reflexivity];
  cbn [Pos.size_nat]; rewrite Nat2N.inj_succ, N.pow_succ_r'; lia. Qed.
Lemma digits_decimal : forall k n, (n < 2 ^ N.of_nat k)%N -> decimal (digits_of (S k) n) n.
Proof.
  assert (M : forall n, (n mod 10 < 10)%N) by (intros; apply N.mod_lt; discriminate).
  assert (D : forall n, (n = 10 * (n / 10) + n mod 10)%N) by (intros; apply N.div_mod; discriminate).
  induction k as [|k IH]; intros n L.
  - change (2 ^ N.of_nat 0)%N with 1%N in L. replace n with 0%N by lia. cbn. apply dec_one. cbn. auto.
  - remember (S k) as k1. cbn [digits_of]. destruct (N.ltb_spec n 10) as [H|H].
    + cbn [append]. rewrite N.mod_small by auto. apply dec_one. now apply digit_in.
    + rewrite (D n) at 3. apply dec_more; [|now apply digit_in]. subst k1. apply IH.
      rewrite Nat2N.inj_succ, N.pow_succ_r' in L. apply N.div_lt_upper_bound; lia.
Qed.
Lemma numeral_decimal : forall n, decimal (numeral_of n) n.
Proof. intros n. unfold numeral_of. apply digits_decimal, size_bound. Qed.

Lemma dig_char : forall c, dig c -> name_char c = true.
Proof. intros c [k H]. cbn in H. repeat destruct H as [H|H]; try contradiction; inversion H; reflexivity. Qed.
Lemma digits_chars : forall s n, decimal s n -> forallb name_char (list_ascii_of_string s) = true.
Proof. intros s n H. apply decimal_digits in H. apply forallb_forall. rewrite Forall_forall in H. intros c I. now apply dig_char, H. Qed.
Lemma decimal_cons : forall s n, decimal s n -> s <> "".
Proof. intros s n H. now apply decimal_spec in H. Qed.
Lemma decimal_piece : forall d s n, decimal s n -> piece d s [s].
Proof.
  intros d s n H. apply digits_chars in H as C. apply word_piece; [eapply decimal_cons; eauto| |].
  - eapply forallb_imp; [|exact C]. intros c X. now apply name_char_un.
  - apply pairs_none. eapply forallb_imp; [|exact C]. intros c X. now apply name_char_un.
Qed.
