(** Another token at the same place. *)
From Coq Require Import String Ascii List Bool Arith NArith Lia.
From Verif Require Import GoStr Types Lexer VBase Exec Grammar Ast Parse Spec Layout LayoutFacts Utf8 Scan Pipe Witness LexicalFacts LiteralText
  Rename RenameVerdict RenameConvert Number NumberFacts NumberConvert Literal LiteralFacts LiteralConvert Cased Respell CasedConvert Place.
Import ListNotations.
Open Scope nat_scope.
Open Scope string_scope.
Open Scope list_scope.

Lemma word_begins_mode : forall d m out n toks,
  pre_n out n (scan d m [120%N]) = TOk (toks ++ ["x"]) -> pre_n out n (scan d m [121%N]) = TOk (toks ++ ["y"]) ->
  m = M0 "" \/ m = M2 "".
Proof.
  intros d m out n toks A B.
  assert (W : forall tok c r, c = 120%N /\ r = "x" \/ c = 121%N /\ r = "y" -> step2 d tok c = Go [] false (M0 (tok ++ r)%string)).
  { intros tok c r [[-> ->]|[-> ->]]; reflexivity. }
  assert (L : forall a b, (a ++ "x")%string = (b ++ "x")%string -> a = b).
  { induction a as [|h a IH]; intros [|h' b] H; cbn in H; try discriminate; auto.
    - injection H as -> H. destruct b; discriminate.
    - injection H as -> H. destruct a; discriminate.
    - injection H as -> H. f_equal. auto. }
  assert (F : forall tok, flush (tok ++ "x")%string = [(tok ++ "x")%string]) by (intros []; reflexivity).
  assert (G : forall tok, pre_n out n (TOk (flush (tok ++ "x")%string)) = TOk (toks ++ ["x"]) -> tok = "").
  { intros tok H. rewrite F in H. cbn [pre_n] in H. injection H as H. apply snoc_inj in H. now apply (L tok ""). }
  destruct m as [tok|tok|tok|tok|tok|m| | | |q str stk|q str stk]; cbn [scan] in A, B.
  - left. f_equal. apply G. cbn [step] in A. change (120 =? c_minus)%N with false in A. change (120 =? c_slash)%N with false in A.
    change (120 =? c_star)%N with false in A. rewrite (W _ _ "x") in A by auto. cbv iota beta in A; rewrite pre_nil in A. exact A.
  - right. f_equal. apply G. cbn [step] in A. rewrite (W _ _ "x") in A by auto. cbv iota beta in A; rewrite pre_nil in A. exact A.
  - exfalso. cbn [step] in A. change (120 =? c_minus)%N with false in A. rewrite (W _ _ "x") in A by auto. cbv iota beta in A; rewrite pre_nil in A.
    apply G in A. destruct tok; discriminate.
  - exfalso. cbn [step] in A. change (120 =? c_star)%N with false in A. rewrite (W _ _ "x") in A by auto. cbv iota beta in A; rewrite pre_nil in A.
    apply G in A. destruct tok; discriminate.
  - exfalso. cbn [step] in A. change (120 =? c_slash)%N with false in A. rewrite (W _ _ "x") in A by auto. cbv iota beta in A; rewrite pre_nil in A.
    apply G in A. destruct tok; discriminate.
  - exfalso. cbn [step] in A, B. change (120 =? c_nl)%N with false in A. change (121 =? c_nl)%N with false in B. cbv iota beta in A, B; rewrite !pre_nil in A, B.
    rewrite A in B. injection B as B. apply snoc_inj in B. discriminate.
  - exfalso. discriminate A.
  - exfalso. cbn [step] in A. change (120 =? c_slash)%N with false in A. discriminate A.
  - exfalso. discriminate A.
  - exfalso. clear W L F G. cbn [step] in A, B. change (120 =? c_nl)%N with false in A. change (121 =? c_nl)%N with false in B.
    destruct (N.eqb_spec 120 q) as [<-|N0]; [discriminate B|discriminate A].
  - exfalso. discriminate A.
Qed.

(** From between two tokens, a token is read. *)
Lemma scan_lexeme : forall d m x b, m = M0 "" \/ m = M2 "" -> lexeme d x -> token_ends d b -> scalars b ->
  scan d m (x ++ b) = after_toks [utf8 x] (scan d (M0 "") b).
Proof.
  intros d m x b M [W|(q & body & -> & Q & P & V)] E SB.
  - pose proof (word_not_nl _ _ W) as NL0. unfold word_ok in W. rewrite !andb_true_iff in W. destruct W as [[W0 W1] W2].
    destruct x as [|c w]; [discriminate|]. pose proof (word_scalars _ _ W1) as SW.
    cbn [forallb] in W1. apply andb_true_iff in W1 as [C W1].
    assert (H1 : exists m1, step d m c = Go [] false m1 /\ holds [c] m1).
    { destruct M as [-> | ->].
      - apply (holds_more d []); auto. left; reflexivity.
      - exists (M0 (utf8 [c])). split; [|left; reflexivity]. cbn [step]. rewrite step2_word by auto. change [c] with ([] ++ [c]). now rewrite utf8_snoc. }
    destruct H1 as (m1 & S1 & H1).
    destruct (scan_word d b w [c] m1 H1) as (m2 & H2 & E2); [discriminate|exact W1|exact W2|].
    cbn [app scan]. rewrite S1, pre_nil, E2. cbn [app] in H2.
    destruct b as [|e b].
    + cbn [scan]. assert (F : finish m2 = TOk [utf8 (c :: w)]).
      { destruct H2 as [->|[w' [[H ->]|[[H ->]|[H ->]]]]]; cbn [finish]; rewrite ?H, ?utf8_snoc; auto.
        apply f_equal. apply flush_nonempty, utf8_nonempty. discriminate. }
      rewrite F. reflexivity.
    + inversion SB as [|? ? SE SB']; subst. apply scan_stop; auto.
      * apply utf8_nonempty. discriminate.
      * apply holds_step; auto. apply not_true_is_false. intros K. apply (comment_word d) in K. cbn in E. congruence.
  - assert (H : step d m q = Go [] false (MQuote q (utf8_rune q) [])).
    { apply one_of_spec in Q. cbn [In] in Q. destruct M as [-> | ->], Q as [<-|[<-|[<-|[]]]], d; try reflexivity; now elim P. }
    change ((q :: body ++ [q]) ++ b) with (q :: (body ++ [q]) ++ b). rewrite <- app_assoc. cbn [app scan]. rewrite H, pre_nil, scan_quote by auto.
    change (utf8 (q :: body ++ [q])) with (utf8_rune q ++ utf8 (body ++ [q]))%string. apply pre_after.
    unfold count_nl. cbn [filter]. replace (is_nl (utf8_rune q ++ utf8 (body ++ [q]))) with false; [reflexivity|].
    apply one_of_spec in Q. cbn [In] in Q. destruct Q as [<-|[<-|[<-|[]]]]; reflexivity.
Qed.
Lemma lexeme_scalars : forall d x, lexeme d x -> scalars x.
Proof.
  intros d x [W|(q & body & -> & Q & P & V)].
  - unfold word_ok in W. rewrite !andb_true_iff in W. destruct W as [[_ W] _]. eapply word_scalars, W.
  - assert (SQ : is_scalar q = true) by (apply one_of_spec in Q; cbn [In] in Q; destruct Q as [<-|[<-|[<-|[]]]]; reflexivity).
    constructor; auto. apply Forall_app. split; [now apply plain_scalars|repeat constructor; auto].
Qed.
(** Of two texts that differ in one token, both have the same other tokens, or both have the same lexical error. *)
Theorem replaced_any : forall d a x x' b, scalars a -> scalars b -> token_begins d a -> token_ends d b -> lexeme d x -> lexeme d x' ->
  let ddl := utf8 (a ++ x ++ b) in let ddl' := utf8 (a ++ x' ++ b) in
  (exists before after, lexes d ddl (before ++ utf8 x :: after) /\ lexes d ddl' (before ++ utf8 x' :: after)) \/
  (exists line near, rejected ddl d line near /\ rejected ddl' d line near).
Proof.
  intros d a x x' b SA SB (toks & A & B) E X X' ddl ddl'.
  assert (SC : forall x, scalars x -> runes_of (utf8 (a ++ x)) = (a ++ x)%list) by (intros y Y; apply runes_of_utf8, Forall_app; auto).
  apply lexed_scan in A, B. rewrite SC in A, B by (repeat constructor; auto).
  destruct (scan_split d a (M0 "")) as [(out & n & m & H)|(n & near & H)]; [|rewrite H in A; discriminate]. rewrite H in A, B.
  pose proof (word_begins_mode _ _ _ _ _ A B) as M.
  assert (Y : forall y, lexeme d y -> scan d (M0 "") (runes_of (utf8 (a ++ y ++ b))) = pre_n out n (after_toks [utf8 y] (scan d (M0 "") b))).
  { intros y Y. rewrite SC by (apply Forall_app; split; [eapply lexeme_scalars, Y|exact SB]). rewrite H. now rewrite scan_lexeme. }
  assert (Z : forall y, lexeme d y -> count_nl [utf8 y] = 0).
  { intros y Y0. unfold count_nl. cbn [filter]. replace (is_nl (utf8 y)) with false; [reflexivity|]. symmetry.
    destruct Y0 as [W|(q & body & -> & Q & P & V)]; [eapply word_not_nl, W|].
    apply one_of_spec in Q. cbn [In] in Q. destruct Q as [<-|[<-|[<-|[]]]]; reflexivity. }
  destruct (scan d (M0 "") b) as [l|k near] eqn:EB.
  - left. exists out, l. split; apply lexed_scan; unfold ddl, ddl'; rewrite Y by auto; reflexivity.
  - right. exists (S (n + k)), near. split; apply returns_stage; apply st_lex; unfold ddl, ddl', lexed; rewrite Y by auto; cbn [after_toks pre_n]; rewrite Z by auto; reflexivity.
Qed.
(** ... so that tokens are related if these two are. *)
Corollary replaced_related : forall d (S : string -> string -> Prop) a x x' b, (forall t, S t t) -> scalars a -> scalars b ->
  token_begins d a -> token_ends d b -> lexeme d x -> lexeme d x' -> S (utf8 x) (utf8 x') ->
  let ddl := utf8 (a ++ x ++ b) in let ddl' := utf8 (a ++ x' ++ b) in
  (exists toks toks', lexes d ddl toks /\ lexes d ddl' toks' /\ Forall2 S toks toks') \/
  (exists line near, rejected ddl d line near /\ rejected ddl' d line near).
Proof.
  intros d S a x x' b S_refl SA SB TB TE X X' SX ddl ddl'.
  destruct (replaced_any d a x x' b SA SB TB TE X X') as [(p & q & L & L')|K]; [left|right; exact K].
  do 2 eexists. split; [exact L|]. split; [exact L'|].
  assert (Z : forall l, Forall2 S l l) by (induction l; constructor; auto).
  apply Forall2_app; auto.
Qed.

(** ** The whole answer *)
Lemma replaced_answer : forall d (S : string -> string -> Prop) (T : table -> table -> Prop), (forall t, S t t) ->
  (forall ddl ddl' toks toks' ts, lexes d ddl toks -> lexes d ddl' toks' -> Forall2 S toks toks' -> accepted ddl d ts ->
     exists ts', accepted ddl' d ts' /\ Forall2 T ts ts') ->
  (forall ddl ddl' toks toks' line near, lexes d ddl toks -> lexes d ddl' toks' -> Forall2 S toks toks' -> rejected ddl d line near ->
     exists near', rejected ddl' d line near' /\ S near near') ->
  (forall ddl ddl' toks toks', lexes d ddl toks -> lexes d ddl' toks' -> Forall2 S toks toks' -> diverges ddl d -> diverges ddl' d) ->
  forall a x x' b, scalars a -> scalars b -> token_begins d a -> token_ends d b -> lexeme d x -> lexeme d x' -> S (utf8 x) (utf8 x') ->
  answered_alike S T d (utf8 (a ++ x ++ b)) (utf8 (a ++ x' ++ b)).
Proof.
  intros d S T S_refl HA HR HD a x x' b SA SB TB TE X X' SX.
  destruct (replaced_related d S a x x' b S_refl SA SB TB TE X X' SX) as [(toks & toks' & L & L' & F)|(line & near & R & R')].
  - repeat split; intros; eauto.
  - repeat split.
    + intros ts A. destruct (returns_det _ _ _ _ _ _ A R) as [_ E]. discriminate.
    + intros l0 n0 A. destruct (returns_det _ _ _ _ _ _ A R) as [_ E]. injection E as -> ->. eauto.
    + intros D. destruct R as [f R]. rewrite D in R. discriminate.
Qed.
Theorem renamed_place : forall d R a x x' b, scalars a -> scalars b -> token_begins d a -> token_ends d b -> lexeme d x -> lexeme d x' ->
  renamed d R (utf8 x) (utf8 x') ->
  answered_alike (renamed d R) (table_renamed d R (type_renamed d R)) d (utf8 (a ++ x ++ b)) (utf8 (a ++ x' ++ b)).
Proof.
  intros d R. apply replaced_answer; [now left|..]; intros ddl ddl' toks toks'.
  - intros ts. apply RenameConvert.renamed_accepted.
  - intros line near. apply RenameVerdict.renamed_rejected.
  - apply RenameConvert.renamed_diverges.
Qed.
Theorem numbered_place : forall d R a x x' b, scalars a -> scalars b -> token_begins d a -> token_ends d b -> lexeme d x -> lexeme d x' ->
  numbered d R (utf8 x) (utf8 x') ->
  answered_alike (numbered d R) (table_numbered d R) d (utf8 (a ++ x ++ b)) (utf8 (a ++ x' ++ b)).
Proof.
  intros d R. apply replaced_answer; [now left|..]; intros ddl ddl' toks toks'.
  - intros ts. apply NumberConvert.numbered_accepted.
  - intros line near. apply NumberFacts.numbered_rejected.
  - apply NumberConvert.numbered_diverges.
Qed.
Theorem swapped_place : forall d R a x x' b, scalars a -> scalars b -> token_begins d a -> token_ends d b -> lexeme d x -> lexeme d x' ->
  swapped d R (utf8 x) (utf8 x') ->
  answered_alike (swapped d R) (table_swapped d R) d (utf8 (a ++ x ++ b)) (utf8 (a ++ x' ++ b)).
Proof.
  intros d R. apply replaced_answer; [now left|..]; intros ddl ddl' toks toks'.
  - intros ts. apply LiteralConvert.swapped_accepted.
  - intros line near. apply LiteralFacts.swapped_rejected.
  - apply LiteralConvert.swapped_diverges.
Qed.
Theorem respelled_place : forall d a x x' b, scalars a -> scalars b -> token_begins d a -> token_ends d b -> lexeme d x -> lexeme d x' ->
  respelled (utf8 x) (utf8 x') ->
  answered_alike respelled table_cased d (utf8 (a ++ x ++ b)) (utf8 (a ++ x' ++ b)).
Proof.
  intros d. apply replaced_answer; [now left|..]; intros ddl ddl' toks toks'.
  - intros ts. apply CasedConvert.respelled_accepted.
  - intros line near. apply Respell.respelled_rejected.
  - apply CasedConvert.respelled_diverges.
Qed.
