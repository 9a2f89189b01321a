(** Other strings in a text that is laid out. *)
From Coq Require Import String Ascii List Bool Arith NArith Lia.
From Verif Require Import GoStr Types Lexer VBase Exec Grammar Ast Parse Spec Layout LayoutFacts Literal LiteralFacts Utf8 Scan Pipe LexicalFacts.
Import ListNotations.
Open Scope nat_scope.
Open Scope string_scope.

Lemma quoted_token : forall d q body, In (utf8 [q]) (str_quotes d) -> string_token d (utf8 (q :: body ++ [q])).
Proof.
  intros d q body I.
  assert (X : exists c, utf8 [q] = String c "").
  { destruct d; cbn [str_quotes In] in I; repeat (destruct I as [I|I]; [rewrite <- I; eauto|]); contradiction. }
  destruct X as [c C]. exists c, (utf8 body). rewrite C in I. split; auto.
  change (q :: body ++ [q])%list with ([q] ++ (body ++ [q]))%list. now rewrite !utf8_app, C.
Qed.
Lemma layout_swapped : forall d a q body q' body' b, In (utf8 [q]) (str_quotes d) -> In (utf8 [q']) (str_quotes d) ->
  Forall2 (swapped d (fun _ _ => True)) (layout_tokens (a ++ IQuoted q body :: b)) (layout_tokens (a ++ IQuoted q' body' :: b)).
Proof.
  intros d a q body q' body' b I I'. unfold layout_tokens. rewrite !flat_map_app.
  assert (Z : forall l, Forall2 (swapped d (fun _ _ => True)) l l) by (induction l; constructor; auto; now left).
  apply Forall2_app; auto. cbn [flat_map]. apply Forall2_app; auto. constructor; [|constructor].
  right. split; auto. split; now apply quoted_token.
Qed.
Theorem swapped_text : forall d a q body q' body' b, In (utf8 [q]) (str_quotes d) -> In (utf8 [q']) (str_quotes d) ->
  layout d (a ++ IQuoted q body :: b) = true -> layout d (a ++ IQuoted q' body' :: b) = true ->
  exists toks toks', lexes d (text_of (a ++ IQuoted q body :: b)) toks /\ lexes d (text_of (a ++ IQuoted q' body' :: b)) toks' /\
    Forall2 (swapped d (fun _ _ => True)) toks toks'.
Proof.
  intros d a q body q' body' b I I' L L'. do 2 eexists. split; [now apply layout_lexes|]. split; [now apply layout_lexes|]. now apply layout_swapped.
Qed.

(** ** Any text *)
Definition pre_n (out : list string) (n : nat) (r : lout) : lout :=
  match r with TOk l => TOk (out ++ l)%list | TErr k near => TErr (n + k) near end.
Lemma scan_split : forall d a m,
  (exists out n m', forall x, scan d m (a ++ x) = pre_n out n (scan d m' x)) \/ (exists n near, forall x, scan d m (a ++ x) = TErr n near).
Proof.
  intros d. induction a as [|c a IH]; intros m.
  - left. exists [], 0, m. intros x. cbn [app]. now destruct (scan d m x).
  - cbn [app scan]. destruct (step d m c) as [o b m1|near]; [|right; exists 0, near; auto].
    destruct (IH m1) as [(out & n & m' & H)|(n & near & H)].
    + left. exists (o ++ out)%list, (if b then S n else n), m'. intros x. rewrite H. destruct (scan d m' x); cbn; [now rewrite app_assoc|now destruct b].
    + right. exists (if b then S n else n), near. intros x. now rewrite H.
Qed.
Lemma step2_mark : forall d tok q, q = 34%N \/ q = 39%N -> step2 d tok q = Go (flush tok) false (MQuote q (utf8_rune q) []).
Proof. intros d tok q [-> | ->]; reflexivity. Qed.
Lemma mark_plain : forall q, q = 34%N \/ q = 39%N ->
  (q =? c_minus)%N = false /\ (q =? c_slash)%N = false /\ (q =? c_star)%N = false /\ (q =? c_nl)%N = false /\ is_quote q = true.
Proof. intros q [-> | ->]; repeat split. Qed.
Lemma snoc_inj : forall A (l l' : list A) a a', (l ++ [a] = l' ++ [a'])%list -> a = a'.
Proof. intros A l l' a a' H. now apply app_inj_tail in H. Qed.
Lemma begins_mode : forall d q m out n toks, q = 34%N \/ q = 39%N ->
  pre_n out n (scan d m [q; q]) = TOk (toks ++ [utf8 [q; q]]) -> pre_n out n (scan d m [q; 120%N; q]) = TOk (toks ++ [utf8 [q; 120%N; q]]) ->
  exists f, forall rest, scan d m (q :: rest) = pre f false (scan d (MQuote q (utf8_rune q) []) rest).
Proof.
  intros d q m out n toks Q A B. destruct (mark_plain q Q) as (Q1 & Q2 & Q3 & Q4 & Q5).
  destruct m as [tok|tok|tok|tok|tok|m| | | |q0 str stk|q0 str stk].
  1-5: eexists; intros rest; cbn [scan step]; rewrite ?Q1, ?Q2, ?Q3, step2_mark by auto; reflexivity.
  - exfalso. assert (E : utf8 [q; q] <> utf8 [q; 120%N; q]) by (destruct Q as [-> | ->]; vm_compute; discriminate). apply E, (snoc_inj _ toks toks).
    remember (toks ++ [utf8 [q; q]])%list as l1. remember (toks ++ [utf8 [q; 120%N; q]])%list as l2. clear - Q A B.
    destruct Q as [-> | ->]; cbn in A, B; destruct (finish m); cbn in A, B; congruence.
  - exfalso. destruct Q as [-> | ->]; vm_compute in A; discriminate A.
  - exfalso. destruct Q as [-> | ->]; vm_compute in A; discriminate A.
  - exfalso. destruct Q as [-> | ->]; vm_compute in A; discriminate A.
  - exfalso. cbn [scan step] in A. rewrite Q4 in A. destruct (N.eqb_spec q q0) as [<-|N0].
    + destruct stk as [|[q1 s1] stk]; cbn [close] in A.
      * cbn [scan step] in A. rewrite Q1, Q2, Q3, step2_mark in A by auto. discriminate A.
      * cbn [scan step] in A. discriminate A.
    + rewrite Q5 in A. cbn [scan step] in A. rewrite Q4, N.eqb_refl in A. cbn [close] in A. discriminate A.
  - cbn [scan step] in A, B. cbn [scan step] in A, B. rewrite Q4 in A. destruct (N.eqb_spec q q0) as [<-|N0].
    + destruct stk as [|[q1 s1] stk]; cbn [close] in A; [|discriminate A].
      change (utf8 [q; q]) with (utf8_rune q ++ utf8 [q]) in A. cbn [scan finish flush pre pre_n app] in A.
      assert (E : str ++ utf8_rune q = utf8_rune q ++ utf8 [q]).
      { cbn in A. injection A as A. now apply snoc_inj in A. }
      assert (str = utf8_rune q) as ->.
      { destruct Q as [-> | ->]; destruct str as [|x [|y s]]; vm_compute in E; try discriminate; inversion E; subst; try reflexivity; destruct s; discriminate. }
      exists []. intros rest. reflexivity.
    + exfalso. rewrite Q5 in A. discriminate A.
Qed.
Lemma mark_of : forall d q, is_scalar q = true -> In (utf8 [q]) (str_quotes d) -> q = 34%N \/ q = 39%N.
Proof.
  intros d q S I. assert (X : runes_of (utf8 [q]) = [q]) by (apply runes_of_utf8; constructor; auto; constructor).
  destruct d; cbn [str_quotes In] in I; repeat (destruct I as [I|I]; [rewrite <- I in X; vm_compute in X; injection X as <-; auto|]); contradiction.
Qed.
Lemma plain_scalars : forall body, verbatim body = true -> scalars body.
Proof.
  induction body as [|c body IH]; intros P; constructor; unfold verbatim in P; cbn [forallb] in P; apply andb_true_iff in P as [P P']; [|now apply IH].
  apply andb_true_iff in P as [P _]. now apply andb_true_iff in P as [P _].
Qed.
Theorem swapped_any : forall d a q body body' b, scalars a -> is_scalar q = true -> scalars b -> In (utf8 [q]) (str_quotes d) ->
  string_begins d q a -> verbatim body = true -> verbatim body' = true ->
  let ddl := utf8 (a ++ q :: body ++ q :: b) in let ddl' := utf8 (a ++ q :: body' ++ q :: b) in
  (exists toks toks', lexes d ddl toks /\ lexes d ddl' toks' /\ Forall2 (swapped d (fun _ _ => True)) toks toks') \/
  (exists line near, rejected ddl d line near /\ rejected ddl' d line near).
Proof.
  intros d a q body body' b SA SQ SB I (toks & A & B) P P' ddl ddl'. pose proof (mark_of d q SQ I) as Q.
  assert (SC : forall x, scalars x -> runes_of (utf8 (a ++ x)) = (a ++ x)%list) by (intros x X; apply runes_of_utf8, Forall_app; auto).
  assert (S3 : forall x, scalars x -> scalars (q :: x ++ q :: b)) by (intros x X; constructor; auto; apply Forall_app; split; auto; constructor; auto).
  apply lexed_scan in A, B. rewrite SC in A, B by (repeat constructor; auto).
  destruct (scan_split d a (M0 "")) as [(out & n & m & H)|(n & near & H)]; [|rewrite H in A; discriminate]. rewrite H in A, B.
  destruct (begins_mode _ _ _ _ _ _ Q A B) as [f F].
  assert (X : forall x, verbatim x = true -> scan d (M0 "") (runes_of (utf8 (a ++ q :: x ++ q :: b))) =
    pre_n (out ++ f ++ [utf8 (q :: x ++ [q])])%list n (scan d (M0 "") b)).
  { intros x PX. rewrite SC by (apply S3, plain_scalars, PX). rewrite H, F, (scan_quote d q b x _); [|destruct Q as [-> | ->]; reflexivity|exact PX].
    change (utf8 (q :: x ++ [q])) with (utf8_rune q ++ utf8 (x ++ [q])).
    destruct (scan d (M0 "") b); cbn; rewrite <- ?app_assoc; reflexivity. }
  destruct (scan d (M0 "") b) as [l|k near] eqn:E.
  - left. exists ((out ++ f ++ [utf8 (q :: body ++ [q])]) ++ l)%list, ((out ++ f ++ [utf8 (q :: body' ++ [q])]) ++ l)%list.
    split; [apply lexed_scan, X, P|]. split; [apply lexed_scan, X, P'|].
    assert (Z : forall l, Forall2 (swapped d (fun _ _ => True)) l l) by (induction l0; constructor; auto; now left).
    apply Forall2_app; auto. apply Forall2_app; auto. apply Forall2_app; auto. constructor; [|constructor].
    right. split; auto. split; now apply quoted_token.
  - right. exists (S (n + k)), near. split; apply returns_stage; apply st_lex; unfold ddl, ddl', lexed; rewrite X by auto; reflexivity.
Qed.
