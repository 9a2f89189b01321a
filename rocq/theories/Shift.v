(** Line breaks before a text. *)
From Coq Require Import String Ascii ZArith List Bool Arith NArith Lia.
From Verif Require Import GoStr GoNum Types Lexer VBase Exec Fuel Scan Spec Pipe Tokens Utf8 Meaning Lexical LexicalFacts Lines LineFacts CutError.
From Verif Require Layout.
Import ListNotations.
Open Scope nat_scope.
Open Scope string_scope.
Open Scope list_scope.

Fixpoint breaks (k : nat) : string := match k with 0 => "" | S k => String "010" (breaks k) end.

Lemma lexed_break : forall d s, lexed d (runes_of (String "010" s)) =
  match lexed d (runes_of s) with LexOk l => LexOk (NL :: l) | LexErr e => LexErr (mk_verror (S (err_line e)) (err_near e)) | LexOutOfFuel => LexOutOfFuel end.
Proof.
  intros d s. change (runes_of (String "010" s)) with (10%N :: runes_of s). unfold lexed. cbn [scan].
  change (step d (M0 "") 10%N) with (Go [NL] true (M0 "")). cbn iota. destruct (scan d (M0 "") (runes_of s)); reflexivity.
Qed.
Lemma strip_break : forall l, strip (NL :: l) = strip l.
Proof. reflexivity. Qed.
Definition starts (l : list string) : nat := match l with t :: _ => if is_nl t then 1 else 0 | [] => 0 end.
Lemma line_break_of : forall l k, line_of (NL :: l) k = line_of l k + starts l.
Proof.
  intros l k. unfold line_of. change (is_nl NL) with true. cbn iota. destruct l as [|t l]; [cbn; lia|]. cbn [starts].
  destruct (is_nl t) eqn:E; [|lia]. cbn [nls_before]. rewrite E. lia.
Qed.
(** one line break *)
Lemma shift_lexical : forall d s line near, (forall toks, ~ lexes d s toks) -> rejected s d line near -> rejected (String "010" s) d (S line) near.
Proof.
  intros d s line near N R. apply returns_stage in R. apply returns_stage. inversion R as [e L|toks rest L V|]; subst.
  - pose proof (lexed_break d s) as B. rewrite L in B. exact (st_lex _ _ _ B).
  - contradiction (N toks). now apply lexes_eq.
Qed.
Lemma shift_tokens : forall d s line near toks, lexes d s toks -> rejected s d line near -> rejected (String "010" s) d (line + starts toks) near.
Proof.
  intros d s line near toks X R. apply lexes_eq in X. apply returns_stage in R. apply returns_stage. inversion R as [e L|toks0 rest L V|]; subst; [congruence|].
  rewrite X in L. injection L as <-. pose proof (lexed_break d s) as B. rewrite X in B. rewrite <- line_break_of. exact (st_validate _ _ _ _ B V).
Qed.
Lemma decide : forall d s, (exists toks, lexes d s toks) \/ forall toks, ~ lexes d s toks.
Proof.
  intros d s. destruct (lexed d (runes_of s)) as [l|e|] eqn:E; [left; exists l; now apply lexes_eq|right|right]; intros toks H; apply lexes_eq in H; congruence.
Qed.
Lemma lexes_break : forall d s toks, lexes d (String "010" s) toks <-> exists l, toks = NL :: l /\ lexes d s l.
Proof.
  intros d s toks. rewrite lexes_eq, lexed_break. split.
  - destruct (lexed d (runes_of s)) as [l|e|] eqn:E; try discriminate. intros H. injection H as <-. exists l. split; auto. now apply lexes_eq.
  - intros (l & -> & H). apply lexes_eq in H. now rewrite H.
Qed.
(** after a first line break every other one is counted *)
Theorem shift_counted : forall d s line near k, rejected (String "010" s) d line near -> rejected (breaks k ++ String "010" s) d (line + k) near.
Proof.
  intros d s line near k. revert line. induction k as [|k IH]; intros line R; cbn [breaks append]; [now rewrite Nat.add_0_r|]. apply IH in R.
  assert (E : exists u, (breaks k ++ String "010" s)%string = String "010" u) by (destruct k; cbn [breaks append]; eauto). destruct E as [u E]. rewrite E in *.
  destruct (decide d (String "010" u)) as [(toks & X)|N].
  - pose proof (shift_tokens _ _ _ _ _ X R) as H. apply lexes_break in X as (l & -> & _). cbn [starts] in H. change (is_nl NL) with true in H.
    now replace (line + S k) with (line + k + 1) by lia.
  - pose proof (shift_lexical _ _ _ _ N R) as H. now replace (line + S k) with (S (line + k)) by lia.
Qed.
Lemma breaks_S : forall k s, (breaks (S k) ++ s)%string = (breaks k ++ String "010" s)%string.
Proof. induction k as [|k IH]; intros s; [reflexivity|]. cbn [breaks append] in *. now rewrite <- IH. Qed.
Theorem shift_any : forall d s line near k, rejected s d line near ->
  rejected (breaks (S k) ++ s) d (line + k) near \/ rejected (breaks (S k) ++ s) d (line + k + 1) near.
Proof.
  intros d s line near k R. rewrite breaks_S. destruct (decide d s) as [(toks & X)|N].
  - pose proof (shift_tokens _ _ _ _ _ X R) as H. apply (shift_counted _ _ _ _ k) in H. destruct toks as [|t l]; cbn [starts] in H; [|destruct (is_nl t)].
    + left. now rewrite Nat.add_0_r in H.
    + right. now replace (line + k + 1) with (line + 1 + k) by lia.
    + left. now rewrite Nat.add_0_r in H.
  - right. pose proof (shift_lexical _ _ _ _ N R) as H. apply (shift_counted _ _ _ _ k) in H. now replace (line + k + 1) with (S line + k) by lia.
Qed.
Theorem shift_illegal : forall d s line near k, (forall toks, ~ lexes d s toks) -> rejected s d line near -> rejected (breaks k ++ s) d (line + k) near.
Proof.
  intros d s line near [|k] N R; [now rewrite Nat.add_0_r|]. rewrite breaks_S. replace (line + S k) with (S line + k) by lia.
  apply shift_counted. now apply shift_lexical.
Qed.
Theorem shift_letter : forall d s c rs toks line near k, runes_of s = c :: rs -> letter c = true -> lexes d s toks -> rejected s d line near ->
  rejected (breaks (S k) ++ s) d (line + k) near.
Proof.
  intros d s c rs toks line near k E C X R. rewrite breaks_S. apply shift_counted. pose proof (shift_tokens _ _ _ _ _ X R) as H.
  apply lexes_reads in X. rewrite E in X. destruct (first_token _ _ _ _ _ C X) as (t & l & -> & T). cbn [starts] in H. rewrite T in H. now rewrite Nat.add_0_r in H.
Qed.
