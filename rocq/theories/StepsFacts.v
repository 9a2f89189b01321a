(** How many passes a call needs before it returns. *)
From Coq Require Import String Ascii ZArith NArith List Bool Arith Lia.
From Verif Require Import GoStr Types Lexer VBase Exec Grammar GrammarFacts Ast Converter Parse Fuel Scan Spec Pipe
  Safe Tokens Accept Meaning Decide Utf8 Layout Lexical LexicalFacts SizeFacts.
Import ListNotations.
Open Scope nat_scope.
Open Scope string_scope.
Open Scope list_scope.

(** ** The tokens of a text *)

Lemma quotation_count : forall q body n s, quotation q body n s -> n + 1 <= List.length body.
Proof. intros q body n s H. induction H; cbn [List.length]; rewrite ?app_length; cbn [List.length] in *; lia. Qed.
Lemma block_count : forall k body, List.length body <= k -> block_breaks body <= List.length body.
Proof.
  induction k as [|k IH]; intros [|c body] K; cbn [List.length] in *; try (cbn; lia). cbn [block_breaks].
  destruct (c =? nl)%N; [pose proof (IH body ltac:(lia)); lia|]. destruct (_ || _)%bool.
  - destruct body as [|x body]; [cbn; lia|]. cbn [List.length] in *. pose proof (IH body ltac:(lia)). lia.
  - pose proof (IH body ltac:(lia)). lia.
Qed.
Lemma reads_count : forall d fresh rs r, reads d fresh rs r -> forall toks, r = Tokens toks -> List.length toks <= List.length rs.
Proof.
  intros d fresh rs r H.
  induction H; intros toks E; try discriminate E;
    try (injection E as <-; cbn [List.length]; lia);
    try (destruct r as [l'|]; [|discriminate E]; injection E as <-; specialize (IHreads _ eq_refl));
    cbn [List.length app] in *; rewrite ?app_length, ?repeat_length; cbn [List.length app] in *; rewrite ?app_length; cbn [List.length app] in *; try lia.
  - destruct w; [contradiction|]. cbn [List.length]. lia.
  - apply quotation_count in H0. rewrite ?repeat_length. cbn [List.length]. lia.
  - pose proof (block_count _ body (le_n _)). rewrite ?repeat_length. lia.
Qed.
Lemma lexed_count : forall d ddl toks, lexed d (runes_of ddl) = LexOk toks -> List.length toks <= List.length (runes_of ddl).
Proof.
  intros d ddl toks H. assert (X : lexes d ddl toks) by (exists (enough ddl); now rewrite Lex_enough).
  apply lexes_reads in X. exact (reads_count _ _ _ _ X _ eq_refl).
Qed.

(** ** The tokens handed to the converter *)

Open Scope Z_scope.
Fixpoint more {A} (a : Z) (g : gr A) : Z :=
  match g with
  | Put o => Z.of_nat (List.length o)
  | One true _ => 1 - a
  | One false _ => - a
  | Eps | NotNext _ | IsNext _ | Brackets _ | Skip | While _ _ | WhileU _ _ _ => 0
  | SepBy _ g | Map _ g => more a g
  | Seq g h => more a g + more a h
  | Cond _ g h => Z.max (more a g) (more a h)
  end.
Fixpoint covers {A} (a : Z) (g : gr A) : bool :=
  match g with
  | Eps | Put _ | One _ _ | NotNext _ | IsNext _ | Brackets _ | Skip => true
  | Seq g h | Cond _ g h => covers a g && covers a h
  | Map _ g => covers a g
  | While _ g | WhileU _ _ g | SepBy _ g => covers a g && (more a g <=? 0)
  end.
Notation cnt l := (Z.of_nat (List.length l)).
Lemma lang_count : forall a, 1 <= a -> forall A (g : gr A), covers a g = true ->
  forall l nxt o v, lang g l nxt o v -> cnt o <= a * cnt l + more a g.
Proof.
  intros a AB.
  assert (KK : forall k (l : list string), cnt (kept k l) <= a * cnt l) by (intros [] l; cbn [kept List.length]; nia).
  assert (ST : forall A (L : list string -> option string -> list string -> A -> Prop) c,
    c <= 0 -> (forall l nxt o v, L l nxt o v -> cnt o <= a * cnt l + c) ->
    forall l nxt o vs hs, star L l nxt o vs hs -> cnt o <= a * cnt l).
  { intros A L c C H l nxt o vs hs S. induction S as [|t l1 l2 nxt o1 o2 v vs hs H1 H2 IH]; [cbn; lia|].
    apply H in H1. rewrite app_comm_cons, !app_length. lia. }
  induction g; cbn [covers more lang]; intros P l nxt o val H.
  - destruct H as [-> ->]. cbn. lia.
  - destruct H as [-> ->]. cbn [List.length]. lia.
  - destruct H as (M & -> & ->). destruct keep; cbn [kept List.length]; lia.
  - destruct H as (-> & -> & _). cbn. lia.
  - destruct H as (-> & -> & _). cbn. lia.
  - destruct H as (l1 & _ & _ & -> & _). pose proof (KK keep l). lia.
  - destruct H as (_ & -> & _). cbn [List.length]. nia.
  - apply andb_true_iff in P as [P1 P2]. destruct H as (l1 & l2 & o1 & o2 & -> & -> & H1 & H2).
    apply IHg1 in H1; auto. apply IHg2 in H2; auto. rewrite !app_length. lia.
  - destruct H as (x & _ & H). eauto.
  - apply andb_true_iff in P as [P1 P2]. destruct H as [H|H]; [apply IHg1 in H|apply IHg2 in H]; auto; lia.
  - apply andb_true_iff in P as [P1 P2]. apply Z.leb_le in P2. destruct H as (hs & S). eapply ST in S; eauto. lia.
  - apply andb_true_iff in P as [P1 P2]. apply Z.leb_le in P2. destruct H as (hs & S & _). eapply ST in S; eauto. lia.
  - apply andb_true_iff in P as [P1 P2]. apply Z.leb_le in P2.
    induction H as [l nxt o v H|l1 l2 nxt o1 o2 v vs H1 H2 IH]; eauto.
    apply IHg in H1; auto. change ("," :: l2) with ([","] ++ l2). pose proof (KK keep [","]). rewrite !app_length. lia.
Qed.
Lemma script_covers : forall d, covers 2 (script d) = true /\ more 2 (script d) = 0.
Proof. intros []; vm_compute; auto. Qed.
Close Scope Z_scope.

(** ** Results *)

Lemma runes_count : forall ddl, List.length (runes_of ddl) <= String.length ddl.
Proof.
  fix IH 1. intros [|b0 s1]; [cbn; lia|]. cbn [runes_of].
  destruct (N_of_ascii b0 <? 128)%N. { pose proof (IH s1). cbn [List.length String.length]; unfold rune in *; lia. }
  assert (Z : List.length (65533%N :: runes_of s1) <= String.length (String b0 s1)) by (pose proof (IH s1); cbn [List.length String.length]; unfold rune in *; lia).
  destruct (in_range _ _ b0).
  { destruct s1 as [|b1 s2]; auto. destruct (in_range _ _ b1); auto. pose proof (IH s2). cbn [List.length String.length]; unfold rune in *; lia. }
  destruct (in_range _ _ b0).
  { destruct s1 as [|b1 [|b2 s3]]; auto. match goal with |- context [if ?b then _ else _] => destruct b end; auto.
    pose proof (IH s3). cbn [List.length String.length]; unfold rune in *; lia. }
  destruct (in_range _ _ b0).
  { destruct s1 as [|b1 [|b2 [|b3 s4]]]; auto. match goal with |- context [if ?b then _ else _] => destruct b end; auto.
    pose proof (IH s4). cbn [List.length String.length]; unfold rune in *; lia. }
  exact Z.
Qed.
Lemma depth_4 : forall d, depth (script d) = 4.
Proof. intros []; vm_compute; reflexivity. Qed.
Lemma fuel_linear : forall d ddl, fuel_for d ddl <= 4 * List.length (runes_of ddl) + 9.
Proof.
  intros d ddl. unfold fuel_for. rewrite Lex_enough by lia.
  destruct (lexed d (runes_of ddl)) as [toks|e|] eqn:L; unfold enough; try lia.
  pose proof (lexed_count _ _ _ L) as C. cbv zeta. rewrite depth_4.
  destruct (exec (prog (script d) _) (strip toks)) as [[] rest out|rest| |] eqn:E; try lia.
  assert (V : verdict d (strip toks) (EOk tt rest out)) by (split; [discriminate|eauto]).
  apply verdict_ok in V as [-> [v V]]. destruct (script_covers d) as [P G].
  pose proof (lang_count 2 ltac:(lia) _ _ P _ _ _ _ V) as K. rewrite G in K. pose proof (strip_length toks). lia.
Qed.
Lemma enough_passes : forall d ddl n m, 4 * List.length (runes_of ddl) + 9 <= m -> Parse n ddl d <> NoFuel -> Parse m ddl d = Parse n ddl d.
Proof.
  intros d ddl n m M N. pose proof (fuel_enough d ddl n N) as E. pose proof (fuel_linear d ddl).
  destruct (Parse_mono (fuel_for d ddl) m ddl d ltac:(lia)) as [X|X]; congruence.
Qed.
Theorem returns_within : forall d ddl ts err n, 4 * List.length (runes_of ddl) + 9 <= n ->
  (returns ddl d ts err <-> Parse n ddl d = Returns ts err).
Proof.
  intros d ddl ts err n L. split; [|intros H; now exists n]. intros [m H]. rewrite (enough_passes d ddl m n); auto. congruence.
Qed.
Theorem diverges_beyond : forall d ddl n, 4 * List.length (runes_of ddl) + 9 <= n -> (diverges ddl d <-> Parse n ddl d = NoFuel).
Proof.
  intros d ddl n L. split; [auto|]. intros H m. destruct (Parse m ddl d) eqn:E; auto; rewrite (enough_passes d ddl m n) in H by congruence; congruence.
Qed.
Theorem force_within : forall ddl ts err n, 4 * List.length (runes_of ddl) + 9 <= n ->
  (force_returns ddl ts err <-> ParseForce n ddl = Returns ts err).
Proof.
  intros ddl ts err n L. split; [|intros H; now exists n]. intros [m H]. unfold ParseForce in *. revert H. generalize (@None verror) as e.
  induction [SQLite; PostgreSQL; MySQL] as [|d ls IH]; intros e H; cbn [parse_force_loop] in *; auto.
  destruct (Parse m ddl d) as [ts' [err'|]| |] eqn:E; try discriminate;
    rewrite (enough_passes d ddl m n), E by congruence; auto.
Qed.
