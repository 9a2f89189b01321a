(** The brackets of a table. *)
From Coq Require Import String List Bool Arith Lia.
From Verif Require Import GoStr Types Lexer VBase Exec Grammar GrammarFacts Ast Emit Parse Spec Pipe Meaning Local Read Parts PartsFacts SkippedFacts Closed HangFacts.
From Verif Require HeaderFacts GSqlite GPostgres GMysql.
Import ListNotations.
Open Scope nat_scope.
Open Scope string_scope.
Open Scope list_scope.

(** ** Brackets of two texts *)
Definition plus (a b : nat * nat) : nat * nat := (fst a + (fst b - snd a), snd b + (snd a - fst b)).
Lemma unmatched_app : forall l l', unmatched (l ++ l') = plus (unmatched l) (unmatched l').
Proof.
  intros l l'. induction l as [|t l IH].
  - cbn [app]. unfold plus. cbn. destruct (unmatched l') as [c o]. cbn. f_equal; lia.
  - cbn [app unmatched]. rewrite IH. destruct (unmatched l) as [c o], (unmatched l') as [c' o']. unfold plus. cbn [fst snd].
    destruct (t =? "("); [|destruct (t =? ")")].
    + destruct c as [|c]; cbn [plus fst snd].
      * destruct (0 + (c' - o)) as [|k] eqn:E; f_equal; lia.
      * cbn [Nat.add fst snd]. reflexivity.
    + reflexivity.
    + reflexivity.
Qed.

(** ** Brackets of the sentences of a grammar *)
Definition words_net (ws : list string) : option (nat * nat) :=
  if matches ws "(" then (match ws with ["("] => Some (0, 1) | _ => None end)
  else if matches ws ")" then (match ws with [")"] => Some (1, 0) | _ => None end)
  else Some (0, 0).
Definition flat (o : option (nat * nat)) : option (nat * nat) := match o with Some (0, 0) => Some (0, 0) | _ => None end.
Definition same (o o' : option (nat * nat)) : option (nat * nat) :=
  match o, o' with Some (a, b), Some (a', b') => if (a =? a')%nat && (b =? b')%nat then Some (a, b) else None | _, _ => None end.
Fixpoint net {A} (g : gr A) : option (nat * nat) :=
  match g with
  | Eps | Put _ | NotNext _ | IsNext _ | Brackets _ => Some (0, 0)
  | One _ (CW ws) => words_net ws
  | One _ _ => Some (0, 0)
  | Skip => None
  | Seq g h => match net g, net h with Some a, Some b => Some (plus a b) | _, _ => None end
  | Map f g => net g
  | Cond c g h => same (net g) (net h)
  | While _ g => flat (net g)
  | WhileU _ _ g => flat (net g)
  | SepBy _ g => flat (net g)
  end.
Definition plain (t : string) : Prop := t <> "(" /\ t <> ")".
Lemma plain_none : forall t, plain t -> unmatched [t] = (0, 0).
Proof. intros t [A B]. cbn [unmatched]. apply String.eqb_neq in A, B. now rewrite A, B. Qed.
Lemma net_word : forall ws t w, words_net ws = Some w -> matches ws t = true -> unmatched [t] = w.
Proof.
  intros ws t w N M. unfold words_net in N. destruct (matches ws "(") eqn:E1; [|destruct (matches ws ")") eqn:E2].
  - assert (X : ws = ["("] /\ w = (0, 1)).
    { clear - N. repeat match type of N with match ?x with _ => _ end = _ => destruct x; try discriminate N end. injection N as <-. auto. }
    destruct X as [-> ->]. apply matches_one in M as [-> | ->]; reflexivity.
  - assert (X : ws = [")"] /\ w = (1, 0)).
    { clear - N. repeat match type of N with match ?x with _ => _ end = _ => destruct x; try discriminate N end. injection N as <-. auto. }
    destruct X as [-> ->]. apply matches_one in M as [-> | ->]; reflexivity.
  - injection N as <-. apply plain_none. split; intros ->; congruence.
Qed.
Lemma class_plain : forall c t, (forall ws, c <> CW ws) -> cmem c t = true -> plain t.
Proof.
  intros c t N M. destruct c as [ws|d| |d|d]; [now elim (N ws)|..]; split; intros ->; destruct d || idtac; vm_compute in M; discriminate.
Qed.
Lemma plus_flat : forall a, plus (0, 0) a = a.
Proof. intros [a b]. unfold plus. cbn. f_equal; lia. Qed.
Lemma flat_inv : forall o w, flat o = Some w -> o = Some (0, 0) /\ w = (0, 0).
Proof. intros [[[|a] [|b]]|] w H; try discriminate H. injection H as <-. auto. Qed.
Lemma same_inv : forall o o' w, same o o' = Some w -> o = Some w /\ o' = Some w.
Proof.
  intros [[a b]|] [[a' b']|] w H; try discriminate H. cbn [same] in H.
  destruct (a =? a')%nat eqn:A; [|discriminate]. destruct (b =? b')%nat eqn:B; [|discriminate]. apply Nat.eqb_eq in A, B. injection H as <-. subst. auto.
Qed.
Lemma star_flat : forall A (L : list string -> option string -> list string -> A -> Prop) l nxt o vs hs,
  (forall l nxt o v, L l nxt o v -> unmatched l = (0, 0)) -> star L l nxt o vs hs -> unmatched l = (0, 0).
Proof. intros A L l nxt o vs hs H S. induction S; [reflexivity|]. change (t :: l1 ++ l2) with ((t :: l1) ++ l2). now rewrite unmatched_app, (H _ _ _ _ H0), IHS. Qed.
Lemma sep_flat : forall A (L : list string -> option string -> list string -> A -> Prop) keep l nxt o vs,
  (forall l nxt o v, L l nxt o v -> unmatched l = (0, 0)) -> sepby L keep l nxt o vs -> unmatched l = (0, 0).
Proof. intros A L keep l nxt o vs H S. induction S; [eauto|]. change ("," :: l2) with ([","] ++ l2). now rewrite !unmatched_app, (H _ _ _ _ H0), IHS. Qed.
Theorem net_ok : forall A (g : gr A) w, net g = Some w -> forall l nxt o v, lang g l nxt o v -> unmatched l = w.
Proof.
  induction g as [|p|keep c|ws|ws|keep| |A B g IHg h IHh|A B f g IHg|A c g IHg h IHh|A c g IHg|A c key g IHg|A keep g IHg]; intros w N l nxt o v H; cbn [net] in N.
  - injection N as <-. destruct H as [-> _]. reflexivity.
  - injection N as <-. destruct H as [-> _]. reflexivity.
  - destruct H as (M & -> & _). destruct c as [ws| | | |]; [eapply net_word; eauto|..]; injection N as <-; apply plain_none; eapply class_plain; eauto; discriminate.
  - injection N as <-. destruct H as [-> _]. reflexivity.
  - injection N as <-. destruct H as [-> _]. reflexivity.
  - injection N as <-. destruct H as (b & B & -> & _). cbn [unmatched]. now rewrite unmatched_balanced.
  - discriminate.
  - destruct (net g) as [a|]; [|discriminate]. destruct (net h) as [b|]; [|discriminate]. injection N as <-.
    destruct H as (l1 & l2 & o1 & o2 & -> & _ & H1 & H2). rewrite unmatched_app. now erewrite IHg, IHh by eauto.
  - destruct H as (a & _ & H). eauto.
  - apply same_inv in N as [N1 N2]. destruct H as [H|H]; eauto.
  - apply flat_inv in N as [N ->]. destruct H as [hs H]. eapply star_flat; [|exact H]. eauto.
  - apply flat_inv in N as [N ->]. destruct H as (hs & H & _). eapply star_flat; [|exact H]. eauto.
  - apply flat_inv in N as [N ->]. eapply sep_flat; [|exact H]. eauto.
Qed.

(** ** Tables *)
Lemma tables_net : net GSqlite.create_table = Some (0, 0) /\ net GPostgres.create_table = Some (0, 0) /\ net GMysql.create_table = Some (0, 0).
Proof. split; [|split]; vm_compute; reflexivity. Qed.
Lemma one_none : forall keep w t l nxt o, (w =? "(") = false -> (w =? ")") = false -> unmatched [to_lower w] = (0, 0) -> unmatched [to_upper w] = (0, 0) ->
  lang (One keep (CW [w])) l nxt o t -> unmatched l = (0, 0).
Proof. intros keep w t l nxt o _ _ E1 E2 (M & -> & _). apply matches_one in M as [-> | ->]; auto. Qed.
(** a statement is a table, or another one *)
Lemma statement_cases : forall d l nxt o v, lang (statement d) l nxt o v ->
  (unmatched l = (0, 0) /\ exists t, v = STable t) \/ v = SOther.
Proof.
  destruct tables_net as (NS & NP & NM).
  assert (Z : forall A (g : gr A) l nxt o v, net g = Some (0, 0) -> lang g l nxt o v -> unmatched l = (0, 0)) by (intros; eapply net_ok; eauto).
  intros d l nxt o v H.
  assert (SQ : lang GSqlite.statement l nxt o v -> (unmatched l = (0, 0) /\ exists t, v = STable t) \/ v = SOther).
  { clear H. intros (x & -> & H). destruct H as (l1 & l2 & o1 & o2 & -> & _ & H1 & l3 & l4 & o3 & o4 & E & _ & H2 & H3). destruct x as (x1 & x2 & x3). cbn [fst snd] in *.
    apply cond_inv in H3 as [H3|H3]; [left|right].
    - rewrite E, !unmatched_app. apply (Z _ (One false (CW ["CREATE"]))) in H1; [|reflexivity]. apply (Z _ (optkw false ["TEMP"; "TEMPORARY"])) in H2; [|reflexivity].
      pose proof (Z _ _ _ _ _ _ NS H3) as H4. rewrite H1, H2, H4. split; [reflexivity|]. destruct H3 as ((? & ? & ? & [? ?] & ? & ? & ?) & -> & _). eauto.
    - destruct H3 as (? & -> & _). reflexivity. }
  destruct d; try (apply SQ; exact H); clear SQ; destruct H as (x & -> & H); destruct H as (l1 & l2 & o1 & o2 & -> & _ & H1 & H3); destruct x as (x1 & x3); cbn [fst snd] in *;
    (apply cond_inv in H3 as [H3|H3]; [left|right; destruct H3 as (? & -> & _); reflexivity]); rewrite unmatched_app;
    (apply (Z _ (One false (CW ["CREATE"]))) in H1; [|reflexivity]).
  - pose proof (Z _ _ _ _ _ _ NP H3) as H4. rewrite H1, H4. split; [reflexivity|]. destruct H3 as ((? & ? & ? & [? ?] & ? & ? & ?) & -> & _). eauto.
  - pose proof (Z _ _ _ _ _ _ NM H3) as H4. rewrite H1, H4. split; [reflexivity|]. destruct H3 as ((? & ? & ? & [? ?] & ? & ? & ?) & -> & _). eauto.
Qed.
Theorem table_brackets : forall d s vs1 t vs2, says d s (vs1 ++ STable t :: vs2) ->
  exists l1 l l2, tokens d s (l1 ++ l ++ l2) /\ (exists o1, lang (script d) l1 None o1 vs1) /\ (exists o, lang (script d) l None o [STable t]) /\
    (exists o2, lang (script d) l2 None o2 vs2) /\ unmatched l = (0, 0).
Proof.
  intros d s vs1 t vs2 (l & out & T & H). destruct (script_split _ _ _ _ H _ _ _ eq_refl) as (l1 & l2 & l3 & o1 & o2 & o3 & -> & -> & S1 & S2 & S3).
  exists l1, l2, l3. split; [exact T|]. split; [eauto|]. split; [|split; [eauto|]].
  - destruct (statement_cons _ _ _ _ _ S2) as (x & y & ->). apply script_one in S2. eauto.
  - apply statement_cases in S2 as [[E _]|E]; [exact E|discriminate].
Qed.

(** ** The first statement after a script *)
Lemma next_statement : forall d s l1 o1 v1 c X stmts, lang (script d) l1 None o1 v1 -> tokens d s (l1 ++ c :: X) -> says d s stmts ->
  exists l2 l3 st, c :: X = l2 ++ l3 /\ exists o2, lang (statement d) l2 None o2 st.
Proof.
  intros d s l1 o1 v1 c X stmts S K (l & out & L & H). rewrite (tokens_det _ _ _ _ L K) in H.
  assert (V : verdict d (l1 ++ c :: X) (EOk tt [] out)) by (apply verdict_ok; eauto).
  destruct (verdict_back _ _ _ _ _ _ S V) as (e' & V' & Q). destruct e' as [[] r o2| | |]; try discriminate Q. injection Q as <- ->.
  apply verdict_ok in V' as [_ [v2 H2]].
  destruct v2 as [|st v2].
  { rewrite script_while in H2. destruct H2 as [hs H2]. remember (c :: X) as y. remember (@nil a_stmt) as z. destruct H2; discriminate. }
  destruct (script_split _ _ _ _ H2 [] st v2 eq_refl) as (a1 & a2 & a3 & b1 & b2 & b3 & E1 & E2 & P1 & P2 & P3).
  assert (Z : a1 = []).
  { rewrite script_while in P1. destruct P1 as [hs P1]. remember (@nil a_stmt) as z. destruct P1; [reflexivity|discriminate]. }
  subst a1. exists a2, a3, st. eauto.
Qed.
Lemma one_word : forall d c nxt o v, lang (statement d) [c] nxt o v -> False.
Proof.
  intros d c nxt o v H. destruct d; destruct H as (x & _ & H); apply HeaderFacts.seq_word in H as (o1 & a1 & _ & _ & _ & H).
  all: try (destruct H as (l1 & l2 & o2 & o3 & E & _ & _ & H); symmetry in E; apply app_eq_nil in E as [_ ->]).
  all: apply cond_inv in H as [H|H]; destruct H as (x1 & _ & H); try (apply HeaderFacts.seq_put in H as (o4 & a4 & _ & _ & H));
    destruct H as (l1' & l2' & ? & ? & E' & _ & (_ & -> & _) & _); discriminate.
Qed.
Lemma is_table : forall d c t l nxt o v, kwd "TABLE" t -> lang (statement d) (c :: t :: l) nxt o v -> v <> SOther.
Proof.
  intros d c t l nxt o v T H E. subst v.
  assert (SQ : lang GSqlite.statement (c :: t :: l) nxt o SOther -> False).
  { clear H. intros (x & E & H). apply HeaderFacts.seq_word in H as (o1 & a1 & M & -> & _ & H). destruct a1 as [tm a1].
    destruct H as (l1 & l2 & o2 & o3 & E' & _ & K & H). cbn [fst snd] in *. subst a1.
    apply OrderFacts.optkw_inv in K as [_ [-> |(y & -> & K)]].
    - cbn [app] in E'. subst l2. apply cond_inv in H as [H|H].
      + destruct H as ((? & ? & ? & [? ?] & ? & ? & ?) & H & _). discriminate.
      + destruct H as (? & _ & H). eapply HeaderFacts.other_not; [exact T| | |exact H]; reflexivity.
    - injection E' as <- ->. pose proof (HeaderFacts.not_temp t T). congruence. }
  destruct d; try (apply SQ; exact H); destruct H as (x & E & H); apply HeaderFacts.seq_word in H as (o1 & a1 & M & -> & _ & H); cbn [snd] in E; subst a1;
    (apply cond_inv in H as [H|H]; [destruct H as ((? & ? & ? & [? ?] & ? & ? & ?) & H & _); discriminate|]);
    destruct H as (? & _ & H); (eapply HeaderFacts.other_not; [exact T| | |exact H]; reflexivity).
Qed.
Lemma last_semi : forall (l2 l3 p : list string) c t X, c :: t :: X = l2 ++ l3 -> l2 = p ++ [";"] -> (2 <= List.length p) ->
  exists p', p = c :: t :: p' /\ X = p' ++ ";" :: l3.
Proof.
  intros l2 l3 p c t X E -> L. destruct p as [|a [|b p]]; cbn in L; try lia. rewrite <- app_assoc in E. injection E as <- <- ->. eauto.
Qed.
Theorem unbalanced : forall d s l1 v1 c t X, (exists o1, lang (script d) l1 None o1 v1) -> kwd "CREATE" c -> kwd "TABLE" t -> tokens d s (l1 ++ c :: t :: X) ->
  (forall p r, X = p ++ ";" :: r -> unmatched p <> (0, 0)) -> forall ts, ~ accepted s d ts.
Proof.
  intros d s l1 v1 c t X [o1 S] C T K N ts A. apply accepted_says in A as [stmts A].
  destruct (next_statement _ _ _ _ _ _ _ _ S K A) as (l2 & l3 & st & E & o2 & H).
  destruct (statement_cases _ _ _ _ _ H) as [[U [tb ->]]| ->].
  - destruct (table_split _ _ _ _ _ H) as (a & oa & es & oe & ve & o & -> & _ & Ao & _ & _).
    assert (L : exists a0 ar, a = a0 :: ar).
    { clear - Ao. destruct d; destruct Ao as (v & _ & H); destruct H as (l1 & l2 & o1 & o2 & -> & _ & (_ & -> & _) & _); cbn [app]; eauto. }
    destruct L as (a0 & ar & ->).
    destruct (last_semi _ l3 ((a0 :: ar) ++ es ++ ")" :: o) c t X E) as (p' & Ep & ->).
    + rewrite <- !app_assoc. cbn [app]. now rewrite <- ?app_assoc.
    + cbn. rewrite !app_length. cbn. lia.
    + apply (N p' l3); [reflexivity|].
      replace ((a0 :: ar) ++ es ++ ")" :: o ++ [";"]) with (c :: t :: p' ++ [";"]) in U.
      2:{ change (c :: t :: p' ++ [";"]) with ((c :: t :: p') ++ [";"]). rewrite <- Ep, <- !app_assoc. reflexivity. }
      change (c :: t :: p' ++ [";"]) with ([c] ++ [t] ++ p' ++ [";"]) in U. rewrite !unmatched_app in U.
      assert (X1 : unmatched [c] = (0, 0)) by (apply matches_one in C as [-> | ->]; reflexivity).
      assert (X2 : unmatched [t] = (0, 0)) by (apply matches_one in T as [-> | ->]; reflexivity).
      rewrite X1, X2, !plus_flat in U. destruct (unmatched p') as [x y]. unfold plus in U. cbn in U. injection U as U1 U2. f_equal; lia.
  - destruct l2 as [|c' l2]; [destruct (statement_cons _ _ _ _ _ H) as (? & ? & ?); discriminate|]. injection E as <- E.
    destruct l2 as [|t' l2].
    + exfalso. exact (one_word _ _ _ _ _ H).
    + injection E as <- ->. now apply is_table in H.
Qed.
