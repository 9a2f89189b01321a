From Coq Require Import String List Bool Arith Lia.
From Verif Require Import GoStr Types VBase Grammar GrammarFacts Ast Emit Converter Parse Spec Pipe Meaning Safe Seen Parts PartsFacts Values ValuesFacts NotNull.
From Verif Require GSqlite GPostgres GMysql.
Import ListNotations.
Open Scope nat_scope.
Open Scope string_scope.
Open Scope gr_scope.

Lemma matches_some : forall ws t, matches ws t = true <-> exists w, In w ws /\ matches [w] t = true.
Proof.
  intros ws t. split; [apply matches_In|]. intros (w & I & M). unfold matches in *. apply contains_spec in M. apply contains_spec.
  apply in_app_iff. cbn in M. destruct M as [<-|[<-|[]]]; [left|right]; now apply in_map.
Qed.
Lemma matches_sym : forall w t, to_lower w = w -> to_upper w = w -> matches [w] t = true -> t = w.
Proof. intros w t L U M. unfold matches in M. apply contains_spec in M. cbn in M. rewrite L, U in M. destruct M as [<-|[<-|[]]]; auto. Qed.

(** ** The tokens outside of brackets, for a grammar *)

Fixpoint depth {A} (ws : list string) (g : gr A) (n : nat) : option nat :=
  match g with
  | Eps | Put _ | NotNext _ | IsNext _ => Some n
  | One _ c =>
    match c with
    | CW [w] =>
      if w =? "(" then Some (S n)
      else if w =? ")" then match n with S m => Some m | 0 => None end
      else if forallb (la_is (next_in ("(" :: ")" :: match n with 0 => ws | _ => [] end)) false) (class_set c) then Some n else None
    | _ => if forallb (la_is (next_in ("(" :: ")" :: match n with 0 => ws | _ => [] end)) false) (class_set c) then Some n else None
    end
  | Brackets _ => Some n
  | Skip => None
  | Seq g h => match depth ws g n with Some m => depth ws h m | None => None end
  | Map _ g => depth ws g n
  | Cond _ g h => match depth ws g n, depth ws h n with Some m, Some m' => if Nat.eqb m m' then Some m else None | _, _ => None end
  | While _ g | WhileU _ _ g => match depth ws g n with Some m => if Nat.eqb m n then Some n else None | None => None end
  | SepBy _ g =>
    match depth ws g n with
    | Some m => if Nat.eqb m n && negb (matches ws ",") then Some n else None
    | None => None
    end
  end.

Definition runs (ws l : list string) (n m : nat) : Prop :=
  exists s, Forall (fun t => matches ws t = false) s /\ forall r, outside n (l ++ r) = (s ++ outside m r)%list.
Lemma runs_nil : forall ws n, runs ws [] n n.
Proof. intros ws n. exists []. split; auto. Qed.
Lemma runs_app : forall ws l l' n m k, runs ws l n m -> runs ws l' m k -> runs ws (l ++ l') n k.
Proof.
  intros ws l l' n m k (s & F & E) (s' & F' & E'). exists (s ++ s')%list. split; [now apply Forall_app|].
  intros r. now rewrite <- !app_assoc, E, E'.
Qed.
Lemma runs_tok : forall ws t n, matches ("(" :: ")" :: match n with 0 => ws | _ => [] end) t = false -> runs ws [t] n n.
Proof.
  intros ws t n M.
  assert (M' : matches ["(" ; ")"] t = false /\ (n = 0 -> matches ws t = false)).
  { split.
    - apply not_true_iff_false. intros C. apply not_true_iff_false in M. apply M. apply matches_some in C as (w & I & C).
      apply matches_some. exists w. split; auto. cbn [In] in I |- *. tauto.
    - intros ->. apply not_true_iff_false. intros C. apply not_true_iff_false in M. apply M. apply matches_some in C as (w & I & C).
      apply matches_some. exists w. split; auto. now do 2 right. }
  destruct M' as [P W].
  assert (O : (t =? "(") = false /\ (t =? ")") = false).
  { split; apply not_true_iff_false; intros C; apply String.eqb_eq in C; subst t; discriminate. }
  destruct O as [O C]. destruct n.
  - exists [t]. split; [repeat constructor; auto|]. intros r. cbn [app outside]. now rewrite O, C.
  - exists []. split; auto. intros r. cbn [app outside]. now rewrite O, C.
Qed.
Lemma outside_balanced : forall l, balanced l -> forall n r, outside (S n) (l ++ r) = outside (S n) r.
Proof.
  intros l B. induction B as [|t l N1 N2 B IH|l1 l2 B1 IH1 B2 IH2]; intros n r; auto.
  - apply String.eqb_neq in N1, N2. cbn [app outside]. now rewrite N1, N2, IH.
  - cbn [app outside]. rewrite <- app_assoc. cbn [String.eqb Ascii.eqb Bool.eqb app]. rewrite IH1. cbn [outside app String.eqb Ascii.eqb Bool.eqb]. now rewrite IH2.
Qed.
Lemma runs_balanced : forall ws l, balanced l -> forall n, runs ws l (S n) (S n).
Proof. intros ws l B n. exists []. split; auto. intros r. now apply outside_balanced. Qed.
Lemma runs_brackets : forall ws l n, matches ws "()" = false -> balanced l -> runs ws ("(" :: l ++ [")"]) n n.
Proof.
  intros ws l n M B. apply (runs_app ws ["("] _ _ (S n)).
  - destruct n; [exists ["()"]|exists []]; split; auto.
  - apply (runs_app ws l [")"] _ (S n)); [now apply runs_balanced|]. exists []. split; auto.
Qed.

Lemma depth_runs : forall ws, matches ws "()" = false -> forall A (g : gr A) n m, depth ws g n = Some m -> forall l nxt o v, lang g l nxt o v -> runs ws l n m.
Proof.
  intros ws MB A g. induction g; intros n m D l nxt o v H; cbn [depth lang] in D, H.
  - destruct H as [-> _]. inversion D; subst. apply runs_nil.
  - destruct H as [-> _]. inversion D; subst. apply runs_nil.
  - destruct H as (M & -> & _).
    assert (G : forall k, (if forallb (la_is (next_in ("(" :: ")" :: match n with 0 => ws | _ => [] end)) false) (class_set c) then Some n else None) = Some k -> runs ws [v] n k).
    { intros k E. destruct (forallb _ _) eqn:F; inversion E; subst. apply runs_tok. pose proof (class_within _ _ M) as W.
      pose proof (forallb_within _ _ _ _ F W) as X. cbn [la_mem next_in la_words la_neg] in X. now rewrite xorb_false_r in X. }
    destruct c as [[|w [|w' ws']]| | | |]; auto.
    destruct (w =? "(") eqn:O.
    { apply String.eqb_eq in O; subst w. inversion D; subst. apply matches_some in M as (w & [<-|[]] & M).
      apply matches_sym in M as ->; try reflexivity. destruct n; [exists ["()"]|exists []]; split; auto. }
    destruct (w =? ")") eqn:C; auto.
    apply String.eqb_eq in C; subst w. destruct n; inversion D; subst. apply matches_some in M as (w & [<-|[]] & M).
    apply matches_sym in M as ->; try reflexivity. exists []. split; auto.
  - destruct H as [-> _]. inversion D; subst. apply runs_nil.
  - destruct H as [-> _]. inversion D; subst. apply runs_nil.
  - destruct H as (l1 & B & -> & _). inversion D; subst. now apply runs_brackets.
  - discriminate.
  - destruct H as (l1 & l2 & o1 & o2 & -> & _ & H1 & H2). destruct (depth ws g1 n) as [k|] eqn:E; [|discriminate].
    eapply runs_app; eauto.
  - destruct H as (a & _ & H). eauto.
  - destruct (depth ws g1 n) as [k|] eqn:E1; [|discriminate]. destruct (depth ws g2 n) as [k'|] eqn:E2; [|discriminate].
    destruct (Nat.eqb k k') eqn:E; inversion D; subst. apply Nat.eqb_eq in E; subst. destruct H; eauto.
  - destruct H as (hs & H). destruct (depth ws g n) as [k|] eqn:E; [|discriminate]. destruct (Nat.eqb k n) eqn:N; inversion D; subst.
    apply Nat.eqb_eq in N; subst. induction H as [|t l1 l2 nxt o1 o2 v vs hs H1 H2 IH']; [apply runs_nil|].
    change (t :: l1 ++ l2)%list with ((t :: l1) ++ l2)%list. eapply runs_app; eauto.
  - destruct H as (hs & H & _). destruct (depth ws g n) as [k|] eqn:E; [|discriminate]. destruct (Nat.eqb k n) eqn:N; inversion D; subst.
    apply Nat.eqb_eq in N; subst. induction H as [|t l1 l2 nxt o1 o2 v vs hs H1 H2 IH']; [apply runs_nil|].
    change (t :: l1 ++ l2)%list with ((t :: l1) ++ l2)%list. eapply runs_app; eauto.
  - destruct (depth ws g n) as [k|] eqn:E; [|discriminate]. destruct (Nat.eqb k n && negb (matches ws ",")) eqn:N; inversion D; subst.
    apply andb_true_iff in N as [N C]. apply Nat.eqb_eq in N; subst. apply negb_true_iff in C.
    induction H as [l nxt o v H|l1 l2 nxt o1 o2 v vs H1 H2 IH']; eauto.
    eapply runs_app; eauto. apply (runs_app ws [","] l2 _ m); auto. apply runs_tok. destruct m; [|reflexivity].
    apply not_true_iff_false. intros X. apply not_true_iff_false in C. apply C. apply matches_some in X as (w & [<-|[<-|I]] & X);
      [discriminate..|]. apply matches_some. eauto.
Qed.

(** ** The words NOT NULL after the tokens [x] *)

Definition ends_check (x : list string) : Prop := exists p c, x = (p ++ [c; "()"])%list /\ matches ["CHECK"] c = true.
Definition has (d : rdbms) (x s : list string) : Prop :=
  exists p a b q, s = (p ++ a :: b :: q)%list /\ matches ["NOT"] a = true /\ matches ["NULL"] b = true /\
    ~ (d = MySQL /\ ends_check (x ++ p)).
Lemma has_written : forall d l, not_null_written d l <-> has d [] (outside 0 l).
Proof.
  intros d l. assert (P : d <> MySQL -> (not_null_in l <-> has d [] (outside 0 l))).
  { intros N. split; intros (p & a & b & q & E & A & B); exists p, a, b, q; tauto. }
  destruct d; try (apply P; discriminate). cbn [not_null_written].
  split; intros (p & a & b & q & E & A & B & C); exists p, a, b, q; do 3 (split; auto).
  all: intros X; apply C; (exact (proj2 X) || (split; [reflexivity|exact X])).
Qed.
Lemma has_cons : forall d x t s, has d x (t :: s) <->
  (exists b q, s = b :: q /\ matches ["NOT"] t = true /\ matches ["NULL"] b = true /\ ~ (d = MySQL /\ ends_check x)) \/ has d (x ++ [t]) s.
Proof.
  intros d x t s. split.
  - intros ([|t' p] & a & b & q & E & A & B & C); cbn [app] in E; inversion E; subst.
    + left. exists b, q. rewrite app_nil_r in C. auto.
    + right. exists p, a, b, q. rewrite <- app_assoc. auto.
  - intros [(b & q & -> & A & B & C)|(p & a & b & q & -> & A & B & C)].
    + exists [], t, b, q. rewrite app_nil_r. auto.
    + exists (t :: p), a, b, q. rewrite <- app_assoc in C. auto.
Qed.
Lemma has_nil : forall d x, ~ has d x [].
Proof. intros d x (p & a & b & q & E & _). destruct p; discriminate. Qed.
(** [s] can be skipped *)
Definition skips (d : rdbms) (s : list string) : Prop := forall x r, has d x (s ++ r) <-> has d (x ++ s) r.
Lemma skips_nil : forall d, skips d [].
Proof. intros d x r. now rewrite app_nil_r. Qed.
Lemma skips_app : forall d s s', skips d s -> skips d s' -> skips d (s ++ s').
Proof. intros d s s' H H' x r. rewrite <- app_assoc, (H x), (H' (x ++ s)%list), app_assoc. reflexivity. Qed.
Lemma skips_cons : forall d t s, matches ["NOT"] t = false -> skips d s -> skips d (t :: s).
Proof.
  intros d t s N H x r. cbn [app]. rewrite has_cons, (H (x ++ [t])%list), <- app_assoc. cbn [app]. split; auto.
  intros [(b & q & _ & C & _)|C]; auto. congruence.
Qed.
Lemma skips_not : forall d t k s, matches ["NULL"] k = false -> matches ["NOT"] k = false -> skips d s -> skips d (t :: k :: s).
Proof.
  intros d t k s N K H x r. cbn [app]. rewrite has_cons. pose proof (skips_cons d k s K H (x ++ [t])%list r) as X. cbn [app] in X. rewrite X, <- app_assoc. cbn [app].
  split; auto. intros [(b & q & E & _ & C & _)|C]; auto. inversion E; subst. congruence.
Qed.
Lemma matches_sub : forall ws ws' t, (forall w, In w ws -> In w ws') -> matches ws' t = false -> matches ws t = false.
Proof.
  intros ws ws' t I M. apply not_true_iff_false. intros C. apply not_true_iff_false in M. apply M.
  apply matches_some in C as (w & J & C). apply matches_some. eauto.
Qed.
Lemma skips_quiet : forall d ws s, In "NOT" ws -> Forall (fun t => matches ws t = false) s -> skips d s.
Proof.
  intros d ws s I F. induction F as [|t s N F IH]; [apply skips_nil|]. apply skips_cons; auto.
  eapply matches_sub; [|exact N]. now intros w [<-|[]].
Qed.
Lemma quiet_check : forall ws x t s, In "CHECK" ws -> t <> "()" -> Forall (fun t => matches ws t = false) (t :: s) -> ~ ends_check (x ++ t :: s).
Proof.
  intros ws x t s I N F (p & c & E & C).
  assert (S : s = [] \/ exists s' u, s = (s' ++ [u])%list) by (destruct s as [|u s'] using rev_ind; [now left|right; eauto]).
  assert (J : In c (t :: s)).
  { destruct S as [->|(s' & u & ->)].
    - change [c; "()"] with ([c] ++ ["()"])%list in E. rewrite app_assoc in E. apply app_inj_tail in E as [_ E]. congruence.
    - change [c; "()"] with ([c] ++ ["()"])%list in E. rewrite app_assoc, app_comm_cons, app_assoc in E. apply app_inj_tail in E as [E _].
      assert (S' : exists s'' u', (t :: s')%list = (s'' ++ [u'])%list).
      { destruct s' as [|z s'] using rev_ind; [exists [], t; auto|exists (t :: s'), z; auto]. }
      destruct S' as (s'' & u' & S'). rewrite S', app_assoc in E. apply app_inj_tail in E as [_ ->].
      rewrite app_comm_cons, S'. rewrite !in_app_iff. cbn [In]. tauto. }
  rewrite Forall_forall in F. specialize (F _ J). cbn beta in F. apply (matches_sub ["CHECK"]) in F; [congruence|]. now intros w [<-|[]].
Qed.

(** ** The constraints of a column *)

(** what a constraint [l] with the value [v] contributes, if it is followed by [nxt] *)
Definition step (d : rdbms) (l : list string) (nxt : option string) (v : a_item) : Prop :=
  exists s, (forall r, outside 0 (l ++ r) = (s ++ outside 0 r)%list) /\
    forall x, (d = MySQL -> ends_check x -> matches ["NOT"] (tok (hd_error l)) = false) ->
      (forall r, has d x (s ++ r) <-> v = INotNull \/ has d (x ++ s) r) /\
      (d = MySQL -> ends_check (x ++ s) -> matches ["NOT"] (tok nxt) = false).

Lemma word_in : forall ws t, matches ws t = true -> exists w, In w ws /\ (t = to_lower w \/ t = to_upper w).
Proof.
  intros ws t M. apply matches_some in M as (w & I & M). exists w. split; auto. unfold matches in M. apply contains_spec in M.
  cbn in M. destruct M as [<-|[<-|[]]]; auto.
Qed.
Lemma word_not : forall ws ws' t, matches ws t = true ->
  forallb (fun w => negb (matches ws' (to_lower w)) && negb (matches ws' (to_upper w))) ws = true -> matches ws' t = false.
Proof.
  intros ws ws' t M F. apply word_in in M as (w & I & M). rewrite forallb_forall in F. apply F in I. apply andb_true_iff in I as [I1 I2].
  apply negb_true_iff in I1, I2. destruct M as [->| ->]; auto.
Qed.

Definition both := ["NOT"; "CHECK"].
(** a constraint with neither of the words *)
Lemma step_quiet : forall d A (g : gr A) l nxt o v t l' nxt' w, lang g l nxt o v -> depth both g 0 = Some 0 -> l = t :: l' -> t <> "(" /\ t <> "()" /\ t <> ")" -> w <> INotNull ->
  step d l nxt' w.
Proof.
  intros d A g l nxt o v t l' nxt' w H D -> (N1 & N2 & N3) W. eapply (depth_runs both) in H; [|reflexivity|exact D]. destruct H as (s & F & E).
  exists s. split; auto. intros x _.
  assert (S : exists s', s = t :: s').
  { specialize (E []). cbn [app outside] in E. apply String.eqb_neq in N1, N3. rewrite N1, N3 in E. cbn [app outside] in E. rewrite !app_nil_r in E. eauto. }
  split.
  - intros r. assert (K : skips d s) by (eapply skips_quiet; [|exact F]; now left). rewrite (K x r). tauto.
  - intros _ C. destruct S as (s' & ->). exfalso. revert C. eapply quiet_check; [|exact N2|exact F]. now right; left.
Qed.
Lemma step_not_null : forall d a b l nxt o A (g : gr A) v nxt', depth both g 0 = Some 0 -> lang g l nxt o v -> matches ["NOT"] a = true -> matches ["NULL"] b = true ->
  step d (a :: b :: l) nxt' INotNull.
Proof.
  intros d a b l nxt o A g v nxt' D H MA MB. eapply (depth_runs both) in H; [|reflexivity|exact D]. destruct H as (s & F & E).
  assert (Q : forall t ws, matches ws t = true -> forallb (fun w => negb (matches ["("; ")"; "()"; "CHECK"] (to_lower w)) && negb (matches ["("; ")"; "()"; "CHECK"] (to_upper w))) ws = true ->
    (t =? "(") = false /\ (t =? ")") = false /\ t <> "()" /\ matches ["CHECK"] t = false).
  { intros t ws M X. pose proof (word_not _ _ _ M X) as Y. repeat split.
    - apply not_true_iff_false. intros C%String.eqb_eq. subst. discriminate.
    - apply not_true_iff_false. intros C%String.eqb_eq. subst. discriminate.
    - intros C. subst. discriminate.
    - eapply matches_sub; [|exact Y]. intros w [<-|[]]. cbn. tauto. }
  destruct (Q a _ MA eq_refl) as (A1 & A2 & A3 & A4). destruct (Q b _ MB eq_refl) as (B1 & B2 & B3 & B4).
  exists (a :: b :: s). split.
  - intros r. cbn [app outside]. rewrite A1, A2, B1, B2, E. reflexivity.
  - intros x X. cbn [hd_error tok] in X. split.
    + intros r. split; auto. intros _. cbn [app]. rewrite has_cons. left. exists b, (s ++ r)%list. do 3 (split; auto).
      intros [D' C]. specialize (X D' C). congruence.
    + intros _ C. exfalso. revert C. change (x ++ a :: b :: s)%list with (x ++ [a] ++ b :: s)%list. rewrite app_assoc.
      eapply (quiet_check ["CHECK"]); [now left|exact B3|]. constructor; auto. eapply Forall_impl; [|exact F]. intros t. apply matches_sub.
      intros w [<-|[]]. cbn. tauto.
Qed.

Ltac cases H := lazymatch type of H with
  | lang (Cond _ _ _) _ _ _ _ => destruct H as [H|H]; [|cases H]
  | _ => idtac
  end.
(** the first token of a constraint *)
Lemma head_not_bracket : forall d t l nxt o v, lang (column_constraint d) (t :: l) nxt o v -> t <> "(" /\ t <> "()" /\ t <> ")".
Proof.
  intros d t l nxt o v H. apply (look_within _ _ [FAny; FEof]) in H; [|apply within_any]. cbn [hdr] in H.
  assert (F : forallb (la_is (next_in ["("; "()"; ")"]) false) (look (column_constraint d) [FAny; FEof]) = true) by (destruct d; vm_compute; reflexivity).
  pose proof (forallb_within _ _ _ _ F H) as X. cbn [la_mem next_in la_words la_neg] in X. rewrite xorb_false_r in X.
  repeat split; intros ->; discriminate.
Qed.
Lemma sqlite_option : forall l nxt o v, lang GSqlite.ref_option l nxt o v -> exists s, (forall r, outside 0 (l ++ r) = (s ++ outside 0 r)%list) /\ skips SQLite s.
Proof.
  intros l nxt o v H. unfold GSqlite.ref_option in H. cases H.
  - apply (depth_runs ["NOT"] eq_refl _ _ 0 0) in H; [|vm_compute; reflexivity]. destruct H as (s & F & E). exists s. split; auto. eapply skips_quiet; eauto. now left.
  - apply (depth_runs ["NOT"] eq_refl _ _ 0 0) in H; [|vm_compute; reflexivity]. destruct H as (s & F & E). exists s. split; auto. eapply skips_quiet; eauto. now left.
  - parts H.
    assert (K : exists k, l = [k] /\ matches ["DEFERRABLE"] k = true). { destruct H1 as (M & -> & _). eauto. }
    destruct K as (k & -> & K).
    apply (depth_runs ["NOT"] eq_refl _ _ 0 0) in H; [|vm_compute; reflexivity]. destruct H as (s & F & E). apply skips_quiet with (d := SQLite) in F; [|now left].
    assert (Q : forall t ws, matches ws t = true -> forallb (fun w => negb (matches ["("; ")"] (to_lower w)) && negb (matches ["("; ")"] (to_upper w))) ws = true ->
      (t =? "(") = false /\ (t =? ")") = false).
    { intros t ws M X. pose proof (word_not _ _ _ M X) as Y. split; apply not_true_iff_false; intros C%String.eqb_eq; subst; discriminate. }
    destruct (Q k _ K eq_refl) as [Q1 Q2].
    destruct H0 as [(a' & _ & H0)|(a' & _ & H0)].
    + destruct H0 as (M & -> & _). destruct (Q a' _ M eq_refl) as [Q3 Q4]. exists (a' :: k :: s). split.
      * intros r. cbn [app outside]. now rewrite Q1, Q2, Q3, Q4, E.
      * apply skips_not; auto; eapply word_not; try exact K; reflexivity.
    + destruct H0 as (-> & _). exists (k :: s). split.
      * intros r. cbn [app outside]. now rewrite Q1, Q2, E.
      * apply skips_cons; auto. eapply word_not; try exact K; reflexivity.
Qed.

Lemma sqlite_options : forall l nxt o v, lang GSqlite.ref_options l nxt o v -> exists s, (forall r, outside 0 (l ++ r) = (s ++ outside 0 r)%list) /\ skips SQLite s.
Proof.
  intros l nxt o v (hs & H). induction H as [|t l1 l2 nxt o1 o2 v vs hs H1 H2 (s2 & E2 & S2)].
  - exists []. split; auto. apply skips_nil.
  - apply sqlite_option in H1 as (s1 & E1 & S1). exists (s1 ++ s2)%list. split; [|now apply skips_app].
    intros r. change ((t :: l1 ++ l2) ++ r)%list with (((t :: l1) ++ l2) ++ r)%list. now rewrite <- !app_assoc, E1, E2.
Qed.
Lemma step_skips : forall d l nxt v s, d <> MySQL -> v <> INotNull -> (forall r, outside 0 (l ++ r) = (s ++ outside 0 r)%list) -> skips d s -> step d l nxt v.
Proof. intros d l nxt v s D V E S. exists s. split; auto. intros x _. split; [|congruence]. intros r. rewrite (S x r). tauto. Qed.

Lemma step_free : forall d A (g : gr A) l nxt o v nxt' w, lang g l nxt o v -> depth ["NOT"] g 0 = Some 0 -> d <> MySQL -> w <> INotNull -> step d l nxt' w.
Proof.
  intros d A g l nxt o v nxt' w H D N W. apply (depth_runs ["NOT"] eq_refl _ _ 0 0) in H; auto. destruct H as (s & F & E).
  eapply step_skips; eauto. eapply skips_quiet; [|exact F]. now left.
Qed.
Lemma sqlite_step : forall l nxt o v, lang GSqlite.column_constraint l nxt o v -> step SQLite l nxt v.
Proof.
  intros l nxt o v H. unfold GSqlite.column_constraint in H. cases H.
  2: { unfold GSqlite.c_notnull in H. parts H. destruct H0 as (MA & -> & _). destruct H1 as (MB & -> & _).
    eapply step_not_null; [|exact H|..]; auto. }
  6: { unfold GSqlite.c_references in H. parts H. destruct a as (a1 & ((a2 & a3) & (a4 & (a5 & a6)))). cbn [fst snd] in *.
    apply (depth_runs ["NOT"] eq_refl _ _ 0 0) in H0, H1, H2; auto. pose proof (runs_app _ _ _ _ _ _ H0 (runs_app _ _ _ _ _ _ H1 H2)) as (s & F & E).
    apply skips_quiet with (d := SQLite) in F; [|now left].
    destruct H as (-> & _). apply sqlite_options in H3 as (s' & E' & F').
    apply (step_skips _ _ _ _ (s ++ s')); try discriminate; [|now apply skips_app].
    intros r. rewrite app_nil_r. rewrite <- (app_assoc s), <- E', <- E. now rewrite <- !app_assoc. }
  all: eapply step_free; [exact H|reflexivity|discriminate|].
  all: destruct H as (a & -> & _); repeat match goal with a : (_ * _)%type |- _ => destruct a end; discriminate.
Qed.
Lemma postgres_step : forall l nxt o v, lang GPostgres.column_constraint l nxt o v -> step PostgreSQL l nxt v.
Proof.
  intros l nxt o v H. unfold GPostgres.column_constraint in H. cases H.
  2: { unfold GPostgres.c_notnull in H. parts H. destruct H0 as (MA & -> & _). destruct H as (MB & -> & _).
    apply (step_not_null _ _ _ [] None [] _ Eps tt); auto. split; auto. }
  all: eapply step_free; [exact H|reflexivity|discriminate|].
  all: destruct H as (a & -> & _); repeat match goal with a : (_ * _)%type |- _ => destruct a end; discriminate.
Qed.
Lemma mysql_step : forall l nxt o v, lang GMysql.column_constraint l nxt o v -> l <> [] -> step MySQL l nxt v.
Proof.
  intros l nxt o v H N. assert (B : exists t l', l = t :: l' /\ t <> "(" /\ t <> "()" /\ t <> ")").
  { destruct l as [|t l']; [now elim N|]. exists t, l'. split; auto. apply (head_not_bracket MySQL _ _ _ _ _ H). }
  clear N. unfold GMysql.column_constraint in H. cases H.
  2: { unfold GMysql.c_notnull in H. parts H. destruct H0 as (MA & -> & _). destruct H as (MB & -> & _).
    apply (step_not_null _ _ _ [] None [] _ Eps tt); auto. split; auto. }
  4: { unfold GMysql.c_check, GMysql.check in H. parts H. clear B. destruct a0 as (c & e & u & w). cbn [fst snd] in *.
    destruct H0 as (MC & -> & _). destruct H1 as (b & Bb & -> & _ & _).
    assert (Q : forall t ws, matches ws t = true -> forallb (fun w => negb (matches ["("; ")"; "()"; "CHECK"] (to_lower w)) && negb (matches ["("; ")"; "()"; "CHECK"] (to_upper w))) ws = true ->
      (t =? "(") = false /\ (t =? ")") = false /\ t <> "()").
    { intros t ws M X. pose proof (word_not _ _ _ M X) as Y. repeat split; [apply not_true_iff_false; intros C%String.eqb_eq..|intros C]; subst; discriminate. }
    assert (E0 : forall r, outside 0 ([c] ++ ("(" :: b ++ [")"]) ++ r) = (c :: "()" :: outside 0 r)%list).
    { intros r. assert (C1 : (c =? "(") = false /\ (c =? ")") = false) by (split; apply not_true_iff_false; intros C%String.eqb_eq; subst; discriminate).
      cbn [app outside]. rewrite (proj1 C1), (proj2 C1), <- app_assoc. cbn [String.eqb Ascii.eqb Bool.eqb app]. rewrite outside_balanced; auto. }
    assert (CN : matches ["NOT"] c = false) by (eapply word_not; [exact MC|reflexivity]).
    assert (T : forall y z, ends_check (y ++ [z]) -> z = "()").
    { intros y z (p & c' & E & _). change [c'; "()"] with ([c'] ++ ["()"])%list in E. rewrite app_assoc in E. now apply app_inj_tail in E. }
    assert (K : (l3 = [] \/ exists f, l3 = [f] /\ matches ["ENFORCED"] f = true)).
    { destruct H as [(f & _ & M & -> & _)|(f & _ & -> & _)]; eauto. }
    assert (K1 : (l1 = [] /\ matches ["NOT"] (tok (hdr l3 nxt)) = false) \/ exists f, l1 = [f] /\ matches ["NOT"] f = true).
    { destruct H2 as [(f & _ & M & -> & _)|(-> & _ & M)]; eauto. left. split; auto. destruct (hdr l3 nxt); auto. }
    clear H H2. exists (c :: "()" :: l1 ++ l3)%list. split.
    { intros r. rewrite <- app_assoc, <- (app_assoc (_ :: _)), E0. cbn [app]. do 2 f_equal.
      destruct K1 as [[-> _]|(n & -> & M)], K as [->|(f & -> & Mf)]; cbn [app outside]; auto.
      - destruct (Q f _ Mf eq_refl) as (-> & -> & _). reflexivity.
      - destruct (Q n _ M eq_refl) as (-> & -> & _). reflexivity.
      - destruct (Q f _ Mf eq_refl) as (-> & -> & _). destruct (Q n _ M eq_refl) as (-> & -> & _). reflexivity. }
    assert (S3 : skips MySQL l3).
    { destruct K as [->|(f & -> & Mf)]; [apply skips_nil|]. apply skips_cons; [|apply skips_nil]. eapply word_not; [exact Mf|reflexivity]. }
    assert (S0 : skips MySQL [c; "()"]) by (apply skips_cons; auto; apply skips_cons; [reflexivity|apply skips_nil]).
    intros x _. split.
    - intros r. transitivity (has MySQL (x ++ c :: "()" :: l1 ++ l3) r); [|split; auto; intros [X|X]; [discriminate|exact X]].
      change (c :: "()" :: l1 ++ l3)%list with ([c; "()"] ++ l1 ++ l3)%list. rewrite <- app_assoc, (S0 x), app_assoc, <- (app_assoc l1).
      destruct K1 as [[-> _]|(n & -> & M)].
      + cbn [app]. apply S3.
      + cbn [app]. rewrite has_cons, (S3 ((x ++ [c; "()"]) ++ [n])%list), <- !app_assoc. cbn [app]. split; auto. intros [(b' & q & _ & _ & _ & X)|X]; auto.
        exfalso. apply X. split; auto. exists x, c. split; auto.
    - intros _ C. destruct K1 as [[-> NX]|(n & -> & M)], K as [->|(f & -> & Mf)]; cbn [app] in C.
      + exact NX.
      + exfalso. change (x ++ [c; "()"; f])%list with (x ++ [c; "()"] ++ [f])%list in C. rewrite app_assoc in C. apply T in C. subst. discriminate.
      + exfalso. change (x ++ [c; "()"; n])%list with (x ++ [c; "()"] ++ [n])%list in C. rewrite app_assoc in C. apply T in C. subst. discriminate.
      + exfalso. change (x ++ [c; "()"; n; f])%list with (x ++ [c; "()"; n] ++ [f])%list in C. rewrite app_assoc in C. apply T in C. subst. discriminate. }
  all: destruct B as (t & l' & E & B); eapply step_quiet; [exact H|reflexivity|eassumption|exact B|].
  1: destruct H as [(a & -> & _)|(a & -> & _)]; discriminate.
  all: destruct H as (a & -> & _); repeat match goal with a : (_ * _)%type |- _ => destruct a end; discriminate.
Qed.

Lemma constraint_step : forall d t l nxt o v, lang (column_constraint d) (t :: l) nxt o v -> step d (t :: l) nxt v.
Proof.
  intros d t l nxt o v H. destruct d.
  - eapply sqlite_step; eauto.
  - eapply postgres_step; eauto.
  - eapply mysql_step; eauto. discriminate.
  - eapply sqlite_step in H. destruct H as (s & E & H). exists s. split; auto. intros x _. destruct (H x) as [H1 _]; [discriminate|].
    split; [|discriminate]. intros r. specialize (H1 r).
    assert (X : forall y z, has (Other name) y z <-> has SQLite y z) by (intros y z; split; intros (p & a & b & q & E1 & E2 & E3 & _); exists p, a, b, q; do 3 (split; auto); intros [Z _]; discriminate).
    now rewrite !X.
Qed.
Lemma constraints_has : forall d l nxt o vs hs, star (lang (column_constraint d)) l nxt o vs hs ->
  forall x, (d = MySQL -> ends_check x -> matches ["NOT"] (tok (hdr l nxt)) = false) -> (has d x (outside 0 l) <-> In INotNull vs).
Proof.
  intros d l nxt o vs hs H. induction H as [nxt|t l1 l2 nxt o1 o2 v vs hs H1 H2 IH]; intros x X.
  - split; [intros C; now apply has_nil in C|intros []].
  - apply constraint_step in H1 as (s & E & K). change (t :: l1 ++ l2)%list with ((t :: l1) ++ l2)%list. rewrite E.
    destruct (K x X) as [K1 K2]. rewrite K1, (IH _ K2). cbn [In]. split; intros [C|C]; auto.
Qed.
Lemma column_cases : forall d l nxt o c, lang (element d) l nxt o (EColumn c) ->
  exists l1 l2 o1 o2 nxt1 hs, l = (l1 ++ l2)%list /\ lang (column_head d) l1 nxt1 o1 tt /\ star (lang (column_constraint d)) l2 nxt o2 (ac_items c) hs.
Proof.
  intros d l nxt o c H.
  assert (X : lang (column_name d ** column_type d ** column_cname d ** WhileU (next_in (constraint_words d)) (kind d) (column_constraint d)
      ==> fun '(n, (t, (c, l))) => EColumn (mk_acolumn n t c l)) l nxt o (EColumn c)).
  { destruct d; cbn [element] in H; unfold GSqlite.element, GPostgres.element, GMysql.element in H;
      (destruct H as [H|H]; [exfalso; destruct H as ([? ?] & E & _); discriminate|exact H]). }
  clear H. destruct X as ((n & t & cn & is) & E & l1 & l' & o1 & o' & -> & -> & H1 & l2 & l'' & o2 & o'' & -> & -> & H2 & l3 & l4 & o3 & o4 & -> & -> & H3 & hs & H4 & _).
  cbn [fst snd] in *. inversion E; subst c. cbn [ac_items]. exists (l1 ++ l2 ++ l3)%list, l4, (o1 ++ o2 ++ o3)%list, o4, (hdr l4 nxt), hs. split; [now rewrite <- !app_assoc|]. split; auto.
  exists (n, (t, cn)). split; auto. apply lang_seq; [now rewrite <- hdr_app, <- app_assoc|]. apply lang_seq; auto. now rewrite <- hdr_app.
Qed.
Theorem notnull_written : forall d l nxt o c, lang (element d) l nxt o (EColumn c) -> (In INotNull (ac_items c) <-> not_null_written d l).
Proof.
  intros d l nxt o c H. apply column_cases in H as (l1 & l2 & o1 & o2 & nxt1 & hs & -> & H1 & H2). rewrite has_written.
  assert (D : depth both (column_head d) 0 = Some 0) by (destruct d; vm_compute; reflexivity).
  apply (depth_runs both eq_refl _ _ 0 0 D) in H1 as (s & F & E). rewrite E.
  pose proof (skips_quiet d both s (or_introl eq_refl) F) as S. rewrite (S [] (outside 0 l2)). symmetry. eapply constraints_has; eauto.
  intros _ (p & c' & Es & C). exfalso. cbn [app] in Es. subst s. apply Forall_app in F as [_ F]. inversion F as [|? ? F1 _]; subst.
  apply (matches_sub ["CHECK"]) in F1; [congruence|]. intros w [<-|[]]. cbn; auto.
Qed.
Lemma notnull_seen : forall d c, c_notnull (col_constraint (column_of d (seen_column c))) = true <-> In INotNull (ac_items c).
Proof.
  intros d [n t cn is]. cbn [column_of col_constraint constraint_of c_notnull ac_items].
  transitivity (existsb (fun i => match i with INotNull => true | _ => false end) (map seen_item is) = true).
  { unfold seen_column. cbn [ac_cname ac_items]. destruct cn as [x|]; [|reflexivity]. now destruct (matches not_names x). }
  rewrite existsb_exists. split.
  - intros (i & I & E). apply in_map_iff in I as (j & <- & J). destruct j as [| | | |[]| | | |]; try discriminate; auto.
  - intros I. exists INotNull. split; auto. apply in_map_iff. now exists INotNull.
Qed.
Theorem notnull_reported : forall d ddl stmts, says d ddl stmts -> readable stmts = true -> exists ts, accepted ddl d ts /\
  Forall2 (fun c r => c_notnull (col_constraint r) = true <-> In INotNull (ac_items c)) (columns_in stmts) (result_columns ts).
Proof.
  intros d ddl stmts. apply columns_reported. intros c o _ _. apply notnull_seen.
Qed.
