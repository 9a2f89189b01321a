(** Statements that are skipped leave the result alone. *)
From Coq Require Import String Ascii ZArith List Bool Arith NArith Lia.
From Verif Require Import GoStr GoNum Types Lexer VBase Exec Grammar GrammarFacts Ast Converter Parse Fuel Scan Spec Pipe
  Text Utf8 Accept Meaning NoPanic Total Decide Local Read Layout LayoutFacts Skipped.
From Verif Require PartsFacts.
From Verif Require GSqlite GPostgres GMysql.
Import ListNotations.
Open Scope nat_scope.
Open Scope string_scope.
Open Scope list_scope.

Lemma verdict_back : forall d l1 o1 v l2 e, lang (script d) l1 None o1 v -> verdict d (l1 ++ l2) e ->
  exists e', verdict d l2 e' /\ e = epre o1 e'.
Proof.
  intros d l1 o1 v l2 e H V. rewrite script_while in H. destruct H as [hs H].
  destruct (exec_star _ _ _ _ _ _ H l2) as (n0 & k & E). pose proof (proj1 V) as N. apply verdict_le in V as [n1 X].
  destruct (E (n0 + n1)) as [K Y]; [lia|]. rewrite X in Y by lia.
  exists (exec (prog (script d) (n0 + n1 - k)) l2). split; auto. split; [|eauto].
  intros Z. rewrite Z in Y. cbn in Y. congruence.
Qed.

(** Two texts for which the validator keeps the same and is at the same token in case of an error. *)
Lemma same_verdict : forall d s s' l l', tokens d s l -> tokens d s' l' -> (forall e, verdict d l e <-> verdict d l' e) -> alike d s s'.
Proof.
  assert (X : forall d s s' l l', tokens d s l -> tokens d s' l' -> (forall e, verdict d l e <-> verdict d l' e) -> forall ts, accepted s d ts -> accepted s' d ts).
  { intros d s s' l l' (t & L & ->)%tokens_lexed (t' & L' & ->)%tokens_lexed Q ts H. apply returns_stage in H. apply returns_stage.
    inversion H as [| |t1 rest out ts1 L1 V C]; subst. rewrite L in L1. injection L1 as <-. apply Q in V. eapply st_ok; eauto. }
  assert (Y : forall d s s' l l', tokens d s l -> tokens d s' l' -> (forall e, verdict d l e <-> verdict d l' e) ->
    forall near line, rejected s d line near -> exists line', rejected s' d line' near).
  { intros d s s' l l' (t & L & ->)%tokens_lexed (t' & L' & ->)%tokens_lexed Q near line H. apply returns_stage in H.
    inversion H as [|t1 rest L1 V|]; subst; [congruence|]. rewrite L in L1. injection L1 as <-. apply Q in V.
    eexists. apply returns_stage. eapply st_validate; eauto. }
  intros d s s' l l' L L' Q. assert (Q' : forall e, verdict d l' e <-> verdict d l e) by (intros; now rewrite Q).
  assert (D : forall ts, accepted s d ts <-> accepted s' d ts) by (intros; split; eapply X; eauto).
  assert (D2 : forall near, (exists line, rejected s d line near) <-> (exists line, rejected s' d line near)).
  { intros near. split; intros [line H]; eapply Y; [exact L|exact L'|exact Q|exact H|exact L'|exact L|exact Q'|exact H]. }
  split; [exact D|]. split; [exact D2|]. rewrite !diverges_iff.
  assert (Z : forall u ts err, returns u d ts err -> accepted u d ts \/ exists line near, rejected u d line near).
  { intros u ts err R. destruct err as [[line near]|]; [right|now left]. exists line, near. unfold rejected.
    pose proof R as R'. apply returns_stage in R'. inversion R'; subst; exact R. }
  split; intros H ts err R; destruct (Z _ _ _ R) as [A|(line & near & A)].
  - apply D in A. exact (H _ _ A).
  - assert (B : exists line, rejected s' d line near) by eauto. apply D2 in B as [l0 B]. exact (H _ _ B).
  - apply D in A. exact (H _ _ A).
  - assert (B : exists line, rejected s d line near) by eauto. apply D2 in B as [l0 B]. exact (H _ _ B).
Qed.

(** Scripts of which nothing is kept can be inserted. *)
Theorem silent_same : forall d s s' l1 o1 v1 x vx l2, lang (script d) l1 None o1 v1 -> lang (script d) x None [] vx ->
  tokens d s (l1 ++ l2) -> tokens d s' (l1 ++ x ++ l2) -> alike d s s'.
Proof.
  intros d s s' l1 o1 v1 x vx l2 H1 Hx T T'. apply (same_verdict d s s' _ _ T T'). rewrite app_assoc in *.
  pose proof (PartsFacts.script_app _ _ _ _ _ _ _ _ H1 Hx) as H. rewrite app_nil_r in H.
  intros e. split; intros V.
  - destruct (verdict_back _ _ _ _ _ _ H1 V) as (e' & V' & ->). eapply verdict_app; eauto.
  - destruct (verdict_back _ _ _ _ _ _ H V) as (e' & V' & ->). eapply verdict_app; eauto.
Qed.

Lemma skip_end : forall l, skipped l -> lang (Seq Skip (kw_ [";"])) (l ++ [";"]) None [] (tt, ";").
Proof. intros l S. exists l, [";"], [], []. repeat split; auto. Qed.
Lemma matches_in : forall ws t, matches ws t = true <-> exists w, In w ws /\ (to_upper w = t \/ to_lower w = t).
Proof.
  intros. unfold matches. rewrite contains_spec, in_app_iff, !in_map_iff. split.
  - intros [(w & E & I)|(w & E & I)]; eauto.
  - intros (w & I & [E|E]); eauto.
Qed.
Lemma matches_incl : forall ws ws' t, incl ws ws' -> matches ws t = true -> matches ws' t = true.
Proof. intros ws ws' t S. rewrite !matches_in. intros (w & I & E). eauto. Qed.
Ltac inclusion := apply matches_incl; intros ?w ?I; cbn in I; repeat destruct I as [<-|I]; try contradiction; cbn; tauto.

Lemma kw_lang : forall ws x nxt, matches ws x = true -> lang (kw_ ws) [x] nxt [] x.
Proof. intros. cbn. auto. Qed.
Lemma sqlite_other : forall c t w body nxt, matches ["CREATE"] c = true ->
  (t = [] \/ exists x, t = [x] /\ matches ["TEMP"; "TEMPORARY"] x = true) ->
  matches (other_words SQLite) w = true -> skipped body -> lang GSqlite.statement (c :: t ++ w :: body ++ [";"]) nxt [] SOther.
Proof.
  intros c t w body nxt C T W S. assert (O : lang GSqlite.create_other (w :: body ++ [";"]) nxt [] SOther).
  { eexists (w, (tt, ";")). split; [reflexivity|]. exists [w], (body ++ [";"]), [], []. repeat (split; [reflexivity|]).
    split; [now apply kw_lang|]. exists body, [";"], [], []. repeat split; auto. }
  assert (X : exists x, lang (optkw false ["TEMP"; "TEMPORARY"]) t (Some w) [] x).
  { destruct T as [->|(x & -> & M)].
    - exists None. right. exists tt. split; [reflexivity|]. cbn. auto.
    - exists (Some x). left. exists x. split; [reflexivity|]. cbn. auto. }
  destruct X as [x X]. exists (c, (x, SOther)). split; [reflexivity|].
  exists [c], (t ++ w :: body ++ [";"]), [], []. repeat (split; [reflexivity|]). split; [now apply kw_lang|].
  exists t, (w :: body ++ [";"]), [], []. repeat (split; [reflexivity|]). split; [exact X|]. right. exact O.
Qed.
Lemma other_lang : forall d l, other_statement d l -> lang (script d) l None [] [SOther].
Proof.
  intros d l (c & t & w & body & -> & C & T & W & S).
  apply (PartsFacts.script_one d c _ None).
  assert (N : forall t', temp_words d = [] -> t = t' -> t' = []).
  { intros t' E <-. destruct T as [->|(x & -> & M)]; auto. rewrite E in M. discriminate. }
  destruct d; cbn [statement]; try (now apply sqlite_other); rewrite (N _ eq_refl eq_refl); cbn [app].
  - exists (c, SOther). split; [reflexivity|].
    exists [c], (w :: body ++ [";"]), [], []. repeat (split; [reflexivity|]). split; [now apply kw_lang|]. right.
    exists (w, (tt, ";")). split; [reflexivity|]. exists [w], (body ++ [";"]), [], []. repeat (split; [reflexivity|]).
    split; [apply kw_lang; revert W; inclusion|]. exists body, [";"], [], []. repeat split; auto.
  - exists (c, SOther). split; [reflexivity|].
    exists [c], (w :: body ++ [";"]), [], []. repeat (split; [reflexivity|]). split; [now apply kw_lang|]. right.
    exists (w, (tt, ";")). split; [reflexivity|]. exists [w], (body ++ [";"]), [], []. repeat (split; [reflexivity|]).
    split; [now apply kw_lang|]. exists body, [";"], [], []. repeat split; auto.
Qed.
Theorem other_same : forall d s s' l1 v1 x l2, (exists o1, lang (script d) l1 None o1 v1) -> other_statement d x ->
  tokens d s (l1 ++ l2) -> tokens d s' (l1 ++ x ++ l2) -> alike d s s'.
Proof. intros d s s' l1 v1 x l2 [o1 H] O. eapply silent_same; [exact H|now apply other_lang]. Qed.

Lemma temp_inv : forall ws t nxt o v, lang (optkw false ws) t nxt o v -> o = [] /\ (t = [] \/ exists x, t = [x] /\ matches ws x = true).
Proof.
  intros ws t nxt o v [H|H].
  - destruct H as (x & -> & M & -> & ->). split; [reflexivity|]. right. exists x. auto.
  - destruct H as (x & -> & H). cbn in H. intuition.
Qed.
(** every skipped statement of every script is such a statement *)
Lemma other_inv : forall d l nxt o, lang (statement d) l nxt o SOther -> o = [] /\ other_statement d l.
Proof.
  intros d l nxt o H.
  destruct d; cbn [statement] in H; unfold GSqlite.statement, GPostgres.statement, GMysql.statement in H; PartsFacts.parts H;
    repeat match goal with x : (_ * _)%type |- _ => destruct x end; cbn [fst snd] in *; subst;
    apply PartsFacts.cond_inv in H as [H|H];
    try (exfalso; destruct H as (? & H & _); repeat match goal with x : (_ * _)%type |- _ => destruct x end; discriminate H).
  all: unfold GSqlite.create_other, GPostgres.create_other, GMysql.create_other in H; PartsFacts.parts H;
    repeat match goal with x : (_ * _)%type |- _ => destruct x end; cbn [fst snd] in *.
  all: repeat match goal with K : lang (kw_ [";"]) _ _ _ _ |- _ => apply PartsFacts.sym_is in K as (-> & -> & ->); [|reflexivity..] end.
  all: repeat match goal with K : lang (kw_ _) _ _ _ _ |- _ => destruct K as (? & -> & ->) end.
  all: repeat match goal with K : lang Skip _ _ _ _ |- _ => destruct K as (? & -> & ?) end.
  all: try match goal with K : lang (optkw _ _) ?t _ _ _ |- _ => apply temp_inv in K as [-> K] end.
  all: split; [reflexivity|].
  1, 4: exists s, l, s0, l2; repeat split; auto.
  - exists s, [], s0, l1. repeat split; auto. revert H. cbn [cmem]. inclusion.
  - exists s, [], s0, l1. repeat split; auto.
Qed.
Theorem other_found : forall d s vs1 vs2, says d s (vs1 ++ SOther :: vs2) -> exists l1 x l2, tokens d s (l1 ++ x ++ l2) /\
  (exists o1, lang (script d) l1 None o1 vs1) /\ other_statement d x /\ (exists o2, lang (script d) l2 None o2 vs2).
Proof.
  intros d s vs1 vs2 (l & o & T & H). destruct (PartsFacts.script_split _ _ _ _ H _ _ _ eq_refl) as (l1 & l2 & l3 & o1 & o2 & o3 & -> & -> & H1 & H2 & H3).
  destruct (other_inv _ _ _ _ H2) as [-> O]. exists l1, l2, l3. eauto 8.
Qed.

(** ** Texts without tokens *)
Theorem nothing : forall d s, tokens d s [] -> accepted s d [].
Proof.
  intros d s (t & L & E)%tokens_lexed. apply returns_stage. eapply (st_ok _ _ t [] []); [exact L| |exists 1, []; reflexivity].
  rewrite <- E. split; [discriminate|]. exists 1. destruct d; reflexivity.
Qed.
Theorem blank_text : forall d l, layout d l = true -> lexemes l = [] -> accepted (text_of l) d [].
Proof. intros d l L E. apply nothing. rewrite <- E. now apply layout_tokens_are. Qed.
