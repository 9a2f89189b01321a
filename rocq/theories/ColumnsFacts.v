From Coq Require Import String List Bool Arith Lia.
From Verif Require Import GoStr Types VBase Exec Grammar GrammarFacts Ast Emit Enclosed Converter Parse Spec Pipe Meaning Witness Decide Local LayoutFacts Parts PartsFacts Safe Seen Values ValuesFacts Columns NotNull NotNullFacts.
From Verif Require GSqlite GPostgres GMysql Read.
Import ListNotations.
Open Scope nat_scope.
Open Scope string_scope.
Open Scope gr_scope.
(** the opening with what it says *)
Definition opening_v (d : rdbms) : gr (bool * (option string * string)) :=
  match d with
  | PostgreSQL =>
    kw_ ["CREATE"] ** Put ["CREATE"] ** kw ["TABLE"] ** GPostgres.if_not_exists ** GPostgres.table_name ** kw ["("] ==> fun '(_, (_, (_, (i, (n, _))))) => (i, n)
  | MySQL =>
    kw_ ["CREATE"] ** Put ["CREATE"] ** kw ["TABLE"] ** GMysql.if_not_exists ** GMysql.table_name ** kw ["("] ==> fun '(_, (_, (_, (i, (n, _))))) => (i, n)
  | _ =>
    kw_ ["CREATE"] ** optkw false ["TEMP"; "TEMPORARY"] ** Put ["CREATE"] ** kw ["TABLE"] ** GSqlite.if_not_exists **
    GSqlite.table_name ** kw ["("] ==> fun '(_, (_, (_, (_, (i, (n, _)))))) => (i, n)
  end.
Lemma opening_value : forall d a na oa va, lang (opening d) a na oa va -> exists i s n, lang (opening_v d) a na oa (i, (s, n)).
Proof.
  intros d a na oa va H. assert (X : exists v, lang (opening_v d) a na oa v); [|destruct X as ((i & s & n) & X); eauto].
  destruct d; destruct H as (v & _ & H); eexists; exists v; split; eauto.
Qed.
Lemma table_of_parts : forall d a na oa i s n es oe ve o oo vo nxt,
  lang (opening_v d) a na oa (i, (s, n)) -> lang (elements d) es (Some ")") oe ve -> lang (options d) o (Some ";") oo vo ->
  lang (statement d) (a ++ es ++ ")" :: o ++ [";"]) nxt (oa ++ oe ++ [")"; ";"]) (STable (mk_atable i s n ve)).
Proof.
  intros d a na oa i s n es oe ve o oo vo nxt A E O. pose proof (options_mute _ _ _ _ _ O) as ->.
  assert (N : nxtfree (opening_v d) = true) by (destruct d; vm_compute; reflexivity).
  apply (nxtfree_lang _ _ N _ _ (hdr es (Some ")"))) in A. clear N.
  pose proof (table_tail d es oe ve o vo nxt E O) as T.
  replace (hdr es (Some ")")) with (hdr (es ++ ")" :: o ++ [";"])%list nxt) in A by now rewrite hdr_app.
  clear E O. set (r := (es ++ ")" :: o ++ [";"])%list) in *. set (ro := (oe ++ [")"; ";"])%list) in *.
  set (v := (ve, (")", (vo, ";")))) in T. clearbody r ro.
  destruct d; cbn [opening_v options elements element statement] in *; parts T; unfold v in *; cbn [fst snd] in *; clear v; destruct A as (av & Ev & A);
    repeat match goal with x : (_ * _)%type |- _ => destruct x end; inversion Ev; subst; parts A; cbn [fst snd] in *.
  all: rewrite <- ?app_assoc; rewrite <- ?app_assoc in *.
  - eexists (_, (_, _)). split; [reflexivity|]. eapply lang_seq; [rewrite ?hdr_app in *; eassumption|]. eapply lang_seq; [rewrite ?hdr_app in *; eassumption|]. left.
    eexists (tt, (_, (_, ((_, _), (_, (_, _)))))). split; [reflexivity|].
    repeat (first [eassumption | rewrite ?hdr_app in *; eassumption | eapply lang_seq]).
  - eexists (_, _). split; [reflexivity|]. eapply lang_seq; [rewrite ?hdr_app in *; eassumption|]. left.
    eexists (tt, (_, (_, ((_, _), (_, (_, _)))))). split; [reflexivity|].
    repeat (first [eassumption | rewrite ?hdr_app in *; eassumption | eapply lang_seq]).
  - eexists (_, _). split; [reflexivity|]. eapply lang_seq; [rewrite ?hdr_app in *; eassumption|]. left.
    eexists (tt, (_, (_, ((_, _), (_, (_, _)))))). split; [reflexivity|].
    repeat (first [eassumption | rewrite ?hdr_app in *; eassumption | eapply lang_seq]).
  - eexists (_, (_, _)). split; [reflexivity|]. eapply lang_seq; [rewrite ?hdr_app in *; eassumption|]. eapply lang_seq; [rewrite ?hdr_app in *; eassumption|]. left.
    eexists (tt, (_, (_, ((_, _), (_, (_, _)))))). split; [reflexivity|].
    repeat (first [eassumption | rewrite ?hdr_app in *; eassumption | eapply lang_seq]).
Qed.
Lemma table_parts_v : forall d a na oa va es oe ve o oo vo nxt,
  lang (opening d) a na oa va -> lang (elements d) es (Some ")") oe ve -> lang (options d) o (Some ";") oo vo ->
  exists t, lang (statement d) (a ++ es ++ ")" :: o ++ [";"]) nxt (oa ++ oe ++ [")"; ";"]) (STable t) /\ at_elements t = ve.
Proof.
  intros d a na oa va es oe ve o oo vo nxt A E O. apply opening_value in A as (i & s & n & A). eexists. split; [eapply table_of_parts; eauto|reflexivity].
Qed.
Lemma table_split_v : forall d l nxt out t, lang (statement d) l nxt out (STable t) ->
  exists a oa es oe o, l = (a ++ es ++ ")" :: o ++ [";"])%list /\
    lang (opening d) a None oa tt /\ lang (elements d) es (Some ")") oe (at_elements t) /\ lang (options d) o (Some ";") [] tt.
Proof.
  intros d l nxt out t H. destruct (table_split _ _ _ _ _ H) as (a & oa & es & oe & ve & o & -> & -> & A & E & O).
  exists a, oa, es, oe, o. do 3 (split; auto). destruct (table_parts_v _ _ _ _ _ _ _ _ _ _ _ None A E O) as (t' & H' & <-).
  destruct (statement_cons _ _ _ _ _ H) as (x & y & Q). rewrite Q in H, H'. apply script_one in H, H'.
  assert (W : within [FEof] None) by (exists FEof; split; [now left|reflexivity]).
  destruct (Read.lang_det _ (script d) [FEof] _ _ [] [] _ _ _ _ (script_ok_eof d) H W H' W eq_refl) as (_ & _ & X). inversion X; subst. exact E.
Qed.

Lemma sep_text : forall A keep (L : list string -> option string -> list string -> A -> Prop) l nxt o vs, sepby L keep l nxt o vs -> exists ws, sepby (with_text L) keep l nxt o ws /\ map snd ws = vs.
Proof.
  intros A keep L l nxt o vs H. induction H as [l nxt o v H|l1 l2 nxt o1 o2 v vs H1 H2 (ws & IH & E)].
  - exists [(l, v)]. split; auto. apply sep_one. split; auto.
  - exists ((l1, v) :: ws). split; [|cbn; now rewrite E]. apply (sep_cons _ _ _ _ _ _ _ (l1, v)); auto. split; auto.
Qed.
Lemma text_sep : forall A keep (L : list string -> option string -> list string -> A -> Prop) l nxt o ws, sepby (with_text L) keep l nxt o ws ->
  sepby L keep l nxt o (map snd ws) /\ Forall (fun w => exists nxt o, L (fst w) nxt o (snd w)) ws.
Proof.
  intros A keep L l nxt o ws H. induction H as [l nxt o v [E H]|l1 l2 nxt o1 o2 v vs [E H1] H2 [IH F]]; cbn [map]; subst.
  - split; [now apply sep_one|]. constructor; eauto.
  - split; [now apply sep_cons|]. constructor; eauto.
Qed.
Definition column_is (d : rdbms) (t : list string) (c : a_column) : Prop := exists nxt o, lang (element d) t nxt o (EColumn c).
Lemma among_columns : forall d ws, Forall (fun w => exists nxt o, lang (element d) (fst w) nxt o (snd w)) ws ->
  Forall2 (column_is d) (columns_among ws) (flat_map (fun e => match e with EColumn c => [c] | _ => [] end) (map snd ws)).
Proof.
  intros d ws F. induction F as [|[l e] ws H F IH]; cbn [map flat_map columns_among]; auto.
  destruct e; cbn [app fst snd] in *; auto.
Qed.

Theorem texts_columns : forall d l cs, column_texts d l cs -> exists o v, lang (script d) l None o v /\ Forall2 (column_is d) cs (columns_in v).
Proof.
  intros d l cs H. induction H as [|l o r cs H1 H2 (o2 & v2 & L & F)|a oa es oe vs o oo r cs A E O H (o2 & v2 & L & F)].
  - exists [], []. split; [|constructor]. rewrite script_while. exists []. constructor.
  - exists (o ++ o2)%list, (SOther :: v2). split; auto. apply (script_app d l None o [SOther] r o2 v2); auto.
  - apply text_sep in E as [E G]. destruct (table_parts_v _ _ _ _ _ _ _ _ _ _ _ None A E O) as (t & S & T).
    destruct (statement_cons _ _ _ _ _ S) as (x & y & Q). rewrite Q in S. apply script_one in S. rewrite <- Q in S.
    exists ((oa ++ oe ++ [")"; ";"]) ++ o2)%list, (STable t :: v2). split.
    + replace (a ++ es ++ ")" :: o ++ ";" :: r)%list with ((a ++ es ++ ")" :: o ++ [";"]) ++ r)%list by (rewrite <- !app_assoc; cbn [app]; now rewrite <- !app_assoc).
      exact (script_app d _ None _ [STable t] r o2 v2 S L).
    + cbn [columns_in flat_map]. apply Forall2_app; auto. rewrite T. now apply among_columns.
Qed.
Theorem texts_exist : forall d v l o, lang (script d) l None o v -> exists cs, column_texts d l cs.
Proof.
  intros d v. induction v as [|s v IH]; intros l o H.
  - rewrite script_while in H. destruct H as (hs & H). inversion H; subst. exists []. constructor.
  - destruct (script_split _ _ _ _ H [] s v eq_refl) as (l1 & l2 & l3 & o1 & o2 & o3 & -> & -> & S1 & S2 & S3).
    rewrite script_while in S1. destruct S1 as (hs & S1). inversion S1; subst. cbn [app].
    destruct (IH _ _ S3) as (cs & C). destruct s as [t|].
    + destruct (table_split_v _ _ _ _ _ S2) as (a & oa & es & oe & o & -> & A & E & O). apply sep_text in E as (ws & E & _).
      exists (columns_among ws ++ cs)%list.
      replace ((a ++ es ++ ")" :: o ++ [";"]) ++ l3)%list with (a ++ es ++ ")" :: o ++ ";" :: l3)%list by (rewrite <- !app_assoc; cbn [app]; now rewrite <- !app_assoc).
      eapply ct_table; eauto.
    + exists cs. econstructor; eauto. destruct (statement_cons _ _ _ _ _ S2) as (x & y & ->). eapply script_one; eauto.
Qed.
Lemma texts_says : forall d ddl l cs stmts, tokens d ddl l -> column_texts d l cs -> says d ddl stmts -> Forall2 (column_is d) cs (columns_in stmts).
Proof.
  intros d ddl l cs stmts T C S. apply texts_columns in C as (o & v & L & F).
  assert (S' : says d ddl v) by (exists l, o; auto). now rewrite (says_det _ _ _ _ S S').
Qed.
Theorem column_wise : forall d (P : list string -> a_column -> column -> Prop) ddl stmts,
  (forall c o, em_column d c o -> Forall enclosed o -> forall t, column_is d t c -> P t c (column_of d (seen_column c))) ->
  says d ddl stmts -> readable stmts = true -> forall l cs, tokens d ddl l -> column_texts d l cs ->
  exists ts, accepted ddl d ts /\ Forall2 (fun t r => exists c, column_is d t c /\ P t c r) cs (result_columns ts).
Proof.
  intros d P ddl stmts H S F l cs T C. pose proof (texts_says _ _ _ _ _ T C S) as X.
  destruct (columns_reported (fun c r => forall t, column_is d t c -> P t c r) d ddl stmts H S F) as (ts & A & Y).
  exists ts. split; auto. clear - X Y. revert X. generalize cs. induction Y as [|c r l l' Y1 Y2 IH]; intros cs' X; inversion X; subst; constructor; eauto.
Qed.

Theorem notnull_texts : forall d ddl stmts l cs, says d ddl stmts -> readable stmts = true -> tokens d ddl l -> column_texts d l cs ->
  exists ts, accepted ddl d ts /\ Forall2 (fun t r => c_notnull (col_constraint r) = true <-> not_null_written d t) cs (result_columns ts).
Proof.
  intros d ddl stmts l cs S F T C.
  destruct (column_wise d (fun t c r => c_notnull (col_constraint r) = true <-> not_null_written d t) ddl stmts) with (l := l) (cs := cs) as (ts & A & Y); auto.
  - intros c o _ _ t (nxt & o' & H). rewrite <- (notnull_written _ _ _ _ _ H). apply notnull_seen.
  - exists ts. split; auto. clear - Y. induction Y as [|t r l l' (c & _ & Y1) Y2 IH]; constructor; auto.
Qed.
