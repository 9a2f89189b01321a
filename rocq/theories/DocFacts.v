(** Reserved words: those of the documentation, with exceptions. *)
From Coq Require Import String Ascii List Bool Arith NArith Lia.
From Verif Require Import GoStr GoNum Types VBase Exec Grammar GrammarFacts Ast Enclosed Parse Spec Parts PartsFacts Meaning Stops Names NamesFacts TypeNames TypeFacts DocWords.
From Verif Require GSqlite GPostgres GMysql.
Import ListNotations.
Open Scope nat_scope.
Open Scope string_scope.
Open Scope list_scope.

Definition uppers : list ascii := list_ascii_of_string "ABCDEFGHIJKLMNOPQRSTUVWXYZ_0123456789".
Definition is_upper (s : string) : bool := forallb (fun c => existsb (Ascii.eqb c) uppers) (list_ascii_of_string s).
Lemma upper_letter : forall c, In c letters \/ In c digits -> existsb (Ascii.eqb (upper_ascii c)) uppers = true.
Proof.
  assert (H : forallb (fun c => existsb (Ascii.eqb (upper_ascii c)) uppers) (letters ++ digits) = true) by (vm_compute; reflexivity).
  rewrite forallb_forall in H. intros c I. apply H, in_or_app, I.
Qed.
Lemma word_upper : forall w, word w -> is_upper (to_upper w) = true.
Proof.
  intros w (c & s & -> & C & F). unfold is_upper.
  assert (G : Forall (fun x => In x letters \/ In x digits) (list_ascii_of_string (String c s))) by (cbn; constructor; auto).
  clear C F. remember (String c s) as t. clear Heqt c s. induction t as [|c t IH]; [reflexivity|]. inversion G; subst.
  cbn [to_upper list_ascii_of_string forallb]. apply andb_true_iff. split; [now apply upper_letter|auto].
Qed.

Definition counted (d : rdbms) (u : string) : bool :=
  (contains (documented d) u && negb (contains (overlooked d) u)) || contains (excessive d) u.
Lemma reserved_counted : forall d u, is_upper u = true -> contains (reserved d) u = counted d u.
Proof.
  assert (H1 : forall d, forallb (fun u => counted d u || negb (is_upper u)) (reserved d) = true) by (intros []; vm_compute; reflexivity).
  assert (H2 : forall d, forallb (fun u => contains (reserved d) u || contains (overlooked d) u) (documented d) = true) by (intros []; vm_compute; reflexivity).
  assert (H3 : forall d, forallb (contains (reserved d)) (excessive d) = true) by (intros []; vm_compute; reflexivity).
  intros d u U. specialize (H1 d). specialize (H2 d). specialize (H3 d). rewrite forallb_forall in H1, H2, H3.
  destruct (contains (reserved d) u) eqn:R.
  - apply contains_spec in R. apply H1 in R. rewrite U in R. cbn [negb] in R. now rewrite orb_false_r in R.
  - symmetry. apply not_true_is_false. intros C. apply orb_true_iff in C as [C|C].
    + apply andb_true_iff in C as [C N]. apply contains_spec in C. apply H2 in C. apply negb_true_iff in N. rewrite R, N in C. discriminate.
    + apply contains_spec in C. apply H3 in C. congruence.
Qed.

Theorem legal_words : forall d w, word w ->
  (legal d w <-> (~ In (to_upper w) (documented d) \/ In (to_upper w) (overlooked d)) /\ ~ In (to_upper w) (excessive d)).
Proof.
  intros d w W. pose proof (reserved_counted d _ (word_upper _ W)) as R.
  assert (L : legal d w <-> contains (reserved d) (to_upper w) = false).
  { split.
    - intros [(q & s & E & I)|[_ N]].
      + destruct W as (c & s' & -> & C & _). injection E as -> _. exfalso.
        assert (Q : forall d, forallb (fun x => negb (contains (id_quotes d) (String x ""))) letters = true) by (intros []; vm_compute; reflexivity).
        specialize (Q d). rewrite forallb_forall in Q. apply Q in C. apply contains_spec in I. rewrite I in C. discriminate.
      + apply not_true_is_false. intros C. now apply N, contains_spec.
    - intros N. right. split; [exact W|]. intros C. apply contains_spec in C. congruence. }
  rewrite L, R. unfold counted. rewrite orb_false_iff, andb_false_iff, negb_false_iff, <- !not_true_iff_false, !contains_spec. tauto.
Qed.

(** A token that is not a legal name is rejected where the name of a table or of a column is expected. *)
Lemma illegal_name : forall d ddl l w, tokens d ddl l -> In w l -> ~ legal d w -> legal_name d w = false.
Proof.
  intros d ddl l w T I N. apply not_true_is_false. intros L. apply N, legal_spec; auto.
  pose proof (tokens_enclosed _ _ _ T) as F. rewrite Forall_forall in F. auto.
Qed.
Theorem illegal_table : forall d ddl s1 v1 c b w rest,
  (exists o1, lang (script d) s1 None o1 v1) -> matches ["CREATE"] c = true -> matches ["TABLE"] b = true ->
  ~ legal d w -> w <> "IF" -> w <> "if" ->
  tokens d ddl (s1 ++ c :: b :: w :: rest) -> exists line, rejected ddl d line w.
Proof.
  intros d ddl s1 v1 c b w rest S1 C B L N1 N2 T. eapply bad_table; eauto.
  - eapply illegal_name; [exact T| |exact L]. rewrite !in_app_iff. cbn [In]. tauto.
  - apply not_true_is_false. intros M. apply matches_spec in M as (u & [<-|[]] & [->| ->]); auto.
Qed.
Theorem illegal_column : forall d ddl s1 v1 a oa p w rest,
  (exists o1, lang (script d) s1 None o1 v1) -> lang (opening d) a None oa tt -> before d p ->
  ~ legal d w -> ~ In w (element_starts d) ->
  tokens d ddl (s1 ++ a ++ p ++ w :: rest) -> exists line, rejected ddl d line w.
Proof.
  intros d ddl s1 v1 a oa p w rest S1 A P L N T. eapply bad_column; eauto.
  - eapply illegal_name; [exact T| |exact L]. rewrite !in_app_iff. cbn [In]. tauto.
  - apply not_true_is_false. intros M. apply matches_spec in M as (u & J & M). apply N.
    assert (X : forall d, forallb (fun u => contains (element_starts d) (to_upper u) && contains (element_starts d) (to_lower u)) (starts d) = true)
      by (intros []; reflexivity).
    specialize (X d). rewrite forallb_forall in X. apply X, andb_true_iff in J as [J1 J2]. apply contains_spec in J1, J2.
    destruct M as [->| ->]; auto.
Qed.

(** Concrete words. *)
Lemma pattern_word : forall w, name_pattern w = true -> word w.
Proof.
  intros [|c t] H; [discriminate|]. cbn [name_pattern] in H. apply andb_true_iff in H as [H1 H2].
  exists c, t. split; auto. split; [now apply letter_spec|]. clear - H2. induction t as [|x t IH]; cbn in *; constructor.
  - apply andb_true_iff in H2 as [H2 _]. now apply char_spec.
  - apply andb_true_iff in H2 as [_ H2]. auto.
Qed.
Lemma word_pattern : forall w, word w -> name_pattern w = true.
Proof.
  intros w (c & s & -> & C & F). cbn [name_pattern]. apply andb_true_iff. split.
  - assert (B : forallb name_start letters = true) by (vm_compute; reflexivity).
    rewrite forallb_forall in B. now apply B.
  - assert (B : forallb name_char (letters ++ digits) = true) by (vm_compute; reflexivity).
    rewrite forallb_forall in B. clear C. induction s as [|x s IH]; [reflexivity|]. inversion F; subst. cbn. apply andb_true_iff. split; auto.
    apply B, in_or_app. auto.
Qed.
Lemma legal_true : forall d w, legal d w -> legal_name d w = true.
Proof.
  intros d w [(q & s & -> & I)|[W N]]; apply orb_true_iff; [left|right].
  - cbn [quoted]. now apply contains_spec.
  - apply andb_true_iff. split; [now apply word_pattern|]. apply negb_true_iff, not_true_is_false. intros C. now apply N, contains_spec.
Qed.
Lemma not_legal : forall d w, legal_name d w = false -> ~ legal d w.
Proof. intros d w H L. apply legal_true in L. congruence. Qed.
