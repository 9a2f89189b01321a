(** Names in the result are empty only if they are written as an empty quotation. *)
From Coq Require Import String Ascii NArith ZArith List Bool Arith Lia.
From Verif Require Import GoStr Unicode UnicodeFacts GoNum Types Grammar Ast Text Sources Spec Meaning Emit Enclosed JsonResult Stops Seen ListedFacts.
From Verif Require SourcesFacts ValuesFacts GrammarFacts LayoutFacts.
Import ListNotations.
Open Scope nat_scope.
Open Scope string_scope.
Open Scope list_scope.

(** Double or back quotes with nothing between them. *)
Definition empty_quotation (t : string) : Prop := In t [""""""; "``"].

Lemma unquote_empty : forall d t, enclosed t -> t <> "" -> unquote d t = "" -> empty_quotation t.
Proof.
  intros d t E N U. unfold unquote in U. destruct (quoted (name_quotes d) t) eqn:Q; [|contradiction]. destruct t as [|c t]; [discriminate|].
  assert (A : contains any_quote (String c "") = true).
  { pose proof (name_quotes_any d) as F. rewrite forallb_forall in F. apply F. now apply GrammarFacts.contains_spec. }
  destruct (E A) as (q & s & X). rewrite X in U. rewrite ValuesFacts.enclosed_inner in U. subst s. injection X as -> ->.
  apply GrammarFacts.contains_spec in Q. unfold empty_quotation. destruct d; cbn in Q; repeat (destruct Q as [Q|Q]; [injection Q as <-; cbn; tauto|]); contradiction.
Qed.
Lemma runes_nonempty : forall s, s <> "" -> runes_of s <> [].
Proof.
  intros [|b s] N; [contradiction|]. cbn [runes_of]. repeat match goal with |- context [if ?x then _ else _] => destruct x | |- context [match ?x with _ => _ end] => destruct x end; discriminate.
Qed.
Lemma upper_nonempty : forall s, s <> "" -> go_upper s <> "".
Proof.
  intros s N. unfold go_upper. destruct (is_ascii s).
  - destruct s; [contradiction|discriminate].
  - apply LayoutFacts.utf8_nonempty. intros E. apply map_eq_nil in E. now apply runes_nonempty in E.
Qed.
Lemma type_nonempty : forall L ty, Forall (fun t => t <> "") L -> type_from L ty -> dt_name ty <> "".
Proof.
  intros L ty F (t & I & [->|(v & _ & _ & ->)] & _).
  - apply upper_nonempty. rewrite Forall_forall in F. auto.
  - destruct (go_upper t =? "BIT"); [discriminate|]. destruct (go_upper t =? "CHARACTER"); [discriminate|]. now destruct (go_upper t).
Qed.

Theorem types_named : forall ddl d ts t c, accepted ddl d ts -> In t ts -> In c (t_columns t) -> dt_name (col_type c) <> "".
Proof.
  intros ddl d ts t c A I J. destruct (SourcesFacts.sources d ddl ts A) as (l & out & T & W & F & _).
  rewrite Forall_forall in F. destruct (F _ I) as (_ & _ & C & _). rewrite Forall_forall in C. destruct (C _ J) as (_ & Y & _).
  eapply type_nonempty; [|exact Y]. eapply weave_all; [exact W|destruct d; repeat constructor; discriminate|].
  apply Forall_forall. intros x. eapply token_nonempty; eauto.
Qed.
Theorem names_written : forall ddl d ts l, accepted ddl d ts -> tokens d ddl l -> (forall x, In x l -> ~ empty_quotation x) ->
  forall t, In t ts -> t_name t <> "" /\ forall c, In c (t_columns t) -> col_name c <> "".
Proof.
  intros ddl d ts l A T N t I. destruct (SourcesFacts.sources d ddl ts A) as (l' & out & T' & W & F & _).
  assert (l' = l) by (eapply tokens_det; eauto). subst l'.
  assert (P : Forall (fun x => x <> "" /\ enclosed x /\ ~ empty_quotation x) out).
  { eapply weave_all; [exact W| |].
    - destruct d; repeat constructor; try discriminate; try (intros Q; discriminate Q); intros [Q|[Q|[]]]; discriminate Q.
    - apply Forall_forall. intros x X. split; [eapply token_nonempty; eauto|]. split; [|auto]. pose proof (tokens_enclosed _ _ _ T) as G. rewrite Forall_forall in G. auto. }
  rewrite Forall_forall in P. assert (Z : forall x, name_from d out x -> x <> "").
  { intros x (u & U & ->) E. destruct (P _ U) as (A1 & A2 & A3). apply A3. eapply unquote_empty; eauto. }
  rewrite Forall_forall in F. destruct (F _ I) as (_ & Y & C & _). split; [auto|]. intros c J. rewrite Forall_forall in C. destruct (C _ J) as (K & _). auto.
Qed.

Theorem columns_written : forall ddl d stmts ts, says d ddl stmts -> readable stmts = true -> accepted ddl d ts ->
  (forall t, In (STable t) stmts -> exists c, In (EColumn c) (at_elements t)) -> forall t, In t ts -> t_columns t <> [].
Proof.
  intros ddl d stmts ts S R A C t I. assert (E : ts = tables_of d (seen stmts)) by (eapply accepted_det; [exact A|]; now apply says_seen). subst ts.
  apply in_flat_map in I as (s & I & J). apply in_map_iff in I as (s' & <- & I). destruct s' as [a|]; [|contradiction]. destruct J as [<-|[]].
  destruct (C _ I) as (c & K). intros E. cbn [table_of t_columns seen_table at_elements] in E.
  assert (X : In (column_of d (seen_column c)) (columns_of d (map seen_element (at_elements a)))).
  { apply in_flat_map. exists (EColumn (seen_column c)). split; [|now left]. apply in_map_iff. exists (EColumn c). auto. }
  rewrite E in X. exact X.
Qed.
