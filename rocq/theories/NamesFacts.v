(** The names in the result are legal names of the text. *)
From Coq Require Import String Ascii ZArith List Bool Arith NArith Lia.
From Verif Require Import GoStr GoNum Types Grammar GrammarFacts Ast Spec Pipe
  Safe Seen Emit Conv Derive Tokens Accept Meaning Sources SourcesFacts Witness Enclosed Names ValuesFacts.
Import ListNotations.
Open Scope nat_scope.
Open Scope string_scope.

Lemma letter_spec : forall c, name_start c = true -> In c letters.
Proof.
  assert (E : forall c, name_start c = existsb (Ascii.eqb c) letters).
  { intros [[] [] [] [] [] [] [] []]; vm_compute; reflexivity. }
  intros c H. rewrite E in H. apply existsb_exists in H as (x & H & X). apply Ascii.eqb_eq in X. now subst.
Qed.
Lemma char_spec : forall c, name_char c = true -> In c letters \/ In c digits.
Proof.
  assert (E : forall c, in_range 48 57 c = existsb (Ascii.eqb c) digits).
  { intros [[] [] [] [] [] [] [] []]; vm_compute; reflexivity. }
  intros c H. apply orb_true_iff in H as [H|H]; [left; now apply letter_spec|right].
  rewrite E in H. apply existsb_exists in H as (x & H & X). apply Ascii.eqb_eq in X. now subst.
Qed.
Lemma legal_spec : forall d t, legal_name d t = true -> enclosed t -> legal d t.
Proof.
  intros d t H E. apply orb_true_iff in H as [H|H].
  - left. destruct t as [|c t]; [discriminate|].
    assert (Q : quoted any_quote (String c t) = true).
    { destruct d; unfold quoted in *; cbn [id_quotes] in H; apply contains_spec in H; apply contains_spec; cbn in H |- *; tauto. }
    destruct (E Q) as (q & s & X). rewrite X. exists q, s. split; auto. apply contains_spec. inversion X; subst. exact H.
  - right. apply andb_true_iff in H as [H N]. split.
    + destruct t as [|c t]; [discriminate|]. cbn [name_pattern] in H. apply andb_true_iff in H as [H1 H2].
      exists c, t. split; auto. split; [now apply letter_spec|]. clear - H2. induction t as [|x t IH]; cbn in *; constructor.
      * apply andb_true_iff in H2 as [H2 _]. now apply char_spec.
      * apply andb_true_iff in H2 as [_ H2]. auto.
    + intros I. apply contains_spec in I. rewrite I in N. discriminate.
Qed.
Lemma put_not_legal : forall d t, In t (put_in d) -> legal_name d t = false.
Proof. intros d t H. destruct d; cbn in H; repeat (destruct H as [<-|H]; [vm_compute; reflexivity|]); contradiction. Qed.

Section Script.
Variables (d : rdbms) (l out : list string).
Hypothesis W : weave (put_in d) l out.
Hypothesis Enc : Forall enclosed l.

Lemma name_legal : forall t, In t out -> name_tok d t -> legal_in d l t.
Proof.
  intros t I [N G]. apply (weave_in _ _ _ _ W) in I as [I|I]; [|apply put_not_legal in I; congruence].
  split; auto. apply legal_spec; auto. rewrite Forall_forall in Enc. auto.
Qed.
Lemma name_ok : forall t, In t out -> name_tok d t -> name_in d l (unquote d t).
Proof. intros t I N. exists t. split; auto. now apply name_legal. Qed.
Lemma names_ok : forall cols o, incl o out -> em_names d cols o -> Forall (legal_in d l) cols.
Proof.
  intros cols o I (x & -> & F & ->). apply Forall_forall. intros t T. apply filter_In in T as [T N].
  rewrite Forall_forall in F. destruct (F t T) as [->|K]; [discriminate|]. apply name_legal; auto. apply I. right. apply in_or_app. now left.
Qed.
Lemma ref_ok : forall r o, incl o out -> em_ref d r o -> safe_ref r = true -> reference_legal d l (reference_of d r).
Proof.
  intros r o I H S. destruct H as [k t K N|k t cols o K N C| |]; [| |discriminate|discriminate]; (split; cbn; [right; apply name_ok; auto; apply I; cbn; auto|]); auto.
  eapply names_ok; [|exact C]. intros x X. apply I. cbn. auto.
Qed.
Lemma zero_ok : reference_legal d l zero_reference.
Proof. split; cbn; auto. now left. Qed.

Lemma incl_l : forall A (a b c : list A), incl (a ++ b) c -> incl a c.
Proof. intros A a b c H x X. apply H, in_or_app. now left. Qed.
Lemma incl_r : forall A (a b c : list A), incl (a ++ b) c -> incl b c.
Proof. intros A a b c H x X. apply H, in_or_app. now right. Qed.

Lemma items_ok : forall is hs o, em_items d is hs o -> incl o out -> forallb readable_item is = true ->
  reference_legal d l (or_else (first_of (fun i => match i with IReferences r => Some (reference_of d r) | _ => None end) is) zero_reference).
Proof.
  intros is hs o H. induction H as [|i is h hs o os H1 H2 IH]; intros I S; [apply zero_ok|].
  cbn [forallb] in S. apply andb_true_iff in S as [S1 S2]. cbn [first_of].
  destruct i; try (apply IH; [eapply incl_r; exact I|exact S2]).
  inversion H1; subst. cbn [or_else]. eapply ref_ok; [eapply incl_l; exact I|eassumption|exact S1].
Qed.
Lemma cname_ok : forall ws x n o, em_cname d ws x n o -> incl o out -> opt_name_in d l (opt_name d n).
Proof.
  intros ws x n o H I. destruct H as [|k t l' K _ M|k t K N]; [now left|now left|]. right. cbn. apply name_ok; auto. apply I. cbn. auto.
Qed.
Lemma column_ok : forall c o, em_column d c o -> incl o out -> forallb readable_item (ac_items c) = true -> column_legal d l (column_of d (seen_column c)).
Proof.
  intros c o H I S. destruct H as [n ty c is ot oc oi hs key N T C E K U]. cbn [ac_items] in S.
  assert (In n out) by (apply I; now left). 
  assert (I2 : incl (ot ++ oc ++ oi) out) by (intros x X; apply I; now right).
  split; [|split].
  - cbn [column_of col_name]. replace (ac_name (seen_column (mk_acolumn n ty c is))) with n; [now apply name_ok|].
    unfold seen_column. cbn [ac_cname]. destruct c as [x|]; auto. now destruct (matches not_names x).
  - cbn [column_of col_constraint constraint_of c_name]. unfold seen_column. cbn [ac_cname]. destruct c as [x|]; [|now left].
    destruct (matches not_names x); [now left|]. cbn [ac_cname]. eapply cname_ok; [exact C|]. eapply incl_l, incl_r, I2.
  - cbn [column_of col_constraint constraint_of c_references]. rewrite items_seen by reflexivity.
    erewrite first_of_seen with (g := fun i => match i with IReferences r => Some (reference_of d r) | _ => None end) by now intros [| | | |[]| | | |].
    cbn [ac_items]. eapply items_ok; [exact E|eapply incl_r, incl_r, I2|exact S].
Qed.
Definition element_legal (e : a_element) : Prop :=
  match e with
  | EColumn c => column_legal d l (column_of d c)
  | EConstraint n b => opt_name_in d l (opt_name d n) /\
    match b with
    | BPrimary cols | BUnique cols => Forall (legal_in d l) cols
    | BForeign cols r => Forall (legal_in d l) cols /\ reference_legal d l (reference_of d r)
    | _ => True
    end
  end.
Lemma element_ok : forall e o, em_element d e o -> incl o out -> readable_element e = true -> element_legal (seen_element e).
Proof.
  intros e o H I S. destruct H as [c o C|n b oc ob C B]; [eapply column_ok; eauto|].
  split; [eapply cname_ok; [exact C|eapply incl_l; exact I]|]. apply incl_r in I.
  destruct B as [p k cols o P K E|k cols o K E|k e K E|f k cols o r o2 F K E R| |o]; cbn [seen_body]; auto.
  - eapply names_ok; [|exact E]. intros x X. apply I. cbn. auto.
  - eapply names_ok; [|exact E]. intros x X. apply I. cbn. auto.
  - split; [eapply names_ok; [|exact E]|eapply ref_ok; [|exact R|exact S]]; intros x X; apply I; cbn; right; right; apply in_or_app; auto.
Qed.
Lemma elements_ok : forall es o, em_elements d es o -> incl o out -> forallb readable_element es = true -> Forall element_legal (map seen_element es).
Proof.
  intros es o H. induction H as [e o H|e es o os H1 H2 IH]; intros I S; cbn [forallb] in S; apply andb_true_iff in S as [S1 S2].
  - constructor; auto. eapply element_ok; eauto.
  - constructor; [eapply element_ok; [exact H1|eapply incl_l; exact I|exact S1]|]. apply IH; auto.
    intros x X. apply I, in_or_app. right. now right.
Qed.
Lemma flat_Forall : forall A B (P : A -> Prop) (Q : B -> Prop) (f : A -> list B) xs,
  (forall x, P x -> Forall Q (f x)) -> Forall P xs -> Forall Q (flat_map f xs).
Proof. intros A B P Q f xs H F. induction F; cbn; [constructor|]. apply Forall_app. auto. Qed.
Lemma table_ok : forall t o, em_table d t o -> incl o out -> readable_table t = true -> table_legal d l (table_of d (seen_table t)).
Proof.
  intros t o H I S. destruct H as [i s t es c k oi os oe C K OI OS N E]. apply andb_true_iff in S as [S _]. cbn [at_elements] in S.
  assert (I2 : incl os out).
  { intros x X. apply I. right. right. apply in_or_app. right. apply in_or_app. now left. }
  assert (I3 : incl oe out).
  { intros x X. apply I. right. right. apply in_or_app. right. apply in_or_app. right. right. apply in_or_app. now left. }
  apply elements_ok in E; auto.
  assert (T : In t out).
  { apply I2. destruct s as [s|]; destruct OS as [-> _]; cbn; auto. }
  split; [|split; [|split]]; cbn.
  - destruct s as [s|]; [|now left]. right. destruct OS as (-> & O & _). apply name_ok; auto. apply I2. now left.
  - now apply name_ok.
  - unfold columns_of. eapply flat_Forall; [|exact E]. intros [c'|n b] X; auto.
  - repeat split; cbn; (eapply flat_Forall; [|exact E]); intros [c'|n b] X; auto; destruct X as [X1 X2]; destruct b; auto; constructor; cbn; auto.
Qed.
Lemma script_ok : forall stmts o, em_script d stmts o -> incl o out -> readable stmts = true -> Forall (table_legal d l) (tables_of d (seen stmts)).
Proof.
  intros stmts o H. induction H as [|t ss o os H1 H2 IH|ss os H IH]; intros I S.
  - constructor.
  - cbn [readable forallb] in S. apply andb_true_iff in S as [S1 S2]. cbn [seen map seen_stmt tables_of flat_map app]. constructor.
    + eapply table_ok; [exact H1|eapply incl_l; exact I|exact S1].
    + apply IH; auto. eapply incl_r; exact I.
  - cbn. auto.
Qed.
End Script.

Theorem legal_names : forall d ddl stmts ts, accepted ddl d ts -> says d ddl stmts -> readable stmts = true ->
  exists l, tokens d ddl l /\ Forall (table_legal d l) ts.
Proof.
  intros d ddl stmts ts A S F. destruct (returns_det _ _ _ _ _ _ A (says_seen _ _ _ S F)) as [-> _].
  destruct S as (l & out & T & H). exists l. split; auto.
  eapply script_ok; [eapply lang_weave; [apply script_put_in|exact H]|eapply tokens_enclosed; exact T|eapply lang_em; [eapply tokens_good; exact T|exact H]| |exact F].
  apply incl_refl.
Qed.
