(** Which scripts are reported faithfully. *)
From Coq Require Import String List Bool Arith Lia.
From Verif Require Import GoStr Types Lexer VBase Exec Scan Grammar GrammarFacts Ast Emit Converter Parse Spec Pipe Safe Seen Conv Exact Accept Read Meaning Decide Witness.
Import ListNotations.

Lemma index_mysql : forall d ss o, em_script d ss o -> has_index ss = true -> d = MySQL.
Proof.
  intros d ss o H I. unfold has_index in I. apply existsb_exists in I as (s & I & J). destruct s as [t|]; [|discriminate].
  assert (E : exists o', em_table d t o').
  { induction H as [|t' ss o os E Es IH|ss os Es IH]; [contradiction|destruct I as [I|I]; [inversion I; subst; eauto|auto]|].
    destruct I as [I|I]; [discriminate|auto]. }
  destruct E as [o' E]. inversion E as [? ? ? es ? ? ? ? oe _ _ _ _ _ ES]; subst. cbn [at_elements] in J.
  apply existsb_exists in J as (e & K & J).
  assert (X : exists o'', em_element d e o'') by (clear - K ES; induction ES; destruct K as [<-|K]; eauto; contradiction).
  destruct X as [o'' X]. clear - X J. destruct e as [c|n []]; try discriminate. inversion X as [|? ? ? ? _ B]; subst. now inversion B.
Qed.

Theorem says_exact : forall d ddl stmts, says d ddl stmts -> (has_index stmts = true -> ordinary d stmts = true) ->
  (accepted ddl d (tables_of d stmts) <-> safe stmts = true).
Proof.
  intros d ddl stmts S O. split; [|now apply says_tables]. intros A. destruct S as (l & out & T & L).
  apply returns_stage in A. inversion A as [| |toks rest out' ts' X V K]; subst.
  apply verdict_ok in V as [-> [v V]].
  assert (Q : l = strip toks) by (eapply tokens_det; [exact T|]; apply tokens_lexed; eauto). subst l.
  assert (W : within [FEof] (hd_error (@nil string))) by (exists FEof; split; [now left|reflexivity]).
  destruct (lang_det _ (script d) [FEof] _ _ [] [] _ _ _ _ (script_ok_eof d) L W V W eq_refl) as (_ & E & _). subst out'.
  destruct K as (n & rest & K). eapply script_exact; [|exact O|exact K]. eapply lang_em; [|exact L]. eapply tokens_good; eauto.
Qed.
Lemma says_index : forall d ddl stmts, says d ddl stmts -> has_index stmts = true -> d = MySQL.
Proof. intros d ddl stmts (l & out & T & L) I. eapply index_mysql; [|exact I]. eapply lang_em; [|exact L]. eapply tokens_good; eauto. Qed.

(** Otherwise the call returns other tables, or not at all. *)
Theorem says_wrong : forall d ddl stmts, says d ddl stmts -> (has_index stmts = true -> ordinary d stmts = true) ->
  safe stmts = false -> diverges ddl d \/ exists ts, accepted ddl d ts /\ ts <> tables_of d stmts.
Proof.
  intros d ddl stmts S O F. destruct (answer_of d ddl) as [ts [e|]|] eqn:E.
  - exfalso. eapply says_no_error; [exact S|]. apply answer_returns. exact E.
  - right. exists ts. apply answer_returns in E. split; auto. intros ->. apply (says_exact _ _ _ S O) in E. congruence.
  - left. now apply answer_forever.
Qed.

(** ** The three misreadings *)

Lemma unsafe_table : forall stmts t, In (STable t) stmts -> safe_table t = false -> safe stmts = false.
Proof.
  intros stmts t I F. destruct (safe stmts) eqn:S; auto. unfold safe in S. rewrite forallb_forall in S.
  specialize (S _ I). cbn in S. congruence.
Qed.
Lemma unsafe_element : forall t e, In e (at_elements t) -> safe_element e = false -> safe_table t = false.
Proof.
  intros t e I F. unfold safe_table. destruct (forallb safe_element (at_elements t)) eqn:S; auto.
  rewrite forallb_forall in S. specialize (S e I). congruence.
Qed.
Lemma qualified_unsafe : forall stmts, qualified_in stmts -> safe stmts = false.
Proof.
  assert (Q : forall r, qualified r -> safe_ref r = false) by (intros [[s|] t c] H; auto; now elim H).
  intros stmts (t & I & [(c & r & E & R & H)|(n & cols & r & E & H)]); eapply unsafe_table; eauto; eapply unsafe_element; eauto; cbn; auto.
  unfold safe_column. destruct (forallb safe_item (ac_items c)) eqn:S; [|apply andb_false_r].
  rewrite forallb_forall in S. specialize (S _ R). cbn in S. rewrite Q in S; auto. discriminate.
Qed.
Lemma exclude_unsafe : forall stmts, exclude_first stmts -> safe stmts = false.
Proof.
  intros stmts (t & e & es & I & E). eapply unsafe_table; eauto. unfold safe_table. rewrite E. cbn. apply andb_false_r.
Qed.
Lemma index_unsafe : forall stmts, has_index stmts = true -> safe stmts = false.
Proof.
  intros stmts H. unfold has_index in H. apply existsb_exists in H as ([t|] & I & H); [|discriminate].
  apply existsb_exists in H as (e & E & H). eapply unsafe_table; eauto. eapply unsafe_element; eauto. now destruct e as [c|n []].
Qed.

Theorem qualified_wrong : forall d ddl stmts, says d ddl stmts -> (has_index stmts = true -> ordinary d stmts = true) ->
  qualified_in stmts -> diverges ddl d \/ exists ts, accepted ddl d ts /\ ts <> tables_of d stmts.
Proof. intros. eapply says_wrong; eauto using qualified_unsafe. Qed.
Theorem index_wrong : forall ddl stmts, says MySQL ddl stmts -> ordinary MySQL stmts = true -> has_index stmts = true ->
  diverges ddl MySQL \/ exists ts, accepted ddl MySQL ts /\ ts <> tables_of MySQL stmts.
Proof. intros. eapply says_wrong; eauto using index_unsafe. Qed.
Theorem exclude_wrong : forall ddl stmts, says PostgreSQL ddl stmts -> exclude_first stmts ->
  diverges ddl PostgreSQL \/ exists ts, accepted ddl PostgreSQL ts /\ ts <> tables_of PostgreSQL stmts.
Proof. intros ddl stmts S E. eapply says_wrong; eauto using exclude_unsafe. intros I. discriminate (says_index _ _ _ S I). Qed.
Theorem exact_plain : forall d ddl stmts, d <> MySQL -> says d ddl stmts -> (accepted ddl d (tables_of d stmts) <-> safe stmts = true).
Proof. intros d ddl stmts D S. apply says_exact; auto. intros I. elim D. eapply says_index; eauto. Qed.
