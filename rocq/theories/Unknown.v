(** An Rdbms value other than the three constants: Parse does what it does for SQLite, but keeps the quotes. *)
From Coq Require Import String Ascii ZArith List Bool Arith NArith Lia.
From Verif Require Import GoStr Unicode UnicodeFacts GoNum Types Lexer VBase Exec Grammar GrammarFacts Ast Converter Parse Fuel Scan Spec Pipe
  Safe Emit Conv Derive Tokens Accept Meaning NoPanic Unquote.
Import ListNotations.
Open Scope nat_scope.
Open Scope string_scope.
Open Scope c_scope.

(** ** The lexer *)

Lemma lex_phase2_unknown : forall n k tok st, lex_phase2 n (Other k) tok st = lex_phase2 n SQLite tok st.
Proof. reflexivity. Qed.
Lemma lex_loop_unknown : forall n k tok st, lex_loop n (Other k) tok st = lex_loop n SQLite tok st.
Proof.
  induction n as [|n IH]; intros k tok st; [reflexivity|]. cbn [lex_loop].
  destruct (l_rest st); [reflexivity|]. destruct (lex_phase1 n tok st) as [tok1 st1| |]; auto.
  destruct (l_rest st1); auto. rewrite lex_phase2_unknown. destruct (lex_phase2 n SQLite tok1 st1); auto.
Qed.
Lemma Lex_unknown : forall n k ddl, Lex n (Other k) ddl = Lex n SQLite ddl.
Proof. intros. unfold Lex, lex_runes. now rewrite lex_loop_unknown. Qed.

(** ** The converter *)

(** On good tokens [m'] does what [m] does, with [f] applied to the result. *)
Definition cmap {A B} (f : A -> B) (m : C A) (m' : C B) : Prop :=
  forall l, Forall good l ->
  match m l with
  | COk a r => m' l = COk (f a) r /\ Forall good r
  | CPanic => False
  | COutOfFuel => m' l = COutOfFuel
  end.
Definition same {A} (a : A) : A := a.

Lemma cmap_bind : forall A A' B B' (f : A -> A') (g : B -> B') m m' h h',
  cmap f m m' -> (forall a, cmap g (h a) (h' (f a))) -> cmap g (cbind m h) (cbind m' h').
Proof.
  intros * M H l L. unfold cbind. specialize (M l L). destruct (m l) as [a r| |]; auto.
  - destruct M as [-> R]. now apply H.
  - now rewrite M.
Qed.
Lemma cmap_same : forall A (m : C A), cgood any m -> cmap same m m.
Proof. intros A m H l L. specialize (H l L). destruct (m l); auto. destruct H. split; auto. Qed.
Lemma cmap_ret : forall A B (f : A -> B) a b, b = f a -> cmap f (cret a) (cret b).
Proof. intros A B f a b -> l L. split; auto. Qed.
Lemma cmap_fuel : forall A B (f : A -> B), cmap f cfuel cfuel.
Proof. intros A B f l L. reflexivity. Qed.
Lemma cmap_if : forall A B (f : A -> B) (b : bool) m1 m2 m1' m2', cmap f m1 m1' -> cmap f m2 m2' ->
  cmap f (if b then m1 else m2) (if b then m1' else m2').
Proof. intros A B f []; auto. Qed.
Lemma cmap_bind_same : forall A B B' (g : B -> B') (m : C A) h h', cgood any m ->
  (forall a, cmap g (h a) (h' a)) -> cmap g (cbind m h) (cbind m h').
Proof. intros. eapply cmap_bind; [apply cmap_same; eauto|auto]. Qed.

Lemma cmap_name : forall k, cmap un (convertName (Other k)) (convertName SQLite).
Proof.
  intros k l L. unfold convertName, cbind. pose proof (cgood_next l L) as N.
  destruct (cnext l) as [t r| |]; auto. destruct N as [T R].
  rewrite !isIdentifier_eq by apply T. change (name_quotes (Other k)) with (@nil string).
  replace (quoted [] t) with false by (now destruct t). unfold un, unquote, cret. split; auto.
  destruct (quoted (name_quotes SQLite) t) eqn:Q; [|reflexivity].
  unfold c_slice_inner. now rewrite (good_inner (name_quotes SQLite)) by (auto; reflexivity).
Qed.

Lemma quoted_not : forall t w, quoted ["'"] t = true -> (match w with String c _ => (String c "" =? "'")%string = false | "" => True end) -> (t =? w)%string = false.
Proof.
  intros [|c t] w Q H; [discriminate|]. destruct w as [|c' w]; [reflexivity|]. cbn [quoted] in Q. unfold contains in Q.
  cbn [existsb] in Q. rewrite orb_false_r in Q. apply String.eqb_eq in Q. injection Q as <-.
  cbn [String.eqb]. destruct (Ascii.eqb "'" c') eqn:E; auto. apply Ascii.eqb_eq in E. subst. discriminate.
Qed.
Lemma upper_quoted : forall t, quoted ["'"] t = true -> quoted ["'"] (go_upper t) = true.
Proof.
  intros [|c t] Q; [discriminate|]. cbn [quoted] in Q. unfold contains in Q.
  cbn [existsb] in Q. rewrite orb_false_r in Q. apply String.eqb_eq in Q. injection Q as <-. destruct (upper_first "'" t) as [u ->]; reflexivity.
Qed.
Lemma cmap_literal : forall k, cmap un_default (convertLiteralValue (Other k)) (convertLiteralValue SQLite).
Proof.
  intros k l L. unfold convertLiteralValue, cbind. pose proof (cgood_next l L) as N.
  destruct (cnext l) as [t r| |]; auto. destruct N as [T R].
  destruct (parse_float t); [split; auto|].
  rewrite !isStringValue_eq by apply T. change (string_quotes (Other k)) with (@nil string).
  replace (quoted [] t) with false by (now destruct t).
  change (string_quotes SQLite) with ["'"]. destruct (quoted ["'"] t) eqn:Q.
  - pose proof (upper_quoted t Q) as U. rewrite !(quoted_not (go_upper t)) by (auto; reflexivity).
    unfold cret. split; auto. cbn [un_default]. rewrite Q. unfold c_slice_inner.
    now rewrite (good_inner ["'"]) by (auto; reflexivity).
  - destruct (_ =? _)%string; [split; auto|]. destruct (_ =? _)%string; [split; auto|]. destruct (_ =? _)%string; [split; auto|].
    unfold cret. split; auto. cbn [un_default]. now rewrite Q.
Qed.

Lemma expr_first : forall n l e r, matches ["("] (match l with t :: _ => t | [] => EOF end) = true ->
  convertExpr n l = COk e r -> quoted ["'"] e = false.
Proof.
  intros n l e r M H. destruct l as [|t l]; [discriminate|]. unfold convertExpr, cbind in H. cbn [cnext] in H.
  apply sym_eq in M; auto. subst t.
  cbn in H. destruct (convertExprAux n l) as [x r1| |]; try discriminate. destruct (cnext r1); try discriminate.
  injection H as <- _. reflexivity.
Qed.
Lemma cmap_default : forall n k, cmap un_default (convertDefaultValue n (Other k)) (convertDefaultValue n SQLite).
Proof.
  intros n k l L. unfold convertDefaultValue, cbind, cmatch.
  destruct (matches ["("] _) eqn:M; [|now apply cmap_literal].
  pose proof (cgood_expr n l L) as G. destruct (convertExpr n l) as [e r| |] eqn:E; auto.
  apply expr_first in E; auto. unfold cret. cbn [un_default]. rewrite E. destruct G. auto.
Qed.

Ltac cm := repeat lazymatch goal with
  | |- cmap un (convertName _) (convertName _) => apply cmap_name
  | |- cmap _ (cret _) (cret _) => apply cmap_ret; try reflexivity
  | |- cmap _ cfuel cfuel => apply cmap_fuel
  | |- cmap _ (if _ then _ else _) (if _ then _ else _) => apply cmap_if
  | |- cmap _ (cbind (convertName _) _) _ => eapply cmap_bind; [apply cmap_name|intros]
  | |- cmap _ (cbind ?m _) (cbind ?m _) => apply cmap_bind_same; [cg; try apply cgood_names; try apply cgood_expr|intros]
  | |- cmap _ _ _ => assumption
  end.

Lemma cmap_reference : forall n k, cmap un_reference (convertReference n (Other k)) (convertReference n SQLite).
Proof. intros n k. unfold convertReference. cm. Qed.

Lemma cmap_constraint_aux : forall n k c,
  cmap un_constraint (convertConstraintAux n (Other k) c) (convertConstraintAux n SQLite (un_constraint c)).
Proof.
  induction n as [|n IH]; intros k c; cbn [convertConstraintAux]; cm;
    first [exact (IH k _)|eapply cmap_bind; [apply cmap_default || apply cmap_reference|intros; exact (IH k _)]].
Qed.
Lemma cmap_constraint : forall n k, cmap un_constraint (convertConstraint n (Other k)) (convertConstraint n SQLite).
Proof.
  intros n k. unfold convertConstraint. cm.
  eapply cmap_bind; [|intros; apply cmap_constraint_aux]. cm.
Qed.
Lemma cgood_date : cgood any convertDateType.
Proof. unfold convertDateType, convertTypeDigit. cg. Qed.
Lemma cmap_column : forall n k, cmap un_column (convertColumnDefinition n (Other k)) (convertColumnDefinition n SQLite).
Proof.
  intros n k. unfold convertColumnDefinition. cm; [apply cgood_date|].
  eapply cmap_bind; [apply cmap_constraint|intros]. cm.
Qed.
Lemma un_tc_pk : forall tc x ls, un_tc (mk_tc (tc_pk tc ++ [mk_pk x ls]) (tc_unique tc) (tc_check tc) (tc_fk tc)) =
  mk_tc (tc_pk (un_tc tc) ++ [mk_pk (un x) ls]) (tc_unique (un_tc tc)) (tc_check (un_tc tc)) (tc_fk (un_tc tc)).
Proof. intros. unfold un_tc. cbn. now rewrite map_app. Qed.
Lemma un_tc_unique : forall tc x ls, un_tc (mk_tc (tc_pk tc) (tc_unique tc ++ [mk_unique x ls]) (tc_check tc) (tc_fk tc)) =
  mk_tc (tc_pk (un_tc tc)) (tc_unique (un_tc tc) ++ [mk_unique (un x) ls]) (tc_check (un_tc tc)) (tc_fk (un_tc tc)).
Proof. intros. unfold un_tc. cbn. now rewrite map_app. Qed.
Lemma un_tc_check : forall tc x e, un_tc (mk_tc (tc_pk tc) (tc_unique tc) (tc_check tc ++ [mk_check x e]) (tc_fk tc)) =
  mk_tc (tc_pk (un_tc tc)) (tc_unique (un_tc tc)) (tc_check (un_tc tc) ++ [mk_check (un x) e]) (tc_fk (un_tc tc)).
Proof. intros. unfold un_tc. cbn. now rewrite map_app. Qed.
Lemma un_tc_fk : forall tc x ls r, un_tc (mk_tc (tc_pk tc) (tc_unique tc) (tc_check tc) (tc_fk tc ++ [mk_fk x ls r])) =
  mk_tc (tc_pk (un_tc tc)) (tc_unique (un_tc tc)) (tc_check (un_tc tc)) (tc_fk (un_tc tc) ++ [mk_fk (un x) ls (un_reference r)]).
Proof. intros. unfold un_tc. cbn. now rewrite map_app. Qed.
Lemma cmap_table_constraint : forall n k tc,
  cmap un_tc (convertTableConstraint n (Other k) tc) (convertTableConstraint n SQLite (un_tc tc)).
Proof.
  intros n k tc. unfold convertTableConstraint. cm.
  eapply cmap_bind with (f := un); [cm|intros name]. cm.
  - symmetry. apply un_tc_pk.
  - symmetry. apply un_tc_unique.
  - symmetry. apply un_tc_check.
  - eapply cmap_bind; [apply cmap_reference|intros]. cm. symmetry. apply un_tc_fk.
Qed.
Definition un_pair (p : list column * table_constraint) := (map un_column (fst p), un_tc (snd p)).
Lemma cmap_definition : forall n k cols tc,
  cmap un_pair (table_definition_loop n (Other k) cols tc) (table_definition_loop n SQLite (map un_column cols) (un_tc tc)).
Proof.
  induction n as [|n IH]; intros k cols tc; cbn [table_definition_loop]; cm.
  eapply cmap_bind with (f := un_pair).
  - cm; (eapply cmap_bind; [apply cmap_table_constraint || apply cmap_column|intros]; cm).
    unfold un_pair. cbn. now rewrite map_app.
  - intros [cols' tc']. cbn. cm. apply IH.
Qed.
Definition un_names (p : string * string) := (un (fst p), un (snd p)).
Lemma cmap_table_name : forall k, cmap un_names (convertTableName (Other k)) (convertTableName SQLite).
Proof. intros k. unfold convertTableName. cm. Qed.
Lemma cmap_table : forall n k, cmap un_table (convertTable n (Other k)) (convertTable n SQLite).
Proof.
  intros n k. unfold convertTable, convertTableDefinition. cm.
  eapply cmap_bind; [apply cmap_table_name|intros [sc tn]]. cbn [un_names fst snd].
  eapply cmap_bind with (f := un_pair).
  - cm. eapply cmap_bind; [apply (cmap_definition n k [] zero_tc)|intros]. cm.
  - intros [cols tc]. cbn [un_pair fst snd]. cm.
Qed.
Lemma cmap_convert : forall n k, cmap (map un_table) (convert n (Other k)) (convert n SQLite).
Proof.
  induction n as [|n IH]; intros k; cbn [convert]; [apply cmap_fuel|].
  intros l L. destruct l as [|t l]; [split; auto|].
  assert (X : cmap (map un_table) (t <- convertTable n (Other k) ;; ts <- convert n (Other k) ;; cret (t :: ts))
    (t <- convertTable n SQLite ;; ts <- convert n SQLite ;; cret (t :: ts))).
  { eapply cmap_bind; [apply cmap_table|intros]. eapply cmap_bind; [apply IH|intros]. cm. }
  exact (X (t :: l) L).
Qed.

(** ** Parse *)

Definition un_outcome (o : outcome) : outcome :=
  match o with
  | Returns ts e => Returns (map un_table ts) e
  | o => o
  end.
Theorem Parse_unknown : forall fuel ddl k, Parse fuel ddl SQLite = un_outcome (Parse fuel ddl (Other k)).
Proof.
  intros fuel ddl k. unfold Parse. rewrite Lex_unknown.
  destruct (Lex fuel SQLite ddl) as [toks|e|] eqn:E; auto.
  assert (G : Forall good (strip toks)).
  { destruct (Lex_eq fuel SQLite ddl) as [X|X]; [congruence|]. apply Meaning.strip_good. eapply lexed_good. rewrite <- X. eauto. }
  change (Validate fuel (Other k) toks) with (Validate fuel SQLite toks).
  rewrite Validate_eq. pose proof (calm_prog _ (script SQLite) fuel (strip toks)) as N.
  destruct (exec (prog (script SQLite) fuel) (strip toks)) as [[] rest out|rest| |] eqn:X; cbn [result_of]; auto.
  assert (V : verdict SQLite (strip toks) (EOk tt rest out)) by (split; [discriminate|eauto]).
  apply verdict_ok in V as [_ [v V]].
  pose proof (lang_out_good _ _ (script_puts SQLite) _ _ _ _ G V) as O.
  pose proof (cmap_convert fuel k out O) as K. unfold Convert.
  destruct (convert fuel (Other k) out); [destruct K as [-> _]; reflexivity|contradiction|now rewrite K].
Qed.

Theorem unknown_returns : forall k ddl ts err,
  returns ddl SQLite ts err <-> exists ts', returns ddl (Other k) ts' err /\ ts = map un_table ts'.
Proof.
  intros k ddl ts err. split.
  - intros [fuel H]. rewrite (Parse_unknown fuel ddl k) in H.
    destruct (Parse fuel ddl (Other k)) as [ts' e| |] eqn:E; try discriminate. injection H as <- <-. exists ts'. split; auto.
    now exists fuel.
  - intros (ts' & [fuel H] & ->). exists fuel. now rewrite (Parse_unknown fuel ddl k), H.
Qed.
Theorem unknown_accepts : forall k ddl, (exists ts, accepted ddl SQLite ts) <-> (exists ts, accepted ddl (Other k) ts).
Proof.
  intros k ddl. split.
  - intros [ts H]. apply (unknown_returns k) in H as (ts' & H & _). now exists ts'.
  - intros [ts H]. exists (map un_table ts). apply (unknown_returns k). now exists ts.
Qed.
Theorem unknown_rejects : forall k ddl line near, rejected ddl SQLite line near <-> rejected ddl (Other k) line near.
Proof.
  intros k ddl line near. split; intros H.
  - apply (unknown_returns k) in H as ([|t ts] & H & E); [exact H|discriminate].
  - apply (unknown_returns k). now exists [].
Qed.
Theorem unknown_diverges : forall k ddl, diverges ddl SQLite <-> diverges ddl (Other k).
Proof.
  intros k ddl. split; intros H fuel; specialize (H fuel).
  - rewrite (Parse_unknown fuel ddl k) in H. destruct (Parse fuel ddl (Other k)); auto; discriminate.
  - rewrite (Parse_unknown fuel ddl k), H. reflexivity.
Qed.
