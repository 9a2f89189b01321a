(** Words in another letter case: the converter. *)
From Coq Require Import String Ascii List Bool Arith NArith ZArith Lia.
From Verif Require Import GoStr Unicode UnicodeFacts GoNum Types Lexer VBase Exec Grammar GrammarFacts Ast Converter Parse Fuel Spec Scan Pipe Conv Names DocWords Recase RecaseFacts Resp RespText
  Meaning NoPanic Quoted Cased Respell.
From Verif Require RenameConvert DocFacts.
Import ListNotations.
Open Scope nat_scope.
Open Scope string_scope.

Section Converter.
Variable d : rdbms.
Notation S := respelled.

Lemma cased_comma : forall t t', S t t' -> (t =? ",") = (t' =? ",").
Proof.
  intros t t' [->|[W W']]%respelled_words; auto.
  assert (X : forall u, word u -> (u =? ",") = false).
  { intros u U. destruct (word_head (fun c => negb (Ascii.eqb c ",")) u U) as (c & s & -> & Q); [vm_compute; reflexivity|].
    destruct (String.eqb_spec (String c s) ",") as [E|]; auto. inversion E; subst. discriminate. }
  now rewrite !X.
Qed.
Definition crel_ {A} (Q : A -> A -> Prop) (x x' : cres A) : Prop :=
  match x, x' with
  | COk a r, COk a' r' => Q a a' /\ Forall2 S r r'
  | CPanic, CPanic => True
  | COutOfFuel, COutOfFuel => True
  | _, _ => False
  end.
Definition crel {A} (Q : A -> A -> Prop) (m m' : C A) : Prop := forall l l', Forall2 S l l' -> crel_ Q (m l) (m' l').

Lemma crel_bind : forall A B (P : A -> A -> Prop) (Q : B -> B -> Prop) m m' f f', crel P m m' -> (forall a a', P a a' -> crel Q (f a) (f' a')) ->
  crel Q (cbind m f) (cbind m' f').
Proof.
  intros A B P Q m m' f f' M F l l' L. unfold cbind. specialize (M l l' L). destruct (m l), (m' l'); cbn in M; try contradiction; auto.
  destruct M as [H L']. now apply F.
Qed.
Lemma crel_ret : forall A (Q : A -> A -> Prop) a a', Q a a' -> crel Q (cret a) (cret a').
Proof. intros A Q a a' H l l' L. split; auto. Qed.
Lemma crel_fuel : forall A (Q : A -> A -> Prop), crel Q cfuel cfuel.
Proof. intros A Q l l' L. exact I. Qed.
Lemma crel_next : crel S cnext cnext.
Proof.
  intros l l' F. induction F as [|t t' l l' H F IH]; [split; [now left|constructor]|]. cbn [cnext].
  rewrite (cased_comma _ _ H). destruct F as [|u u' l l' H' F].
  - rewrite !andb_false_r. split; auto.
  - rewrite (cased_comma _ _ H'). destruct ((t' =? ",") && (u' =? ",")); [exact IH|]. split; auto.
Qed.
Lemma crel_token : crel S ctoken ctoken.
Proof. intros l l' []; split; auto; now left. Qed.
Lemma crel_match : forall ws, crel eq (cmatch ws) (cmatch ws).
Proof.
  intros ws l l' F. destruct F as [|t t' l l' H F]; split; auto. now apply same_matches, respelled_same.
Qed.
Lemma crel_if : forall A (Q : A -> A -> Prop) ws m m' k k', crel Q m m' -> crel Q k k' ->
  crel Q (cbind (cmatch ws) (fun b : bool => if b then m else k)) (cbind (cmatch ws) (fun b : bool => if b then m' else k')).
Proof. intros. eapply crel_bind; [apply crel_match; auto|]. intros [] a <-; auto. Qed.
Lemma crel_then : forall A B (P : A -> A -> Prop) (Q : B -> B -> Prop) m m' k k', crel P m m' -> crel Q k k' -> crel Q (cbind m (fun _ => k)) (cbind m' (fun _ => k')).
Proof. intros. eapply crel_bind; eauto. Qed.


Lemma letters_refl : forall x, same_letters x x.
Proof. reflexivity. Qed.
Lemma letters_one : forall t t', S t t' -> same_letters t t'.
Proof. intros t t' H. apply same_upper, respelled_same, H. Qed.
Lemma letters_upper : forall t t', S t t' -> go_upper t = go_upper t'.
Proof.
  intros t t' H. pose proof (letters_one _ _ H) as U. destruct (respelled_words _ _ H) as [<-|[W W']]; auto.
  rewrite !upper_ascii_text by (apply ascii_name, DocFacts.word_pattern; auto). exact U.
Qed.
Lemma upper_app : forall x y, to_upper (x ++ y) = to_upper x ++ to_upper y.
Proof. induction x as [|c x IH]; intros y; auto. cbn. now rewrite IH. Qed.
Lemma letters_app : forall x x' y y', same_letters x x' -> same_letters y y' -> same_letters (x ++ y) (x' ++ y').
Proof. unfold same_letters. intros x x' y y' H H'. now rewrite !upper_app, H, H'. Qed.
Lemma word_quoted : forall qs t, word t -> (forall c, contains qs c = true -> contains [""""; "'"; "`"] c = true) -> quoted qs t = false.
Proof.
  intros qs t W Q.
  destruct (word_head (fun c => negb (contains [""""; "'"; "`"] (String c ""))) t W) as (c & s & -> & P); [vm_compute; reflexivity|]. cbn [quoted].
  apply negb_true_iff in P. destruct (contains qs (String c "")) eqn:E; auto. apply Q in E. congruence.
Qed.
Lemma word_ne : forall t, word t -> t <> "".
Proof. intros t (c & s & -> & _). discriminate. Qed.
Lemma crel_name : crel same_letters (convertName d) (convertName d).
Proof.
  unfold convertName. eapply crel_bind; [apply crel_next|]. intros t t' H l l' F. pose proof (letters_one _ _ H) as U.
  destruct (respelled_words _ _ H) as [<-|[W W']].
  - unfold cbind. destruct t as [|c t]; [destruct d; exact I|].
    rewrite !isIdentifier_eq by discriminate. destruct (quoted (name_quotes d) (String c t)).
    + unfold c_slice_inner. destruct (slice_inner (String c t)); [|exact I]. split; auto. reflexivity.
    + split; auto.
  - unfold cbind. rewrite !isIdentifier_eq by now apply word_ne.
    rewrite !word_quoted by (auto; intros c; rewrite !contains_spec; destruct d; cbn; tauto). split; auto.
Qed.
Ltac cr := repeat first
  [ apply crel_fuel
  | apply crel_if
  | eapply crel_then; [first [apply crel_next|apply crel_token]|] ].

Definition pair_ren {A B} (P : A -> A -> Prop) (Q : B -> B -> Prop) (x x' : A * B) : Prop := P (fst x) (fst x') /\ Q (snd x) (snd x').
Lemma crel_table_name : crel (pair_ren same_letters same_letters) (convertTableName d) (convertTableName d).
Proof.
  unfold convertTableName. eapply crel_bind; [apply crel_name|]. intros x x' H. cr.
  - eapply crel_bind; [apply crel_name|]. intros y y' H'. apply crel_ret. split; auto.
  - apply crel_ret. split; [reflexivity|auto].
Qed.
Lemma crel_columns_loop : forall n ls ls', Forall2 S ls ls' -> crel list_cased (column_names_loop n ls) (column_names_loop n ls').
Proof.
  induction n as [|n IH]; intros ls ls' H; cbn [column_names_loop]; cr; auto.
  - apply crel_ret. unfold list_cased. clear - H. induction H; cbn; [constructor|]. apply Forall2_app; auto using letters_one.
  - eapply crel_bind; [apply crel_token|]. intros t t' E. cr. apply IH. now constructor.
Qed.
Lemma crel_columns : forall n, crel list_cased (convertCommaSeparatedColumnNames n) (convertCommaSeparatedColumnNames n).
Proof.
  intros n. unfold convertCommaSeparatedColumnNames. cr. eapply crel_bind; [apply crel_columns_loop; constructor|]. intros ls ls' H. cr. now apply crel_ret.
Qed.
Lemma crel_exprAux : forall n, crel same_letters (convertExprAux n) (convertExprAux n).
Proof.
  induction n as [|n IH]; cbn [convertExprAux]; cr.
  - now apply crel_ret.
  - eapply crel_bind; [apply crel_next|]. intros o o' HO. eapply crel_bind; [apply IH|]. intros e e' HE. eapply crel_bind; [apply crel_next|]. intros c c' HC.
    eapply crel_bind; [apply IH|]. intros r r' HR. apply crel_ret. auto using letters_app, letters_one.
  - eapply crel_bind; [apply crel_next|]. intros o o' HO. eapply crel_bind; [apply IH|]. intros e e' HE. apply crel_ret. auto using letters_app, letters_one.
Qed.
Lemma crel_expr : forall n, crel same_letters (convertExpr n) (convertExpr n).
Proof.
  intros n. unfold convertExpr. eapply crel_bind; [apply crel_next|]. intros o o' HO. eapply crel_bind; [apply crel_exprAux|]. intros e e' HE.
  eapply crel_bind; [apply crel_next|]. intros c c' HC. apply crel_ret. auto using letters_app, letters_one.
Qed.
Lemma crel_literal : crel default_cased (convertLiteralValue d) (convertLiteralValue d).
Proof.
  unfold convertLiteralValue. eapply crel_bind; [apply crel_next|]. intros t t' H l l' F. rewrite (respelled_float _ _ H).
  pose proof (letters_upper _ _ H) as U. destruct (parse_float t'); [split; auto; reflexivity|].
  assert (X : crel_ default_cased
    ((if go_upper t =? "NULL" then cret DNil else if go_upper t =? "TRUE" then cret (DBool true) else if go_upper t =? "FALSE" then cret (DBool false) else cret (DString t)) l)
    ((if go_upper t' =? "NULL" then cret DNil else if go_upper t' =? "TRUE" then cret (DBool true) else if go_upper t' =? "FALSE" then cret (DBool false) else cret (DString t')) l')).
  { pose proof (letters_one _ _ H) as U'. rewrite <- U. destruct (go_upper t =? "NULL"); [split; auto; reflexivity|]. destruct (go_upper t =? "TRUE"); [split; auto; reflexivity|].
    destruct (go_upper t =? "FALSE"); split; auto. reflexivity. }
  destruct (respelled_words _ _ H) as [<-|[W W']].
  - unfold cbind. destruct t as [|c t]; [destruct d; exact I|].
    rewrite !isStringValue_eq by discriminate. destruct (quoted (string_quotes d) (String c t)); [|exact X].
    unfold c_slice_inner. destruct (slice_inner (String c t)); [|exact I]. split; auto. reflexivity.
  - unfold cbind. rewrite !isStringValue_eq by now apply word_ne.
    rewrite !word_quoted by (auto; intros c; rewrite !contains_spec; destruct d; cbn; tauto). exact X.
Qed.
Lemma crel_default : forall n, crel default_cased (convertDefaultValue n d) (convertDefaultValue n d).
Proof.
  intros n. unfold convertDefaultValue. cr; [|apply crel_literal]. eapply crel_bind; [apply crel_expr|]. intros e e' H. now apply crel_ret.
Qed.
Lemma crel_reference : forall n, crel reference_cased (convertReference n d) (convertReference n d).
Proof.
  intros n. unfold convertReference. cr. eapply crel_bind; [apply crel_name|]. intros x x' H. cr.
  - eapply crel_bind; [apply crel_columns|]. intros ls ls' HL. apply crel_ret. split; cbn; auto.
  - apply crel_ret. split; cbn; auto.
Qed.
Lemma zero_constraint_cased : constraint_cased zero_constraint zero_constraint.
Proof. repeat split. Qed.
Lemma crel_constraint_aux : forall n k k', constraint_cased k k' -> crel constraint_cased (convertConstraintAux n d k) (convertConstraintAux n d k').
Proof.
  induction n as [|n IH]; intros k k' K; cbn [convertConstraintAux]; cr; try (now apply crel_ret).
  1-4: apply IH; unfold constraint_cased in *; cbn; tauto.
  - eapply crel_bind; [apply crel_default|]. intros x x' H. apply IH. unfold constraint_cased in *. cbn. tauto.
  - eapply crel_bind; [apply crel_expr|]. intros x x' H. apply IH. unfold constraint_cased in *. cbn. tauto.
  - eapply crel_bind; [apply crel_name|]. intros x x' H. apply IH. unfold constraint_cased in *. cbn. tauto.
  - eapply crel_bind; [apply crel_reference|]. intros x x' H. apply IH. unfold constraint_cased in *. cbn. tauto.
Qed.
Lemma crel_constraint : forall n, crel constraint_cased (convertConstraint n d) (convertConstraint n d).
Proof.
  intros n. unfold convertConstraint. eapply crel_bind; [apply crel_match|]. intros b ? <-.
  eapply crel_bind with (P := constraint_cased); [|intros; now apply crel_constraint_aux].
  destruct b; [|apply crel_ret, zero_constraint_cased]. cr; [apply crel_ret, zero_constraint_cased|].
  eapply crel_bind; [apply crel_name|]. intros x x' H. apply crel_ret. pose proof zero_constraint_cased. unfold constraint_cased in *. cbn in *. tauto.
Qed.
Lemma cased_value : forall t t', S t t' -> atoi_value t = atoi_value t'.
Proof. intros t t' H. unfold atoi_value. now rewrite (respelled_atoi _ _ H). Qed.
Lemma crel_digit : crel eq convertTypeDigit convertTypeDigit.
Proof.
  unfold convertTypeDigit. cr; [|now apply crel_ret]. eapply crel_bind; [apply crel_next|]. intros t t' H%cased_value.
  eapply crel_bind; [apply crel_match|]. intros b ? <-.
  eapply crel_bind with (P := eq).
  - destruct b; [|now apply crel_ret]. cr. eapply crel_bind; [apply crel_next|]. intros m m' H'%cased_value. now apply crel_ret.
  - intros m ? <-. cr. apply crel_ret. now rewrite H.
Qed.
Lemma crel_date : crel (@eq data_type) convertDateType convertDateType.
Proof.
  unfold convertDateType. eapply crel_bind; [apply crel_next|]. intros t t' H%letters_upper. cbn zeta. rewrite H.
  eapply crel_bind; [apply crel_match|]. intros b ? <-. eapply crel_bind with (P := eq).
  - destruct b; [|now apply crel_ret]. eapply crel_bind; [apply crel_token|]. intros v v' V%letters_upper. cr. apply crel_ret. now rewrite V.
  - intros x ? <-. eapply crel_bind; [apply crel_digit|]. intros [n m] ? <-. now apply crel_ret.
Qed.
Lemma crel_column : forall n, crel column_cased (convertColumnDefinition n d) (convertColumnDefinition n d).
Proof.
  intros n. unfold convertColumnDefinition. eapply crel_bind; [apply crel_name|]. intros x x' H. eapply crel_bind; [apply crel_date|]. intros t t' T.
  eapply crel_bind; [apply crel_constraint|]. intros c c' K. apply crel_ret. split; [exact H|split; [exact T|exact K]].
Qed.
Lemma Forall2_snoc : forall A (P : A -> A -> Prop) l l' a a', Forall2 P l l' -> P a a' -> Forall2 P (l ++ [a])%list (l' ++ [a'])%list.
Proof. intros. apply Forall2_app; auto. Qed.
Lemma crel_table_constraint : forall n x x', tc_cased x x' -> crel tc_cased (convertTableConstraint n d x) (convertTableConstraint n d x').
Proof.
  intros n x x' (A & B & E & F). unfold convertTableConstraint. eapply crel_bind; [apply crel_match|]. intros b ? <-.
  eapply crel_bind with (P := same_letters).
  - destruct b; [|now apply crel_ret]. cr; [now apply crel_ret|]. intros l l' L. pose proof (crel_name l l' L) as X.
    exact X.
  - intros m m' M. cr.
    + eapply crel_bind; [apply crel_columns|]. intros ls ls' HL. apply crel_ret. repeat split; cbn; auto. apply Forall2_snoc; cbn; auto.
    + eapply crel_bind; [apply crel_columns|]. intros ls ls' HL. apply crel_ret. repeat split; cbn; auto. apply Forall2_snoc; cbn; auto.
    + eapply crel_bind; [apply crel_expr|]. intros ls ls' HL. apply crel_ret. repeat split; cbn; auto. apply Forall2_snoc; cbn; auto.
    + eapply crel_bind; [apply crel_columns|]. intros ls ls' HL. eapply crel_bind; [apply crel_reference|]. intros r r' HR.
      apply crel_ret. repeat split; cbn; auto. apply Forall2_snoc; cbn; auto.
    + apply crel_ret. repeat split; auto.
Qed.
Notation COLS := (Forall2 column_cased).
Lemma crel_definition : forall n cols cols' x x', COLS cols cols' -> tc_cased x x' ->
  crel (pair_ren COLS tc_cased) (table_definition_loop n d cols x) (table_definition_loop n d cols' x').
Proof.
  induction n as [|n IH]; intros cols cols' x x' A B; cbn [table_definition_loop]; cr.
  - apply crel_ret. split; auto.
  - eapply crel_bind; [apply crel_match|]. intros b ? <-. eapply crel_bind with (P := pair_ren COLS tc_cased).
    + destruct b.
      * eapply crel_bind; [now apply crel_table_constraint|]. intros y y' Y. apply crel_ret. split; auto.
      * eapply crel_bind; [apply crel_column|]. intros c c' K. apply crel_ret. split; auto. cbn. now apply Forall2_snoc.
    + intros [c y] [c' y'] [K Y]. cbn in K, Y. cr; [apply crel_ret; split; auto|]. now apply IH.
Qed.
Lemma zero_tc_ren : tc_cased zero_tc zero_tc.
Proof. repeat split; constructor. Qed.
Lemma crel_table : forall n, crel table_cased (convertTable n d) (convertTable n d).
Proof.
  intros n. unfold convertTable. cr. eapply crel_bind; [apply crel_match|]. intros b ? <-.
  eapply crel_then with (P := eq); [destruct b; cr; now apply crel_ret|].
  eapply crel_bind; [apply crel_table_name|]. intros [s t] [s' t'] [HS HT]. cbn in HS, HT.
  eapply crel_bind with (P := pair_ren COLS tc_cased).
  - unfold convertTableDefinition. cr. eapply crel_bind; [apply crel_definition; [constructor|apply zero_tc_ren]|]. intros r r' HR. cr. now apply crel_ret.
  - intros [c y] [c' y'] [K Y]. cbn in K, Y. eapply crel_bind; [apply crel_match|]. intros b0 ? <-.
    eapply crel_then with (P := eq); [destruct b0; cr; now apply crel_ret|]. apply crel_ret. repeat split; auto; apply Y.
Qed.
Notation TABLES := (Forall2 table_cased).
Lemma crel_convert : forall n, crel TABLES (convert n d) (convert n d).
Proof.
  induction n as [|n IH]; [apply crel_fuel|]. cbn [convert]. intros l l' F.
  assert (X : crel TABLES (t <- convertTable n d ;; ts <- convert n d ;; cret (t :: ts))%c (t <- convertTable n d ;; ts <- convert n d ;; cret (t :: ts))%c).
  { eapply crel_bind; [apply crel_table|]. intros t t' T. eapply crel_bind; [apply IH|]. intros ts ts' TS. apply crel_ret. now constructor. }
  destruct F as [|t t' l l' H F]; [split; constructor|]. now apply X; constructor.
Qed.
Theorem cased_convert : forall n l l', Forall2 S l l' ->
  match Convert n d l, Convert n d l' with
  | ConvertOk ts, ConvertOk ts' => TABLES ts ts'
  | ConvertPanic, ConvertPanic => True
  | ConvertOutOfFuel, ConvertOutOfFuel => True
  | _, _ => False
  end.
Proof.
  intros n l l' F. pose proof (crel_convert n l l' F) as X. unfold Convert. destruct (convert n d l), (convert n d l'); cbn in X; auto. apply X.
Qed.
End Converter.

Theorem respelled_accepted : forall d ddl ddl' toks toks' ts, lexes d ddl toks -> lexes d ddl' toks' ->
  Forall2 respelled toks toks' -> accepted ddl d ts ->
  exists ts', accepted ddl' d ts' /\ Forall2 table_cased ts ts'.
Proof.
  intros d ddl ddl' toks toks' ts X%RenameConvert.lexes_lexed X'%RenameConvert.lexes_lexed F A. apply returns_stage in A.
  inversion A as [| |toks0 rest out ts0 L V K]; subst. assert (toks0 = toks) as -> by congruence.
  assert (F' : Forall2 respelled (strip toks) (strip toks')) by (apply resp_strip; auto; apply respelled_nl).
  destruct V as [_ [n V]]. pose proof (respelled_verdict d _ _ F' n) as Y. rewrite V in Y.
  destruct (exec (prog (script d) n) (strip toks')) as [[] rest' out'| | |] eqn:E; cbn in Y; try contradiction. destruct Y as (_ & _ & Y).
  destruct K as (k & r & K). pose proof (cased_convert d k out out' Y) as Z. unfold Convert in Z. rewrite K in Z.
  destruct (convert k d out') as [ts' r'| |] eqn:K'; try contradiction. exists ts'. split; auto.
  apply returns_stage. econstructor 3; [exact X'| |exists k, r'; exact K']. split; [discriminate|]. exists n. exact E.
Qed.
Lemma respelled_back : forall l l', Forall2 respelled l l' -> Forall2 respelled l' l.
Proof. intros l l' F. induction F; constructor; auto using respelled_sym. Qed.
Theorem respelled_diverges : forall d ddl ddl' toks toks', lexes d ddl toks -> lexes d ddl' toks' ->
  Forall2 respelled toks toks' -> diverges ddl d -> diverges ddl' d.
Proof.
  intros d ddl ddl' toks toks' X X' F%respelled_back D. apply RenameConvert.returns_or_diverges. intros (ts & [e|] & H);
    apply RenameConvert.returns_or_diverges in D; apply D.
  - apply RenameConvert.rejected_nil in H. destruct (respelled_rejected _ _ _ _ _ _ _ X' X F H) as (near & H' & _). do 2 eexists. exact H'.
  - destruct (respelled_accepted _ _ _ _ _ _ X' X F H) as (ts' & H' & _). do 2 eexists. exact H'.
Qed.
