(** Other numbers: the tables are the same up to the numbers. *)
From Coq Require Import String Ascii List Bool Arith NArith ZArith Lia.
From Verif Require Import GoStr GoNum Unicode Types Lexer VBase Exec Grammar GrammarFacts Ast Converter Parse Fuel Spec Scan Pipe Safe Seen Meaning Conv Names Recase RecaseFacts
  Rename RenameTokens RenameVerdict UnicodeFacts UnicodeCase Number NumberFacts Resp RespText.
From Verif Require Quoted Emit ParseFacts RenameConvert RenameFacts.
Import ListNotations.
Open Scope nat_scope.
Open Scope string_scope.

Section Converter.
Variables (d : rdbms) (R : string -> string -> Prop).
Notation S := (numbered d R).

Definition crel_ {A} (Q : A -> A -> Prop) (x x' : cres A) : Prop :=
  match x, x' with
  | COk a r, COk a' r' => Q a a' /\ Forall2 S r r'
  | CPanic, CPanic => True
  | COutOfFuel, COutOfFuel => True
  | _, _ => False
  end.
Definition crel {A} (Q : A -> A -> Prop) (m m' : C A) : Prop := forall l l', Forall2 S l l' -> crel_ Q (m l) (m' l').

Lemma crel_bind : forall A B (P : A -> A -> Prop) (Q : B -> B -> Prop) m m' f f', crel P m m' -> (forall a a', P a a' -> crel Q (f a) (f' a')) ->
  crel Q (cbind m f) (cbind m' f').
Proof.
  intros A B P Q m m' f f' M F l l' L. unfold cbind. specialize (M l l' L). destruct (m l), (m' l'); cbn in M; try contradiction; auto.
  destruct M as [H L']. now apply F.
Qed.
Lemma crel_ret : forall A (Q : A -> A -> Prop) a a', Q a a' -> crel Q (cret a) (cret a').
Proof. intros A Q a a' H l l' L. split; auto. Qed.
Lemma crel_fuel : forall A (Q : A -> A -> Prop), crel Q cfuel cfuel.
Proof. intros A Q l l' L. exact I. Qed.
Lemma ren_comma : forall t t', S t t' -> (t =? ",") = (t' =? ",").
Proof.
  intros t t' [->|(_ & N & N' & P)]; auto.
  assert (X : forall t, number_token d t -> (t =? ",") = false).
  { intros u U. apply String.eqb_neq. intros ->. pose proof (nb_no_number _ _ U). discriminate. }
  now rewrite !X.
Qed.
Lemma empty_text : text_numbered d R "" "".
Proof. exists [], []. repeat split. constructor. Qed.
Lemma crel_next : crel S cnext cnext.
Proof.
  intros l l' F. induction F as [|t t' l l' H F IH]; [split; [now left|constructor]|]. cbn [cnext].
  rewrite (ren_comma _ _ H). destruct F as [|u u' l l' H' F].
  - rewrite !andb_false_r. split; auto.
  - rewrite (ren_comma _ _ H'). destruct ((t' =? ",") && (u' =? ",")); [exact IH|]. split; auto.
Qed.
Lemma crel_token : crel S ctoken ctoken.
Proof. intros l l' []; split; auto; now left. Qed.
Lemma crel_match : forall ws, number_words d ws -> crel eq (cmatch ws) (cmatch ws).
Proof.
  intros ws K l l' F. destruct F as [|t t' l l' H F]; split; auto. now apply (numbered_matches d R).
Qed.
Lemma crel_if : forall A (Q : A -> A -> Prop) ws m m' k k', number_words d ws -> crel Q m m' -> crel Q k k' ->
  crel Q (cbind (cmatch ws) (fun b : bool => if b then m else k)) (cbind (cmatch ws) (fun b : bool => if b then m' else k')).
Proof. intros. eapply crel_bind; [apply crel_match; auto|]. intros [] a <-; auto. Qed.
Lemma crel_then : forall A B (P : A -> A -> Prop) (Q : B -> B -> Prop) m m' k k', crel P m m' -> crel Q k k' -> crel Q (cbind m (fun _ => k)) (cbind m' (fun _ => k')).
Proof. intros. eapply crel_bind; eauto. Qed.

Lemma crel_name : crel S (convertName d) (convertName d).
Proof.
  unfold convertName. eapply crel_bind; [apply crel_next|]. intros t t' H l l' F. destruct H as [->|(HR & N & N' & P)].
  - unfold cbind. destruct t as [|c t].
    + destruct d; exact I.
    + rewrite !isIdentifier_eq by discriminate. destruct (quoted (name_quotes d) (String c t)).
      * unfold c_slice_inner. destruct (slice_inner (String c t)); [|exact I]. split; auto. now left.
      * split; auto. now left.
  - unfold cbind. rewrite !isIdentifier_eq by (now apply (nb_nonempty d)).
    assert (X : forall t, number_token d t -> quoted (name_quotes d) t = false).
    { intros u U. pose proof (proj2 (nb_unquoted d u U)) as Q. destruct d; auto. now destruct u. }
    rewrite !X by auto. split; auto. right. auto.
Qed.

Ltac known' := destruct d; vm_compute; reflexivity.
Ltac cr := repeat first
  [ apply crel_fuel
  | apply crel_if; [known'| |]
  | eapply crel_then; [first [apply crel_next|apply crel_token]|] ].

Definition pair_ren {A B} (P : A -> A -> Prop) (Q : B -> B -> Prop) (x x' : A * B) : Prop := P (fst x) (fst x') /\ Q (snd x) (snd x').
Lemma crel_table_name : crel (pair_ren (numbered d R) (numbered d R)) (convertTableName d) (convertTableName d).
Proof.
  unfold convertTableName. eapply crel_bind; [apply crel_name|]. intros x x' H. cr.
  - eapply crel_bind; [apply crel_name|]. intros y y' H'. apply crel_ret. split; auto.
  - apply crel_ret. split; [now left|auto].
Qed.
Lemma crel_columns_loop : forall n ls ls', Forall2 S ls ls' -> crel (list_numbered d R) (column_names_loop n ls) (column_names_loop n ls').
Proof.
  induction n as [|n IH]; intros ls ls' H; cbn [column_names_loop]; cr; auto.
  - apply crel_ret. unfold list_renamed. clear - H. induction H; cbn; [constructor|]. apply Forall2_app; auto.
  - eapply crel_bind; [apply crel_token|]. intros t t' E. cr. apply IH. now constructor.
Qed.
Lemma crel_columns : forall n, crel (list_numbered d R) (convertCommaSeparatedColumnNames n) (convertCommaSeparatedColumnNames n).
Proof.
  intros n. unfold convertCommaSeparatedColumnNames. cr. eapply crel_bind; [apply crel_columns_loop; constructor|]. intros ls ls' H. cr. now apply crel_ret.
Qed.
Lemma text_app : forall x x' y y', text_numbered d R x x' -> text_numbered d R y y' -> text_numbered d R (x ++ y) (x' ++ y').
Proof.
  intros x x' y y' (l & l' & F & -> & ->) (m & m' & G & -> & ->). exists (l ++ m)%list, (l' ++ m')%list. split; [now apply Forall2_app|].
  assert (T : forall a b, text (a ++ b)%list = (text a ++ text b)%string).
  { induction a as [|t a IH]; intros b; auto. cbn. now rewrite IH, Conv.append_assoc. }
  split; now rewrite T.
Qed.
Lemma text_one : forall t t', S t t' -> text_numbered d R t t'.
Proof. intros t t' H. exists [t], [t']. cbn. rewrite !Conv.append_nil_r. repeat split. constructor; auto. Qed.
Lemma crel_exprAux : forall n, crel (text_numbered d R) (convertExprAux n) (convertExprAux n).
Proof.
  induction n as [|n IH]; cbn [convertExprAux]; cr.
  - apply crel_ret. apply empty_text.
  - eapply crel_bind; [apply crel_next|]. intros o o' HO. eapply crel_bind; [apply IH|]. intros e e' HE. eapply crel_bind; [apply crel_next|]. intros c c' HC.
    eapply crel_bind; [apply IH|]. intros r r' HR. apply crel_ret. auto using text_app, text_one.
  - eapply crel_bind; [apply crel_next|]. intros o o' HO. eapply crel_bind; [apply IH|]. intros e e' HE. apply crel_ret. auto using text_app, text_one.
Qed.
Lemma crel_expr : forall n, crel (text_numbered d R) (convertExpr n) (convertExpr n).
Proof.
  intros n. unfold convertExpr. eapply crel_bind; [apply crel_next|]. intros o o' HO. eapply crel_bind; [apply crel_exprAux|]. intros e e' HE.
  eapply crel_bind; [apply crel_next|]. intros c c' HC. apply crel_ret. auto using text_app, text_one.
Qed.
Lemma nb_upper : forall t w, number_token d t -> no_number w = true -> (go_upper t =? w) = false.
Proof.
  intros t w N W. apply String.eqb_neq. intros E. destruct (nb_head _ _ N) as (c & s & -> & I).
  assert (L : (N_of_ascii c < 128)%N) by (apply headed_cases in I; cbn in I; repeat (destruct I as [<-|I]; [reflexivity|]); contradiction).
  destruct (upper_first c s L) as [u U]. rewrite U in E. subst w. apply headed_cases in I; cbn in I; repeat (destruct I as [<-|I]; [discriminate|]); contradiction.
Qed.
Lemma crel_literal : crel (default_numbered d R) (convertLiteralValue d) (convertLiteralValue d).
Proof.
  unfold convertLiteralValue. eapply crel_bind; [apply crel_next|]. intros t t' [->|(HR & N & N' & P)] l l' F.
  - destruct (parse_float t); [split; auto; now left|]. unfold cbind. destruct t as [|c t]; [destruct d; exact I|].
    rewrite !isStringValue_eq by discriminate. destruct (quoted (string_quotes d) (String c t)).
    + unfold c_slice_inner. destruct (slice_inner (String c t)); [|exact I]. split; auto. now left.
    + destruct (go_upper (String c t) =? "NULL"); [split; auto; now left|]. destruct (go_upper (String c t) =? "TRUE"); [split; auto; now left|].
      destruct (go_upper (String c t) =? "FALSE"); split; auto; now left.
  - destruct (nb_numeral _ _ N) as [f Ef]. destruct (nb_numeral _ _ N') as [f' Ef']. rewrite Ef, Ef'. split; auto. right. right.
    exists t, t', f, f'. repeat split; auto. right. auto.
Qed.
Lemma crel_default : forall n, crel (default_numbered d R) (convertDefaultValue n d) (convertDefaultValue n d).
Proof.
  intros n. unfold convertDefaultValue. cr; [|apply crel_literal]. eapply crel_bind; [apply crel_expr|]. intros e e' H. apply crel_ret. right. left. exists e, e'. auto.
Qed.
Lemma crel_reference : forall n, crel (reference_numbered d R) (convertReference n d) (convertReference n d).
Proof.
  intros n. unfold convertReference. cr. eapply crel_bind; [apply crel_name|]. intros x x' H. cr.
  - eapply crel_bind; [apply crel_columns|]. intros ls ls' HL. apply crel_ret. split; cbn; auto.
  - apply crel_ret. split; cbn; auto.
Qed.
Lemma zero_constraint_sw : constraint_numbered d R zero_constraint zero_constraint.
Proof. repeat split; cbn; auto; try (left; auto; fail). apply empty_text. Qed.
Lemma crel_constraint_aux : forall n k k', constraint_numbered d R k k' -> crel (constraint_numbered d R) (convertConstraintAux n d k) (convertConstraintAux n d k').
Proof.
  induction n as [|n IH]; intros k k' K; cbn [convertConstraintAux]; cr; try (now apply crel_ret).
  1-4: apply IH; unfold constraint_numbered in *; cbn; tauto.
  - eapply crel_bind; [apply crel_default|]. intros x x' H. apply IH. unfold constraint_numbered in *. cbn. tauto.
  - eapply crel_bind; [apply crel_expr|]. intros x x' H. apply IH. unfold constraint_numbered in *. cbn. tauto.
  - eapply crel_bind; [apply crel_name|]. intros x x' H. apply IH. unfold constraint_numbered in *. cbn. tauto.
  - eapply crel_bind; [apply crel_reference|]. intros x x' H. apply IH. unfold constraint_numbered in *. cbn. tauto.
Qed.
Lemma crel_constraint : forall n, crel (constraint_numbered d R) (convertConstraint n d) (convertConstraint n d).
Proof.
  intros n. unfold convertConstraint. eapply crel_bind; [apply crel_match; known'|]. intros b ? <-.
  eapply crel_bind with (P := constraint_numbered d R); [|intros; now apply crel_constraint_aux].
  destruct b; [|apply crel_ret, zero_constraint_sw]. cr; [apply crel_ret, zero_constraint_sw|].
  eapply crel_bind; [apply crel_name|]. intros x x' H. apply crel_ret. pose proof zero_constraint_sw. unfold constraint_numbered in *. cbn in *. tauto.
Qed.
Lemma ren_atoi : forall t t', S t t' -> digit_numbered d R (atoi_value t) (atoi_value t').
Proof. intros t t' H. right. exists t, t'. auto. Qed.
Lemma crel_digit : crel (pair_ren (digit_numbered d R) (digit_numbered d R)) convertTypeDigit convertTypeDigit.
Proof.
  unfold convertTypeDigit. cr; [|apply crel_ret; split; now left]. eapply crel_bind; [apply crel_next|]. intros t t' H%ren_atoi.
  eapply crel_bind; [apply crel_match; known'|]. intros b ? <-.
  eapply crel_bind with (P := digit_numbered d R).
  - destruct b; [|apply crel_ret; now left]. cr. eapply crel_bind; [apply crel_next|]. intros m m' H'%ren_atoi. now apply crel_ret.
  - intros m m' M. cr. apply crel_ret. split; auto.
Qed.
Lemma bit_or : forall t, number_token d t -> (go_upper t =? "BIT") = false /\ (go_upper t =? "CHARACTER") = false.
Proof. intros t N. split; apply nb_upper; auto. Qed.
Definition varying (name : string) : C string :=
  (b <- cmatch ["VARYING"] ;;
   if b then
     v <- ctoken ;;
     cnext ;;
     cret (if name =? "BIT" then "VARBIT" else if name =? "CHARACTER" then "VARCHAR" else name ++ " " ++ go_upper v)
   else cret name)%c.
Lemma crel_varying : forall t t', S t t' -> crel (type_word_numbered d R) (varying (go_upper t)) (varying (go_upper t')).
Proof.
  intros t t' H l l' F. unfold varying, cbind, cmatch, ctoken.
  assert (K : number_words d ["VARYING"]) by known'.
  assert (W : type_word_numbered d R (go_upper t) (go_upper t')).
  { right. exists t, t', "". rewrite !Conv.append_nil_r. auto. }
  pose proof (crel_next l l' F) as X.
  destruct F as [|v v' l l' V F]; [split; [exact W|constructor]|].
  rewrite (numbered_matches d R _ _ _ K V). destruct (matches ["VARYING"] v') eqn:M; [|split; [exact W|now constructor]].
  assert (v' = v) as ->.
  { destruct V as [->|(_ & _ & N & _)]; auto. rewrite (nb_matches _ _ N _ K) in M. discriminate. }
  destruct (cnext (v :: l)) as [a r| |], (cnext (v :: l')) as [a' r'| |]; cbn in X; try contradiction; auto. destruct X as [_ X]. split; auto.
  destruct H as [->|(HR & N & N' & P)]; [now left|]. destruct (bit_or _ N) as [-> ->]. destruct (bit_or _ N') as [-> ->].
  right. exists t, t', (" " ++ go_upper v). split; [right; auto|split; reflexivity].
Qed.
Lemma crel_date : crel (type_numbered d R) convertDateType convertDateType.
Proof.
  unfold convertDateType. eapply crel_bind; [apply crel_next|]. intros t t' H l l' F.
  assert (E : forall name l, (b <- cmatch ["VARYING"] ;;
    name <- (if b : bool then v <- ctoken ;; cnext ;; cret (if name =? "BIT" then "VARBIT" else if name =? "CHARACTER" then "VARCHAR" else name ++ " " ++ go_upper v) else cret name) ;;
    '(n, m) <- convertTypeDigit ;; cret (mk_data_type name n m))%c l = (name <- varying name ;; '(n, m) <- convertTypeDigit ;; cret (mk_data_type name n m))%c l).
  { intros name l0. unfold varying, cbind. now destruct (cmatch ["VARYING"] l0). }
  cbn zeta. rewrite !E. revert l l' F.
  change (crel (type_numbered d R) (name <- varying (go_upper t) ;; '(n, m) <- convertTypeDigit ;; cret (mk_data_type name n m))%c
    (name <- varying (go_upper t') ;; '(n, m) <- convertTypeDigit ;; cret (mk_data_type name n m))%c).
  eapply crel_bind; [now apply crel_varying|].
  intros x x' HX. eapply crel_bind; [apply crel_digit|]. intros [n m] [n' m'] [Hn Hm]. apply crel_ret. split; [exact HX|split; [exact Hn|exact Hm]].
Qed.
Lemma crel_column : forall n, crel (column_numbered d R) (convertColumnDefinition n d) (convertColumnDefinition n d).
Proof.
  intros n. unfold convertColumnDefinition. eapply crel_bind; [apply crel_name|]. intros x x' H. eapply crel_bind; [apply crel_date|]. intros t t' T.
  eapply crel_bind; [apply crel_constraint|]. intros c c' K. apply crel_ret. split; [exact H|split; [exact T|exact K]].
Qed.
Lemma Forall2_snoc : forall A (P : A -> A -> Prop) l l' a a', Forall2 P l l' -> P a a' -> Forall2 P (l ++ [a])%list (l' ++ [a'])%list.
Proof. intros. apply Forall2_app; auto. Qed.
Lemma crel_table_constraint : forall n x x', tc_numbered d R x x' -> crel (tc_numbered d R) (convertTableConstraint n d x) (convertTableConstraint n d x').
Proof.
  intros n x x' (A & B & E & F). unfold convertTableConstraint. eapply crel_bind; [apply crel_match; known'|]. intros b ? <-.
  eapply crel_bind with (P := numbered d R).
  - destruct b; [|apply crel_ret; now left]. cr; [apply crel_ret; now left|]. intros l l' L. pose proof (crel_name l l' L) as X.
    exact X.
  - intros m m' M. cr.
    + eapply crel_bind; [apply crel_columns|]. intros ls ls' HL. apply crel_ret. repeat split; cbn; auto. apply Forall2_snoc; cbn; auto.
    + eapply crel_bind; [apply crel_columns|]. intros ls ls' HL. apply crel_ret. repeat split; cbn; auto. apply Forall2_snoc; cbn; auto.
    + eapply crel_bind; [apply crel_expr|]. intros ls ls' HL. apply crel_ret. repeat split; cbn; auto. apply Forall2_snoc; cbn; auto.
    + eapply crel_bind; [apply crel_columns|]. intros ls ls' HL. eapply crel_bind; [apply crel_reference|]. intros r r' HR.
      apply crel_ret. repeat split; cbn; auto. apply Forall2_snoc; cbn; auto.
    + apply crel_ret. repeat split; auto.
Qed.
Notation COLS := (Forall2 (column_numbered d R)).
Lemma crel_definition : forall n cols cols' x x', COLS cols cols' -> tc_numbered d R x x' ->
  crel (pair_ren COLS (tc_numbered d R)) (table_definition_loop n d cols x) (table_definition_loop n d cols' x').
Proof.
  induction n as [|n IH]; intros cols cols' x x' A B; cbn [table_definition_loop]; cr.
  - apply crel_ret. split; auto.
  - eapply crel_bind; [apply crel_match; known'|]. intros b ? <-. eapply crel_bind with (P := pair_ren COLS (tc_numbered d R)).
    + destruct b.
      * eapply crel_bind; [now apply crel_table_constraint|]. intros y y' Y. apply crel_ret. split; auto.
      * eapply crel_bind; [apply crel_column|]. intros c c' K. apply crel_ret. split; auto. cbn. now apply Forall2_snoc.
    + intros [c y] [c' y'] [K Y]. cbn in K, Y. cr; [apply crel_ret; split; auto|]. now apply IH.
Qed.
Lemma zero_tc_ren : tc_numbered d R zero_tc zero_tc.
Proof. repeat split; constructor. Qed.
Lemma crel_table : forall n, crel (table_numbered d R) (convertTable n d) (convertTable n d).
Proof.
  intros n. unfold convertTable. cr. eapply crel_bind; [apply crel_match; known'|]. intros b ? <-.
  eapply crel_then with (P := eq); [destruct b; cr; now apply crel_ret|].
  eapply crel_bind; [apply crel_table_name|]. intros [s t] [s' t'] [HS HT]. cbn in HS, HT.
  eapply crel_bind with (P := pair_ren COLS (tc_numbered d R)).
  - unfold convertTableDefinition. cr. eapply crel_bind; [apply crel_definition; [constructor|apply zero_tc_ren]|]. intros r r' HR. cr. now apply crel_ret.
  - intros [c y] [c' y'] [K Y]. cbn in K, Y. eapply crel_bind; [apply crel_match; known'|]. intros b0 ? <-.
    eapply crel_then with (P := eq); [destruct b0; cr; now apply crel_ret|]. apply crel_ret. repeat split; auto; apply Y.
Qed.
Notation TABLES := (Forall2 (table_numbered d R)).
Lemma crel_convert : forall n, crel TABLES (convert n d) (convert n d).
Proof.
  induction n as [|n IH]; [apply crel_fuel|]. cbn [convert]. intros l l' F.
  assert (X : crel TABLES (t <- convertTable n d ;; ts <- convert n d ;; cret (t :: ts))%c (t <- convertTable n d ;; ts <- convert n d ;; cret (t :: ts))%c).
  { eapply crel_bind; [apply crel_table|]. intros t t' T. eapply crel_bind; [apply IH|]. intros ts ts' TS. apply crel_ret. now constructor. }
  destruct F as [|t t' l l' H F]; [split; constructor|]. now apply X; constructor.
Qed.
Theorem numbered_convert : forall n l l', Forall2 S l l' ->
  match Convert n d l, Convert n d l' with
  | ConvertOk ts, ConvertOk ts' => TABLES ts ts'
  | ConvertPanic, ConvertPanic => True
  | ConvertOutOfFuel, ConvertOutOfFuel => True
  | _, _ => False
  end.
Proof.
  intros n l l' F. pose proof (crel_convert n l l' F) as X. unfold Convert. destruct (convert n d l), (convert n d l'); cbn in X; auto. apply X.
Qed.
End Converter.

(** ** Texts *)
Theorem numbered_accepted : forall d R ddl ddl' toks toks' ts, lexes d ddl toks -> lexes d ddl' toks' ->
  Forall2 (numbered d R) toks toks' -> accepted ddl d ts ->
  exists ts', accepted ddl' d ts' /\ Forall2 (table_numbered d R) ts ts'.
Proof.
  intros d R ddl ddl' toks toks' ts X%RenameConvert.lexes_lexed X'%RenameConvert.lexes_lexed F A. apply returns_stage in A.
  inversion A as [| |toks0 rest out ts0 L V K]; subst. assert (toks0 = toks) as -> by congruence.
  assert (F' : Forall2 (numbered d R) (strip toks) (strip toks')) by (apply resp_strip; auto; apply numbered_nl).
  destruct V as [_ [n V]]. pose proof (numbered_verdict d R _ _ F' n) as Y. rewrite V in Y.
  destruct (exec (prog (script d) n) (strip toks')) as [[] rest' out'| | |] eqn:E; cbn in Y; try contradiction. destruct Y as (_ & _ & Y).
  destruct K as (k & r & K). pose proof (numbered_convert d R k out out' Y) as Z. unfold Convert in Z. rewrite K in Z.
  destruct (convert k d out') as [ts' r'| |] eqn:K'; try contradiction. exists ts'. split; auto.
  apply returns_stage. econstructor 3; [exact X'| |exists k, r'; exact K']. split; [discriminate|]. exists n. exact E.
Qed.
Theorem numbered_diverges : forall d R ddl ddl' toks toks', lexes d ddl toks -> lexes d ddl' toks' ->
  Forall2 (numbered d R) toks toks' -> diverges ddl d -> diverges ddl' d.
Proof.
  intros d R ddl ddl' toks toks' X X' F%numbered_back D. apply RenameConvert.returns_or_diverges. intros (ts & [e|] & H); apply RenameConvert.returns_or_diverges in D; apply D.
  - apply RenameConvert.rejected_nil in H. destruct (numbered_rejected _ _ _ _ _ _ _ _ X' X F H) as (near & H' & _). do 2 eexists. exact H'.
  - destruct (numbered_accepted _ _ _ _ _ _ _ X' X F H) as (ts' & H' & _). do 2 eexists. exact H'.
Qed.

