(** Renaming: the converter does not tell names apart. *)
From Coq Require Import String Ascii List Bool Arith NArith ZArith Lia.
From Verif Require Import GoStr Unicode UnicodeFacts GoNum Types Lexer VBase Exec Grammar GrammarFacts Ast Converter Parse Fuel Spec Scan Pipe Conv Names Recase RecaseFacts Resp RespText
  Meaning NoPanic Quoted Rename RenameTokens RenameVerdict RenameFacts.
From Verif Require DocFacts.
Import ListNotations.
Open Scope nat_scope.
Open Scope string_scope.

Section Converter.
Variables (d : rdbms) (R : string -> string -> Prop).
Notation S := (renamed d R).

Definition crel_ {A} (Q : A -> A -> Prop) (x x' : cres A) : Prop :=
  match x, x' with
  | COk a r, COk a' r' => Q a a' /\ Forall2 S r r'
  | CPanic, CPanic => True
  | COutOfFuel, COutOfFuel => True
  | _, _ => False
  end.
Definition crel {A} (Q : A -> A -> Prop) (m m' : C A) : Prop := forall l l', Forall2 S l l' -> crel_ Q (m l) (m' l').

Lemma crel_bind : forall A B (P : A -> A -> Prop) (Q : B -> B -> Prop) m m' f f', crel P m m' -> (forall a a', P a a' -> crel Q (f a) (f' a')) ->
  crel Q (cbind m f) (cbind m' f').
Proof.
  intros A B P Q m m' f f' M F l l' L. unfold cbind. specialize (M l l' L). destruct (m l), (m' l'); cbn in M; try contradiction; auto.
  destruct M as [H L']. now apply F.
Qed.
Lemma crel_ret : forall A (Q : A -> A -> Prop) a a', Q a a' -> crel Q (cret a) (cret a').
Proof. intros A Q a a' H l l' L. split; auto. Qed.
Lemma crel_fuel : forall A (Q : A -> A -> Prop), crel Q cfuel cfuel.
Proof. intros A Q l l' L. exact I. Qed.
Lemma crel_next : crel S cnext cnext.
Proof.
  intros l l' F. induction F as [|t t' l l' H F IH]; [split; [now left|constructor]|]. cbn [cnext].
  rewrite (ren_comma d R _ _ H). destruct F as [|u u' l l' H' F].
  - rewrite !andb_false_r. split; auto.
  - rewrite (ren_comma d R _ _ H'). destruct ((t' =? ",") && (u' =? ",")); [exact IH|]. split; auto.
Qed.
Lemma crel_token : crel S ctoken ctoken.
Proof. intros l l' []; split; auto; now left. Qed.
Lemma crel_match : forall ws, known_words d ws -> crel eq (cmatch ws) (cmatch ws).
Proof.
  intros ws K l l' F. destruct F as [|t t' l l' H F]; split; auto. now apply (renamed_matches d R).
Qed.
Lemma crel_if : forall A (Q : A -> A -> Prop) ws m m' k k', known_words d ws -> crel Q m m' -> crel Q k k' ->
  crel Q (cbind (cmatch ws) (fun b : bool => if b then m else k)) (cbind (cmatch ws) (fun b : bool => if b then m' else k')).
Proof. intros. eapply crel_bind; [apply crel_match; auto|]. intros [] a <-; auto. Qed.
Lemma crel_then : forall A B (P : A -> A -> Prop) (Q : B -> B -> Prop) m m' k k', crel P m m' -> crel Q k k' -> crel Q (cbind m (fun _ => k)) (cbind m' (fun _ => k')).
Proof. intros. eapply crel_bind; eauto. Qed.

Lemma name_of : forall t l, match (b <- isIdentifier d t ;; if b then c_slice_inner t else cret t)%c l with
  COk x r => x = unquote d t /\ r = l | _ => True end.
Proof.
  intros t l. destruct t as [|c t]; [destruct d; exact I|]. unfold cbind. rewrite isIdentifier_eq by discriminate. unfold unquote.
  destruct (quoted (name_quotes d) (String c t)); [|split; auto]. unfold c_slice_inner. destruct (slice_inner (String c t)) eqn:E; [|exact I]. split; auto.
  revert E. unfold slice_inner, inner. destruct (String.length (String c t)) as [|[|n]]; intros E; try discriminate. injection E as <-.
  change (Datatypes.S (Datatypes.S n) - 2) with (n - 0). now rewrite Nat.sub_0_r.
Qed.
Lemma name_ok : forall t l, name_token d t -> (b <- isIdentifier d t ;; if b then c_slice_inner t else cret t)%c l = COk (unquote d t) l.
Proof.
  intros t l N. pose proof (name_of t l) as H. destruct (cbind _ _ l) as [x r| |] eqn:X; [destruct H as [-> ->]; reflexivity|exfalso|exfalso];
    clear H; revert X; unfold cbind; rewrite isIdentifier_eq by (eapply nt_nonempty; eauto);
    (destruct (quoted (name_quotes d) t) eqn:Q; [|discriminate]); unfold c_slice_inner; destruct (slice_inner t) eqn:E; try discriminate; intros _;
    (destruct N as [[(q & s & -> & _)|[(c & s & -> & I & _) _]] _];
    [revert E; unfold slice_inner; cbn [String.length]; rewrite Quoted.length_append; cbn [String.length]; rewrite Nat.add_comm; discriminate|]).
  cbn [quoted] in Q. apply contains_spec in Q. clear - Q I. revert Q. revert c I.
  assert (X : forallb (fun c => negb (contains [""""; "`"] (String c ""))) letters = true) by (vm_compute; reflexivity).
  intros c I Q. rewrite forallb_forall in X. specialize (X c I). apply negb_true_iff, contains_false in X. apply X. destruct d; cbn in *; tauto.
Qed.
Lemma crel_name : crel (name_renamed d R) (convertName d) (convertName d).
Proof.
  unfold convertName. eapply crel_bind; [apply crel_next|]. intros t t' H l l' F. destruct H as [->|(HR & N & N')].
  - pose proof (name_of t l) as A. unfold cbind in *. destruct t as [|c t].
    + destruct d; exact I.
    + rewrite !isIdentifier_eq in * by discriminate. destruct (quoted (name_quotes d) (String c t)).
      * unfold c_slice_inner in *. destruct (slice_inner (String c t)); [|exact I]. destruct A as [-> _]. split; auto. apply same_names.
      * unfold cret in *. destruct A as [A _]. split; auto. rewrite A. apply same_names.
  - rewrite !name_ok by auto. split; auto. apply ren_names. right. auto.
Qed.
Lemma opt_name_ : forall x x', name_renamed d R x x' -> opt_renamed d R x x'.
Proof. intros. now right. Qed.

Ltac known' := destruct d; vm_compute; reflexivity.
Ltac cr := repeat first
  [ apply crel_fuel
  | apply crel_if; [known'| |]
  | eapply crel_then; [first [apply crel_next|apply crel_token]|] ].

Definition pair_ren {A B} (P : A -> A -> Prop) (Q : B -> B -> Prop) (x x' : A * B) : Prop := P (fst x) (fst x') /\ Q (snd x) (snd x').
Lemma crel_table_name : crel (pair_ren (opt_renamed d R) (name_renamed d R)) (convertTableName d) (convertTableName d).
Proof.
  unfold convertTableName. eapply crel_bind; [apply crel_name|]. intros x x' H. cr.
  - eapply crel_bind; [apply crel_name|]. intros y y' H'. apply crel_ret. split; [now right|auto].
  - apply crel_ret. split; [now left|auto].
Qed.
Lemma crel_columns_loop : forall n ls ls', Forall2 S ls ls' -> crel (list_renamed d R) (column_names_loop n ls) (column_names_loop n ls').
Proof.
  induction n as [|n IH]; intros ls ls' H; cbn [column_names_loop]; cr; auto.
  - apply crel_ret. unfold list_renamed. clear - H. induction H; cbn; [constructor|]. apply Forall2_app; auto.
  - eapply crel_bind; [apply crel_token|]. intros t t' E. cr. apply IH. now constructor.
Qed.
Lemma crel_columns : forall n, crel (list_renamed d R) (convertCommaSeparatedColumnNames n) (convertCommaSeparatedColumnNames n).
Proof.
  intros n. unfold convertCommaSeparatedColumnNames. cr. eapply crel_bind; [apply crel_columns_loop; constructor|]. intros ls ls' H. cr. now apply crel_ret.
Qed.
Lemma text_app : forall x x' y y', text_renamed d R x x' -> text_renamed d R y y' -> text_renamed d R (x ++ y) (x' ++ y').
Proof.
  intros x x' y y' (l & l' & F & -> & ->) (m & m' & G & -> & ->). exists (l ++ m)%list, (l' ++ m')%list. split; [now apply Forall2_app|].
  assert (T : forall a b, text (a ++ b)%list = (text a ++ text b)%string).
  { induction a as [|t a IH]; intros b; auto. cbn. now rewrite IH, Conv.append_assoc. }
  split; now rewrite T.
Qed.
Lemma text_one : forall t t', S t t' -> text_renamed d R t t'.
Proof. intros t t' H. exists [t], [t']. cbn. rewrite !Conv.append_nil_r. repeat split. constructor; auto. Qed.
Lemma crel_exprAux : forall n, crel (text_renamed d R) (convertExprAux n) (convertExprAux n).
Proof.
  induction n as [|n IH]; cbn [convertExprAux]; cr.
  - apply crel_ret. apply empty_text.
  - eapply crel_bind; [apply crel_next|]. intros o o' HO. eapply crel_bind; [apply IH|]. intros e e' HE. eapply crel_bind; [apply crel_next|]. intros c c' HC.
    eapply crel_bind; [apply IH|]. intros r r' HR. apply crel_ret. auto using text_app, text_one.
  - eapply crel_bind; [apply crel_next|]. intros o o' HO. eapply crel_bind; [apply IH|]. intros e e' HE. apply crel_ret. auto using text_app, text_one.
Qed.
Lemma crel_expr : forall n, crel (text_renamed d R) (convertExpr n) (convertExpr n).
Proof.
  intros n. unfold convertExpr. eapply crel_bind; [apply crel_next|]. intros o o' HO. eapply crel_bind; [apply crel_exprAux|]. intros e e' HE.
  eapply crel_bind; [apply crel_next|]. intros c c' HC. apply crel_ret. auto using text_app, text_one.
Qed.
Lemma nt_upper : forall t w, name_token d t -> In w (vocabulary d) -> (go_upper t =? w) = false.
Proof.
  intros t w [[(q & s & -> & Q)|[(c & s & -> & C & F) _]] N] I; apply String.eqb_neq; intros E.
  - assert (L : (N_of_ascii q < 128)%N) by (destruct d; cbn in Q; repeat (destruct Q as [Q|Q]; [injection Q as <-; reflexivity|]); contradiction).
    destruct (upper_first q (s ++ String q "") L) as [u U]. rewrite U in E. subst w.
    assert (V : forallb (fun w => negb (quoted Emit.any_quote w)) (vocabulary d) = true) by (destruct d; vm_compute; reflexivity).
    rewrite forallb_forall in V. apply V in I. revert I.
    destruct d; cbn in Q; repeat (destruct Q as [Q|Q]; [injection Q as <-; discriminate|]); contradiction.
  - apply N. rewrite <- upper_ascii_text; [now rewrite E|]. apply ascii_name, DocFacts.word_pattern. exists c, s. auto.
Qed.
Lemma crel_literal : crel (default_renamed d R) (convertLiteralValue d) (convertLiteralValue d).
Proof.
  unfold convertLiteralValue. eapply crel_bind; [apply crel_next|]. intros t t' [->|(HR & N & N')] l l' F.
  - destruct (parse_float t); [split; auto; now left|]. unfold cbind. destruct t as [|c t]; [destruct d; exact I|].
    rewrite !isStringValue_eq by discriminate. destruct (quoted (string_quotes d) (String c t)).
    + unfold c_slice_inner. destruct (slice_inner (String c t)); [|exact I]. split; auto. now left.
    + destruct (go_upper (String c t) =? "NULL"); [split; auto; now left|]. destruct (go_upper (String c t) =? "TRUE"); [split; auto; now left|].
      destruct (go_upper (String c t) =? "FALSE"); split; auto; now left.
  - rewrite (nt_not_numeral _ _ N), (nt_not_numeral _ _ N'). unfold cbind. rewrite !isStringValue_eq by (eapply nt_nonempty; eauto).
    assert (X : forall t, name_token d t -> quoted (string_quotes d) t = false).
    { intros u NU. pose proof (not_string d u NU) as Q. destruct d; auto. now destruct u. }
    rewrite !X by auto. rewrite !nt_upper by (auto; apply contains_spec; destruct d; vm_compute; reflexivity).
    split; auto. right. exists t, t'. repeat split. apply text_one. right. auto.
Qed.
Lemma crel_default : forall n, crel (default_renamed d R) (convertDefaultValue n d) (convertDefaultValue n d).
Proof.
  intros n. unfold convertDefaultValue. cr; [|apply crel_literal]. eapply crel_bind; [apply crel_expr|]. intros e e' H. apply crel_ret. right. eauto.
Qed.
Lemma crel_reference : forall n, crel (reference_renamed d R) (convertReference n d) (convertReference n d).
Proof.
  intros n. unfold convertReference. cr. eapply crel_bind; [apply crel_name|]. intros x x' H. cr.
  - eapply crel_bind; [apply crel_columns|]. intros ls ls' HL. apply crel_ret. split; cbn; auto. now right.
  - apply crel_ret. split; cbn; auto. now right.
Qed.
Definition constraint_ren (k k' : constraint) : Prop :=
  opt_renamed d R (c_name k) (c_name k') /\ c_pk k = c_pk k' /\ c_unique k = c_unique k' /\ c_notnull k = c_notnull k' /\ c_auto k = c_auto k' /\
  default_renamed d R (c_default k) (c_default k') /\ text_renamed d R (c_check k) (c_check k') /\
  opt_renamed d R (c_collate k) (c_collate k') /\ reference_renamed d R (c_references k) (c_references k').
Lemma zero_constraint_ren : constraint_ren zero_constraint zero_constraint.
Proof. repeat split; cbn; auto; try (left; auto; fail). apply empty_text. Qed.
Lemma crel_constraint_aux : forall n k k', constraint_ren k k' -> crel constraint_ren (convertConstraintAux n d k) (convertConstraintAux n d k').
Proof.
  induction n as [|n IH]; intros k k' K; cbn [convertConstraintAux]; cr; try (now apply crel_ret).
  1-4: apply IH; unfold constraint_ren in *; cbn; tauto.
  - eapply crel_bind; [apply crel_default|]. intros x x' H. apply IH. unfold constraint_ren in *. cbn. tauto.
  - eapply crel_bind; [apply crel_expr|]. intros x x' H. apply IH. unfold constraint_ren in *. cbn. tauto.
  - eapply crel_bind; [apply crel_name|]. intros x x' H%opt_name_. apply IH. unfold constraint_ren in *. cbn. tauto.
  - eapply crel_bind; [apply crel_reference|]. intros x x' H. apply IH. unfold constraint_ren in *. cbn. tauto.
Qed.
Lemma crel_constraint : forall n, crel constraint_ren (convertConstraint n d) (convertConstraint n d).
Proof.
  intros n. unfold convertConstraint. eapply crel_bind; [apply crel_match; known'|]. intros b ? <-.
  eapply crel_bind with (P := constraint_ren); [|intros; now apply crel_constraint_aux].
  destruct b; [|apply crel_ret, zero_constraint_ren]. cr; [apply crel_ret, zero_constraint_ren|].
  eapply crel_bind; [apply crel_name|]. intros x x' H%opt_name_. apply crel_ret. pose proof zero_constraint_ren. unfold constraint_ren in *. cbn in *. tauto.
Qed.
Lemma ren_atoi : forall t t', S t t' -> atoi_value t = atoi_value t'.
Proof.
  assert (X : forall t, name_token d t -> atoi_value t = 0%Z).
  { intros t [L _]. destruct (legal_head _ _ L) as (c & s & -> & H). unfold atoi_value.
    assert (P : forallb (fun c => match atoi (String c s) with ISyntax => true | _ => false end) (id_marks ++ letters)%list = true).
    { unfold id_marks, letters. cbn [list_ascii_of_string app forallb]. cbn. reflexivity. }
    rewrite forallb_forall in P. specialize (P c (head_cases _ _ H)). cbn beta in P. destruct (atoi (String c s)); auto; discriminate. }
  intros t t' [->|(_ & N & N')]; auto. now rewrite !X.
Qed.
Lemma crel_digit : crel eq convertTypeDigit convertTypeDigit.
Proof.
  unfold convertTypeDigit. cr; [|now apply crel_ret]. eapply crel_bind; [apply crel_next|]. intros t t' H%ren_atoi.
  eapply crel_bind; [apply crel_match; known'|]. intros b ? <-.
  eapply crel_bind with (P := eq).
  - destruct b; [|now apply crel_ret]. cr. eapply crel_bind; [apply crel_next|]. intros m m' H'%ren_atoi. now apply crel_ret.
  - intros m ? <-. cr. apply crel_ret. now rewrite H.
Qed.
Lemma bit_or : forall t, name_token d t -> (go_upper t =? "BIT") = false /\ (go_upper t =? "CHARACTER") = false.
Proof. intros t N. split; apply nt_upper; auto; apply contains_spec; destruct d; vm_compute; reflexivity. Qed.
Definition varying (name : string) : C string :=
  (b <- cmatch ["VARYING"] ;;
   if b then
     v <- ctoken ;;
     cnext ;;
     cret (if name =? "BIT" then "VARBIT" else if name =? "CHARACTER" then "VARCHAR" else name ++ " " ++ go_upper v)
   else cret name)%c.
Lemma crel_varying : forall t t', S t t' -> crel (type_word_renamed d R) (varying (go_upper t)) (varying (go_upper t')).
Proof.
  intros t t' H l l' F. unfold varying, cbind, cmatch, ctoken.
  assert (K : known_words d ["VARYING"]) by known'.
  assert (W : type_word_renamed d R (go_upper t) (go_upper t')).
  { right. exists t, t', "". rewrite !Conv.append_nil_r. auto. }
  pose proof (crel_next l l' F) as X.
  destruct F as [|v v' l l' V F]; [split; [exact W|constructor]|].
  rewrite (renamed_matches d R _ _ _ K V). destruct (matches ["VARYING"] v') eqn:M; [|split; [exact W|now constructor]].
  assert (v' = v) as ->.
  { destruct V as [->|(_ & _ & N)]; auto. rewrite (nt_matches _ _ N _ K) in M. discriminate. }
  destruct (cnext (v :: l)) as [a r| |], (cnext (v :: l')) as [a' r'| |]; cbn in X; try contradiction; auto. destruct X as [_ X]. split; auto.
  destruct H as [->|(HR & N & N')]; [now left|]. destruct (bit_or _ N) as [-> ->]. destruct (bit_or _ N') as [-> ->].
  right. exists t, t', (" " ++ go_upper v). split; [right; auto|split; reflexivity].
Qed.
Lemma crel_date : crel (type_renamed d R) convertDateType convertDateType.
Proof.
  unfold convertDateType. eapply crel_bind; [apply crel_next|]. intros t t' H l l' F.
  assert (E : forall name l, (b <- cmatch ["VARYING"] ;;
    name <- (if b : bool then v <- ctoken ;; cnext ;; cret (if name =? "BIT" then "VARBIT" else if name =? "CHARACTER" then "VARCHAR" else name ++ " " ++ go_upper v) else cret name) ;;
    '(n, m) <- convertTypeDigit ;; cret (mk_data_type name n m))%c l = (name <- varying name ;; '(n, m) <- convertTypeDigit ;; cret (mk_data_type name n m))%c l).
  { intros name l0. unfold varying, cbind. now destruct (cmatch ["VARYING"] l0). }
  cbn zeta. rewrite !E. revert l l' F.
  change (crel (type_renamed d R) (name <- varying (go_upper t) ;; '(n, m) <- convertTypeDigit ;; cret (mk_data_type name n m))%c
    (name <- varying (go_upper t') ;; '(n, m) <- convertTypeDigit ;; cret (mk_data_type name n m))%c).
  eapply crel_bind; [now apply crel_varying|].
  intros x x' HX. eapply crel_bind; [apply crel_digit|]. intros [n m] ? <-. apply crel_ret. repeat split. exact HX.
Qed.
Lemma crel_column : forall n, crel (column_renamed d R (type_renamed d R)) (convertColumnDefinition n d) (convertColumnDefinition n d).
Proof.
  intros n. unfold convertColumnDefinition. eapply crel_bind; [apply crel_name|]. intros x x' H. eapply crel_bind; [apply crel_date|]. intros t t' T.
  eapply crel_bind; [apply crel_constraint|]. intros c c' K. apply crel_ret. split; [exact H|split; [exact T|exact K]].
Qed.
Lemma Forall2_snoc : forall A (P : A -> A -> Prop) l l' a a', Forall2 P l l' -> P a a' -> Forall2 P (l ++ [a])%list (l' ++ [a'])%list.
Proof. intros. apply Forall2_app; auto. Qed.
Lemma crel_table_constraint : forall n x x', tc_renamed d R x x' -> crel (tc_renamed d R) (convertTableConstraint n d x) (convertTableConstraint n d x').
Proof.
  intros n x x' (A & B & E & F). unfold convertTableConstraint. eapply crel_bind; [apply crel_match; known'|]. intros b ? <-.
  eapply crel_bind with (P := opt_renamed d R).
  - destruct b; [|apply crel_ret; now left]. cr; [apply crel_ret; now left|]. intros l l' L. pose proof (crel_name l l' L) as X.
    destruct (convertName d l), (convertName d l'); cbn in *; auto. destruct X. split; auto. now right.
  - intros m m' M. cr.
    + eapply crel_bind; [apply crel_columns|]. intros ls ls' HL. apply crel_ret. repeat split; cbn; auto. apply Forall2_snoc; cbn; auto.
    + eapply crel_bind; [apply crel_columns|]. intros ls ls' HL. apply crel_ret. repeat split; cbn; auto. apply Forall2_snoc; cbn; auto.
    + eapply crel_bind; [apply crel_expr|]. intros ls ls' HL. apply crel_ret. repeat split; cbn; auto. apply Forall2_snoc; cbn; auto.
    + eapply crel_bind; [apply crel_columns|]. intros ls ls' HL. eapply crel_bind; [apply crel_reference|]. intros r r' HR.
      apply crel_ret. repeat split; cbn; auto. apply Forall2_snoc; cbn; auto.
    + apply crel_ret. repeat split; auto.
Qed.
Notation COLS := (Forall2 (column_renamed d R (type_renamed d R))).
Lemma crel_definition : forall n cols cols' x x', COLS cols cols' -> tc_renamed d R x x' ->
  crel (pair_ren COLS (tc_renamed d R)) (table_definition_loop n d cols x) (table_definition_loop n d cols' x').
Proof.
  induction n as [|n IH]; intros cols cols' x x' A B; cbn [table_definition_loop]; cr.
  - apply crel_ret. split; auto.
  - eapply crel_bind; [apply crel_match; known'|]. intros b ? <-. eapply crel_bind with (P := pair_ren COLS (tc_renamed d R)).
    + destruct b.
      * eapply crel_bind; [now apply crel_table_constraint|]. intros y y' Y. apply crel_ret. split; auto.
      * eapply crel_bind; [apply crel_column|]. intros c c' K. apply crel_ret. split; auto. cbn. now apply Forall2_snoc.
    + intros [c y] [c' y'] [K Y]. cbn in K, Y. cr; [apply crel_ret; split; auto|]. now apply IH.
Qed.
Lemma zero_tc_ren : tc_renamed d R zero_tc zero_tc.
Proof. repeat split; constructor. Qed.
Lemma crel_table : forall n, crel (table_renamed d R (type_renamed d R)) (convertTable n d) (convertTable n d).
Proof.
  intros n. unfold convertTable. cr. eapply crel_bind; [apply crel_match; known'|]. intros b ? <-.
  eapply crel_then with (P := eq); [destruct b; cr; now apply crel_ret|].
  eapply crel_bind; [apply crel_table_name|]. intros [s t] [s' t'] [HS HT]. cbn in HS, HT.
  eapply crel_bind with (P := pair_ren COLS (tc_renamed d R)).
  - unfold convertTableDefinition. cr. eapply crel_bind; [apply crel_definition; [constructor|apply zero_tc_ren]|]. intros r r' HR. cr. now apply crel_ret.
  - intros [c y] [c' y'] [K Y]. cbn in K, Y. eapply crel_bind; [apply crel_match; known'|]. intros b0 ? <-.
    eapply crel_then with (P := eq); [destruct b0; cr; now apply crel_ret|]. apply crel_ret. repeat split; auto; apply Y.
Qed.
Notation TABLES := (Forall2 (table_renamed d R (type_renamed d R))).
Lemma crel_convert : forall n, crel TABLES (convert n d) (convert n d).
Proof.
  induction n as [|n IH]; [apply crel_fuel|]. cbn [convert]. intros l l' F.
  assert (X : crel TABLES (t <- convertTable n d ;; ts <- convert n d ;; cret (t :: ts))%c (t <- convertTable n d ;; ts <- convert n d ;; cret (t :: ts))%c).
  { eapply crel_bind; [apply crel_table|]. intros t t' T. eapply crel_bind; [apply IH|]. intros ts ts' TS. apply crel_ret. now constructor. }
  destruct F as [|t t' l l' H F]; [split; constructor|]. now apply X; constructor.
Qed.
Theorem renamed_convert : forall n l l', Forall2 S l l' ->
  match Convert n d l, Convert n d l' with
  | ConvertOk ts, ConvertOk ts' => TABLES ts ts'
  | ConvertPanic, ConvertPanic => True
  | ConvertOutOfFuel, ConvertOutOfFuel => True
  | _, _ => False
  end.
Proof.
  intros n l l' F. pose proof (crel_convert n l l' F) as X. unfold Convert. destruct (convert n d l), (convert n d l'); cbn in X; auto. apply X.
Qed.
End Converter.

(** ** Texts *)
Lemma lexes_lexed : forall d ddl toks, lexes d ddl toks -> lexed d (runes_of ddl) = LexOk toks.
Proof. intros d ddl toks [f X]. destruct (Lex_eq f d ddl); congruence. Qed.
Theorem renamed_accepted : forall d R ddl ddl' toks toks' ts, lexes d ddl toks -> lexes d ddl' toks' ->
  Forall2 (renamed d R) toks toks' -> accepted ddl d ts ->
  exists ts', accepted ddl' d ts' /\ Forall2 (table_renamed d R (type_renamed d R)) ts ts'.
Proof.
  intros d R ddl ddl' toks toks' ts X%lexes_lexed X'%lexes_lexed F A. apply returns_stage in A.
  inversion A as [| |toks0 rest out ts0 L V K]; subst. assert (toks0 = toks) as -> by congruence.
  assert (F' : Forall2 (renamed d R) (strip toks) (strip toks')) by (apply resp_strip; auto; apply renamed_nl).
  destruct V as [_ [n V]]. pose proof (renamed_verdict d R _ _ F' n) as Y. rewrite V in Y.
  destruct (exec (prog (script d) n) (strip toks')) as [[] rest' out'| | |] eqn:E; cbn in Y; try contradiction. destruct Y as (_ & _ & Y).
  destruct K as (k & r & K). pose proof (renamed_convert d R k out out' Y) as Z. unfold Convert in Z. rewrite K in Z.
  destruct (convert k d out') as [ts' r'| |] eqn:K'; try contradiction. exists ts'. split; auto.
  apply returns_stage. econstructor 3; [exact X'| |exists k, r'; exact K']. split; [discriminate|]. exists n. exact E.
Qed.
Lemma renamed_back : forall d R l l', Forall2 (renamed d R) l l' -> Forall2 (renamed d (fun a b => R b a)) l' l.
Proof. intros d R l l' F. induction F as [|t t' l l' H F IH]; constructor; auto. destruct H as [->|(A & B & C)]; [now left|right; auto]. Qed.
Lemma returns_or_diverges : forall ddl d, diverges ddl d <-> ~ exists ts err, returns ddl d ts err.
Proof.
  intros ddl d. split.
  - intros H (ts & err & n & E). rewrite H in E. discriminate.
  - intros H n. destruct (Parse n ddl d) as [ts err| |] eqn:E; auto; exfalso.
    + apply H. exists ts, err, n. exact E.
    + now apply no_panic in E.
Qed.
Lemma rejected_nil : forall ddl d ts e, returns ddl d ts (Some e) -> rejected ddl d (err_line e) (err_near e).
Proof. intros ddl d ts [line near] H. pose proof H as X. apply returns_stage in X. inversion X; subst; exact H. Qed.
Theorem renamed_diverges : forall d R ddl ddl' toks toks', lexes d ddl toks -> lexes d ddl' toks' ->
  Forall2 (renamed d R) toks toks' -> diverges ddl d -> diverges ddl' d.
Proof.
  intros d R ddl ddl' toks toks' X X' F%renamed_back D. apply returns_or_diverges. intros (ts & [e|] & H); apply returns_or_diverges in D; apply D.
  - apply rejected_nil in H. destruct (renamed_rejected _ _ _ _ _ _ _ _ X' X F H) as (near & H' & _). do 2 eexists. exact H'.
  - destruct (renamed_accepted _ _ _ _ _ _ _ X' X F H) as (ts' & H' & _). do 2 eexists. exact H'.
Qed.

Theorem requoted_accepted : forall d ddl ddl' toks toks' ts, lexes d ddl toks -> lexes d ddl' toks' ->
  Forall2 (renamed d (same_name d)) toks toks' -> accepted ddl d ts ->
  exists ts', accepted ddl' d ts' /\ Forall2 (table_requoted d (type_renamed d (same_name d))) ts ts'.
Proof.
  intros d ddl ddl' toks toks' ts X X' F A. destruct (renamed_accepted _ _ _ _ _ _ _ X X' F A) as (ts' & A' & E). exists ts'. split; auto.
  revert E. apply Forall2_sub, rq_table.
Qed.
