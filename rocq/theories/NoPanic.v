(** Parse never panics. *)
From Coq Require Import String Ascii ZArith List Bool Arith NArith Lia.
From Verif Require Import GoStr GoNum Types Lexer VBase Exec Grammar GrammarFacts Ast Converter Parse Fuel Scan Spec Pipe
  Emit Tokens Accept Meaning.
Import ListNotations.
Open Scope nat_scope.
Open Scope string_scope.

(** ** The validator *)

Lemma exec_suffix : forall A (m : V A) l a rest out, exec m l = EOk a rest out ->
  exists l1, l = (l1 ++ rest)%list.
Proof.
  induction m as [a|k IH|k IH|t k IH| | |]; intros l x rest out H; cbn [exec] in H; try discriminate.
  - inversion H; subst. now exists [].
  - eauto.
  - destruct l as [|t l]; [eauto|]. apply IH in H as [l1 ->]. now exists (t :: l1).
  - destruct (exec k l) eqn:E; try discriminate. inversion H; subst. eauto.
Qed.

Definition ne (t : string) : Prop := t <> "".
Definition calm {A} (m : V A) : Prop := forall l, Forall ne l -> exec m l <> EPanic.

Lemma calm_bind : forall A B (m : V A) (f : A -> V B), calm m -> (forall a, calm (f a)) -> calm (bind m f).
Proof.
  intros A B m f M F l L. rewrite exec_bind. specialize (M l L).
  destruct (exec m l) as [a rest out|rest| |] eqn:E; cbn [ebind]; try congruence.
  apply exec_suffix in E as [l1 ->]. apply Forall_app in L as [_ L]. specialize (F a rest L).
  destruct (exec (f a) rest); cbn; congruence.
Qed.
Lemma calm_ret : forall A (a : A), calm (ret a).
Proof. intros A a l _. discriminate. Qed.
Lemma calm_fail : forall A, calm (@syntaxError A).
Proof. intros A l _. discriminate. Qed.
Lemma calm_fuel : forall A, calm (@OutOfFuel A).
Proof. intros A l _. discriminate. Qed.
Lemma calm_look : forall c, calm (look_la c).
Proof. intros c l _. discriminate. Qed.
Lemma calm_token : calm token.
Proof. intros l _. discriminate. Qed.
Lemma calm_match : forall ws, calm (matchToken ws).
Proof. intros ws l _. discriminate. Qed.
Lemma calm_next_set : forall b, calm (next_set b).
Proof. intros [] [|t l] _; discriminate. Qed.
Lemma calm_next : calm next.
Proof. intros [|t l] _; discriminate. Qed.
Lemma calm_range : calm isOutOfRange.
Proof. intros l _; discriminate. Qed.
Lemma calm_validateToken : forall b ws, calm (validateToken b ws).
Proof. intros b ws l _. rewrite exec_validateToken. destruct l as [|t l]; [discriminate|]. destruct (matches ws t); discriminate. Qed.
Lemma calm_mtn : forall b ws, calm (matchTokenNext b ws).
Proof. intros b ws l _. rewrite exec_matchTokenNext. destruct l as [|t l]; [destruct (matches ws EOF)|destruct (matches ws t)]; discriminate. Qed.
Lemma calm_one : forall b c, calm (one b c).
Proof.
  intros b c l L. rewrite exec_one. destruct L as [|t l N L]; [discriminate|].
  destruct (cmem c t); [discriminate|]. destruct t; [congruence|]. discriminate.
Qed.

Lemma calm_if : forall A (c : V bool) (p q : V A), calm c -> calm p -> calm q -> calm (If c Then p Else q)%v.
Proof. intros. apply calm_bind; auto. intros []; auto. Qed.

Create HintDb calm.
#[global] Hint Resolve calm_bind calm_ret calm_fail calm_fuel calm_look calm_token calm_match calm_next_set
  calm_next calm_range calm_validateToken calm_mtn calm_one calm_if : calm.

Lemma calm_aux : forall n b, calm (validateBracketsAux n b).
Proof.
  induction n as [|n IH]; intros b; cbn [validateBracketsAux]; [apply calm_fuel|]. unfold brackets_around.
  auto 10 with calm.
Qed.
Lemma calm_skip : forall n b, calm (skip_statement n b).
Proof.
  induction n as [|n IH]; intros b; cbn [skip_statement]; [apply calm_fuel|].
  apply calm_if; auto with calm. apply calm_bind; auto with calm. intros x. destruct x, b; auto 10 with calm.
Qed.
#[global] Hint Resolve calm_aux calm_skip : calm.

Lemma calm_while : forall p c, (forall n, calm (p n)) -> forall n, calm (while_loop p c n).
Proof. intros p c P. induction n as [|n IH]; cbn [while_loop]; auto with calm. Qed.
Lemma calm_whileu : forall p c key, (forall n, calm (p n)) -> forall n ls, calm (whileu_loop p c key n ls).
Proof.
  intros p c key P. induction n as [|n IH]; intros ls; cbn [whileu_loop]; auto with calm.
  apply calm_if; auto with calm. apply calm_bind; auto with calm. intros t. destruct (contains ls (key t)); auto with calm.
Qed.
Lemma calm_sep : forall p b, (forall n, calm (p n)) -> forall n, calm (sep_loop p b n).
Proof. intros p b P. induction n as [|n IH]; cbn [sep_loop]; auto with calm. Qed.

Theorem calm_prog : forall A (g : gr A) n, calm (prog g n).
Proof.
  induction g; intros n; cbn [prog]; auto with calm.
  - intros l _. rewrite exec_emits. discriminate.
  - unfold validateBrackets, brackets_around. auto with calm.
  - now apply calm_while.
  - now apply calm_whileu.
  - now apply calm_sep.
Qed.

(** ** What is handed to the converter *)

Fixpoint puts_good {A} (g : gr A) : Prop :=
  match g with
  | Put o => Forall good o
  | Eps | One _ _ | NotNext _ | IsNext _ | Brackets _ | Skip => True
  | Seq g h | Cond _ g h => puts_good g /\ puts_good h
  | Map _ g | While _ g | WhileU _ _ g | SepBy _ g => puts_good g
  end.

Lemma kept_good : forall b l, Forall good l -> Forall good (kept b l).
Proof. intros [] l H; auto. constructor. Qed.

Lemma comma_good : good ",".
Proof. split; discriminate. Qed.

Lemma lang_out_good : forall A (g : gr A), puts_good g -> forall l nxt o v,
  Forall good l -> lang g l nxt o v -> Forall good o.
Proof.
  induction g; cbn [puts_good lang]; intros P l nxt o val L H.
  - destruct H as [_ ->]. constructor.
  - destruct H as [_ ->]. exact P.
  - destruct H as (_ & -> & ->). now apply kept_good.
  - destruct H as (_ & -> & _). constructor.
  - destruct H as (_ & -> & _). constructor.
  - destruct H as (l1 & _ & _ & -> & _). now apply kept_good.
  - destruct H as (_ & -> & _). constructor.
  - destruct P as [P1 P2]. destruct H as (l1 & l2 & o1 & o2 & -> & -> & H1 & H2).
    apply Forall_app in L as [L1 L2]. apply Forall_app. eauto.
  - destruct H as (a & _ & H). eauto.
  - destruct P as [P1 P2]. destruct H; eauto.
  - destruct H as (hs & S). induction S as [|t l1 l2 nxt o1 o2 v vs hs H1 H2 IH]; [constructor|].
    inversion L as [|? ? T L']; subst. apply Forall_app in L' as [L1 L2]. apply Forall_app. eauto.
  - destruct H as (hs & S & _). induction S as [|t l1 l2 nxt o1 o2 v vs hs H1 H2 IH]; [constructor|].
    inversion L as [|? ? T L']; subst. apply Forall_app in L' as [L1 L2]. apply Forall_app. eauto.
  - induction H as [l nxt o v H|l1 l2 nxt o1 o2 v vs H1 H2 IH]; eauto.
    apply Forall_app in L as [L1 L2]. inversion L2; subst.
    repeat (apply Forall_app; split); eauto. apply kept_good. constructor; auto using comma_good.
Qed.

Fixpoint all_good (l : list string) : bool :=
  match l with
  | [] => true
  | t :: l => negb (t =? "") && (negb (quoted any_quote t) || (Nat.leb 2 (String.length t))) && all_good l
  end.
Lemma all_good_ok : forall l, all_good l = true -> Forall good l.
Proof.
  induction l as [|t l IH]; cbn [all_good]; intros H; constructor.
  - apply andb_true_iff in H as [H _]. apply andb_true_iff in H as [H1 H2]. split.
    + apply negb_true_iff, String.eqb_neq in H1. exact H1.
    + intros Q. rewrite Q in H2. cbn in H2. now apply Nat.leb_le.
  - apply andb_true_iff in H as [_ H]. auto.
Qed.
Fixpoint putsb {A} (g : gr A) : bool :=
  match g with
  | Put o => all_good o
  | Eps | One _ _ | NotNext _ | IsNext _ | Brackets _ | Skip => true
  | Seq g h | Cond _ g h => putsb g && putsb h
  | Map _ g | While _ g | WhileU _ _ g | SepBy _ g => putsb g
  end.
Lemma putsb_ok : forall A (g : gr A), putsb g = true -> puts_good g.
Proof.
  induction g; cbn [putsb puts_good]; auto using all_good_ok; intros H; apply andb_true_iff in H as [H1 H2]; auto.
Qed.

Lemma script_puts : forall d, puts_good (script d).
Proof. intros d. apply putsb_ok. destruct d; vm_compute; reflexivity. Qed.

(** ** The converter *)

(** On good tokens [m] does not panic, leaves good tokens, and its result satisfies [P]. *)
Definition cgood {A} (P : A -> Prop) (m : C A) : Prop :=
  forall l, Forall good l ->
  match m l with
  | COk a r => P a /\ Forall good r
  | CPanic => False
  | COutOfFuel => True
  end.
Definition any {A} (a : A) : Prop := True.

Lemma cgood_bind : forall A B (P : A -> Prop) (Q : B -> Prop) m f, cgood P m -> (forall a, P a -> cgood Q (f a)) ->
  cgood Q (cbind m f).
Proof.
  intros A B P Q m f M F l L. unfold cbind. specialize (M l L). destruct (m l) as [a r| |]; auto.
  destruct M as [M1 M2]. now apply F.
Qed.
Lemma cgood_ret : forall A (a : A), cgood any (cret a).
Proof. intros A a l L. split; auto. exact I. Qed.
Lemma cgood_fuel : forall A, cgood any (@cfuel A).
Proof. intros A l L. exact I. Qed.
Lemma cgood_match : forall ws, cgood any (cmatch ws).
Proof. intros ws l L. split; auto. exact I. Qed.
Lemma EOF_good : good EOF.
Proof. split; discriminate. Qed.
Lemma cgood_token : cgood good ctoken.
Proof. intros l L. split; auto. destruct L; auto using EOF_good. Qed.
Lemma cgood_next : cgood good cnext.
Proof.
  intros l L. induction L as [|t l T L IH]; cbn [cnext]; [split; [apply EOF_good|constructor]|].
  destruct (_ && _); auto.
Qed.
Lemma cgood_any : forall A P (m : C A), cgood P m -> cgood any m.
Proof. intros A P m H l L. specialize (H l L). destruct (m l); auto. destruct H. split; auto. exact I. Qed.

Lemma slice01_good : forall t, good t -> cgood (fun c => exists s a, t = String a s /\ c = String a "") (c_slice01 t).
Proof.
  intros t [N _] l L. unfold c_slice01. destruct t as [|a t]; [congruence|]. cbn [slice01]. split; eauto.
Qed.
Lemma slice_inner_good : forall t, good t -> quoted any_quote t = true -> cgood any (c_slice_inner t).
Proof.
  intros t [N G] Q l L. unfold c_slice_inner, slice_inner. specialize (G Q).
  destruct (String.length t) as [|[|n]]; try lia. split; auto. exact I.
Qed.

Lemma isIdentifier_good : forall d t, good t -> cgood (fun b => b = true -> quoted any_quote t = true) (isIdentifier d t).
Proof.
  intros d t G. unfold isIdentifier. eapply cgood_bind; [apply slice01_good, G|].
  intros c (s & a & -> & E) l L. split; auto. intros H. cbn [quoted]. rewrite <- E. apply contains_spec. unfold any_quote.
  destruct d; try discriminate; try (apply orb_true_iff in H as [H|H]); apply String.eqb_eq in H; rewrite H; cbn; auto.
Qed.
Lemma isStringValue_good : forall d t, good t -> cgood (fun b => b = true -> quoted any_quote t = true) (isStringValue d t).
Proof.
  intros d t G. unfold isStringValue. eapply cgood_bind; [apply slice01_good, G|].
  intros c (s & a & -> & E) l L. split; auto. intros H. cbn [quoted]. rewrite <- E. apply contains_spec. unfold any_quote.
  destruct d; try discriminate; try (apply orb_true_iff in H as [H|H]); apply String.eqb_eq in H; rewrite H; cbn; auto.
Qed.
Lemma cgood_name : forall d, cgood any (convertName d).
Proof.
  intros d. unfold convertName. eapply cgood_bind; [apply cgood_next|]. intros t G.
  eapply cgood_bind; [apply isIdentifier_good, G|]. intros [] B; [apply slice_inner_good; auto|apply cgood_ret].
Qed.

Lemma cgood_bind_any : forall A B (m : C A) (f : A -> C B), cgood any m -> (forall a, cgood any (f a)) ->
  cgood any (cbind m f).
Proof. intros. eapply cgood_bind; eauto. Qed.
Lemma cgood_next_any : cgood any cnext.
Proof. eapply cgood_any, cgood_next. Qed.
Lemma cgood_token_any : cgood any ctoken.
Proof. eapply cgood_any, cgood_token. Qed.
Lemma cgood_if : forall A (b : bool) (m m' : C A), cgood any m -> cgood any m' -> cgood any (if b then m else m').
Proof. intros A []; auto. Qed.
Lemma cgood_pair : forall A B D (p : A * B) (f : A -> B -> C D), (forall a b, cgood any (f a b)) ->
  cgood any (let '(a, b) := p in f a b).
Proof. intros A B D [] f H. apply H. Qed.

Ltac cg := repeat lazymatch goal with
  | |- cgood any (cbind _ _) => apply cgood_bind_any
  | |- cgood any (cret _) => apply cgood_ret
  | |- cgood any cfuel => apply cgood_fuel
  | |- cgood any (cmatch _) => apply cgood_match
  | |- cgood any cnext => apply cgood_next_any
  | |- cgood any ctoken => apply cgood_token_any
  | |- cgood any (convertName _) => apply cgood_name
  | |- cgood any (if _ then _ else _) => apply cgood_if
  | |- cgood any (let '(_, _) := _ in _) => apply cgood_pair
  | |- forall _, cgood _ _ => intros
  | |- forall _ _, cgood _ _ => intros
  | |- cgood any _ => assumption
  end.

Lemma cgood_literal : forall d, cgood any (convertLiteralValue d).
Proof.
  intros d. unfold convertLiteralValue. eapply cgood_bind; [apply cgood_next|]. intros t G.
  destruct (parse_float t); [apply cgood_ret|]. eapply cgood_bind; [apply isStringValue_good, G|].
  intros [] B; [|cg]. apply cgood_bind_any; [apply slice_inner_good; auto|cg].
Qed.
Lemma cgood_names_loop : forall n ls, cgood any (column_names_loop n ls).
Proof. induction n as [|n IH]; intros ls; cbn [column_names_loop]; cg; apply IH. Qed.
Lemma cgood_names : forall n, cgood any (convertCommaSeparatedColumnNames n).
Proof. intros n. unfold convertCommaSeparatedColumnNames. cg. apply cgood_names_loop. Qed.
Lemma cgood_expr_aux : forall n, cgood any (convertExprAux n).
Proof. induction n as [|n IH]; cbn [convertExprAux]; cg. Qed.
Lemma cgood_expr : forall n, cgood any (convertExpr n).
Proof. intros. unfold convertExpr. cg. apply cgood_expr_aux. Qed.
Lemma cgood_default : forall n d, cgood any (convertDefaultValue n d).
Proof. intros. unfold convertDefaultValue. cg; [apply cgood_expr|apply cgood_literal]. Qed.
Lemma cgood_reference : forall n d, cgood any (convertReference n d).
Proof. intros. unfold convertReference. cg. apply cgood_names. Qed.
Lemma cgood_constraint_aux : forall n d c, cgood any (convertConstraintAux n d c).
Proof.
  induction n as [|n IH]; intros d c; cbn [convertConstraintAux]; cg;
    first [apply IH|apply cgood_default|apply cgood_expr|apply cgood_reference].
Qed.
Lemma cgood_constraint : forall n d, cgood any (convertConstraint n d).
Proof. intros. unfold convertConstraint. cg. apply cgood_constraint_aux. Qed.
Lemma cgood_column : forall n d, cgood any (convertColumnDefinition n d).
Proof. intros. unfold convertColumnDefinition, convertDateType, convertTypeDigit. cg. apply cgood_constraint. Qed.
Lemma cgood_table_constraint : forall n d tc, cgood any (convertTableConstraint n d tc).
Proof.
  intros. unfold convertTableConstraint. cg; first [apply cgood_names|apply cgood_expr|apply cgood_reference].
Qed.
Lemma cgood_definition : forall n d cols tc, cgood any (table_definition_loop n d cols tc).
Proof.
  induction n as [|n IH]; intros d cols tc; cbn [table_definition_loop]; cg;
    first [apply IH|apply cgood_table_constraint|apply cgood_column].
Qed.
Lemma cgood_table : forall n d, cgood any (convertTable n d).
Proof. intros. unfold convertTable, convertTableName, convertTableDefinition. cg. apply cgood_definition. Qed.
Lemma cgood_convert : forall n d, cgood any (convert n d).
Proof.
  induction n as [|n IH]; intros d; cbn [convert]; [apply cgood_fuel|].
  intros l L. destruct l as [|t l]; [split; auto; exact I|].
  assert (X : cgood any (t <- convertTable n d ;; ts <- convert n d ;; cret (t :: ts))) by (cg; [apply cgood_table|apply IH]).
  exact (X (t :: l) L).
Qed.

(** ** Parse *)

Theorem no_panic : forall fuel ddl d, Parse fuel ddl d <> Panics.
Proof.
  intros fuel ddl d. unfold Parse. destruct (Lex_eq fuel d ddl) as [E|E]; rewrite E; [discriminate|].
  destruct (lexed d (runes_of ddl)) as [toks|e|] eqn:L; try discriminate.
  assert (G : Forall good (strip toks)) by (apply strip_good; eapply lexed_good; eauto).
  rewrite Validate_eq. pose proof (calm_prog _ (script d) fuel (strip toks)) as N.
  destruct (exec (prog (script d) fuel) (strip toks)) as [[] rest out|rest| |] eqn:X; cbn [result_of]; try discriminate.
  - assert (V : verdict d (strip toks) (EOk tt rest out)) by (split; [discriminate|eauto]).
    apply verdict_ok in V as [_ [v V]].
    pose proof (lang_out_good _ _ (script_puts d) _ _ _ _ G V) as O.
    pose proof (cgood_convert fuel d out O) as K. unfold Convert. destruct (convert fuel d out); [discriminate|contradiction|discriminate].
  - exfalso. apply N; auto. eapply Forall_impl; [|exact G]. intros t [T _]. exact T.
Qed.

Theorem no_panic_force : forall fuel ddl, ParseForce fuel ddl <> Panics.
Proof.
  intros fuel ddl. unfold ParseForce. generalize [SQLite; PostgreSQL; MySQL], (@None verror).
  induction l as [|d l IH]; intros e; cbn [parse_force_loop]; [discriminate|].
  pose proof (no_panic fuel ddl d). destruct (Parse fuel ddl d) as [ts [err|]| |]; congruence || apply IH.
Qed.
