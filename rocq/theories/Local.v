(** The converter does not look beyond the tokens that it consumes, and scripts compose. *)
From Coq Require Import String Ascii ZArith List Bool Arith NArith Lia.
From Verif Require Import GoStr GoNum Types Lexer VBase Exec Grammar GrammarFacts Ast Converter Parse Fuel Scan Spec Pipe
  Utf8 Accept Meaning NoPanic Total Decide.
From Verif Require GSqlite GPostgres GMysql.
Import ListNotations.
Open Scope nat_scope.
Open Scope string_scope.

Definition local {A} (m : C A) : Prop := forall l a r, m l = COk a r ->
  (exists p, l = (p ++ r)%list) /\ (r <> [] -> forall x, m (l ++ x)%list = COk a (r ++ x)%list).

Lemma local_bind : forall A B (m : C A) (f : A -> C B), local m -> (forall a, local (f a)) -> local (cbind m f).
Proof.
  intros A B m f M F l b r H. unfold cbind in *. destruct (m l) as [a r1| |] eqn:E; try discriminate.
  destruct (M _ _ _ E) as [[p ->] M2]. destruct (F _ _ _ _ H) as [[p' ->] F2]. split.
  - exists (p ++ p')%list. now rewrite app_assoc.
  - intros N x. rewrite M2; [now apply F2|]. destruct p'; cbn; [exact N|discriminate].
Qed.
Lemma local_ret : forall A (a : A), local (cret a).
Proof. intros A a l b r H. inversion H; subst. split; [now exists []|reflexivity]. Qed.
Lemma local_fuel : forall A, local (@cfuel A).
Proof. intros A l b r H. discriminate. Qed.
Lemma local_match : forall ws, local (cmatch ws).
Proof.
  intros ws l b r H. inversion H; subst. split; [now exists []|]. intros N x. destruct r; [congruence|]. reflexivity.
Qed.
Lemma local_token : local ctoken.
Proof.
  intros l b r H. inversion H; subst. split; [now exists []|]. intros N x. destruct r; [congruence|]. reflexivity.
Qed.
Lemma cnext_more : forall t l a r, cnext (t :: l) = COk a r -> (exists p, l = (p ++ r)%list) /\
  (r <> [] -> forall x, cnext (t :: l ++ x)%list = COk a (r ++ x)%list).
Proof.
  intros t l. revert t. induction l as [|t' l IH]; intros t a r H; cbn [cnext] in H.
  - rewrite andb_false_r in H. inversion H; subst. split; [now exists []|congruence].
  - destruct ((t =? ",") && (t' =? ",")) eqn:E.
    + destruct (IH _ _ _ H) as [[p ->] X]. split; [now exists (t' :: p)|]. intros N x.
      cbn [app cnext]. rewrite E. now apply X.
    + inversion H; subst. split; [now exists []|]. intros N x. cbn [app cnext]. now rewrite E.
Qed.
Lemma local_next : local cnext.
Proof.
  intros [|t l] a r H; [inversion H; subst; split; [now exists []|congruence]|].
  destruct (cnext_more _ _ _ _ H) as [[p ->] X]. split; [now exists (t :: p)|exact X].
Qed.
Lemma local_if : forall A (b : bool) (m m' : C A), local m -> local m' -> local (if b then m else m').
Proof. intros A []; auto. Qed.
Lemma local_pair : forall A B D (p : A * B) (f : A -> B -> C D), (forall a b, local (f a b)) -> local (let '(a, b) := p in f a b).
Proof. intros A B D [] f H. apply H. Qed.
Lemma local_slice01 : forall t, local (c_slice01 t).
Proof.
  intros t l a r H. unfold c_slice01 in *. destruct (slice01 t); inversion H; subst. split; [now exists []|reflexivity].
Qed.
Lemma local_inner : forall t, local (c_slice_inner t).
Proof.
  intros t l a r H. unfold c_slice_inner in *. destruct (slice_inner t); inversion H; subst. split; [now exists []|reflexivity].
Qed.

Create HintDb local.
Ltac lo := repeat lazymatch goal with
  | |- local (cbind _ _) => apply local_bind
  | |- local (cret _) => apply local_ret
  | |- local cfuel => apply local_fuel
  | |- local (cmatch _) => apply local_match
  | |- local cnext => apply local_next
  | |- local ctoken => apply local_token
  | |- local (c_slice01 _) => apply local_slice01
  | |- local (c_slice_inner _) => apply local_inner
  | |- local (if _ then _ else _) => apply local_if
  | |- local (let '(_, _) := _ in _) => apply local_pair
  | |- forall _, local _ => intros
  | |- forall _ _, local _ => intros
  | |- local _ => solve [auto with local]
  end.

Lemma local_name : forall d, local (convertName d).
Proof. intros. unfold convertName, isIdentifier. lo. Qed.
#[global] Hint Resolve local_name : local.
Lemma local_names_loop : forall n ls, local (column_names_loop n ls).
Proof. induction n as [|n IH]; intros ls; cbn [column_names_loop]; lo. Qed.
#[global] Hint Resolve local_names_loop : local.
Lemma local_names : forall n, local (convertCommaSeparatedColumnNames n).
Proof. intros. unfold convertCommaSeparatedColumnNames. lo. Qed.
#[global] Hint Resolve local_names : local.
Lemma local_expr_aux : forall n, local (convertExprAux n).
Proof. induction n as [|n IH]; cbn [convertExprAux]; lo. Qed.
#[global] Hint Resolve local_expr_aux : local.
Lemma local_expr : forall n, local (convertExpr n).
Proof. intros. unfold convertExpr. lo. Qed.
#[global] Hint Resolve local_expr : local.
Lemma local_literal : forall d, local (convertLiteralValue d).
Proof.
  intros d. unfold convertLiteralValue, isStringValue. apply local_bind; [apply local_next|]. intros t.
  destruct (parse_float t); lo.
Qed.
#[global] Hint Resolve local_literal : local.
Lemma local_default : forall n d, local (convertDefaultValue n d).
Proof. intros. unfold convertDefaultValue. lo. Qed.
#[global] Hint Resolve local_default : local.
Lemma local_reference : forall n d, local (convertReference n d).
Proof. intros. unfold convertReference. lo. Qed.
#[global] Hint Resolve local_reference : local.
Lemma local_caux : forall n d c, local (convertConstraintAux n d c).
Proof. induction n as [|n IH]; intros d c; cbn [convertConstraintAux]; lo. Qed.
#[global] Hint Resolve local_caux : local.
Lemma local_constraint : forall n d, local (convertConstraint n d).
Proof. intros. unfold convertConstraint. lo. Qed.
#[global] Hint Resolve local_constraint : local.
Lemma local_digit : local convertTypeDigit.
Proof. unfold convertTypeDigit. lo. Qed.
#[global] Hint Resolve local_digit : local.
Lemma local_type : local convertDateType.
Proof. unfold convertDateType. lo. Qed.
#[global] Hint Resolve local_type : local.
Lemma local_column : forall n d, local (convertColumnDefinition n d).
Proof. intros. unfold convertColumnDefinition. lo. Qed.
#[global] Hint Resolve local_column : local.
Lemma local_tconstraint : forall n d tc, local (convertTableConstraint n d tc).
Proof. intros. unfold convertTableConstraint. lo. Qed.
#[global] Hint Resolve local_tconstraint : local.
Lemma local_tloop : forall n d cols tc, local (table_definition_loop n d cols tc).
Proof. induction n as [|n IH]; intros d cols tc; cbn [table_definition_loop]; lo. Qed.
#[global] Hint Resolve local_tloop : local.
Lemma local_tname : forall d, local (convertTableName d).
Proof. intros. unfold convertTableName. lo. Qed.
#[global] Hint Resolve local_tname : local.

(** The loop over the elements ends at a ")". *)
Lemma tloop_end : forall n d cols tc l a r, table_definition_loop n d cols tc l = COk a r -> exists r', r = ")" :: r'.
Proof.
  assert (M : forall r, matches [")"] (match r with t :: _ => t | [] => EOF end) = true -> exists r', r = (")" :: r')%list).
  { intros [|t r] H; [discriminate|]. unfold matches in H. apply contains_spec in H.
    destruct H as [H|[H|[]]]; cbn in H; subst; eauto. }
  induction n as [|n IH]; intros d cols tc l a r H; [discriminate|]. cbn [table_definition_loop] in H.
  unfold cbind at 1 in H. cbn [cmatch] in H. destruct (matches [")"] _) eqn:E.
  { inversion H; subst. now apply M. }
  unfold cbind at 1 in H. cbn [cmatch] in H. unfold cbind at 1 in H.
  match type of H with (match ?x with COk _ _ => _ | CPanic => _ | COutOfFuel => _ end = _) => destruct x as [[cols' tc'] r1| |] end; try discriminate.
  unfold cbind at 1 in H. cbn [cmatch] in H. destruct (matches [")"] (match r1 with t :: _ => t | [] => EOF end)) eqn:E1.
  { inversion H; subst. now apply M. }
  unfold cbind at 1 in H. destruct (cnext r1) as [x r2| |]; try discriminate. eapply IH; eauto.
Qed.

(** Tokens that end with ";". *)
Definition semi (l : list string) : Prop := exists l0, l = (l0 ++ [";"])%list.
Lemma semi_suffix : forall l p r, semi l -> l = (p ++ r)%list -> r = [] \/ semi r.
Proof.
  intros l p r [l0 ->] E. destruct r as [|t0 r1]; [now left|right]. destruct (exists_last (l := t0 :: r1)) as (r0 & t & E0); [discriminate|]. rewrite E0 in *.
  exists r0. rewrite app_assoc in E. apply app_inj_tail in E as [_ <-]. reflexivity.
Qed.

(** [m] consumes some of the tokens, does not look further, and does not end on no tokens. *)
Definition full {A} (m : C A) : Prop :=
  (forall l a r, semi l -> m l = COk a r ->
     (exists p, l = (p ++ r)%list) /\ forall x, m (l ++ x)%list = COk a (r ++ x)%list) /\
  (forall a r, m [] <> COk a r).

Lemma full_bind : forall A B (m : C A) (f : A -> C B), local m -> (forall a, full (f a)) -> full (cbind m f).
Proof.
  intros A B m f M F. split.
  - intros l b r S H. unfold cbind in *. destruct (m l) as [a r1| |] eqn:E; try discriminate.
    destruct (M _ _ _ E) as [[p P] M2]. destruct (F a) as [F1 F2].
    destruct (semi_suffix _ _ _ S P) as [->|S1]; [now apply F2 in H|].
    destruct (F1 _ _ _ S1 H) as [[p' P'] F3]. split.
    + exists (p ++ p')%list. now rewrite P, P', app_assoc.
    + intros x. rewrite M2; auto. destruct S1 as [q ->]. now destruct q.
  - intros b r H. unfold cbind in H. destruct (m []) as [a r1| |] eqn:E; try discriminate.
    destruct (M _ _ _ E) as [[p P] _]. symmetry in P. apply app_eq_nil in P as [_ ->]. now apply (proj2 (F a)) in H.
Qed.
Lemma full_pair : forall A B D (p : A * B) (f : A -> B -> C D), (forall a b, full (f a b)) -> full (let '(a, b) := p in f a b).
Proof. intros A B D [] f H. apply H. Qed.

(** The end of a table: ")" and ";" are read. *)
Definition finish_table {A} (a : A) : C A :=
  cnext ;; b <- cmatch [";"] ;; (if b then cnext ;; cret tt else cret tt) ;; cret a.
Lemma finish_semi : forall A (a : A) r, semi (")" :: r) ->
  exists r', finish_table a (")" :: r) = COk a r' /\ (exists p, r = p ++ r')%list /\
    forall x, finish_table a (")" :: r ++ x)%list = COk a (r' ++ x)%list.
Proof.
  intros A a r S. destruct r as [|t r].
  { destruct S as [[|? [|? ?]] E]; inversion E. }
  assert (N : forall l, cnext (")" :: l) = COk ")" l) by (intros [|t' l]; reflexivity).
  assert (N2 : forall l t, matches [";"] t = true -> cnext (t :: l) = COk t l).
  { intros l t' M. unfold matches in M. apply contains_spec in M. destruct l; cbn [cnext]; rewrite ?andb_false_r; auto.
    destruct M as [M|[M|[]]]; cbn in M; subst; reflexivity. }
  unfold finish_table. cbn [app]. unfold cbind. rewrite N. cbn [cmatch].
  destruct (matches [";"] t) eqn:M.
  - exists r. rewrite N2 by auto. split; [reflexivity|]. split; [now exists [t]|]. intros x. rewrite N. cbn [cmatch]. rewrite M.
    now rewrite N2.
  - exists (t :: r). split; [reflexivity|]. split; [now exists []|]. intros x. rewrite N. cbn [cmatch]. rewrite M. reflexivity.
Qed.

Lemma full_end : forall A n d cols tc (f : list column * table_constraint -> A),
  full (r <- table_definition_loop n d cols tc ;; finish_table (f r)).
Proof.
  intros A n d cols tc f. split.
  - intros l a r S H. unfold cbind in *. destruct (table_definition_loop n d cols tc l) as [c r1| |] eqn:E; try discriminate.
    destruct (local_tloop _ _ _ _ _ _ _ E) as [[p P] M]. destruct (tloop_end _ _ _ _ _ _ _ E) as [r2 ->].
    destruct (semi_suffix _ _ _ S P) as [?|S1]; [discriminate|].
    destruct (finish_semi _ (f c) r2 S1) as (r' & F1 & [p' ->] & F3). rewrite F1 in H. inversion H; subst. split.
    + exists (p ++ ")" :: p')%list. now rewrite <- app_assoc.
    + intros x. rewrite M by discriminate. apply F3.
  - intros a r H. unfold cbind in H. now rewrite tloop_nil in H.
Qed.

Lemma cbind_ext : forall A B (m : C A) (f g : A -> C B) l, (forall a l, f a l = g a l) -> cbind m f l = cbind m g l.
Proof. intros A B m f g l H. unfold cbind. destruct (m l); auto. Qed.
Lemma cbind_assoc : forall A B D (m : C A) (f : A -> C B) (g : B -> C D) l,
  cbind (cbind m f) g l = cbind m (fun a => cbind (f a) g) l.
Proof. intros. unfold cbind. destruct (m l); auto. Qed.

Lemma convertTable_eq : forall n d l, convertTable n d l =
  (cnext ;; cnext ;; ifne <- cmatch ["IF"] ;;
   (if ifne then cnext ;; cnext ;; cnext ;; cret tt else cret tt) ;;
   s <- convertTableName d ;; cnext ;;
   (c <- table_definition_loop n d [] zero_tc ;; finish_table (mk_table (fst s) (snd s) ifne (fst c) (snd c)))) l.
Proof.
  intros n d l. unfold convertTable, convertTableDefinition.
  do 5 (apply cbind_ext; clear l; intros ? l). destruct a3 as [s t].
  rewrite cbind_assoc. apply cbind_ext. clear l. intros _ l.
  rewrite cbind_assoc. apply cbind_ext. clear l. intros [c tc] l.
  unfold finish_table. rewrite cbind_assoc. reflexivity.
Qed.

Lemma full_table : forall n d, full (convertTable n d).
Proof.
  intros n d.
  assert (F : full (cnext ;; cnext ;; ifne <- cmatch ["IF"] ;;
   (if ifne then cnext ;; cnext ;; cnext ;; cret tt else cret tt) ;;
   s <- convertTableName d ;; cnext ;;
   (c <- table_definition_loop n d [] zero_tc ;; finish_table (mk_table (fst s) (snd s) ifne (fst c) (snd c))))).
  { do 6 (apply full_bind; [lo|intros]). apply full_end. }
  destruct F as [F1 F2]. split.
  - intros l a r S H. rewrite convertTable_eq in H. destruct (F1 _ _ _ S H) as [P X]. split; auto.
    intros x. now rewrite convertTable_eq.
  - intros a r H. rewrite convertTable_eq in H. now apply F2 in H.
Qed.

Lemma table_mono_le : forall n m d l a r, n <= m -> convertTable n d l = COk a r -> convertTable m d l = COk a r.
Proof.
  intros n m d l a r L H. induction L as [|m L IH]; auto.
  destruct (table_mono m d l) as [E|E]; congruence.
Qed.

Theorem converts_app : forall d l1 l2 ts1 ts2, (l1 = [] \/ semi l1) -> converts d l1 ts1 -> converts d l2 ts2 ->
  converts d (l1 ++ l2) (ts1 ++ ts2).
Proof.
  intros d l1 l2 ts1 ts2 S (n1 & r1 & H1) (n2 & r2 & H2).
  enough (X : exists r : list string, convert (n1 + n2) d (l1 ++ l2)%list = COk (ts1 ++ ts2)%list r)
    by (destruct X as [r X]; now exists (n1 + n2), r).
  revert l1 ts1 r1 S H1. induction n1 as [|n1 IH]; intros l1 ts1 r1 S H1; [discriminate|].
  destruct S as [->|S].
  - cbn in H1. inversion H1; subst. cbn [app]. exists r2.
    destruct (convert_mono_le n2 (Datatypes.S n1 + n2) d ltac:(lia) l2) as [E|E]; congruence.
  - cbn [convert] in H1. assert (N : l1 <> []) by (destruct S as [q ->]; now destruct q).
    destruct l1 as [|t0 l1]; [congruence|]. unfold cbind in H1.
    destruct (convertTable n1 d (t0 :: l1)) as [t r| |] eqn:E; try discriminate.
    destruct (convert n1 d r) as [ts r'| |] eqn:E'; try discriminate. inversion H1; subst.
    destruct (full_table (n1 + n2) d) as [F _]. apply (table_mono_le _ (n1 + n2)) in E; [|lia].
    destruct (F _ _ _ S E) as [[p P] X].
    destruct (IH r ts r1) as [r'' Y]; [eapply semi_suffix; eauto|exact E'|].
    exists r''. cbn [Nat.add convert app]. unfold cbind. specialize (X l2). cbn [app] in X. rewrite X, Y. reflexivity.
Qed.

(** ** The tokens to be converted end with ";" *)

Fixpoint quiet {A} (g : gr A) : bool :=
  match g with
  | Eps | One false _ | NotNext _ | IsNext _ | Brackets false | Skip => true
  | Seq g h | Cond _ g h => quiet g && quiet h
  | Map _ g => quiet g
  | _ => false
  end.
Lemma quiet_out : forall A (g : gr A), quiet g = true -> forall l nxt o v, lang g l nxt o v -> o = [].
Proof.
  induction g; cbn [quiet lang]; intros Q l nxt o v H; try discriminate.
  - apply H.
  - destruct keep; [discriminate|]. apply H.
  - apply H.
  - apply H.
  - destruct keep; [discriminate|]. destruct H as (l1 & _ & _ & H & _). exact H.
  - apply H.
  - apply andb_true_iff in Q as [Q1 Q2]. destruct H as (l1 & l2 & o1 & o2 & -> & -> & H1 & H2).
    rewrite (IHg1 Q1 _ _ _ _ H1), (IHg2 Q2 _ _ _ _ H2). reflexivity.
  - destruct H as (a & -> & H). eapply IHg; eauto.
  - apply andb_true_iff in Q as [Q1 Q2]. destruct H as [H|H]; [eapply IHg1|eapply IHg2]; eauto.
Qed.
Fixpoint closing {A} (g : gr A) : bool :=
  match g with
  | One true (CW [w]) => w =? ";"
  | Seq g h => closing h
  | Cond _ g h => closing g && closing h
  | Map _ g => closing g
  | _ => false
  end.
Lemma closing_out : forall A (g : gr A), closing g = true -> forall l nxt o v, lang g l nxt o v -> semi o.
Proof.
  induction g; cbn [closing lang]; intros Q l nxt o v H; try discriminate.
  - destruct keep; [|discriminate]. destruct c as [[|w [|? ?]]| | | |]; try discriminate.
    apply String.eqb_eq in Q. subst. destruct H as (M & -> & ->). cbn [cmem] in M. unfold matches in M.
    apply contains_spec in M. destruct M as [M|[M|[]]]; cbn in M; subst; now exists [].
  - destruct H as (l1 & l2 & o1 & o2 & -> & -> & H1 & H2). destruct (IHg2 Q _ _ _ _ H2) as [q ->].
    exists (o1 ++ q)%list. now rewrite app_assoc.
  - destruct H as (a & -> & H). eapply IHg; eauto.
  - apply andb_true_iff in Q as [Q1 Q2]. destruct H as [H|H]; [eapply IHg1|eapply IHg2]; eauto.
Qed.
Fixpoint tidy {A} (g : gr A) : bool :=
  match g with
  | Seq g h => closing h || quiet g && tidy h
  | Cond _ g h => tidy g && tidy h
  | Map _ g => tidy g
  | While _ g => tidy g
  | g => quiet g
  end.
Lemma semi_app : forall a b, (a = [] \/ semi a) -> (b = [] \/ semi b) -> ((a ++ b)%list = [] \/ semi (a ++ b)).
Proof.
  intros a b A [->|[q ->]]; [now rewrite app_nil_r|]. right. exists (a ++ q)%list. now rewrite app_assoc.
Qed.
Lemma tidy_out : forall A (g : gr A), tidy g = true -> forall l nxt o v, lang g l nxt o v -> o = [] \/ semi o.
Proof.
  assert (Q : forall A (g : gr A), quiet g = true -> forall l nxt o v, lang g l nxt o v -> o = [] \/ semi o).
  { intros. left. eapply quiet_out; eauto. }
  induction g; intros T l nxt o v H; try (eapply Q; [|exact H]; exact T); cbn [tidy lang] in T, H.
  - destruct H as (l1 & l2 & o1 & o2 & -> & -> & H1 & H2). apply orb_true_iff in T as [T|T].
    + destruct (closing_out _ _ T _ _ _ _ H2) as [q ->]. right. exists (o1 ++ q)%list. now rewrite app_assoc.
    + apply andb_true_iff in T as [T1 T2]. rewrite (quiet_out _ _ T1 _ _ _ _ H1). cbn [app]. eapply IHg2; eauto.
  - destruct H as (a & -> & H). eapply IHg; eauto.
  - apply andb_true_iff in T as [T1 T2]. destruct H as [H|H]; [eapply IHg1|eapply IHg2]; eauto.
  - destruct H as [hs H]. induction H; [now left|]. apply semi_app; auto. eapply IHg; eauto.
Qed.
Lemma script_tidy : forall d, tidy (script d) = true.
Proof. intros []; vm_compute; reflexivity. Qed.
Theorem out_semi : forall d l nxt o v, lang (script d) l nxt o v -> o = [] \/ semi o.
Proof. intros d. apply tidy_out, script_tidy. Qed.

(** ** The validator on a script followed by other tokens *)

Definition statement (d : rdbms) : gr a_stmt :=
  match d with
  | PostgreSQL => GPostgres.statement
  | MySQL => GMysql.statement
  | _ => GSqlite.statement
  end.
Lemma script_while : forall d, script d = While (mk_la [] true false) (statement d).
Proof. intros []; reflexivity. Qed.
Lemma statement_ok : forall d, ok (statement d) [FAny; FEof] = true.
Proof. intros []; vm_compute; reflexivity. Qed.

Lemma within_any : forall o, within [FAny; FEof] o.
Proof. intros o. exists FAny. split; [now left|]. destruct o; reflexivity. Qed.

(** The meaning of [g] does not depend on the next token. *)
Fixpoint nxtfree {A} (g : gr A) : bool :=
  match g with
  | Eps | Put _ | One _ _ | Brackets _ => true
  | NotNext _ | IsNext _ | Skip => false
  | Seq g h => nxtfree h && (eats h || nxtfree g)
  | Map _ g => nxtfree g
  | Cond _ g h => nxtfree g && nxtfree h
  | While _ g | WhileU _ _ g => nxtfree g
  | SepBy _ g => nxtfree g
  end.
Lemma star_nxt : forall A (L : list string -> option string -> list string -> A -> Prop),
  (forall l nxt nxt' o v, L l nxt o v -> L l nxt' o v) ->
  forall l nxt o v hs nxt', star L l nxt o v hs -> star L l nxt' o v hs.
Proof. intros A L H l nxt o v hs nxt' S. induction S; econstructor; eauto. Qed.
Lemma nxtfree_lang : forall A (g : gr A), nxtfree g = true -> forall l nxt nxt' o v, lang g l nxt o v -> lang g l nxt' o v.
Proof.
  induction g; cbn [nxtfree lang]; intros F l nxt nxt' o v H; auto; try discriminate.
  - apply andb_true_iff in F as [F1 F2]. destruct H as (l1 & l2 & o1 & o2 & -> & -> & H1 & H2).
    exists l1, l2, o1, o2. split; auto. split; auto. split; [|eapply IHg2; eauto].
    apply orb_true_iff in F2 as [F2|F2]; [|eapply IHg1; eauto].
    pose proof (eats_lang _ _ _ _ _ _ F2 H2) as N. destruct l2; [congruence|]. exact H1.
  - destruct H as (a & -> & H). exists a. split; auto. eapply IHg; eauto.
  - apply andb_true_iff in F as [F1 F2]. destruct H as [H|H]; [left; eapply IHg1; eauto|right; eapply IHg2; eauto].
  - destruct H as [hs H]. exists hs. eapply star_nxt; eauto. 
  - destruct H as (hs & H & N). exists hs. split; auto. eapply star_nxt; eauto.
  - induction H; econstructor; eauto.
Qed.
Lemma statement_nxtfree : forall d, nxtfree (statement d) = true.
Proof. intros []; vm_compute; reflexivity. Qed.

Lemma exec_star : forall d l nxt o v hs, star (lang (statement d)) l nxt o v hs -> forall l2,
  exists n0 k, forall n, n0 <= n -> k <= n /\
    exec (prog (script d) n) (l ++ l2) = epre o (exec (prog (script d) (n - k)) l2).
Proof.
  intros d l nxt o v hs H l2. rewrite script_while. induction H as [nxt|t l1 l' nxt o1 o2 v vs hs H1 H2 IH].
  - exists 0, 0. intros n _. split; [lia|]. cbn [app]. now rewrite epre_nil, Nat.sub_0_r.
  - destruct IH as (n0 & k & IH).
    destruct (complete _ _ _ (statement_ok d) (t :: l1) (l' ++ l2)%list o1 v
      (nxtfree_lang _ _ (statement_nxtfree d) _ _ _ _ _ H1) (within_any _)) as [n1 X].
    exists (S (max n0 n1)), (S k). intros [|n] L; [lia|]. destruct (IH n) as [K E]; [lia|]. split; [lia|].
    cbn [Nat.sub]. specialize (X n ltac:(lia)). unfold accepts in X.
    cbn [prog while_loop] in *. cbn [app] in *. rewrite <- app_assoc.
    rewrite (exec_if _ _ _ _ _ _ (exec_look_la _ _)). cbn [la_mem hd_error la_words la_neg].
    unfold matches, contains. cbn [map app existsb xorb].
    rewrite exec_bind, X. cbn [ebind]. rewrite E. now rewrite epre_app.
Qed.

Theorem verdict_app : forall d l1 o1 v l2 e, lang (script d) l1 None o1 v -> verdict d l2 e ->
  verdict d (l1 ++ l2) (epre o1 e).
Proof.
  intros d l1 o1 v l2 e H V. rewrite script_while in H. destruct H as [hs H].
  destruct (exec_star _ _ _ _ _ _ H l2) as (n0 & k & E). apply verdict_le in V as V'. destruct V' as [n1 X].
  destruct V as [N _]. split; [destruct e; cbn; congruence|].
  exists (n0 + n1 + k). destruct (E (n0 + n1 + k)) as [K Y]; [lia|]. rewrite Y, X by lia. reflexivity.
Qed.
