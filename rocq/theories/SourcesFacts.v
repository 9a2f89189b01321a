(** The strings in the result are made from the tokens of the text. *)
From Coq Require Import String Ascii ZArith List Bool Arith NArith Lia.
From Verif Require Import GoStr Unicode UnicodeFacts GoNum Types Lexer VBase Exec Grammar GrammarFacts Ast Converter Parse Fuel Scan Spec Pipe
  Safe Emit Conv Derive Tokens Accept Meaning NoPanic Sources.
Import ListNotations.
Open Scope nat_scope.
Open Scope string_scope.
Open Scope c_scope.

(** ** The tokens handed to the converter *)

Lemma weave_app : forall ws a b x y, weave ws a x -> weave ws b y -> weave ws (a ++ b) (x ++ y).
Proof. intros ws a b x y H K. induction H; cbn [app]; auto using weave. Qed.
Lemma weave_refl : forall ws l, weave ws l l.
Proof. induction l; auto using weave. Qed.
Lemma weave_none : forall ws l, weave ws l [].
Proof. induction l; auto using weave. Qed.
Lemma weave_puts : forall ws o, incl o ws -> weave ws [] o.
Proof. induction o as [|t o IH]; intros H; constructor; [apply H; now left|apply IH]. intros x X. apply H. now right. Qed.
Lemma weave_kept : forall ws b l, weave ws l (kept b l).
Proof. intros ws [] l; [apply weave_refl|apply weave_none]. Qed.
Lemma weave_in : forall ws l o t, weave ws l o -> In t o -> In t l \/ In t ws.
Proof.
  intros ws l o t H. induction H as [|a l o H IH|a l o H IH|w l o W H IH]; cbn [In]; intros I.
  - contradiction.
  - destruct I as [->|I]; [now left; left|]. apply IH in I as [I|I]; auto.
  - apply IH in I as [I|I]; auto.
  - destruct I as [<-|I]; auto.
Qed.

Fixpoint puts_in {A} (ws : list string) (g : gr A) : bool :=
  match g with
  | Put o => forallb (contains ws) o
  | Eps | One _ _ | NotNext _ | IsNext _ | Brackets _ | Skip => true
  | Seq g h | Cond _ g h => puts_in ws g && puts_in ws h
  | Map _ g | While _ g | WhileU _ _ g | SepBy _ g => puts_in ws g
  end.

Lemma weave_star : forall A (L : list string -> option string -> list string -> A -> Prop) ws,
  (forall l nxt o v, L l nxt o v -> weave ws l o) ->
  forall l nxt o vs hs, star L l nxt o vs hs -> weave ws l o.
Proof.
  intros A L ws H l nxt o vs hs S. induction S as [|t l1 l2 nxt o1 o2 v vs hs H1 H2 IH]; [constructor|].
  rewrite app_comm_cons. apply weave_app; eauto.
Qed.
Lemma lang_weave : forall ws A (g : gr A), puts_in ws g = true -> forall l nxt o v, lang g l nxt o v -> weave ws l o.
Proof.
  intros ws. induction g; cbn [puts_in lang]; intros P l nxt o val H.
  - destruct H as [-> ->]. constructor.
  - destruct H as [-> ->]. apply weave_puts. rewrite forallb_forall in P. intros t T. now apply contains_spec, P.
  - destruct H as (_ & -> & ->). apply weave_kept.
  - destruct H as (-> & -> & _). constructor.
  - destruct H as (-> & -> & _). constructor.
  - destruct H as (l1 & _ & _ & -> & _). apply weave_kept.
  - destruct H as (_ & -> & _). apply weave_none.
  - apply andb_true_iff in P as [P1 P2]. destruct H as (l1 & l2 & o1 & o2 & -> & -> & H1 & H2).
    apply weave_app; eauto.
  - destruct H as (a & _ & H). eauto.
  - apply andb_true_iff in P as [P1 P2]. destruct H; eauto.
  - destruct H as (hs & S). eapply weave_star; eauto.
  - destruct H as (hs & S & _). eapply weave_star; eauto.
  - induction H as [l nxt o v H|l1 l2 nxt o1 o2 v vs H1 H2 IH]; eauto.
    apply weave_app; eauto. change ("," :: l2) with ([","] ++ l2)%list. apply weave_app; auto. apply weave_kept.
Qed.
Lemma script_put_in : forall d, puts_in (put_in d) (script d) = true.
Proof. intros []; vm_compute; reflexivity. Qed.

Lemma script_create : forall d l nxt o v, lang (script d) l nxt o v -> l = [] \/ exists t l', l = t :: l' /\ kwd "CREATE" t.
Proof.
  assert (X : forall A B (g : gr A) (f : string * A -> B) ws l nxt o v, lang (While ws (Map f (Seq (One false (CW ["CREATE"])) g))) l nxt o v ->
    l = [] \/ exists t l', l = t :: l' /\ kwd "CREATE" t).
  { intros A B g f ws l nxt o v [hs S]. inversion S as [|t l1 l2 nxt' o1 o2 v' vs hs' H1 H2]; subst; [now left|right].
    exists t, (l1 ++ l2)%list. split; auto. cbn [lang] in H1. destruct H1 as (a & _ & l3 & l4 & o3 & o4 & E & _ & (M & -> & _) & _).
    cbn in E. injection E as -> _. exact M. }
  intros []; cbn [script]; intros; [unfold GSqlite.script, GSqlite.statement in H|unfold GPostgres.script, GPostgres.statement in H|
    unfold GMysql.script, GMysql.statement in H|unfold GSqlite.script, GSqlite.statement in H]; eapply X; exact H.
Qed.

(** ** The converter *)

Definition suffix (r l : list string) : Prop := exists p, l = (p ++ r)%list.
Lemma suffix_refl : forall l, suffix l l.
Proof. intros l. now exists []. Qed.
Lemma suffix_trans : forall a b c, suffix a b -> suffix b c -> suffix a c.
Proof. intros a b c [p ->] [q ->]. exists (q ++ p)%list. now rewrite app_assoc. Qed.
Lemma suffix_ne : forall a b, suffix a b -> a <> [] -> b <> [].
Proof. intros a b [p ->] H E. apply app_eq_nil in E as [_ E]. contradiction. Qed.
Lemma suffix_cons : forall t l, suffix l (t :: l).
Proof. intros. now exists [t]. Qed.
Lemma suffix_in : forall l L t, suffix l L -> In t l -> In t L.
Proof. intros l L t [p ->] H. apply in_or_app. now right. Qed.

(** The converter only moves forward. *)
Definition moves {A} (m : C A) : Prop := forall l a r, m l = COk a r -> suffix r l.
(** The result satisfies [P], unless all tokens are used up. *)
Definition from {A} (L : list string) (P : A -> Prop) (m : C A) : Prop :=
  forall l a r, suffix l L -> m l = COk a r -> r <> [] -> P a.

Lemma moves_bind : forall A B (m : C A) (f : A -> C B), moves m -> (forall a, moves (f a)) -> moves (cbind m f).
Proof.
  intros A B m f M F l b r. unfold cbind. destruct (m l) as [a r1| |] eqn:E; try discriminate. intros H.
  eapply suffix_trans; [eapply F; eauto|eapply M; eauto].
Qed.
Lemma moves_ret : forall A (a : A), moves (cret a).
Proof. intros A a l b r H. injection H as _ <-. apply suffix_refl. Qed.
Lemma moves_fuel : forall A, moves (@cfuel A).
Proof. intros A l a r H. discriminate. Qed.
Lemma moves_match : forall ws, moves (cmatch ws).
Proof. intros ws l a r H. injection H as _ <-. apply suffix_refl. Qed.
Lemma moves_token : moves ctoken.
Proof. intros l a r H. injection H as _ <-. apply suffix_refl. Qed.
Lemma moves_next : moves cnext.
Proof.
  intros l. induction l as [|t l IH]; intros a r H; cbn [cnext] in H; [injection H as _ <-; apply suffix_refl|].
  destruct (_ && _); [eapply suffix_trans; [eapply IH, H|apply suffix_cons]|]. injection H as _ <-. apply suffix_cons.
Qed.
Lemma moves_if : forall A (b : bool) (m m' : C A), moves m -> moves m' -> moves (if b then m else m').
Proof. intros A []; auto. Qed.
Lemma moves_pair : forall A B D (p : A * B) (f : A -> B -> C D), (forall a b, moves (f a b)) ->
  moves (let '(a, b) := p in f a b).
Proof. intros A B D [] f H. apply H. Qed.
Lemma moves_slice01 : forall t, moves (c_slice01 t).
Proof. intros t l a r H. unfold c_slice01 in H. destruct (slice01 t); [|discriminate]. injection H as _ <-. apply suffix_refl. Qed.
Lemma moves_slice_inner : forall t, moves (c_slice_inner t).
Proof. intros t l a r H. unfold c_slice_inner in H. destruct (slice_inner t); [|discriminate]. injection H as _ <-. apply suffix_refl. Qed.

Create HintDb moves.
#[global] Hint Resolve moves_slice01 moves_slice_inner moves_next moves_token moves_match moves_fuel moves_ret : moves.
Ltac mv := repeat lazymatch goal with
  | |- moves (cbind _ _) => apply moves_bind
  | |- moves (if _ then _ else _) => apply moves_if
  | |- moves (let '(_, _) := _ in _) => apply moves_pair
  | |- forall _, moves _ => intros
  | |- forall _ _, moves _ => intros
  | |- moves _ => solve [auto with moves]
  end.

Lemma moves_isIdentifier : forall d t, moves (isIdentifier d t).
Proof. intros. unfold isIdentifier. mv. Qed.
Lemma moves_isStringValue : forall d t, moves (isStringValue d t).
Proof. intros. unfold isStringValue. mv. Qed.
#[global] Hint Resolve moves_isIdentifier moves_isStringValue : moves.
Lemma moves_name : forall d, moves (convertName d).
Proof. intros. unfold convertName. mv. Qed.
#[global] Hint Resolve moves_name : moves.
Lemma moves_literal : forall d, moves (convertLiteralValue d).
Proof. intros d. unfold convertLiteralValue. apply moves_bind; [mv|intros t]. destruct (parse_float t); mv. Qed.
Lemma moves_names_loop : forall n ls, moves (column_names_loop n ls).
Proof. induction n as [|n IH]; intros ls; cbn [column_names_loop]; mv. Qed.
#[global] Hint Resolve moves_literal moves_names_loop : moves.
Lemma moves_names : forall n, moves (convertCommaSeparatedColumnNames n).
Proof. intros n. unfold convertCommaSeparatedColumnNames. mv. Qed.
Lemma moves_expr_aux : forall n, moves (convertExprAux n).
Proof. induction n as [|n IH]; cbn [convertExprAux]; mv. Qed.
#[global] Hint Resolve moves_names moves_expr_aux : moves.
Lemma moves_expr : forall n, moves (convertExpr n).
Proof. intros. unfold convertExpr. mv. Qed.
#[global] Hint Resolve moves_expr : moves.
Lemma moves_default : forall n d, moves (convertDefaultValue n d).
Proof. intros. unfold convertDefaultValue. mv. Qed.
Lemma moves_reference : forall n d, moves (convertReference n d).
Proof. intros. unfold convertReference. mv. Qed.
#[global] Hint Resolve moves_default moves_reference : moves.
Lemma moves_constraint_aux : forall n d c, moves (convertConstraintAux n d c).
Proof. induction n as [|n IH]; intros d c; cbn [convertConstraintAux]; mv. Qed.
#[global] Hint Resolve moves_constraint_aux : moves.
Lemma moves_constraint : forall n d, moves (convertConstraint n d).
Proof. intros. unfold convertConstraint. mv. Qed.
Lemma moves_date : moves convertDateType.
Proof. unfold convertDateType, convertTypeDigit. mv. Qed.
#[global] Hint Resolve moves_constraint moves_date : moves.
Lemma moves_column : forall n d, moves (convertColumnDefinition n d).
Proof. intros. unfold convertColumnDefinition. mv. Qed.
Lemma moves_table_constraint : forall n d tc, moves (convertTableConstraint n d tc).
Proof. intros. unfold convertTableConstraint. mv. Qed.
#[global] Hint Resolve moves_column moves_table_constraint : moves.
Lemma moves_definition : forall n d cols tc, moves (table_definition_loop n d cols tc).
Proof. induction n as [|n IH]; intros d cols tc; cbn [table_definition_loop]; mv. Qed.
#[global] Hint Resolve moves_definition : moves.
Lemma moves_table : forall n d, moves (convertTable n d).
Proof. intros. unfold convertTable, convertTableName, convertTableDefinition. mv. Qed.

(** ** Results *)

Lemma slice_inner_eq : forall t s, slice_inner t = Some s -> s = inner t.
Proof.
  intros t s H. unfold slice_inner in H. unfold inner. destruct (String.length t) as [|[|k]]; try discriminate.
  injection H as <-. f_equal. lia.
Qed.

Section Results.
Variables (d : rdbms) (L : list string).
Notation fr := (from L).

Lemma from_bind : forall A B (P : A -> Prop) (Q : B -> Prop) (m : C A) (f : A -> C B),
  fr P m -> moves m -> (forall a, moves (f a)) -> (forall a, P a -> fr Q (f a)) -> fr Q (cbind m f).
Proof.
  intros A B P Q m f M MM MF F l b r S. unfold cbind. destruct (m l) as [a r1| |] eqn:E; try discriminate. intros H N.
  assert (S1 : suffix r1 l) by (eapply MM; eauto).
  assert (S2 : suffix r r1) by (eapply MF; eauto).
  exact (F a (M l a r1 S E (suffix_ne _ _ S2 N)) r1 b r (suffix_trans _ _ _ S1 S) H N).
Qed.
Lemma from_ret : forall A (P : A -> Prop) a, P a -> fr P (cret a).
Proof. intros A P a H l b r S E N. injection E as <- _. exact H. Qed.
Lemma from_fuel : forall A (P : A -> Prop), fr P cfuel.
Proof. intros A P l a r S H. discriminate. Qed.
Lemma from_any : forall A (m : C A), fr any m.
Proof. intros A m l a r S H N. exact I. Qed.
Lemma from_match : forall ws, fr any (cmatch ws).
Proof. intros ws. apply from_any. Qed.
Lemma from_token : fr (fun t => In t L) ctoken.
Proof.
  intros l a r S H N. injection H as <- <-. destruct l as [|t l]; [contradiction|]. eapply suffix_in; [exact S|now left].
Qed.
Lemma from_next : fr (fun t => In t L) cnext.
Proof.
  intros l. induction l as [|t l IH]; intros a r S H N; cbn [cnext] in H; [injection H as <- <-; contradiction|].
  destruct (_ && _).
  - eapply IH; eauto. eapply suffix_trans; [apply suffix_cons|exact S].
  - injection H as <- <-. eapply suffix_in; [exact S|now left].
Qed.
Lemma from_if : forall A P (b : bool) (m m' : C A), fr P m -> fr P m' -> fr P (if b then m else m').
Proof. intros A P []; auto. Qed.
Lemma from_weaken : forall A (P Q : A -> Prop) (m : C A), (forall a, P a -> Q a) -> fr P m -> fr Q m.
Proof. intros A P Q m H F l a r S E N. apply H. eapply F; eauto. Qed.
(** ... a step whose result is not used *)
Lemma from_step : forall A B (Q : B -> Prop) (m : C A) (f : A -> C B),
  moves m -> (forall a, moves (f a)) -> (forall a, fr Q (f a)) -> fr Q (cbind m f).
Proof. intros A B Q m f MM MF F. eapply from_bind; [apply from_any|auto..]. Qed.

Lemma from_name : fr (name_from d L) (convertName d).
Proof.
  unfold convertName. eapply from_bind; [apply from_next|mv|intros; mv|]. intros t T l a r S H N.
  unfold cbind in H. destruct t as [|c t]; [discriminate|]. rewrite isIdentifier_eq in H by discriminate.
  exists (String c t). split; auto. unfold unquote.
  destruct (quoted (name_quotes d) (String c t)); [|injection H as <- _; reflexivity].
  unfold c_slice_inner in H. destruct (slice_inner (String c t)) eqn:K; [|discriminate].
  injection H as <- _. now apply slice_inner_eq.
Qed.
Lemma from_names : forall n, fr (fun ls => incl ls L) (convertCommaSeparatedColumnNames n).
Proof.
  assert (X : forall n ls, incl ls L -> fr (fun ls => incl ls L) (column_names_loop n ls)).
  { induction n as [|n IH]; intros ls I; cbn [column_names_loop]; [apply from_fuel|].
    apply from_step; [mv|intros; mv|intros b]. apply from_if; [apply from_ret; intros x Y; apply I; now apply in_rev|].
    apply from_step; [mv|intros; mv|intros b']. apply from_if.
    - apply from_step; [mv|intros; mv|intros _]. auto.
    - eapply from_bind; [apply from_token|mv|intros; mv|]. intros t T. apply from_step; [mv|intros; mv|intros _].
      apply IH. intros x [<-|Y]; auto. }
  intros n. unfold convertCommaSeparatedColumnNames. apply from_step; [mv|intros; mv|intros _].
  eapply from_bind; [apply X; intros x []|mv|intros; mv|]. intros ls I. apply from_step; [mv|intros; mv|intros _]. now apply from_ret.
Qed.

(** Expressions *)

Lemma squeeze_mid : forall a t b, t <> "," -> squeeze (a ++ t :: b) = (squeeze a ++ t :: squeeze b)%list.
Proof.
  intros a t b N. apply String.eqb_neq in N. induction a as [|x a IH]; cbn [app squeeze]; [now rewrite N|].
  rewrite IH. destruct a as [|y a]; cbn [app]; [rewrite N, andb_false_r; reflexivity|].
  destruct ((x =? ",") && (y =? ",")); reflexivity.
Qed.
Lemma next_split : forall l t r, l <> [] -> cnext l = COk t r ->
  exists c, l = (c ++ t :: r)%list /\ forall p q, r = (p ++ q)%list -> squeeze (c ++ t :: p) = t :: squeeze p.
Proof.
  induction l as [|x l IH]; intros t r N H; [contradiction|]. cbn [cnext] in H. destruct ((x =? ",") && _) eqn:E.
  - apply andb_true_iff in E as [E1 E2]. destruct l as [|y l]; [discriminate|].
    destruct (IH t r ltac:(discriminate) H) as (c & X & S). exists (x :: c). split; [now rewrite X|].
    intros p q R. specialize (S p q R). cbn [app squeeze]. rewrite E1. destruct c as [|z c]; cbn [app] in *;
      injection X as -> _; rewrite E2; exact S.
  - injection H as <- <-. exists []. split; auto. intros p q ->. cbn [app squeeze].
    destruct p as [|y p]; [now rewrite andb_false_r|]. cbn [app] in E. now rewrite E.
Qed.
Lemma expr_aux_nil : forall n s r, convertExprAux n [] = COk s r -> False.
Proof. induction n as [|n IH]; intros s r H; cbn [convertExprAux] in H; [discriminate|]. unfold cbind in H. cbn in H.
  destruct (convertExprAux n []) eqn:E; try discriminate. eauto. Qed.
Lemma expr_aux_run : forall n l s r, convertExprAux n l = COk s r ->
  exists p r', r = ")" :: r' /\ l = (p ++ r)%list /\ s = text (squeeze p).
Proof.
  induction n as [|n IH]; intros l s r H; [discriminate|]. destruct l as [|t l]; [now apply expr_aux_nil in H|].
  cbn [convertExprAux] in H. unfold cbind at 1 in H. unfold cmatch at 1 in H.
  destruct (matches [")"] t) eqn:M.
  { injection H as <- <-. apply sym_eq in M; auto. subst. exists [], l. auto. }
  unfold cbind at 1 in H. unfold cmatch at 1 in H. destruct (matches ["("] t) eqn:M'.
  - apply sym_eq in M'; auto. subst t. unfold cbind in H. cbn [cnext String.eqb Ascii.eqb Bool.eqb andb] in H.
    destruct (convertExprAux n l) as [e r1| |] eqn:E1; try discriminate. apply IH in E1 as (p1 & r1' & -> & -> & ->).
    cbn [cnext String.eqb Ascii.eqb Bool.eqb andb] in H.
    destruct (convertExprAux n r1') as [e r2| |] eqn:E2; try discriminate. apply IH in E2 as (p2 & r2' & -> & -> & ->).
    injection H as <- <-. exists ("(" :: p1 ++ ")" :: p2)%list, r2'. split; auto. split; [cbn; now rewrite <- app_assoc|].
    change ("(" :: p1 ++ ")" :: p2)%list with ([] ++ "(" :: (p1 ++ ")" :: p2))%list.
    rewrite !squeeze_mid by discriminate. cbn [squeeze app].
    change (text ("(" :: squeeze p1 ++ ")" :: squeeze p2)) with ("(" ++ text (squeeze p1 ++ ")" :: squeeze p2)). rewrite text_app.
    change (text (")" :: squeeze p2)) with (")" ++ text (squeeze p2)). now rewrite !append_assoc.
  - unfold cbind in H. destruct (cnext (t :: l)) as [x r1| |] eqn:N; try discriminate.
    destruct (convertExprAux n r1) as [e r2| |] eqn:E1; try discriminate. apply IH in E1 as (p1 & r1' & -> & -> & ->).
    injection H as <- <-. apply next_split in N as (c & -> & S); [|discriminate].
    exists (c ++ x :: p1)%list, r1'. split; auto. split; [now rewrite <- app_assoc|]. now rewrite (S p1 _ eq_refl).
Qed.
Lemma from_expr : forall n, fr (run_from L) (convertExpr n).
Proof.
  intros n l e r [q ->] H _. unfold convertExpr, cbind in H.
  destruct (cnext l) as [o r1| |] eqn:N; try discriminate.
  destruct (convertExprAux n r1) as [s r2| |] eqn:E; try discriminate. apply expr_aux_run in E as (p & r3 & -> & -> & ->).
  cbn [cnext String.eqb Ascii.eqb Bool.eqb andb] in H. injection H as <- <-.
  assert (X : l <> []). { intros ->. cbn in N. injection N as _ N. now destruct p. }
  apply next_split in N as (c & -> & S); [|exact X].
  exists q, (c ++ o :: p ++ [")"])%list, r3. split.
  - rewrite <- !app_assoc. cbn [app]. now rewrite <- app_assoc.
  - rewrite (S (p ++ [")"])%list r3) by (now rewrite <- app_assoc). rewrite squeeze_mid by discriminate.
    cbn [squeeze]. change (text (o :: squeeze p ++ [")"])) with (o ++ text (squeeze p ++ [")"])).
    now rewrite text_app.
Qed.

Lemma from_literal : fr (default_from d L) (convertLiteralValue d).
Proof.
  unfold convertLiteralValue. eapply from_bind; [apply from_next|mv|intros t; destruct (parse_float t); mv|]. intros t T. cbv beta in T.
  destruct (parse_float t) eqn:F; [apply from_ret; cbn; eauto|].
  intros l a r S H N. unfold cbind in H. destruct t as [|c t]; [discriminate|]. rewrite isStringValue_eq in H by discriminate.
  destruct (quoted (string_quotes d) (String c t)) eqn:Q.
  - unfold c_slice_inner in H. destruct (slice_inner (String c t)) eqn:K; [|discriminate].
    injection H as <- _. right. left. exists (String c t). split; auto. split; auto. now apply slice_inner_eq.
  - destruct (_ =? "NULL") eqn:E1; [injection H as <- _; exact I|].
    destruct (_ =? "TRUE") eqn:E2; [injection H as <- _; apply String.eqb_eq in E2; cbn; eauto|].
    destruct (_ =? "FALSE") eqn:E3; [injection H as <- _; apply String.eqb_eq in E3; cbn; eauto|].
    injection H as <- _. now left.
Qed.

Ltac fm := match goal with
  | |- fr _ (cbind (cmatch _) _) => apply from_step; [mv|intros; mv|intros ?]
  | |- fr _ (cbind cnext (fun _ => _)) => apply from_step; [mv|intros; mv|intros _]
  | |- fr _ (if _ then _ else _) => apply from_if
  | |- fr _ cfuel => apply from_fuel
  | |- fr _ (cret _) => apply from_ret
  end.
Lemma from_default : forall n, fr (default_from d L) (convertDefaultValue n d).
Proof.
  intros n. unfold convertDefaultValue. repeat fm; [|apply from_literal].
  eapply from_bind; [apply from_expr|mv|intros; mv|]. intros e E. apply from_ret. right. now right.
Qed.
Lemma from_reference : forall n, fr (reference_from d L) (convertReference n d).
Proof.
  intros n. unfold convertReference. fm. eapply from_bind; [apply from_name|mv|intros; mv|]. intros x X. fm. fm.
  - eapply from_bind; [apply from_names|mv|intros; mv|]. intros ls I. fm. split; [now right|exact I].
  - fm. split; [now right|exact I].
Qed.

Lemma constraint_ok : constraint_from d L zero_constraint.
Proof. repeat split; now left. Qed.
Lemma from_constraint_aux : forall n c, constraint_from d L c -> fr (constraint_from d L) (convertConstraintAux n d c).
Proof.
  induction n as [|n IH]; intros c F; cbn [convertConstraintAux]; [apply from_fuel|].
  destruct F as (F1 & F2 & F3 & F4 & F5).
  do 2 fm; [fm; repeat split; auto; apply F5|].
  do 2 fm; [do 2 fm; apply IH; repeat split; auto; apply F5|].
  do 2 fm; [fm; apply IH; repeat split; auto; apply F5|].
  do 2 fm; [do 2 fm; apply IH; repeat split; auto; apply F5|].
  do 2 fm; [fm; apply IH; repeat split; auto; apply F5|].
  do 2 fm; [fm; eapply from_bind; [apply from_default|mv|intros; mv|]; intros x X; apply IH; repeat split; auto; apply F5|].
  do 2 fm; [fm; eapply from_bind; [apply from_expr|mv|intros; mv|]; intros x X; apply IH; repeat split; auto; apply F5|].
  do 2 fm; [fm; eapply from_bind; [apply from_name|mv|intros; mv|]; intros x X; apply IH; repeat split; auto; try apply F5; now right|].
  do 2 fm; [eapply from_bind; [apply from_reference|mv|intros; mv|]; intros x X; apply IH; repeat split; auto; apply X|].
  fm. repeat split; auto; apply F5.
Qed.
Lemma from_constraint : forall n, fr (constraint_from d L) (convertConstraint n d).
Proof.
  intros n. unfold convertConstraint. fm. eapply from_bind with (P := constraint_from d L);
    [|mv|intros; mv|intros; now apply from_constraint_aux].
  fm; [|fm; apply constraint_ok]. do 3 fm; [fm; apply constraint_ok|].
  eapply from_bind; [apply from_name|mv|intros; mv|]. intros x X. fm. repeat split; try (now left). now right.
Qed.
Lemma from_number : fr (number_from L) (t <- cnext ;; cret (atoi_value t)).
Proof. eapply from_bind; [apply from_next|mv|intros; mv|]. intros t T. cbv beta in T. fm. right. eauto. Qed.
Lemma from_digits : fr (fun p => number_from L (fst p) /\ number_from L (snd p)) convertTypeDigit.
Proof.
  unfold convertTypeDigit. do 2 fm; [|fm; split; now left]. fm.
  eapply from_bind; [apply from_next|mv|intros; mv|]. intros t T. cbv beta in T. fm.
  eapply from_bind with (P := number_from L); [|mv|intros; mv|].
  - fm; [fm; apply from_number|fm; now left].
  - intros m M. do 2 fm. split; auto. right. eauto.
Qed.
Lemma from_date : fr (type_from L) convertDateType.
Proof.
  unfold convertDateType. eapply from_bind; [apply from_next|mv|unfold convertTypeDigit; mv|]. intros t T. cbv beta in T.
  intros l a r S H N. unfold cbind at 1 in H. unfold cmatch at 1 in H. cbv beta iota zeta in H.
  assert (X : exists l', suffix l' L /\ exists name,
    (name = go_upper t \/ exists v, In v L /\ go_upper v = "VARYING" /\
       name = (if go_upper t =? "BIT" then "VARBIT" else if go_upper t =? "CHARACTER" then "VARCHAR" else go_upper t ++ " VARYING")) /\
    ('(n, m) <- convertTypeDigit ;; cret (mk_data_type name n m)) l' = COk a r).
  { destruct (matches ["VARYING"] _) eqn:M.
    - destruct l as [|v l]; [discriminate|]. unfold cbind at 1 in H. unfold cbind at 1 in H. unfold ctoken in H. cbv beta iota in H.
      assert (V : go_upper v = "VARYING").
      { apply contains_spec in M. cbn in M. destruct M as [<-|[<-|[]]]; reflexivity. }
      assert (E : cnext (v :: l) = COk v l).
      { cbn [cnext]. destruct (v =? ",") eqn:E; [|reflexivity]. apply String.eqb_eq in E. subst. discriminate. }
      unfold cbind at 1 in H. rewrite E in H. unfold cret at 1 in H.
      exists l. split; [eapply suffix_trans; [apply suffix_cons|exact S]|].
      eexists. split; [|exact H]. right. exists v. split; [eapply suffix_in; [exact S|now left]|]. split; [exact V|]. now rewrite V.
    - unfold cbind at 1 in H. unfold cret at 1 in H. exists l. split; auto. eexists. split; [|exact H]. now left. }
  destruct X as (l' & S' & name & NM & H'). clear H. unfold cbind in H'.
  destruct (convertTypeDigit l') as [[n m] r'| |] eqn:E; try discriminate. injection H' as <- <-.
  apply from_digits in E as [E1 E2]; auto. exists t. auto.
Qed.
Lemma from_column : forall n, fr (column_from d L) (convertColumnDefinition n d).
Proof.
  intros n. unfold convertColumnDefinition. eapply from_bind; [apply from_name|mv|intros; mv|]. intros x X.
  eapply from_bind; [apply from_date|mv|intros; mv|]. intros ty T.
  eapply from_bind; [apply from_constraint|mv|intros; mv|]. intros c F. fm. repeat split; auto; apply F.
Qed.
Lemma from_table_constraint : forall n tc, tc_from d L tc -> fr (tc_from d L) (convertTableConstraint n d tc).
Proof.
  intros n tc (F1 & F2 & F3 & F4). unfold convertTableConstraint. fm.
  eapply from_bind with (P := opt_name_from d L); [|mv|intros; mv|].
  { fm; [|fm; now left]. fm. do 2 fm; [fm; now left|]. eapply from_weaken; [|apply from_name]. intros y Y. now right. }
  intros x X.
  do 2 fm; [do 2 fm; eapply from_bind; [apply from_names|mv|intros; mv|]; intros ls I; fm;
    repeat split; auto; apply Forall_app; split; auto|].
  do 2 fm; [fm; eapply from_bind; [apply from_names|mv|intros; mv|]; intros ls I; fm;
    repeat split; auto; apply Forall_app; split; auto|].
  do 2 fm; [fm; eapply from_bind; [apply from_expr|mv|intros; mv|]; intros ls I; fm;
    repeat split; auto; apply Forall_app; split; auto|].
  do 2 fm; [do 2 fm; eapply from_bind; [apply from_names|mv|intros; mv|]; intros ls I;
    eapply from_bind; [apply from_reference|mv|intros; mv|]; intros rf R; fm;
    repeat split; auto; apply Forall_app; split; auto|].
  fm. repeat split; auto.
Qed.
Definition pair_from (p : list column * table_constraint) : Prop :=
  Forall (column_from d L) (fst p) /\ tc_from d L (snd p).
Lemma from_definition : forall n cols tc, pair_from (cols, tc) -> fr pair_from (table_definition_loop n d cols tc).
Proof.
  induction n as [|n IH]; intros cols tc F; cbn [table_definition_loop]; [fm|]. do 2 fm; [now fm|]. fm.
  eapply from_bind with (P := pair_from); [|mv|intros; mv|].
  - fm.
    + eapply from_bind; [apply from_table_constraint; apply F|mv|intros; mv|]. intros tc' T. fm. split; auto. apply F.
    + eapply from_bind; [apply from_column|mv|intros; mv|]. intros c X. fm. split; [|apply F].
      cbn. apply Forall_app. split; [apply F|auto].
  - intros [cols' tc'] X. do 2 fm; [now fm|]. fm. now apply IH.
Qed.
Lemma definition_end : forall n cols tc l a r, table_definition_loop n d cols tc l = COk a r -> r <> [].
Proof.
  induction n as [|n IH]; intros cols tc l a r H; cbn [table_definition_loop] in H; [discriminate|].
  unfold cbind at 1 in H. unfold cmatch at 1 in H. destruct (matches [")"] _) eqn:M.
  { injection H as _ <-. destruct l; [discriminate|discriminate]. }
  unfold cbind at 1 in H. unfold cmatch at 1 in H. cbv beta iota in H. unfold cbind at 1 in H.
  match type of H with match ?m with _ => _ end = _ => destruct m as [[cols' tc'] r1| |]; try discriminate end.
  cbv beta iota in H. unfold cbind at 1 in H. unfold cmatch at 1 in H. clear M.
  destruct (matches [")"] _) eqn:M'.
  { injection H as _ <-. destruct r1; [discriminate|discriminate]. }
  unfold cbind at 1 in H. destruct (cnext r1); try discriminate. eapply IH; exact H.
Qed.
Lemma tc_ok : tc_from d L zero_tc.
Proof. repeat split; constructor. Qed.

(** No table is made when the tokens are used up too early. *)
Definition needs {A} (m : C A) : Prop := forall l a r, m l = COk a r -> l <> [].
Definition yields {A} (P : A -> Prop) (m : C A) : Prop := forall l a r, suffix l L -> m l = COk a r -> P a.
Lemma needs_bind : forall A B (m : C A) (f : A -> C B), moves m -> (forall a, needs (f a)) -> needs (cbind m f).
Proof.
  intros A B m f M F l b r H ->. unfold cbind in H. destruct (m []) as [a r1| |] eqn:E; try discriminate.
  apply F in H. apply M in E. now apply (suffix_ne _ _ E H).
Qed.
Lemma needs_first : forall A B (m : C A) (f : A -> C B), needs m -> needs (cbind m f).
Proof. intros A B m f M l b r H. unfold cbind in H. destruct (m l) as [a r1| |] eqn:E; try discriminate. eapply M; eauto. Qed.
Lemma yields_bind : forall A B (P : A -> Prop) (Q : B -> Prop) (m : C A) (f : A -> C B),
  fr P m -> moves m -> (forall a, needs (f a)) -> (forall a, P a -> yields Q (f a)) -> yields Q (cbind m f).
Proof.
  intros A B P Q m f M MM N F l b r S H. unfold cbind in H. destruct (m l) as [a r1| |] eqn:E; try discriminate.
  eapply F; [eapply M; eauto; eapply N; eauto| |exact H]. eapply suffix_trans; [eapply MM; eauto|exact S].
Qed.
Lemma yields_last : forall A B (P : A -> Prop) (Q : B -> Prop) (m : C A) (f : A -> C B),
  yields P m -> moves m -> (forall a, P a -> yields Q (f a)) -> yields Q (cbind m f).
Proof.
  intros A B P Q m f M MM F l b r S H. unfold cbind in H. destruct (m l) as [a r1| |] eqn:E; try discriminate.
  eapply F; [eapply M; eauto| |exact H]. eapply suffix_trans; [eapply MM; eauto|exact S].
Qed.
Lemma needs_loop : forall n cols tc, needs (table_definition_loop n d cols tc).
Proof. intros n cols tc l a r H. pose proof (definition_end _ _ _ _ _ _ H). eapply suffix_ne; [eapply moves_definition; eauto|auto]. Qed.
Lemma needs_definition : forall n, needs (convertTableDefinition n d).
Proof. intros n. unfold convertTableDefinition. apply needs_bind; [mv|intros _]. apply needs_first, needs_loop. Qed.
Lemma moves_tdef : forall n, moves (convertTableDefinition n d).
Proof. intros. unfold convertTableDefinition. mv. Qed.
Lemma yields_definition : forall n, yields pair_from (convertTableDefinition n d).
Proof.
  intros n. unfold convertTableDefinition. eapply yields_bind with (P := any); [apply from_any|mv|intros; apply needs_first, needs_loop|].
  intros _ _. eapply yields_last with (P := pair_from).
  - intros l a r S H. eapply from_definition; [|exact S|exact H|eapply definition_end; exact H]. split; [constructor|apply tc_ok].
  - mv.
  - intros p P l b r S H. unfold cbind in H. destruct (cnext l); try discriminate. injection H as <- _. exact P.
Qed.
Definition two_from (p : string * string) : Prop := opt_name_from d L (fst p) /\ name_from d L (snd p).
Lemma moves_tname : moves (convertTableName d).
Proof. unfold convertTableName. mv. Qed.
Lemma from_tname : fr two_from (convertTableName d).
Proof.
  unfold convertTableName. eapply from_bind; [apply from_name|mv|intros; mv|]. intros x X. fm. fm.
  - fm. eapply from_bind; [apply from_name|mv|intros; mv|]. intros y Y. fm. split; auto. now right.
  - fm. split; auto. now left.
Qed.
Lemma from_table : forall n, yields (table_from d L) (convertTable n d).
Proof.
  intros n. unfold convertTable.
  assert (N : forall f : _ -> C table, needs ('(sc, tn) <- convertTableName d ;; x <- convertTableDefinition n d ;; f (sc, tn, x))).
  { intros f. apply needs_bind; [apply moves_tname|]. intros [sc tn]. apply needs_first, needs_definition. }
  eapply yields_bind with (P := any); [apply from_any|mv| |intros _ _].
  { intros _. apply needs_bind; [mv|intros _]. apply needs_bind; [mv|intros b]. apply needs_bind; [mv|intros _].
    apply (N (fun '(sc, tn, x) => let '(cs, tc) := x in _)). }
  eapply yields_bind with (P := any); [apply from_any|mv| |intros _ _].
  { intros _. apply needs_bind; [mv|intros b]. apply needs_bind; [mv|intros _].
    apply (N (fun '(sc, tn, x) => let '(cs, tc) := x in _)). }
  eapply yields_bind with (P := any); [apply from_any|mv| |intros b _].
  { intros b. apply needs_bind; [mv|intros _]. apply (N (fun '(sc, tn, x) => let '(cs, tc) := x in _)). }
  eapply yields_bind with (P := any); [apply from_any|mv| |intros _ _].
  { intros _. apply (N (fun '(sc, tn, x) => let '(cs, tc) := x in _)). }
  eapply yields_bind; [apply from_tname|apply moves_tname|intros [sc tn]; apply needs_first, needs_definition|].
  intros [sc tn] [T1 T2]. eapply yields_last; [apply yields_definition|apply moves_tdef|]. intros [cs tc] [P1 P2].
  intros l t r S H. unfold cbind in H. destruct (cmatch [";"] l) as [[] r1| |]; try discriminate.
  - destruct (cnext r1) as [x r2| |]; try discriminate. injection H as <- _. repeat split; auto; apply P2.
  - injection H as <- _. repeat split; auto; apply P2.
Qed.
Lemma from_convert : forall n, yields (Forall (table_from d L)) (convert n d).
Proof.
  induction n as [|n IH]; cbn [convert]; [intros l a r S H; discriminate|].
  intros l a r S H. destruct l as [|t l]; [injection H as <- _; constructor|].
  assert (X : yields (Forall (table_from d L)) (t <- convertTable n d ;; ts <- convert n d ;; cret (t :: ts))).
  { eapply yields_last; [apply from_table|apply moves_table|]. intros x X l' ts r' S' H'. unfold cbind in H'.
    destruct (convert n d l') as [ys r2| |] eqn:E; try discriminate. injection H' as <- _. constructor; auto. eapply IH; eauto. }
  exact (X (t :: l) a r S H).
Qed.
End Results.

Lemma script_nil : forall d nxt o v, lang (script d) [] nxt o v -> o = [].
Proof. intros d nxt o v H. destruct d; destruct H as [hs S]; inversion S; reflexivity. Qed.
Theorem sources : forall d ddl ts, accepted ddl d ts ->
  exists l out, tokens d ddl l /\ weave (put_in d) l out /\ Forall (table_from d out) ts /\
    (ts <> [] -> exists t, In t l /\ to_upper t = "CREATE").
Proof.
  intros d ddl ts H. apply returns_stage in H. inversion H as [| |toks rest out ts' L V [n [r C]]]; subst.
  apply verdict_ok in V as [-> [v V]]. exists (strip toks), out. split; [apply tokens_lexed; eauto|].
  split; [eapply lang_weave; [apply script_put_in|exact V]|]. split; [eapply from_convert; [apply suffix_refl|exact C]|].
  intros N. destruct (script_create _ _ _ _ _ V) as [E|(t & l' & E & K)].
  - rewrite E in V. apply script_nil in V. subst out. destruct n; cbn in C; [discriminate|]. congruence.
  - exists t. rewrite E. split; [now left|]. apply contains_spec in K. cbn in K. destruct K as [<-|[<-|[]]]; reflexivity.
Qed.
