(** How much fuel suffices: a call that returns at all returns with fuel linear in the number of
    tokens.  So whether a call returns can be computed. *)
From Coq Require Import String Ascii ZArith List Bool Arith NArith Lia.
From Verif Require Import GoStr GoNum Types Lexer VBase Exec Grammar GrammarFacts Ast Converter Parse Fuel Scan Spec Pipe
  Emit Tokens Accept Meaning NoPanic Total.
Import ListNotations.
Open Scope nat_scope.
Open Scope string_scope.

(** ** The validator *)

Definition vmost (K : nat) (p : nat -> V unit) (l : list string) : Prop :=
  forall n m, exec (p n) l <> EFuel -> K <= m -> exec (p m) l = exec (p n) l.

Lemma vmost_le : forall K K' p l, vmost K p l -> K <= K' -> vmost K' p l.
Proof. intros K K' p l H L n m N M. apply H; auto. lia. Qed.
Lemma vmost_const : forall K p l, vmost K (fun _ => p) l.
Proof. intros K p l n m N M. reflexivity. Qed.
Lemma vmost_bind : forall K p q l, vmost K p l ->
  (forall n rest out, exec (p n) l = EOk tt rest out -> vmost K q rest) ->
  vmost K (fun n => bind (p n) (fun _ => q n)) l.
Proof.
  intros K p q l P Q n m N M. rewrite !exec_bind in *.
  assert (E : exec (p n) l <> EFuel) by (intros E; rewrite E in N; now apply N).
  rewrite (P n m E M). destruct (exec (p n) l) as [[] rest out|rest| |] eqn:X; cbn [ebind] in *; auto.
  rewrite (Q n rest out X n m); auto. intros Y. rewrite Y in N. now apply N.
Qed.
Lemma vmost_S : forall K p l, exec (p 0) l = EFuel -> vmost K (fun n => p (S n)) l -> vmost (S K) p l.
Proof.
  intros K p l Z H [|n] m N M; [congruence|]. destruct m as [|m]; [lia|]. apply H; auto. lia.
Qed.
Lemma vmost_if : forall K c p q l, (la_mem c (hd_error l) = true -> vmost K p l) ->
  (la_mem c (hd_error l) = false -> vmost K q l) ->
  vmost K (fun n => If look_la c Then p n Else q n)%v l.
Proof.
  intros K c p q l P Q n m. rewrite !(exec_if _ _ _ _ _ _ (exec_look_la c l)).
  destruct (la_mem c (hd_error l)); [now apply P|now apply Q].
Qed.

Lemma exec_length : forall A (m : V A) l a rest out, exec m l = EOk a rest out -> List.length rest <= List.length l.
Proof. intros A m l a rest out H. apply exec_suffix in H as [l1 ->]. rewrite app_length. lia. Qed.

Lemma aux_nil : forall n b, exec (validateBracketsAux n b) [] = EFuel.
Proof.
  induction n as [|n IH]; intros b; [reflexivity|]. cbn [validateBracketsAux].
  rewrite (exec_if _ (matchToken [")"]) _ _ _ false) by reflexivity.
  rewrite (exec_if _ (matchToken ["("]) _ _ _ false) by reflexivity.
  rewrite exec_bind. destruct b; cbn [next_set exec ebind epre]; rewrite IH; reflexivity.
Qed.

Lemma vmost_aux : forall k b l, List.length l <= k -> vmost (S (List.length l)) (fun n => validateBracketsAux n b) l.
Proof.
  induction k as [|k IH]; intros b [|t l] K; cbn in K; try lia;
    try (intros n m N _; rewrite aux_nil in N; congruence).
  cbn [List.length]. apply vmost_S; [reflexivity|]. intros n m N M. cbn [validateBracketsAux] in *.
  rewrite !(exec_if _ (matchToken [")"]) _ _ _ (matches [")"] t)) in * by reflexivity.
  destruct (matches [")"] t); [reflexivity|].
  rewrite !(exec_if _ (matchToken ["("]) _ _ _ (matches ["("] t)) in * by reflexivity.
  destruct (matches ["("] t) eqn:E.
  - revert n m N M. apply (vmost_bind (S (List.length l)) (fun n => brackets_around b (validateBracketsAux n b)) (fun n => validateBracketsAux n b)).
    + unfold brackets_around. apply (vmost_bind _ (fun _ => validateToken b ["("])); [apply vmost_const|].
      intros _ rest out H. rewrite exec_validateToken, E in H. inversion H; subst.
      apply vmost_bind; [apply IH; lia|]. intros n r o _. apply vmost_const.
    + intros n rest out H. eapply vmost_le; [apply IH|].
      * unfold brackets_around in H. rewrite exec_bind, exec_validateToken, E in H. cbn [ebind] in H.
        destruct (exec (bind (validateBracketsAux n b) (fun _ => validateToken b [")"])) l) eqn:X; try discriminate.
        inversion H; subst. apply exec_length in X. lia.
      * unfold brackets_around in H. rewrite exec_bind, exec_validateToken, E in H. cbn [ebind] in H.
        destruct (exec (bind (validateBracketsAux n b) (fun _ => validateToken b [")"])) l) eqn:X; try discriminate.
        inversion H; subst. apply exec_length in X. lia.
  - revert n m N M. apply (vmost_bind (S (List.length l)) (fun n => next_set b) (fun n => validateBracketsAux n b)).
    + apply vmost_const.
    + intros n rest out H. rewrite exec_next_set in H. inversion H; subst. apply IH. lia.
Qed.

Lemma skip_unfold : forall t l n b, exec (skip_statement (S n) b) (t :: l) =
  if (if matches ["BEGIN"] t then true else b) then
    if matches ["END"] t then exec (skip_statement n false) l else exec (skip_statement n true) l
  else if matches [";"] t then EOk tt (t :: l) [] else exec (skip_statement n false) l.
Proof.
  intros t l n b. cbn [skip_statement exec bind isOutOfRange hd_error matchToken tok].
  destruct (if matches ["BEGIN"] t then true else b); cbn [exec bind matchToken hd_error tok].
  - destruct (matches ["END"] t); reflexivity.
  - destruct (matches [";"] t); reflexivity.
Qed.
Lemma vmost_skip : forall l b, vmost (S (List.length l)) (fun n => skip_statement n b) l.
Proof.
  induction l as [|t l IH]; intros b; cbn [List.length]; apply vmost_S; try reflexivity; intros n m N M.
  - reflexivity.
  - rewrite !skip_unfold in *.
    destruct (if matches ["BEGIN"] t then true else b); [destruct (matches ["END"] t)|destruct (matches [";"] t)]; auto;
      now apply IH.
Qed.

(** nesting of loops *)
Fixpoint depth {A} (g : gr A) : nat :=
  match g with
  | Eps | Put _ | One _ _ | NotNext _ | IsNext _ => 0
  | Brackets _ | Skip => 1
  | Seq g h | Cond _ g h => Nat.max (depth g) (depth h)
  | Map _ g => depth g
  | While _ g | WhileU _ _ g | SepBy _ g => S (depth g)
  end.

Theorem vmost_prog : forall A (g : gr A), loops_eat g = true -> forall l, vmost (List.length l + depth g) (prog g) l.
Proof.
  induction g; cbn [loops_eat depth]; intros LE l.
  - apply vmost_const.
  - apply vmost_const.
  - apply vmost_const.
  - apply vmost_const.
  - apply vmost_const.
  - cbn [prog]. unfold validateBrackets, brackets_around. apply (vmost_bind _ (fun _ => validateToken keep ["("])); [apply vmost_const|].
    intros _ rest out H. apply exec_length in H. apply vmost_bind; [|intros; apply vmost_const].
    eapply vmost_le; [eapply vmost_aux, le_n|]. lia.
  - cbn [prog]. eapply vmost_le; [apply vmost_skip|]. lia.
  - apply andb_true_iff in LE as [L1 L2]. cbn [prog]. apply vmost_bind.
    + eapply vmost_le; [apply IHg1; auto|]. lia.
    + intros n rest out H. apply exec_length in H. eapply vmost_le; [apply IHg2; auto|]. lia.
  - cbn [prog]. now apply IHg.
  - apply andb_true_iff in LE as [L1 L2]. cbn [prog]. apply vmost_if; intros _.
    + eapply vmost_le; [apply IHg1; auto|]. lia.
    + eapply vmost_le; [apply IHg2; auto|]. lia.
  - apply andb_true_iff in LE as [L1 L2]. cbn [prog].
    remember (List.length l) as k. revert l Heqk. induction k as [k IH] using lt_wf_ind. intros l ->.
    rewrite Nat.add_succ_r. apply vmost_S; [reflexivity|]. cbn [while_loop]. apply vmost_if; intros _; [|apply vmost_const].
    apply vmost_bind; [now apply IHg|]. intros n rest out H.
    pose proof (eats_shorter _ _ _ _ _ _ L1 L2 H). eapply vmost_le; [eapply IH; eauto|]. lia.
  - apply andb_true_iff in LE as [L1 L2]. cbn [prog]. generalize (@nil string).
    remember (List.length l) as k. revert l Heqk. induction k as [k IH] using lt_wf_ind. intros l -> ls.
    rewrite Nat.add_succ_r. apply vmost_S; [reflexivity|]. cbn [whileu_loop]. apply vmost_if; intros _; [|apply vmost_const].
    intros n m. cbn [bind token exec]. destruct (contains ls (key (tok (hd_error l)))) eqn:E; [reflexivity|].
    revert n m. apply (vmost_bind _ (prog g) (fun n => whileu_loop (prog g) c key n (ls ++ [key (tok (hd_error l))]))); [now apply IHg|].
    intros n rest out H. pose proof (eats_shorter _ _ _ _ _ _ L1 L2 H). eapply vmost_le; [eapply IH; eauto|]. lia.
  - cbn [prog].
    remember (List.length l) as k. revert l Heqk. induction k as [k IH] using lt_wf_ind. intros l ->.
    rewrite Nat.add_succ_r. apply vmost_S; [reflexivity|]. cbn [sep_loop].
    apply vmost_bind; [now apply IHg|]. intros n rest out H. apply exec_length in H. clear n out.
    assert (X : forall m, exec (If matchTokenNext keep [","] Then sep_loop (prog g) keep m Else ret tt)%v rest =
       match rest with
       | t :: r => if matches [","] t then epre (kept keep [t]) (exec (sep_loop (prog g) keep m) r) else EOk tt rest []
       | [] => EOk tt [] []
       end).
    { intros m. rewrite exec_bind, exec_matchTokenNext. destruct rest as [|t r]; [reflexivity|].
      destruct (matches [","] t); reflexivity. }
    intros n m. rewrite !X. destruct rest as [|t r]; [reflexivity|]. destruct (matches [","] t); [|reflexivity].
    intros N M. f_equal. cbn in H.
    assert (Y : vmost (List.length r + S (depth g)) (sep_loop (prog g) keep) r) by (apply (IH (List.length r)); auto; lia).
    apply Y; [intros E; rewrite E in N; now apply N|lia].
Qed.

(** ** The converter *)

Definition shr {A} (m : C A) : Prop := forall l a r, m l = COk a r -> List.length r <= List.length l.

Lemma shr_bind : forall A B (m : C A) (f : A -> C B), shr m -> (forall a, shr (f a)) -> shr (cbind m f).
Proof.
  intros A B m f M F l b r H. unfold cbind in H. destruct (m l) as [a r1| |] eqn:E; try discriminate.
  apply M in E. apply F in H. lia.
Qed.
Lemma shr_ret : forall A (a : A), shr (cret a).
Proof. intros A a l b r H. inversion H; subst. auto. Qed.
Lemma shr_fuel : forall A, shr (@cfuel A).
Proof. intros A l b r H. discriminate. Qed.
Lemma shr_match : forall ws, shr (cmatch ws).
Proof. intros ws l b r H. inversion H; subst. auto. Qed.
Lemma shr_token : shr ctoken.
Proof. intros l b r H. inversion H; subst. auto. Qed.
Lemma cnext_shorter : forall t l a r, cnext (t :: l) = COk a r -> List.length r <= List.length l.
Proof.
  intros t l. revert t. induction l as [|t' l IH]; intros t a r H; cbn [cnext] in H.
  - rewrite andb_false_r in H. inversion H; subst. auto.
  - destruct ((t =? ",") && (t' =? ",")); [|inversion H; subst; auto].
    apply IH in H. cbn. lia.
Qed.
Lemma shr_next : shr cnext.
Proof. intros [|t l] a r H; [inversion H; subst; auto|]. apply cnext_shorter in H. cbn. lia. Qed.
Lemma shr_if : forall A (b : bool) (m m' : C A), shr m -> shr m' -> shr (if b then m else m').
Proof. intros A []; auto. Qed.
Lemma shr_pair : forall A B D (p : A * B) (f : A -> B -> C D), (forall a b, shr (f a b)) -> shr (let '(a, b) := p in f a b).
Proof. intros A B D [] f H. apply H. Qed.
Lemma shr_slice01 : forall t, shr (c_slice01 t).
Proof. intros t l a r H. unfold c_slice01 in H. destruct (slice01 t); inversion H; subst; auto. Qed.
Lemma shr_inner : forall t, shr (c_slice_inner t).
Proof. intros t l a r H. unfold c_slice_inner in H. destruct (slice_inner t); inversion H; subst; auto. Qed.

Ltac sh := repeat lazymatch goal with
  | |- shr (cbind _ _) => apply shr_bind
  | |- shr (cret _) => apply shr_ret
  | |- shr cfuel => apply shr_fuel
  | |- shr (cmatch _) => apply shr_match
  | |- shr cnext => apply shr_next
  | |- shr ctoken => apply shr_token
  | |- shr (c_slice01 _) => apply shr_slice01
  | |- shr (c_slice_inner _) => apply shr_inner
  | |- shr (if _ then _ else _) => apply shr_if
  | |- shr (let '(_, _) := _ in _) => apply shr_pair
  | |- forall _, shr _ => intros
  | |- forall _ _, shr _ => intros
  | |- shr _ => solve [auto with shr]
  end.
Create HintDb shr.

Lemma shr_name : forall d, shr (convertName d).
Proof. intros. unfold convertName, isIdentifier. sh. Qed.
#[global] Hint Resolve shr_name : shr.
Lemma shr_names_loop : forall n ls, shr (column_names_loop n ls).
Proof. induction n as [|n IH]; intros ls; cbn [column_names_loop]; sh. Qed.
#[global] Hint Resolve shr_names_loop : shr.
Lemma shr_names : forall n, shr (convertCommaSeparatedColumnNames n).
Proof. intros. unfold convertCommaSeparatedColumnNames. sh. Qed.
#[global] Hint Resolve shr_names : shr.
Lemma shr_expr_aux : forall n, shr (convertExprAux n).
Proof. induction n as [|n IH]; cbn [convertExprAux]; sh. Qed.
#[global] Hint Resolve shr_expr_aux : shr.
Lemma shr_expr : forall n, shr (convertExpr n).
Proof. intros. unfold convertExpr. sh. Qed.
#[global] Hint Resolve shr_expr : shr.
Lemma shr_literal : forall d, shr (convertLiteralValue d).
Proof.
  intros d. unfold convertLiteralValue, isStringValue. apply shr_bind; [apply shr_next|]. intros t.
  destruct (parse_float t); sh.
Qed.
#[global] Hint Resolve shr_literal : shr.
Lemma shr_default : forall n d, shr (convertDefaultValue n d).
Proof. intros. unfold convertDefaultValue. sh. Qed.
#[global] Hint Resolve shr_default : shr.
Lemma shr_reference : forall n d, shr (convertReference n d).
Proof. intros. unfold convertReference. sh. Qed.
#[global] Hint Resolve shr_reference : shr.
Lemma shr_caux : forall n d c, shr (convertConstraintAux n d c).
Proof. induction n as [|n IH]; intros d c; cbn [convertConstraintAux]; sh. Qed.
#[global] Hint Resolve shr_caux : shr.
Lemma shr_constraint : forall n d, shr (convertConstraint n d).
Proof. intros. unfold convertConstraint. sh. Qed.
#[global] Hint Resolve shr_constraint : shr.
Lemma shr_digit : shr convertTypeDigit.
Proof. unfold convertTypeDigit. sh. Qed.
#[global] Hint Resolve shr_digit : shr.
Lemma shr_type : shr convertDateType.
Proof. unfold convertDateType. sh. Qed.
#[global] Hint Resolve shr_type : shr.
Lemma shr_column : forall n d, shr (convertColumnDefinition n d).
Proof. intros. unfold convertColumnDefinition. sh. Qed.
#[global] Hint Resolve shr_column : shr.
Lemma shr_tconstraint : forall n d tc, shr (convertTableConstraint n d tc).
Proof. intros. unfold convertTableConstraint. sh. Qed.
#[global] Hint Resolve shr_tconstraint : shr.
Lemma shr_tloop : forall n d cols tc, shr (table_definition_loop n d cols tc).
Proof. induction n as [|n IH]; intros d cols tc; cbn [table_definition_loop]; sh. Qed.
#[global] Hint Resolve shr_tloop : shr.
Lemma shr_tdef : forall n d, shr (convertTableDefinition n d).
Proof. intros. unfold convertTableDefinition. sh. Qed.
#[global] Hint Resolve shr_tdef : shr.
Lemma shr_tname : forall d, shr (convertTableName d).
Proof. intros. unfold convertTableName. sh. Qed.
#[global] Hint Resolve shr_tname : shr.

Definition cmost {A} (K : nat) (f : nat -> C A) (l : list string) : Prop :=
  forall n m, f n l <> COutOfFuel -> K <= m -> f m l = f n l.

Lemma cmost_le : forall A K K' (f : nat -> C A) l, cmost K f l -> K <= K' -> cmost K' f l.
Proof. intros A K K' f l H L n m N M. apply H; auto. lia. Qed.
Lemma cmost_const : forall A K (f : C A) l, cmost K (fun _ => f) l.
Proof. intros A K f l n m N M. reflexivity. Qed.
Lemma cmost_bind : forall A B K (f : nat -> C A) (g : nat -> A -> C B) l, cmost K f l ->
  (forall n a r, f n l = COk a r -> cmost K (fun n => g n a) r) ->
  cmost K (fun n => cbind (f n) (g n)) l.
Proof.
  intros A B K f g l F G n m N M. unfold cbind in *.
  assert (E : f n l <> COutOfFuel) by (intros E; rewrite E in N; now apply N).
  rewrite (F n m E M). destruct (f n l) as [a r| |] eqn:X; auto.
  now apply (G n a r X n m).
Qed.
Lemma cmost_S : forall A K (f : nat -> C A) l, f 0 l = COutOfFuel -> cmost K (fun n => f (S n)) l -> cmost (S K) f l.
Proof. intros A K f l Z H [|n] m N M; [congruence|]. destruct m as [|m]; [lia|]. apply H; auto. lia. Qed.
Lemma cmost_if : forall A K ws (f g : nat -> C A) l,
  (matches ws (match l with t :: _ => t | [] => EOF end) = true -> cmost K f l) ->
  (matches ws (match l with t :: _ => t | [] => EOF end) = false -> cmost K g l) ->
  cmost K (fun n => b <- cmatch ws ;; if b then f n else g n) l.
Proof.
  intros A K ws f g l F G n m. unfold cbind, cmatch. destruct (matches ws _); [now apply F|now apply G].
Qed.

(** After [cnext] at a token that is there. *)
Lemma cmost_next : forall A K (g : nat -> string -> C A) l,
  (forall t r, List.length r <= List.length l -> (l <> [] -> List.length r < List.length l) -> cmost K (fun n => g n t) r) ->
  cmost K (fun n => cbind cnext (g n)) l.
Proof.
  intros A K g l H. apply (cmost_bind _ _ K (fun _ => cnext) g); [apply cmost_const|].
  intros _ a r E. apply H.
  - now apply shr_next in E.
  - intros N. destruct l as [|t l]; [congruence|]. apply cnext_shorter in E. cbn. lia.
Qed.
Lemma cmost_shr : forall A B K (f : nat -> C A) (g : nat -> A -> C B) l, cmost K f l -> (forall n, shr (f n)) ->
  (forall a r, List.length r <= List.length l -> cmost K (fun n => g n a) r) ->
  cmost K (fun n => cbind (f n) (g n)) l.
Proof. intros A B K f g l F S G. apply cmost_bind; auto. intros n a r E. apply G. now apply (S n) in E. Qed.

Lemma names_nil : forall n ls, column_names_loop n ls [] = COutOfFuel.
Proof. induction n as [|n IH]; intros ls; [reflexivity|]. exact (IH (EOF :: ls)). Qed.
Lemma cmost_names_loop : forall k l ls, List.length l <= k -> cmost (S (List.length l)) (fun n => column_names_loop n ls) l.
Proof.
  induction k as [|k IH]; intros [|t l] ls K; cbn in K; try lia; try (intros n m N _; rewrite names_nil in N; congruence).
  apply cmost_S; [reflexivity|]. cbn [column_names_loop]. apply cmost_if; intros _; [apply cmost_const|].
  apply cmost_if; intros _.
  - apply cmost_next. intros _ r _ R. specialize (R ltac:(discriminate)). cbn in *. eapply cmost_le; [apply IH|]; lia.
  - apply (cmost_bind _ _ _ (fun _ => ctoken)); [apply cmost_const|]. intros _ a r E. inversion E; subst.
    apply cmost_next. intros _ r R' R. specialize (R ltac:(discriminate)). cbn in *. eapply cmost_le; [apply IH|]; lia.
Qed.
Lemma cmost_names : forall l, cmost (S (List.length l)) convertCommaSeparatedColumnNames l.
Proof.
  intros l. unfold convertCommaSeparatedColumnNames. apply cmost_next. intros _ r R _.
  apply cmost_shr; [|auto with shr|intros; apply cmost_const].
  eapply cmost_le; [eapply cmost_names_loop, le_n|]. lia.
Qed.

Lemma expr_nil : forall n, convertExprAux n [] = COutOfFuel.
Proof. induction n as [|n IH]; [reflexivity|]. cbn. unfold cbind. cbn. now rewrite IH. Qed.
Lemma cmost_expr_aux : forall k l, List.length l <= k -> cmost (S (List.length l)) convertExprAux l.
Proof.
  induction k as [|k IH]; intros [|t l] K; cbn in K; try lia; try (intros n m N _; rewrite expr_nil in N; congruence).
  apply cmost_S; [reflexivity|]. cbn [convertExprAux]. apply cmost_if; intros _; [apply cmost_const|].
  apply cmost_if; intros _.
  - apply cmost_next. intros o r _ R. specialize (R ltac:(discriminate)). cbn in *.
    apply cmost_shr; [eapply cmost_le; [apply IH|]; lia|auto with shr|]. intros e r2 R2.
    apply cmost_next. intros c r3 R3 _.
    apply cmost_shr; [eapply cmost_le; [apply IH|]; lia|auto with shr|]. intros; apply cmost_const.
  - apply cmost_next. intros o r _ R. specialize (R ltac:(discriminate)). cbn in *.
    apply cmost_shr; [eapply cmost_le; [apply IH|]; lia|auto with shr|]. intros; apply cmost_const.
Qed.
Lemma cmost_expr : forall l, cmost (S (List.length l)) convertExpr l.
Proof.
  intros l. unfold convertExpr. apply cmost_next. intros o r R _.
  apply cmost_shr; [|auto with shr|intros; apply cmost_const].
  eapply cmost_le; [eapply cmost_expr_aux, le_n|]. lia.
Qed.
Lemma cmost_default : forall d l, cmost (S (List.length l)) (fun n => convertDefaultValue n d) l.
Proof.
  intros d l. unfold convertDefaultValue. apply cmost_if; intros _; [|apply cmost_const].
  apply cmost_shr; [apply cmost_expr|auto with shr|intros; apply cmost_const].
Qed.
Lemma cmost_reference : forall d l, cmost (S (List.length l)) (fun n => convertReference n d) l.
Proof.
  intros d l. unfold convertReference. apply cmost_next. intros _ r R _.
  apply (cmost_shr _ _ _ (fun _ => convertName d)); [apply cmost_const|auto with shr|]. intros name r2 R2.
  apply cmost_if; intros _; [|apply cmost_const].
  apply cmost_shr; [|auto with shr|intros; apply cmost_const]. eapply cmost_le; [apply cmost_names|]. lia.
Qed.

Lemma not_nil : forall ws (l : list string), matches ws EOF = false ->
  matches ws (match l with t :: _ => t | [] => EOF end) = true -> l <> [].
Proof. intros ws [|t l]; congruence. Qed.

Lemma reference_shorter : forall n d l a r, l <> [] -> convertReference n d l = COk a r -> List.length r < List.length l.
Proof.
  intros n d l a r N H. unfold convertReference in H. unfold cbind at 1 in H. destruct (cnext l) as [x r1| |] eqn:E; try discriminate.
  assert (S1 : List.length r1 < List.length l) by (destruct l; [congruence|]; apply cnext_shorter in E; cbn; lia).
  match type of H with ?m r1 = _ => assert (X : shr m) by sh end. apply X in H. lia.
Qed.

Lemma cmost_caux : forall k l d c, List.length l <= k -> cmost (2 + List.length l) (fun n => convertConstraintAux n d c) l.
Proof.
  induction k as [|k IH]; intros l d c K.
  { destruct l; [|cbn in K; lia]. apply cmost_S; [reflexivity|]. intros n m _ _. reflexivity. }
  apply cmost_S; [reflexivity|]. cbn [convertConstraintAux].
  assert (REC : forall l' c, List.length l' < List.length l -> cmost (1 + List.length l) (fun n => convertConstraintAux n d c) l').
  { intros l' c' L. eapply cmost_le; [apply IH|]; lia. }
  Ltac ne := match goal with H : matches _ (match ?l with _ => _ end) = true |- _ => apply not_nil in H; [|reflexivity] end.
  apply cmost_if; intros M; [apply cmost_const|].
  apply cmost_if; intros M1.
  { ne. apply cmost_next. intros _ r R R'. specialize (R' M1). apply cmost_next. intros _ r2 R2 _. apply REC. lia. }
  apply cmost_if; intros M2.
  { ne. apply cmost_next. intros _ r R R'. specialize (R' M2). apply REC. lia. }
  apply cmost_if; intros M3.
  { ne. apply cmost_next. intros _ r R R'. specialize (R' M3). apply cmost_next. intros _ r2 R2 _. apply REC. lia. }
  apply cmost_if; intros M4.
  { ne. apply cmost_next. intros _ r R R'. specialize (R' M4). apply REC. lia. }
  apply cmost_if; intros M5.
  { ne. apply cmost_next. intros _ r R R'. specialize (R' M5).
    apply cmost_shr; [eapply cmost_le; [apply cmost_default|]; lia|auto with shr|]. intros x r2 R2. apply REC. lia. }
  apply cmost_if; intros M6.
  { ne. apply cmost_next. intros _ r R R'. specialize (R' M6).
    apply cmost_shr; [eapply cmost_le; [apply cmost_expr|]; lia|auto with shr|]. intros x r2 R2. apply REC. lia. }
  apply cmost_if; intros M7.
  { ne. apply cmost_next. intros _ r R R'. specialize (R' M7).
    apply (cmost_shr _ _ _ (fun _ => convertName d)); [apply cmost_const|auto with shr|]. intros x r2 R2. apply REC. lia. }
  apply cmost_if; intros M8; [|apply cmost_const].
  ne. apply cmost_bind; [eapply cmost_le; [apply cmost_reference|]; lia|]. intros n x r E.
  apply REC. now apply reference_shorter in E.
Qed.

Lemma cmost_constraint : forall l d, cmost (2 + List.length l) (fun n => convertConstraint n d) l.
Proof.
  intros l d. unfold convertConstraint.
  apply (cmost_bind _ _ _ (fun _ => cmatch ["CONSTRAINT"])); [apply cmost_const|]. intros _ b r E. inversion E; subst. clear E.
  match goal with |- cmost _ (fun n => cbind ?m _) _ => apply (cmost_shr _ _ _ (fun _ => m)) end.
  - apply cmost_const.
  - intros _. sh.
  - intros c r' R. eapply cmost_le; [eapply cmost_caux, le_n|]. lia.
Qed.
Lemma cmost_column : forall l d, cmost (2 + List.length l) (fun n => convertColumnDefinition n d) l.
Proof.
  intros l d. unfold convertColumnDefinition.
  apply (cmost_shr _ _ _ (fun _ => convertName d)); [apply cmost_const|auto with shr|]. intros name r R.
  apply (cmost_shr _ _ _ (fun _ => convertDateType)); [apply cmost_const|auto with shr|]. intros ty r2 R2.
  apply cmost_shr; [|auto with shr|intros; apply cmost_const]. eapply cmost_le; [apply cmost_constraint|]. lia.
Qed.
Lemma cmost_tconstraint : forall l d tc, cmost (2 + List.length l) (fun n => convertTableConstraint n d tc) l.
Proof.
  intros l d tc. unfold convertTableConstraint.
  apply (cmost_bind _ _ _ (fun _ => cmatch ["CONSTRAINT"])); [apply cmost_const|]. intros _ b r E. inversion E; subst. clear E.
  match goal with |- cmost _ (fun n => cbind ?m _) _ => apply (cmost_shr _ _ _ (fun _ => m)) end;
    [apply cmost_const|intros _; sh|]. intros name l1 L1.
  apply cmost_if; intros _.
  { apply cmost_next. intros _ l2 L2 _. apply cmost_next. intros _ l3 L3 _.
    apply cmost_shr; [eapply cmost_le; [apply cmost_names|]; lia|auto with shr|intros; apply cmost_const]. }
  apply cmost_if; intros _.
  { apply cmost_next. intros _ l2 L2 _.
    apply cmost_shr; [eapply cmost_le; [apply cmost_names|]; lia|auto with shr|intros; apply cmost_const]. }
  apply cmost_if; intros _.
  { apply cmost_next. intros _ l2 L2 _.
    apply cmost_shr; [eapply cmost_le; [apply cmost_expr|]; lia|auto with shr|intros; apply cmost_const]. }
  apply cmost_if; intros _; [|apply cmost_const].
  apply cmost_next. intros _ l2 L2 _. apply cmost_next. intros _ l3 L3 _.
  apply cmost_shr; [eapply cmost_le; [apply cmost_names|]; lia|auto with shr|]. intros ls l4 L4.
  apply cmost_shr; [eapply cmost_le; [apply cmost_reference|]; lia|auto with shr|intros; apply cmost_const].
Qed.

(** The loop over the elements never ends at the end of the tokens. *)
Lemma column_nil : forall n d, exists r, convertColumnDefinition n d [] = r /\
  match r with COk _ rest => rest = [] | CPanic => False | COutOfFuel => True end.
Proof.
  intros n d. eexists. split; [reflexivity|].
  assert (X : convertName d [] = COk EOF []) by (destruct d; reflexivity).
  unfold convertColumnDefinition, cbind at 1. rewrite X. unfold cbind at 1. cbn.
  destruct n as [|n]; cbn; auto.
Qed.
Lemma tloop_nil : forall n d cols tc, table_definition_loop n d cols tc [] = COutOfFuel.
Proof.
  induction n as [|n IH]; intros d cols tc; [reflexivity|]. cbn [table_definition_loop].
  destruct (column_nil n d) as (r & E & R). unfold cbind at 1. cbn [cmatch].
  change (matches [")"] EOF) with false. cbv iota. unfold cbind at 1. cbn [cmatch].
  change (matches ["CONSTRAINT"; "PRIMARY"; "UNIQUE"; "CHECK"; "FOREIGN"] EOF) with false. cbv iota.
  unfold cbind at 1. unfold cbind at 1. rewrite E. destruct r as [c rest| |]; [|contradiction|reflexivity]. subst rest.
  unfold cret. unfold cbind at 1. cbn [cmatch]. change (matches [")"] EOF) with false. cbv iota.
  unfold cbind at 1. cbn [cnext]. apply IH.
Qed.

Lemma name_shorter : forall d l a r, l <> [] -> convertName d l = COk a r -> List.length r < List.length l.
Proof.
  intros d l a r N H. unfold convertName in H. unfold cbind at 1 in H. destruct (cnext l) as [x r1| |] eqn:E; try discriminate.
  assert (S1 : List.length r1 < List.length l) by (destruct l; [congruence|]; apply cnext_shorter in E; cbn; lia).
  match type of H with ?m r1 = _ => assert (X : shr m) by (unfold isIdentifier; sh) end. apply X in H. lia.
Qed.
Lemma column_shorter : forall n d l a r, l <> [] -> convertColumnDefinition n d l = COk a r -> List.length r < List.length l.
Proof.
  intros n d l a r N H. unfold convertColumnDefinition in H. unfold cbind at 1 in H.
  destruct (convertName d l) as [x r1| |] eqn:E; try discriminate. apply name_shorter in E; auto.
  match type of H with ?m r1 = _ => assert (X : shr m) by sh end. apply X in H. lia.
Qed.

Lemma cmost_tloop : forall k l d cols tc, List.length l <= k ->
  cmost (3 + List.length l) (fun n => table_definition_loop n d cols tc) l.
Proof.
  induction k as [|k IH]; intros l d cols tc K.
  { destruct l; [|cbn in K; lia]. intros n m N _. rewrite tloop_nil in N. congruence. }
  destruct l as [|t l]; [intros n m N _; rewrite tloop_nil in N; congruence|].
  apply cmost_S; [reflexivity|]. cbn [table_definition_loop]. apply cmost_if; intros _; [apply cmost_const|].
  apply (cmost_bind _ _ _ (fun _ => cmatch ["CONSTRAINT"; "PRIMARY"; "UNIQUE"; "CHECK"; "FOREIGN"])); [apply cmost_const|].
  intros _ b r E. inversion E; subst. clear E.
  match goal with |- cmost _ (fun n => cbind (if ?x then _ else _) _) _ => destruct x end.
  - apply (cmost_shr _ _ _ (fun n => tc0 <- convertTableConstraint n d tc ;; cret (cols, tc0))).
    + apply cmost_shr; [|auto with shr|intros; apply cmost_const]. eapply cmost_le; [apply cmost_tconstraint|]. lia.
    + intros; sh.
    + intros [cols' tc'] r2 R2. apply cmost_if; intros _; [apply cmost_const|].
      apply cmost_next. intros _ r3 R3 R3'. destruct r2 as [|t2 r2].
      * assert (r3 = []) as -> by (destruct r3; auto; cbn in R3; lia). intros n m N _. rewrite tloop_nil in N. congruence.
      * specialize (R3' ltac:(discriminate)). cbn [List.length] in *. eapply cmost_le; [apply IH|]; lia.
  - apply (cmost_bind _ _ _ (fun n => c <- convertColumnDefinition n d ;; cret (cols ++ [c], tc)%list)).
    + apply cmost_shr; [|auto with shr|intros; apply cmost_const]. eapply cmost_le; [apply cmost_column|]. lia.
    + intros n [cols' tc'] r2 E.
      assert (R2 : List.length r2 < List.length (t :: l)).
      { unfold cbind at 1 in E. destruct (convertColumnDefinition n d (t :: l)) as [c r1| |] eqn:X; try discriminate.
        apply column_shorter in X; [|discriminate]. inversion E; subst. exact X. }
      apply cmost_if; intros _; [apply cmost_const|].
      apply cmost_next. intros _ r3 R3 _. cbn [List.length] in *. eapply cmost_le; [apply IH|]; lia.
Qed.

Lemma cmost_table : forall l d, cmost (3 + List.length l) (fun n => convertTable n d) l.
Proof.
  intros l d. unfold convertTable. apply cmost_next. intros _ l1 L1 _. apply cmost_next. intros _ l2 L2 _.
  apply (cmost_shr _ _ _ (fun _ => cmatch ["IF"])); [apply cmost_const|intros _; sh|]. intros b l3 L3.
  match goal with |- cmost _ (fun n => cbind ?m _) _ => apply (cmost_shr _ _ _ (fun _ => m)) end;
    [apply cmost_const|intros _; sh|]. intros _ l4 L4.
  apply (cmost_shr _ _ _ (fun _ => convertTableName d)); [apply cmost_const|auto with shr|]. intros [s t] l5 L5.
  apply cmost_shr; [|auto with shr|intros [a c] l6 L6; apply cmost_const].
  unfold convertTableDefinition. apply cmost_next. intros _ l6 L6 _.
  apply cmost_shr; [|auto with shr|intros; apply cmost_const]. eapply cmost_le; [eapply cmost_tloop, le_n|]. lia.
Qed.
Lemma table_shorter : forall n d l a r, l <> [] -> convertTable n d l = COk a r -> List.length r < List.length l.
Proof.
  intros n d l a r N H. unfold convertTable in H. unfold cbind at 1 in H. destruct (cnext l) as [x r1| |] eqn:E; try discriminate.
  assert (S1 : List.length r1 < List.length l) by (destruct l; [congruence|]; apply cnext_shorter in E; cbn; lia).
  match type of H with ?m r1 = _ => assert (X : shr m) by sh end. apply X in H. lia.
Qed.
Theorem cmost_convert : forall k l d, List.length l <= k -> cmost (4 + List.length l) (fun n => convert n d) l.
Proof.
  induction k as [|k IH]; intros [|t l] d K; cbn in K; try lia.
  - apply cmost_S; [reflexivity|]. intros n m _ _. reflexivity.
  - apply cmost_S; [reflexivity|]. intros n m _ _. reflexivity.
  - apply cmost_S; [reflexivity|]. cbn [convert].
    apply (cmost_bind _ _ _ (fun n => convertTable n d) (fun n t => ts <- convert n d ;; cret (t :: ts))).
    + apply cmost_table.
    + intros n a r E. apply table_shorter in E; [|discriminate]. cbn [List.length] in *.
      match goal with |- cmost ?X _ _ => assert (Y : cmost X (fun n => convert n d) r) by (eapply cmost_le; [apply IH|]; lia) end.
      intros n' m N M. unfold cbind in *. rewrite (Y n' m); auto. intros Z. rewrite Z in N. now apply N.
Qed.

(** ** Parse as a total function *)

Inductive answer := Answer (tables : list table) (err : option verror) | Forever.

Definition fuel_for (d : rdbms) (ddl : string) : nat :=
  match Lex (enough ddl) d ddl with
  | LexOk toks =>
      let k := List.length toks + depth (script d) in
      match exec (prog (script d) k) (strip toks) with
      | EOk _ _ out => enough ddl + k + (4 + List.length out)
      | _ => enough ddl + k
      end
  | _ => enough ddl
  end.
Definition answer_of (d : rdbms) (ddl : string) : answer :=
  match Parse (fuel_for d ddl) ddl d with
  | Returns ts err => Answer ts err
  | _ => Forever
  end.


Theorem fuel_enough : forall d ddl n, Parse n ddl d <> NoFuel -> Parse (fuel_for d ddl) ddl d = Parse n ddl d.
Proof.
  intros d ddl n N. unfold Parse in *. unfold fuel_for.
  rewrite (Lex_enough (enough ddl)) by lia.
  destruct (Lex_eq n d ddl) as [E|E]; rewrite E in N |- *; [congruence|].
  destruct (lexed d (runes_of ddl)) as [toks|e|] eqn:L.
  2:{ now rewrite Lex_enough, L by lia. }
  2:{ now rewrite Lex_enough, L by lia. }
  cbv zeta. set (k := List.length toks + depth (script d)).
  rewrite Validate_eq in *.
  assert (VM : forall m, k <= m -> exec (prog (script d) n) (strip toks) <> EFuel ->
     exec (prog (script d) m) (strip toks) = exec (prog (script d) n) (strip toks)).
  { intros m M X. apply (vmost_prog _ (script d) (script_loops d)); auto. pose proof (strip_length toks). lia. }
  assert (X : exec (prog (script d) n) (strip toks) <> EFuel).
  { intros X. rewrite X in N. now apply N. }
  rewrite (VM k (le_n _) X).
  destruct (exec (prog (script d) n) (strip toks)) as [[] rest out|rest| |] eqn:Y; cbn [result_of] in *.
  - rewrite Lex_enough, L by lia. rewrite Validate_eq, VM by (discriminate || lia). cbn [result_of].
    unfold Convert in *. rewrite (cmost_convert _ out d (le_n _) n); auto; [|lia].
    intros Z. rewrite Z in N. now apply N.
  - rewrite Lex_enough, L by lia. now rewrite Validate_eq, VM by (discriminate || lia).
  - rewrite Lex_enough, L by lia. now rewrite Validate_eq, VM by (discriminate || lia).
  - congruence.
Qed.

Theorem answer_returns : forall d ddl ts err, answer_of d ddl = Answer ts err <-> returns ddl d ts err.
Proof.
  intros d ddl ts err. unfold answer_of. split.
  - intros H. exists (fuel_for d ddl). destruct (Parse (fuel_for d ddl) ddl d); congruence.
  - intros [n H]. rewrite (fuel_enough d ddl n) by congruence. now rewrite H.
Qed.
Theorem answer_forever : forall d ddl, answer_of d ddl = Forever <-> diverges ddl d.
Proof.
  intros d ddl. unfold answer_of. split.
  - intros H n. destruct (Parse n ddl d) as [ts err| |] eqn:E; auto.
    + rewrite (fuel_enough d ddl n), E in H by congruence. discriminate.
    + now apply no_panic in E.
  - intros H. now rewrite H.
Qed.
(** Every call returns, or never returns; nothing else. *)
Theorem returns_or_diverges : forall d ddl, (exists ts err, returns ddl d ts err) \/ diverges ddl d.
Proof.
  intros d ddl. destruct (answer_of d ddl) as [ts err|] eqn:E.
  - left. exists ts, err. now apply answer_returns.
  - right. now apply answer_forever.
Qed.
