(** Execution of validator programs on token lists without line breaks, and its relation to
    [run].  (Proof device; no part of the model.) *)
From Coq Require Import String Ascii List Bool Arith Lia.
From Verif Require Import GoStr GoNum Types Lexer VBase.
Import ListNotations.
Open Scope string_scope.
Open Scope v_scope.

Inductive eres (A : Type) :=
| EOk (a : A) (rest out : list string)
| EErr (rest : list string)
| EPanic
| EFuel.
Arguments EOk {A}. Arguments EErr {A}. Arguments EPanic {A}. Arguments EFuel {A}.

(** Put emitted tokens in front of a result. *)
Definition epre {A} (o : list string) (r : eres A) : eres A :=
  match r with
  | EOk a rest out => EOk a rest (o ++ out)%list
  | r => r
  end.

Fixpoint exec {A} (m : V A) (l : list string) : eres A :=
  match m with
  | Ret a => EOk a l []
  | Look k => exec (k (hd_error l)) l
  | Next k => match l with [] => exec (k EOF) [] | t :: l => exec (k t) l end
  | Emit t k => epre [t] (exec k l)
  | Fail => EErr l
  | Panic => EPanic
  | OutOfFuel => EFuel
  end.

Definition ebind {A B} (r : eres A) (f : A -> V B) : eres B :=
  match r with
  | EOk a rest out => epre out (exec (f a) rest)
  | EErr rest => EErr rest
  | EPanic => EPanic
  | EFuel => EFuel
  end.

Lemma epre_nil : forall A (r : eres A), epre [] r = r.
Proof. now intros A []. Qed.

Lemma epre_app : forall A o1 o2 (r : eres A), epre o1 (epre o2 r) = epre (o1 ++ o2)%list r.
Proof. intros A o1 o2 []; simpl; rewrite ?app_assoc; reflexivity. Qed.

Lemma exec_bind : forall A B (m : V A) (f : A -> V B) l,
  exec (bind m f) l = ebind (exec m l) f.
Proof.
  induction m as [a|k IH|k IH|t k IH| | |]; intros f l; simpl; try reflexivity.
  - now rewrite epre_nil.
  - apply IH.
  - destruct l; apply IH.
  - rewrite IH. destruct (exec k l) as [a rest out|rest| |]; simpl; try reflexivity.
    apply (epre_app _ [t] out).
Qed.

(** ** Stripping line breaks *)

Definition is_nl (t : string) : bool := t =? NL.
Definition strip (l : list string) : list string := filter (fun t => negb (is_nl t)) l.
Definition count_nl (l : list string) : nat := List.length (filter is_nl l).

Definition clean (l : list string) : Prop :=
  match l with t :: _ => is_nl t = false | [] => True end.

Lemma strip_app : forall a b, strip (a ++ b) = (strip a ++ strip b)%list.
Proof. intros. apply filter_app. Qed.
Lemma count_nl_app : forall a b, count_nl (a ++ b) = count_nl a + count_nl b.
Proof. intros. unfold count_nl. rewrite filter_app, app_length. reflexivity. Qed.

Lemma clean_hd : forall l, clean l -> hd_error (strip l) = hd_error l.
Proof. intros [|t l]; simpl; auto. intros ->. reflexivity. Qed.

Lemma clean_strip_nil : forall l, clean l -> strip l = [] -> l = [].
Proof. intros [|t l]; simpl; auto. intros ->. discriminate. Qed.

Lemma skip_nl_spec : forall l line l' line', skip_nl l line = (l', line') ->
  clean l' /\ exists pre, l = (pre ++ l')%list /\ line' = line + count_nl pre /\ strip pre = [].
Proof.
  induction l as [|t l IH]; simpl; intros line l' line' H.
  - inversion H; subst. split; [exact I|]. exists []. auto.
  - destruct (t =? NL) eqn:E.
    + apply IH in H as [C (pre & -> & -> & S)]. split; auto.
      exists (t :: pre). unfold count_nl, strip, is_nl in *. simpl. rewrite E. simpl. repeat split; auto.
    + inversion H; subst. split; [exact E|]. exists []. simpl. auto.
Qed.

(** [moves st st' out]: from [st], tokens were consumed up to [st'] and [out] was emitted. *)
Definition moves (st st' : vstate) (out : list string) : Prop :=
  clean (v_rest st') /\
  exists pre, v_rest st = (pre ++ v_rest st')%list /\
              v_line st' = v_line st + count_nl pre /\
              v_result st' = (v_result st ++ out)%list.

Lemma moves_refl : forall st, clean (v_rest st) -> moves st st [].
Proof.
  intros st H. split; auto. exists []. simpl. rewrite app_nil_r, Nat.add_0_r. auto.
Qed.

Lemma moves_trans : forall a b c o1 o2, moves a b o1 -> moves b c o2 -> moves a c (o1 ++ o2).
Proof.
  intros a b c o1 o2 [Cb (p1 & R1 & L1 & E1)] [Cc (p2 & R2 & L2 & E2)].
  split; auto. exists (p1 ++ p2)%list.
  split; [|split].
  - rewrite R1, R2. apply app_assoc.
  - rewrite count_nl_app, L2, L1. lia.
  - rewrite E2, E1. symmetry. apply app_assoc.
Qed.

Lemma vnext_spec : forall st t st', clean (v_rest st) -> vnext st = (t, st') ->
  moves st st' [] /\
  match strip (v_rest st) with
  | [] => t = EOF /\ strip (v_rest st') = []
  | t' :: l => t = t' /\ strip (v_rest st') = l
  end.
Proof.
  intros [rest line res] t st' C H. unfold vnext in H. simpl in *.
  destruct rest as [|t0 rest].
  - inversion H; subst. split. apply moves_refl; exact I. simpl. auto.
  - destruct (skip_nl rest line) as [l1 line1] eqn:E. inversion H; subst. clear H.
    apply skip_nl_spec in E as [C1 (pre & -> & -> & S)].
    simpl in C. split.
    + split; auto. exists (t :: pre). simpl. rewrite app_nil_r. unfold count_nl; simpl. rewrite C. auto.
    + simpl. rewrite C. simpl. fold (strip (pre ++ l1)). rewrite strip_app, S. auto.
Qed.

(** The relation between [run] and [exec]. *)
Definition run_rel {A} (st : vstate) (r : vres A) (e : eres A) : Prop :=
  match r, e with
  | VOk a st', EOk a' rest out => a = a' /\ strip (v_rest st') = rest /\ moves st st' out
  | VErr err, EErr rest =>
      exists st' out, moves st st' out /\ strip (v_rest st') = rest /\
        err = mk_verror (v_line st') (tok (hd_error rest))
  | VPanic, EPanic => True
  | VOutOfFuel, EFuel => True
  | _, _ => False
  end.

Lemma run_rel_pre : forall A st st' o (r : vres A) e,
  moves st st' o -> run_rel st' r e -> run_rel st r (epre o e).
Proof.
  intros A st st' o r e M H. destruct r, e; simpl in *; try contradiction; auto.
  - destruct H as (-> & <- & M2). repeat split; auto.
    + destruct M2; auto.
    + destruct (moves_trans _ _ _ _ _ M M2) as [_ X]. exact X.
  - destruct H as (st2 & out & M2 & R & E). exists st2, (o ++ out)%list.
    split; [eapply moves_trans; eauto | auto].
Qed.

Theorem run_exec : forall A (m : V A) st, clean (v_rest st) ->
  run_rel st (run m st) (exec m (strip (v_rest st))).
Proof.
  induction m as [a|k IH|k IH|t k IH| | |]; intros st C; simpl.
  - split; auto. split; auto. apply moves_refl; auto.
  - rewrite clean_hd by auto. apply IH; auto.
  - destruct (vnext st) as [t st'] eqn:E.
    apply vnext_spec in E as [M H]; auto.
    destruct (strip (v_rest st)) as [|t' l].
    + destruct H as [-> H]. rewrite <- H, <- (epre_nil _ (exec _ _)).
      eapply run_rel_pre; eauto. apply IH. apply M.
    + destruct H as [-> H]. rewrite <- H, <- (epre_nil _ (exec _ _)).
      eapply run_rel_pre; eauto. apply IH. apply M.
  - set (st' := mk_vstate (v_rest st) (v_line st) (v_result st ++ [t])).
    change (strip (v_rest st)) with (strip (v_rest st')).
    eapply run_rel_pre; [|apply IH; exact C].
    split; auto. exists []. unfold st'. simpl. rewrite Nat.add_0_r. auto.
  - exists st, []. split; [apply moves_refl; auto|]. split; auto. rewrite clean_hd; auto.
  - exact I.
  - exact I.
Qed.

(** The initial state is clean, and stripping is not affected by [init]. *)
Lemma vinit_clean : forall l, clean (v_rest (vinit l)).
Proof.
  intros [|t l]; simpl; auto. unfold vinit. destruct (t =? NL) eqn:E.
  - unfold vnext. simpl. destruct (skip_nl l 1) as [l' n] eqn:F. simpl.
    apply skip_nl_spec in F. tauto.
  - exact E.
Qed.

Lemma vinit_strip : forall l, strip (v_rest (vinit l)) = strip l.
Proof.
  intros [|t l]; auto. unfold vinit. destruct (t =? NL) eqn:E; auto.
  unfold vnext. simpl. destruct (skip_nl l 1) as [l' n] eqn:F.
  apply skip_nl_spec in F as [C (pre & -> & -> & S)]. simpl.
  unfold is_nl at 1. rewrite E. simpl. fold (strip (pre ++ l')). rewrite strip_app, S. auto.
Qed.

Lemma vinit_result : forall l, v_result (vinit l) = [].
Proof.
  intros [|t l]; auto. unfold vinit. destruct (t =? NL); auto.
  unfold vnext. simpl. destruct (skip_nl l 1). auto.
Qed.

(** [Validate] in terms of [exec]. *)
Theorem validate_with_exec : forall p l,
  match exec p (strip l) with
  | EOk _ _ out => validate_with p l = ValidateOk out
  | EErr rest => exists line, validate_with p l = ValidateErr (mk_verror line (tok (hd_error rest)))
  | EPanic => validate_with p l = ValidatePanic
  | EFuel => validate_with p l = ValidateOutOfFuel
  end.
Proof.
  intros p l. unfold validate_with.
  pose proof (run_exec _ p (vinit l) (vinit_clean l)) as H. rewrite vinit_strip in H.
  destruct (run p (vinit l)) as [a st|e| |], (exec p (strip l)) as [a' rest out|rest| |];
    simpl in H; try contradiction; auto.
  - destruct H as (_ & _ & M). destruct M as [_ (pre & _ & _ & E)].
    rewrite E, vinit_result. reflexivity.
  - destruct H as (st' & out & M & R & E). exists (v_line st'). rewrite E. reflexivity.
Qed.

(** ** Equivalence of programs *)

Definition equiv {A} (p q : V A) : Prop := forall l, exec p l = exec q l.

Lemma equiv_refl : forall A (p : V A), equiv p p.
Proof. intros A p l. reflexivity. Qed.

Lemma equiv_bind : forall A B (p q : V A) (f g : A -> V B),
  equiv p q -> (forall a, equiv (f a) (g a)) -> equiv (bind p f) (bind q g).
Proof.
  intros A B p q f g H K l. rewrite !exec_bind, H.
  destruct (exec q l); simpl; auto. f_equal. apply K.
Qed.

Lemma bind_assoc : forall A B D (m : V A) (f : A -> V B) (g : B -> V D) ,
  equiv (bind (bind m f) g) (bind m (fun a => bind (f a) g)).
Proof.
  intros A B D m f g l. rewrite !exec_bind. destruct (exec m l); simpl; auto.
  rewrite exec_bind. destruct (exec (f a) rest); simpl; auto. rewrite epre_app. reflexivity.
Qed.
