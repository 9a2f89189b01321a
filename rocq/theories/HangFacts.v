(** The syntax check does not end exactly if a bracket that may contain anything is never closed. *)
From Coq Require Import String Ascii List Bool Arith NArith Lia.
From Verif Require Import GoStr GoNum Types Lexer VBase Exec Grammar GrammarFacts Ast Converter Parse Fuel Scan Spec Pipe
  Safe Seen Emit Conv Tokens Accept Meaning NoPanic Closed Total Viable ErrorAt LayoutFacts Hang.
From Verif Require Decide.
Import ListNotations.
Open Scope nat_scope.
Open Scope string_scope.
Open Scope list_scope.

(** ** Programs do not look beyond the next token *)

Lemma exec_ok_local : forall A (m : V A) l a t l2 o, exec m l = EOk a (t :: l2) o ->
  exists l1, l = l1 ++ t :: l2 /\ forall l2', exec m (l1 ++ t :: l2') = EOk a (t :: l2') o.
Proof.
  induction m as [a|k IH|k IH|x k IH| | |]; intros l a' t l2 o H; cbn [exec] in H; try discriminate.
  - inversion H; subst. exists []. auto.
  - apply IH in H as (l1 & -> & H). exists l1. split; auto. intros l2'. cbn [exec].
    destruct l1; cbn [app hd_error] in *; auto.
  - destruct l as [|y l].
    + apply IH in H as (l1 & H & _). destruct l1; discriminate.
    + apply IH in H as (l1 & -> & H). exists (y :: l1). split; auto.
  - destruct (exec k l) eqn:E; try discriminate. cbn in H. inversion H; subst. apply IH in E as (l1 & -> & E).
    exists l1. split; auto. intros l2'. cbn [exec]. now rewrite E.
Qed.
Lemma ok_local : forall A (m : V A) p q x a o, exec m (p ++ "(" :: x) = EOk a (q ++ "(" :: x) o ->
  exists p1, p = p1 ++ q /\ forall y, exec m (p ++ "(" :: y) = EOk a (q ++ "(" :: y) o.
Proof.
  intros A m p q x a o H. destruct q as [|t q]; cbn [app] in H; pose proof H as K; apply exec_ok_local in H as (l1 & E & H).
  - apply app_inv_tail in E. subst l1. exists p. rewrite app_nil_r. auto.
  - change (l1 ++ t :: q ++ "(" :: x) with (l1 ++ (t :: q) ++ "(" :: x) in E. rewrite app_assoc in E. apply app_inv_tail in E.
    subst p. exists l1. split; auto. intros y. rewrite <- app_assoc. cbn [app]. apply H.
Qed.
Lemma err_local : forall A (m : V A) p q x, exec m (p ++ "(" :: x) = EErr (q ++ "(" :: x) ->
  forall y, exec m (p ++ "(" :: y) = EErr (q ++ "(" :: y).
Proof.
  intros A m p q x H. destruct q as [|t q]; cbn [app] in H; apply exec_err_local in H as (l1 & E & H).
  - apply app_inv_tail in E. subst l1. auto.
  - change (l1 ++ t :: q ++ "(" :: x) with (l1 ++ (t :: q) ++ "(" :: x) in E. rewrite app_assoc in E. apply app_inv_tail in E.
    subst p. intros y. rewrite <- app_assoc. cbn [app]. apply H.
Qed.
Lemma head_same : forall (p : list string) x y, hd_error (p ++ "(" :: x) = hd_error (p ++ "(" :: y).
Proof. intros [|t p] x y; reflexivity. Qed.
Lemma prog_det : forall A (g : gr A) n m l r, exec (prog g n) l = r -> r <> EFuel ->
  exec (prog g m) l = EFuel \/ exec (prog g m) l = r.
Proof.
  intros A g n m l r H N. destruct (le_ge_dec n m) as [L|L].
  - destruct (prog_mono_le _ g n m L l) as [E|E]; [congruence|right; congruence].
  - destruct (prog_mono_le _ g m n L l) as [E|E]; [now left|right; congruence].
Qed.

(** ** Brackets *)

Lemma unique_close : forall b, balanced b -> forall b' z z', balanced b' -> b ++ ")" :: z = b' ++ ")" :: z' -> b = b' /\ z = z'.
Proof.
  induction 1 as [|t l N1 N2 B IH|l1 l2 B1 IH1 B2 IH2]; intros b' z z' B' E; inversion B' as [|t' l' M1 M2 C|m1 m2 C1 C2]; subst; cbn [app] in E.
  - injection E as ->. auto.
  - injection E as E _. congruence.
  - discriminate.
  - injection E as -> _. congruence.
  - injection E as <- E. destruct (IH _ _ _ C E) as [-> ->]. auto.
  - injection E as -> _. congruence.
  - discriminate.
  - injection E as E _. congruence.
  - injection E as E. rewrite <- !app_assoc in E. cbn [app] in E. destruct (IH1 _ _ _ C1 E) as [-> E2].
    destruct (IH2 _ _ _ C2 E2) as [-> ->]. auto.
Qed.
Lemma close_first : forall k l a o, List.length l <= k -> unmatched l = (Datatypes.S a, o) ->
  exists l1 r, balanced l1 /\ l = l1 ++ ")" :: r /\ unmatched r = (a, o).
Proof.
  induction k as [|k IH]; intros [|t l] a o K H; cbn in K; try lia; try discriminate.
  cbn [unmatched] in H. destruct (unmatched l) as [x y] eqn:U.
  destruct (t =? "(") eqn:E1.
  - apply String.eqb_eq in E1. subst t. destruct x as [|x]; [discriminate|]. inversion H; subst.
    destruct (IH l (Datatypes.S a) o ltac:(lia) U) as (l1 & r & B & -> & R).
    rewrite app_length in K. cbn in K.
    destruct (IH r a o ltac:(lia) R) as (l2 & r2 & B2 & -> & R2).
    exists ("(" :: l1 ++ ")" :: l2), r2. split; [now constructor|]. split; auto.
    cbn. now rewrite <- app_assoc.
  - destruct (t =? ")") eqn:E2.
    + apply String.eqb_eq in E2. subst t. inversion H; subst. exists [], l. split; [constructor|auto].
    + inversion H; subst. destruct (IH l a o ltac:(lia) U) as (l1 & r & B & -> & R).
      exists (t :: l1), r. apply String.eqb_neq in E1, E2. split; [now constructor|auto].
Qed.
Lemma unmatched_balanced : forall b, balanced b -> forall l, unmatched (b ++ l) = unmatched l.
Proof.
  induction 1 as [|t l N1 N2 B IH|l1 l2 B1 IH1 B2 IH2]; intros r; auto.
  - cbn [app unmatched]. rewrite IH. apply String.eqb_neq in N1, N2. rewrite N1, N2. now destruct (unmatched r).
  - cbn [app unmatched]. rewrite <- app_assoc, IH1. cbn [app unmatched]. rewrite IH2.
    change (")" =? "(") with false. change (")" =? ")") with true. change ("(" =? "(") with true. cbv iota.
    now destruct (unmatched r).
Qed.
Lemma close_or_not : forall m, (exists b r, balanced b /\ m = b ++ ")" :: r) \/ unclosed m.
Proof.
  intros m. destruct (unmatched m) as [[|a] o] eqn:U.
  - right. intros b r B ->. rewrite unmatched_balanced in U by auto. cbn [unmatched] in U.
    destruct (unmatched r). discriminate.
  - left. destruct (close_first _ m a o (le_n _) U) as (b & r & B & E & _). eauto.
Qed.
Lemma close_before : forall b p r m, balanced b -> unclosed m -> b ++ ")" :: r = p ++ "(" :: m ->
  exists q, p = b ++ ")" :: q /\ r = q ++ "(" :: m.
Proof.
  intros b p r m B U E. apply app_eq_app in E as (l & [[Eb E]|[Ep E]]).
  - destruct l as [|t l]; cbn [app] in E; [discriminate|]. injection E as <- E.
    assert (C : closed ("(" :: l) = true).
    { apply (closed_suffix p). rewrite <- Eb. apply closed_inv. rewrite <- (app_nil_r b), unmatched_balanced by auto. reflexivity. }
    apply closed_open in C as (l1 & r' & B' & ->). exfalso. apply (U l1 (r' ++ ")" :: r) B'). rewrite E, <- app_assoc. reflexivity.
  - destruct l as [|t l]; cbn [app] in E; [discriminate|]. injection E as <- E. exists l. auto.
Qed.

Lemma brackets_ok : forall n keep l rest o, exec (validateBrackets n keep) l = EOk tt rest o ->
  exists b, balanced b /\ l = "(" :: b ++ ")" :: rest.
Proof.
  intros n keep l rest o H. apply (sound _ (Brackets keep) eq_refl) in H as (l1 & v & -> & b & B & -> & _).
  exists b. split; auto. cbn. now rewrite <- app_assoc.
Qed.
Lemma brackets_fail : forall n keep l r, exec (validateBrackets n keep) l = EErr r ->
  r = l /\ forall m, l <> "(" :: m.
Proof.
  intros n keep l r H. unfold validateBrackets, brackets_around in H. rewrite exec_bind, exec_validateToken in H.
  destruct l as [|t l]; [injection H as <-; now split|]. destruct (matches ["("] t) eqn:M; cbn [ebind] in H.
  - exfalso. rewrite exec_bind in H. destruct (exec (validateBracketsAux n keep) l) as [[] r1 o1|r1| |] eqn:E1; try discriminate.
    + apply brackets_sound in E1 as (l1 & _ & _ & _ & r' & ->). cbn [ebind] in H. rewrite exec_validateToken in H.
      change (matches [")"] ")") with true in H. discriminate.
    + exact (brackets_err _ _ _ _ E1).
  - injection H as <-. split; auto. intros m E. injection E as -> _. discriminate.
Qed.
Lemma brackets_panic : forall n keep l, exec (validateBrackets n keep) l = EPanic -> False.
Proof.
  assert (X : forall n keep l, exec (validateBracketsAux n keep) l = EPanic -> False).
  { induction n as [|n IH]; intros keep l; [discriminate|]. cbn [validateBracketsAux].
    rewrite (exec_if _ (matchToken [")"]) _ _ _ (matches [")"] (tok (hd_error l)))) by reflexivity.
    destruct (matches [")"] (tok (hd_error l))) eqn:E; [discriminate|].
    rewrite (exec_if _ (matchToken ["("]) _ _ _ (matches ["("] (tok (hd_error l)))) by reflexivity.
    destruct l as [|t l]; cbn [hd_error tok] in *.
    - change (matches ["("] EOF) with false. cbv iota. destruct keep; cbn; intros H.
      + destruct (exec (validateBracketsAux n true) []) eqn:X; try discriminate. eauto.
      + destruct (exec (validateBracketsAux n false) []) eqn:X; try discriminate. eauto.
    - destruct (matches ["("] t) eqn:F.
      + rewrite exec_bind. unfold brackets_around. rewrite exec_bind, exec_validateToken, F. cbn [ebind].
        rewrite exec_bind. destruct (exec (validateBracketsAux n keep) l) as [[] r1 o1|r1| |] eqn:E1; try discriminate; [|eauto].
        apply brackets_sound in E1 as (l1 & _ & _ & _ & r' & ->). cbn [ebind]. rewrite exec_validateToken.
        change (matches [")"] ")") with true. cbv iota. cbn [epre ebind].
        destruct (exec (validateBracketsAux n keep) r') eqn:E2; try discriminate. intros _. eauto.
      + rewrite exec_bind, exec_next_set. cbn [ebind].
        destruct (exec (validateBracketsAux n keep) l) eqn:E2; try discriminate. intros _. eauto. }
  intros n keep l H. unfold validateBrackets, brackets_around in H. rewrite exec_bind, exec_validateToken in H.
  destruct l as [|t l]; [discriminate|]. destruct (matches ["("] t) eqn:M; cbn [ebind] in H; [|discriminate].
  rewrite exec_bind in H. destruct (exec (validateBracketsAux n keep) l) as [[] r1 o1|r1| |] eqn:E1; try discriminate; [|eauto].
  apply brackets_sound in E1 as (l1 & _ & _ & _ & r' & ->). cbn [ebind] in H. rewrite exec_validateToken in H.
  change (matches [")"] ")") with true in H. discriminate.
Qed.

(** ** If the check does not end, there is such a bracket *)

(** The program goes from [p] into a bracket. *)
Definition reach (P : nat -> V unit) (p : list string) : Prop := forall y n,
  match exec (P n) (p ++ "(" :: y) with
  | EFuel => True
  | EOk _ rest _ | EErr rest => exists b r1, balanced b /\ y = b ++ ")" :: r1 ++ rest
  | EPanic => exists b r1, balanced b /\ y = b ++ ")" :: r1 /\ ~ Forall ne r1
  end.
Definition stuck (P : nat -> V unit) (l : list string) : Prop :=
  exists p m, l = p ++ "(" :: m /\ unclosed m /\ reach P p.
Definition ho (P : nat -> V unit) (l : list string) : Prop := halts P l \/ stuck P l.

Lemma reach_eq : forall P Q p, (forall y n, exec (P n) (p ++ "(" :: y) = exec (Q n) (p ++ "(" :: y)) -> reach Q p -> reach P p.
Proof. intros P Q p E H y n. rewrite E. apply H. Qed.

Lemma ho_bind : forall A (g : gr A) Q l, (forall n, calm (Q n)) -> ho (prog g) l ->
  (forall n rest out, exec (prog g n) l = EOk tt rest out -> ho Q rest) ->
  ho (fun n => bind (prog g n) (fun _ => Q n)) l.
Proof.
  intros A g Q l CQ H K. destruct H as [H|(p & m & -> & U & R)].
  - destruct H as (r & N & P). destruct r as [[] rest out|rest| |]; [| | |congruence].
    + assert (X : exists n0, exec (prog g n0) l = EOk tt rest out) by (destruct P as [n0 P]; exists n0; apply P; lia).
      destruct X as [n0 X]. destruct (K _ _ _ X) as [H|(p2 & m & -> & U & R)].
      * left. apply halts_bind; [exists (EOk tt rest out); split; auto; discriminate|].
        intros n rest' out' X'. destruct (prog_det _ g _ n _ _ X) as [Y|Y]; congruence.
      * right. assert (S := X). apply exec_suffix in S as [l1 ->]. exists (l1 ++ p2), m. split; [now rewrite app_assoc|]. split; auto.
        rewrite app_assoc in X. apply ok_local in X as (p1 & _ & X). intros y n. rewrite exec_bind.
        destruct (prog_det _ g _ n _ _ (X y)) as [Y|Y]; [discriminate|now rewrite Y|]. rewrite Y. cbn [ebind].
        specialize (R y n). destruct (exec (Q n) (p2 ++ "(" :: y)); exact R.
    + left. exists (EErr rest). split; [discriminate|]. revert P. apply eventually_mono. intros n E. now rewrite exec_bind, E.
    + left. exists EPanic. split; [discriminate|]. revert P. apply eventually_mono. intros n E. now rewrite exec_bind, E.
  - right. exists p, m. split; auto. split; auto. intros y n. rewrite exec_bind. specialize (R y n).
    destruct (exec (prog g n) (p ++ "(" :: y)) as [[] rest out|rest| |]; cbn [ebind]; auto.
    destruct R as (b & r1 & B & ->).
    destruct (exec (Q n) rest) as [[] rest2 out2|rest2| |] eqn:E; cbn [epre]; auto.
    + apply exec_suffix in E as [l1 ->]. exists b, (r1 ++ l1). split; auto. now rewrite <- app_assoc.
    + apply err_suffix in E as [l1 ->]. exists b, (r1 ++ l1). split; auto. now rewrite <- app_assoc.
    + exists b, (r1 ++ rest). split; auto. split; auto. intros F. apply Forall_app in F as [_ F]. exact (CQ n _ F E).
Qed.
Lemma ho_if : forall c P Q l, (la_mem c (hd_error l) = true -> ho P l) -> (la_mem c (hd_error l) = false -> ho Q l) ->
  ho (fun n => If look_la c Then P n Else Q n)%v l.
Proof.
  intros c P Q l HP HQ.
  assert (E : forall n l', exec (If look_la c Then P n Else Q n)%v l' = if la_mem c (hd_error l') then exec (P n) l' else exec (Q n) l').
  { intros n l'. rewrite (exec_if _ _ _ _ _ _ (exec_look_la c l')). now destruct (la_mem c (hd_error l')). }
  assert (X : forall b R, la_mem c (hd_error l) = b -> (forall n l', la_mem c (hd_error l') = b ->
     exec (If look_la c Then P n Else Q n)%v l' = exec (R n) l') -> ho R l -> ho (fun n => If look_la c Then P n Else Q n)%v l).
  { intros b R B F [(r & N & H)|(p & m & -> & U & H)].
    - left. exists r. split; auto. revert H. apply eventually_mono. intros n X. now rewrite F.
    - right. exists p, m. split; auto. split; auto. eapply reach_eq; [|exact H]. intros y n. apply F.
      rewrite (head_same p y m). exact B. }
  destruct (la_mem c (hd_error l)) eqn:B.
  - apply (X true P); auto. intros n l' B'. now rewrite E, B'.
  - apply (X false Q); auto. intros n l' B'. now rewrite E, B'.
Qed.
Lemma ho_S : forall P l, (forall l, exec (P 0) l = EFuel) -> ho (fun n => P (Datatypes.S n)) l -> ho P l.
Proof.
  intros P l Z [H|(p & m & -> & U & R)].
  - left. now apply halts_S.
  - right. exists p, m. split; auto. split; auto. intros y [|n]; [now rewrite Z|]. apply (R y n).
Qed.
Lemma ho_const : forall p l, exec p l <> EFuel -> ho (fun _ => p) l.
Proof. left. now apply halts_const. Qed.

Lemma ho_brackets : forall keep l, ho (fun n => validateBrackets n keep) l.
Proof.
  intros keep l. destruct l as [|t l].
  - left. exists (EErr []). split; [discriminate|]. apply eventually_always. reflexivity.
  - destruct (matches ["("] t) eqn:E.
    + apply match_lpar in E. subst. destruct (close_or_not l) as [(l1 & r & B & ->)|U].
      * left. pose proof (complete _ (Brackets keep) [FAny; FEof] eq_refl ("(" :: l1 ++ [")"]) r (kept keep ("(" :: l1 ++ [")"])) ("(" :: l1 ++ [")"])
          ltac:(exists l1; auto) (within_any _)) as C.
        exists (EOk tt r (kept keep ("(" :: l1 ++ [")"]))). split; [discriminate|].
        revert C. apply eventually_mono. intros n C. unfold accepts in C. cbn [app prog] in C.
        rewrite <- app_assoc in C. exact C.
      * right. exists [], l. split; auto. split; auto. intros y n. cbn [app].
        destruct (exec (validateBrackets n keep) ("(" :: y)) as [[] rest o|rest| |] eqn:X; auto.
        -- apply brackets_ok in X as (b & B & Q). injection Q as ->. exists b, []. auto.
        -- apply brackets_fail in X as [_ X]. now elim (X y).
        -- now apply brackets_panic in X.
    + left. exists (EErr (t :: l)). split; [discriminate|]. apply eventually_always. intros n.
      unfold validateBrackets, brackets_around. now rewrite exec_bind, exec_validateToken, E.
Qed.

Theorem ho_prog : forall A (g : gr A), loops_eat g = true -> forall l, ho (prog g) l.
Proof.
  induction g; cbn [loops_eat]; intros LE l.
  - apply ho_const. discriminate.
  - apply ho_const. rewrite exec_emits. discriminate.
  - apply ho_const. rewrite exec_one. destruct l as [|t l]; [discriminate|].
    destruct (cmem c t); [discriminate|]. destruct t, c; discriminate.
  - apply ho_if; intros _; apply ho_const; discriminate.
  - apply ho_if; intros _; apply ho_const; discriminate.
  - apply ho_brackets.
  - left. apply halts_skip.
  - apply andb_true_iff in LE as [L1 L2]. cbn [prog]. apply ho_bind; auto using calm_prog.
  - now apply IHg.
  - apply andb_true_iff in LE as [L1 L2]. cbn [prog]. apply ho_if; auto.
  - apply andb_true_iff in LE as [L1 L2]. cbn [prog].
    remember (List.length l) as k. revert l Heqk. induction k as [k IH] using lt_wf_ind. intros l ->.
    apply ho_S; [reflexivity|]. cbn [while_loop]. apply ho_if; intros _; [|apply ho_const; discriminate].
    apply ho_bind; [intros n; apply calm_while; intros; apply calm_prog|now apply IHg|]. intros n rest out H.
    pose proof (eats_shorter _ _ _ _ _ _ L1 L2 H). eapply IH; eauto.
  - apply andb_true_iff in LE as [L1 L2]. cbn [prog]. generalize (@nil string).
    remember (List.length l) as k. revert l Heqk. induction k as [k IH] using lt_wf_ind. intros l -> ls.
    apply ho_S; [reflexivity|]. cbn [whileu_loop]. apply ho_if; intros _; [|apply ho_const; discriminate].
    destruct (contains ls (key (tok (hd_error l)))) eqn:E.
    + left. exists (EErr l). split; [discriminate|]. apply eventually_always. intros n. cbn [bind token exec]. now rewrite E.
    + assert (X : ho (fun n => bind (prog g n) (fun _ => whileu_loop (prog g) c key n (ls ++ [key (tok (hd_error l))]))) l).
      { apply ho_bind; [intros n; apply calm_whileu; intros; apply calm_prog|now apply IHg|]. intros n rest out H.
        pose proof (eats_shorter _ _ _ _ _ _ L1 L2 H). eapply IH; eauto. }
      destruct X as [(r & N & X)|(p & m & -> & U & R)].
      * left. exists r. split; auto. revert X. apply eventually_mono. intros n X. cbn [bind token exec]. now rewrite E.
      * right. exists p, m. split; auto. split; auto. eapply reach_eq; [|exact R]. intros y n.
        cbn [bind token exec]. rewrite (head_same p y m). now rewrite E.
  - cbn [prog].
    remember (List.length l) as k. revert l Heqk. induction k as [k IH] using lt_wf_ind. intros l ->.
    apply ho_S; [reflexivity|]. cbn [sep_loop]. apply ho_bind; [|now apply IHg|].
    { intros n. apply calm_if; [apply calm_mtn|apply calm_sep; intros; apply calm_prog|apply calm_ret]. }
    intros n rest out H.
    assert (Len : List.length rest <= List.length l).
    { apply exec_suffix in H as [l1 ->]. rewrite app_length. lia. }
    assert (X : forall m rest, exec (If matchTokenNext keep [","] Then sep_loop (prog g) keep m Else ret tt)%v rest =
       match rest with
       | t :: r => if matches [","] t then epre (kept keep [t]) (exec (sep_loop (prog g) keep m) r) else EOk tt rest []
       | [] => EOk tt [] []
       end).
    { intros m rest'. rewrite exec_bind, exec_matchTokenNext. destruct rest' as [|t r]; [reflexivity|].
      destruct (matches [","] t); reflexivity. }
    destruct rest as [|t r].
    + left. eexists. split; [|apply eventually_always; intros m; rewrite X; reflexivity]. discriminate.
    + destruct (matches [","] t) eqn:M.
      * assert (Y : ho (sep_loop (prog g) keep) r) by (eapply IH; [|reflexivity]; cbn in Len; lia).
        destruct Y as [(y & N & Y)|(p & m & -> & U & R)].
        -- left. exists (epre (kept keep [t]) y). split; [destruct y; cbn; congruence|].
           revert Y. apply eventually_mono. intros m Y. rewrite X, M. now rewrite Y.
        -- right. exists (t :: p), m. split; auto. split; auto. intros y m'. rewrite X. cbn [app]. rewrite M.
           specialize (R y m'). destruct (exec (sep_loop (prog g) keep m') (p ++ "(" :: y)); exact R.
      * left. eexists. split; [|apply eventually_always; intros m; rewrite X, M; reflexivity]. discriminate.
Qed.

Lemma fill : forall l k, List.length l <= k -> exists a, unmatched (l ++ repeat ")" k) = (a, 0) /\ k - List.length l <= a.
Proof.
  induction l as [|t l IH]; intros k K.
  - exists k. split; [|cbn; lia]. cbn [app]. clear K. induction k as [|k IH]; auto. cbn [repeat unmatched]. rewrite IH. reflexivity.
  - cbn in K. destruct (IH k ltac:(lia)) as (a & E & L). cbn [app unmatched List.length]. rewrite E.
    destruct (t =? "("); [|destruct (t =? ")")].
    + destruct a as [|a]; [exfalso; lia|]. exists a. split; auto. lia.
    + exists (Datatypes.S a). split; auto. lia.
    + exists a. split; auto. lia.
Qed.
Lemma repeat_ne : forall k, Forall ne (repeat ")" k).
Proof. induction k; constructor; auto. discriminate. Qed.

Theorem verdict_or_hangs : forall d l, (exists e, verdict d l e) \/ hangs d l.
Proof.
  intros d l. destruct (ho_prog _ (script d) (script_loops d) l) as [(r & N & [n H])|(p & m & -> & U & R)].
  - left. exists r. split; auto. exists n. apply H. lia.
  - right. exists p, m. split; auto. split; auto. intros b B.
    set (z := repeat ")" (List.length (p ++ "(" :: b ++ [")"]))).
    assert (C : closed (p ++ "(" :: b ++ ")" :: z) = true).
    { apply closed_inv. destruct (fill (p ++ "(" :: b ++ [")"]) _ (le_n _)) as (a & E & _).
      fold z in E. rewrite <- app_assoc in E. cbn [app] in E. rewrite <- app_assoc in E. cbn [app] in E. now rewrite E. }
    destruct (halts_prog _ (script d) (script_loops d) _ C) as (r & N & [n H]). specialize (H n (le_n _)).
    specialize (R (b ++ ")" :: z) n). rewrite H in R. destruct r as [[] rest out|rest| |]; [| | |congruence].
    + assert (V : verdict d (p ++ "(" :: b ++ ")" :: z) (EOk tt rest out)) by (split; [discriminate|eauto]).
      apply verdict_ok in V as [_ [v V]]. exists (")" :: z), out, v. rewrite <- app_assoc. exact V.
    + destruct R as (b' & r1 & B' & E). assert (V : verdict d (p ++ "(" :: b ++ ")" :: z) (EErr rest)) by (split; [discriminate|eauto]).
      apply error_viable in V as (l1 & more & out & v & El & V). apply unique_close in E as [<- E]; auto. rewrite E in El.
      assert (Q : l1 = p ++ "(" :: b ++ ")" :: r1).
      { apply (app_inv_tail rest). rewrite <- El, <- app_assoc. cbn [app]. now rewrite <- app_assoc. }
      subst l1. exists (")" :: r1 ++ more), out, v. rewrite <- !app_assoc in V |- *. cbn [app] in V |- *. rewrite <- app_assoc in V. exact V.
    + destruct R as (b' & r1 & B' & E & F). apply unique_close in E as [<- <-]; auto. elim F. apply repeat_ne.
Qed.

(** ** If there is such a bracket, the check does not end *)

(** What is left of [; END ; ;] *)
Definition left (s : nat) : list string :=
  match s with 0 => [";"; "END"; ";"; ";"] | 1 => ["END"; ";"; ";"] | 2 => [";"; ";"] | _ => [";"] end.
Definition fits (o : option nat) (x : list string) (r : eres unit) : Prop :=
  match r with
  | EFuel => True
  | EErr _ => o = None
  | EOk _ rest _ => exists s, o = Some s /\ rest = left s ++ x
  | EPanic => False
  end.

(** The result of [g] on [left s]: an error, or another part is left. *)
Definition step {A} (g : gr A) (s : nat) : option (option nat) :=
  match exec (prog g 30) (left s) with
  | EErr (_ :: _) => Some None
  | EOk _ (t :: r) _ =>
      match find (fun s => if list_eq_dec string_dec (left s) (t :: r) then true else false) [0; 1; 2; 3] with
      | Some s => Some (Some s)
      | None => None
      end
  | _ => None
  end.
Lemma step_fits : forall A (g : gr A) s o, step g s = Some o -> forall x n, fits o x (exec (prog g n) (left s ++ x)).
Proof.
  intros A g s o H x n. unfold step in H. destruct (exec (prog g 30) (left s)) as [[] rest out|rest| |] eqn:E; try discriminate.
  - destruct rest as [|t r]; [discriminate|]. apply exec_ok_local in E as (l1 & L & E).
    destruct (find _ _) as [s'|] eqn:F; [|discriminate]. apply find_some in F as [_ F].
    destruct (list_eq_dec string_dec (left s') (t :: r)) as [D|]; [|discriminate]. injection H as <-.
    specialize (E (r ++ x)). rewrite L. rewrite <- app_assoc. cbn [app].
    destruct (prog_det _ g _ n _ _ E) as [X|X]; [discriminate|now rewrite X|]. rewrite X. cbn. exists s'. split; auto. now rewrite D.
  - destruct rest as [|t r]; [discriminate|]. apply exec_err_local in E as (l1 & L & E). injection H as <-.
    specialize (E (r ++ x)). rewrite L. rewrite <- app_assoc. cbn [app].
    destruct (prog_det _ g _ n _ _ E) as [X|X]; [discriminate|now rewrite X|]. now rewrite X.
Qed.
Fixpoint steps {A} (g : gr A) (ss : list nat) : option (list nat) :=
  match ss with
  | [] => Some []
  | s :: ss =>
    match step g s, steps g ss with
    | Some (Some s'), Some l => Some (s' :: l)
    | Some None, Some l => Some l
    | _, _ => None
    end
  end.
Lemma steps_In : forall A (g : gr A) ss l s, steps g ss = Some l -> In s ss ->
  exists o, step g s = Some o /\ forall s', o = Some s' -> In s' l.
Proof.
  induction ss as [|s0 ss IH]; intros l s H I; [contradiction|]. cbn [steps] in H.
  destruct (step g s0) as [[s1|]|] eqn:E; [| |discriminate]; (destruct (steps g ss) as [l'|] eqn:E'; [|discriminate]);
    injection H as <-; (destruct I as [<-|I]; [eexists; split; [exact E|]|destruct (IH l' s eq_refl I) as (o & O & S); exists o; split; auto]).
  - intros s' Q. injection Q as <-. now left.
  - intros s' Q. right. auto.
  - discriminate.
Qed.

(** With which parts left the grammar can end, after the bracket and without having gone into it. *)
Definition stop (c : la) (s : nat) : bool := negb (la_mem c (hd_error (left s))).
Fixpoint after {A} (g : gr A) : option (list nat) :=
  match g with
  | Eps | Put _ | NotNext _ | IsNext _ | Brackets _ => Some []
  | One _ c => Some (if cmem c "(" then [0] else [])
  | Skip => Some [0; 2]
  | Map _ g => after g
  | Cond _ g h => match after g, after h with Some a, Some b => Some (a ++ b) | _, _ => None end
  | Seq g h =>
      match after g, after h with
      | Some a, Some b => match steps h a with Some a => Some (a ++ b) | None => None end
      | _, _ => None
      end
  | While c g | WhileU c _ g =>
      match after g with
      | Some a => if forallb (fun s => stop c s || match step g s with Some None => true | _ => false end) a
                  then Some (filter (stop c) a) else None
      | None => None
      end
  | SepBy _ g => after g
  end.

(** The program does not get to the bracket, or it does not go into it. *)
Definition outside (P : nat -> V unit) (ss : list nat) (n : nat) (p m : list string) : Prop :=
  match exec (P n) (p ++ "(" :: m) with
  | EFuel | EPanic => True
  | EOk _ rest _ | EErr rest => exists q, rest = q ++ "(" :: m
  end \/
  exists o, (forall s, o = Some s -> In s ss) /\ forall x n', fits o x (exec (P n') (p ++ "(" :: left 0 ++ x)).

Lemma outside_bind : forall A (g : gr A) Q sg sq m n p, outside (prog g) sg n p m ->
  (forall q, outside Q sq n q m) ->
  (forall s, In s sg -> exists o, (forall s', o = Some s' -> In s' sq) /\ forall x n', fits o x (exec (Q n') (left s ++ x))) ->
  outside (fun n => bind (prog g n) (fun _ => Q n)) sq n p m.
Proof.
  intros A g Q sg sq m n p [H|(o & I & H)] K S.
  - destruct (exec (prog g n) (p ++ "(" :: m)) as [[] rest out|rest| |] eqn:E; unfold outside.
    2-4: left; rewrite exec_bind, E; exact H.
    destruct H as [q ->]. apply ok_local in E as (p1 & -> & E). specialize (K q). destruct K as [K|(o & I & K)].
    + left. rewrite exec_bind, E. cbn [ebind]. destruct (exec (Q n) (q ++ "(" :: m)); exact K.
    + right. exists o. split; auto. intros x n'. rewrite exec_bind. specialize (E (left 0 ++ x)).
      destruct (prog_det _ g _ n' _ _ E) as [X|X]; [discriminate|now rewrite X|]. rewrite X. cbn [ebind].
      specialize (K x n'). destruct (exec (Q n') (q ++ "(" :: left 0 ++ x)); exact K.
  - destruct o as [s|].
    + destruct (S s (I s eq_refl)) as (o & I' & F). right. exists o. split; auto. intros x n'. rewrite exec_bind.
      specialize (H x n'). destruct (exec (prog g n') _) as [[] rest out|rest| |]; cbn [fits ebind] in *; auto; [|discriminate].
      destruct H as (s' & Q' & ->). injection Q' as <-. specialize (F x n'). destruct (exec (Q n') (left s ++ x)); exact F.
    + right. exists None. split; [discriminate|]. intros x n'. rewrite exec_bind.
      specialize (H x n'). destruct (exec (prog g n') _) as [[] rest out|rest| |]; cbn [fits ebind] in *; auto.
      destruct H as (s' & Q' & _). discriminate.
Qed.
Lemma outside_if : forall c P Q ss n p m, (la_mem c (hd_error (p ++ "(" :: m)) = true -> outside P ss n p m) ->
  (la_mem c (hd_error (p ++ "(" :: m)) = false -> outside Q ss n p m) ->
  outside (fun n => If look_la c Then P n Else Q n)%v ss n p m.
Proof.
  intros c P Q ss n p m HP HQ.
  assert (E : forall n l', exec (If look_la c Then P n Else Q n)%v l' = if la_mem c (hd_error l') then exec (P n) l' else exec (Q n) l').
  { intros n0 l'. rewrite (exec_if _ _ _ _ _ _ (exec_look_la c l')). now destruct (la_mem c (hd_error l')). }
  unfold outside in *. rewrite E. destruct (la_mem c (hd_error (p ++ "(" :: m))) eqn:B.
  - destruct (HP eq_refl) as [X|(o & I & X)]; [now left|]. right. exists o. split; auto. intros x n'. rewrite E, (head_same p _ m), B. apply X.
  - destruct (HQ eq_refl) as [X|(o & I & X)]; [now left|]. right. exists o. split; auto. intros x n'. rewrite E, (head_same p _ m), B. apply X.
Qed.
Lemma outside_more : forall P ss ss' n p m, incl ss ss' -> outside P ss n p m -> outside P ss' n p m.
Proof. intros P ss ss' n p m I [H|(o & J & H)]; [now left|]. right. exists o. split; auto. Qed.
Lemma outside_ret : forall ss n p m, outside (fun _ => ret tt) ss n p m.
Proof. intros. left. cbn. eauto. Qed.
Lemma outside_fail : forall ss n p m, outside (fun _ => syntaxError) ss n p m.
Proof. intros. left. cbn. eauto. Qed.
Lemma outside_S : forall P ss n p m, (forall l, exec (P 0) l = EFuel) ->
  outside (fun n => P (Datatypes.S n)) ss n p m -> outside P ss (Datatypes.S n) p m.
Proof.
  intros P ss n p m Z [H|(o & J & H)]; [now left|]. right. exists o. split; auto. intros x [|n']; [now rewrite Z|apply H].
Qed.

Lemma outside_skip : forall m p n b, outside (fun n => skip_statement n b) [0; 2] n p m.
Proof.
  assert (X : forall n b t l, exec (skip_statement (Datatypes.S n) b) (t :: l) =
        if (if matches ["BEGIN"] t then true else b) then
          if matches ["END"] t then exec (skip_statement n false) l else exec (skip_statement n true) l
        else if matches [";"] t then EOk tt (t :: l) [] else exec (skip_statement n false) l).
  { intros n b t l. cbn [skip_statement exec bind isOutOfRange hd_error matchToken tok].
    destruct (if matches ["BEGIN"] t then true else b); cbn [exec bind matchToken hd_error tok].
    - destruct (matches ["END"] t); reflexivity.
    - destruct (matches [";"] t); reflexivity. }
  intros m. induction p as [|t p IH]; intros n b.
  - right. exists (Some (if b then 2 else 0)). split.
    { intros s E. injection E as <-. destruct b; cbn; auto. }
    intros x n'. cbn [app left]. destruct b.
    + do 4 (destruct n' as [|n']; [exact I|rewrite X]; cbn -[skip_statement left]). exists 2. auto.
    + do 2 (destruct n' as [|n']; [exact I|rewrite X]; cbn -[skip_statement left]). exists 0. auto.
  - destruct n as [|n]; [now left|]. cbn [app].
    assert (Y : forall b', (forall n l, exec (skip_statement (Datatypes.S n) b) (t :: l) = exec (skip_statement n b') l) ->
      outside (fun n => skip_statement n b) [0; 2] (Datatypes.S n) (t :: p) m).
    { intros b' Y. destruct (IH n b') as [H|(o & I' & H)].
      - left. cbn [app]. now rewrite Y.
      - right. exists o. split; auto. intros x [|n']; [exact I|]. cbn [app]. rewrite Y. apply H. }
    destruct (if matches ["BEGIN"] t then true else b) eqn:B; [destruct (matches ["END"] t) eqn:E|destruct (matches [";"] t) eqn:E].
    + apply (Y false). intros. now rewrite X, B, E.
    + apply (Y true). intros. now rewrite X, B, E.
    + left. cbn [app]. rewrite X, B, E. exists (t :: p). reflexivity.
    + apply (Y false). intros. now rewrite X, B, E.
Qed.

Theorem outside_prog : forall A (g : gr A) ss, after g = Some ss -> forall m, unclosed m -> forall n p, outside (prog g) ss n p m.
Proof.
  induction g; intros ss AF m U n p; cbn [after] in AF.
  - apply outside_ret.
  - left. cbn [prog]. rewrite exec_emits. eauto.
  - injection AF as <-. destruct p as [|t p].
    + destruct (cmem c "(") eqn:E.
      * right. exists (Some 0). split; [intros s Q; injection Q as <-; now left|]. intros x n'. cbn [prog app]. rewrite exec_one, E. cbn. eauto.
      * left. cbn [prog app]. rewrite exec_one, E. destruct c; (exists []; reflexivity).
    + left. cbn [prog app]. rewrite exec_one. destruct (cmem c t); [eauto|]. destruct t, c; auto; (eexists (_ :: p); reflexivity).
  - apply outside_if; intros _; [apply outside_fail|apply outside_ret].
  - apply outside_if; intros _; [apply outside_ret|apply outside_fail].
  - left. cbn [prog]. destruct (exec (validateBrackets n keep) (p ++ "(" :: m)) as [[] rest o|rest| |] eqn:E; auto.
    + apply brackets_ok in E as (b & B & E). destruct p as [|t p].
      * cbn [app] in E. injection E as E. elim (U b rest B E).
      * cbn [app] in E. injection E as -> E. symmetry in E. apply close_before in E as (q & _ & ->); auto. eauto.
    + apply brackets_fail in E as [-> _]. eauto.
  - injection AF as <-. apply outside_skip.
  - destruct (after g1) as [a|] eqn:A1; [|discriminate]. destruct (after g2) as [b|] eqn:A2; [|discriminate].
    destruct (steps g2 a) as [a'|] eqn:S; [|discriminate]. injection AF as <-. cbn [prog].
    apply outside_bind with (sg := a); auto.
    + intros q. eapply outside_more; [|apply (IHg2 b); auto]. intros s I. apply in_or_app. now right.
    + intros s I. destruct (steps_In _ _ _ _ _ S I) as (o & O & J). exists o. split.
      * intros s' Q. apply in_or_app. left. auto.
      * now apply step_fits.
  - apply IHg; auto.
  - destruct (after g1) as [a|] eqn:A1; [|discriminate]. destruct (after g2) as [b|] eqn:A2; [|discriminate]. injection AF as <-.
    cbn [prog]. apply outside_if; intros _.
    + eapply outside_more; [|apply (IHg1 a); auto]. intros s I. apply in_or_app. now left.
    + eapply outside_more; [|apply (IHg2 b); auto]. intros s I. apply in_or_app. now right.
  - destruct (after g) as [a|] eqn:A1; [|discriminate]. destruct (forallb _ a) eqn:F; [|discriminate]. injection AF as <-. cbn [prog].
    rewrite forallb_forall in F. revert p. induction n as [|n IH]; intros p; [now left|].
    apply outside_S; [reflexivity|]. cbn [while_loop]. apply outside_if; intros _; [|apply outside_ret].
    apply outside_bind with (sg := a); [apply IHg; auto|exact IH|].
    intros s I. specialize (F s I). destruct (stop c s) eqn:ST.
    + exists (Some s). split; [intros s' Q; injection Q as <-; apply filter_In; auto|]. intros x [|n']; [exact Logic.I|].
      cbn [while_loop]. rewrite (exec_if _ _ _ _ _ _ (exec_look_la c (left s ++ x))).
      assert (Q : hd_error (left s ++ x) = hd_error (left s)) by (destruct s as [|[|[|s]]]; reflexivity).
      rewrite Q. apply negb_true_iff in ST. rewrite ST. cbn. eauto.
    + cbn [orb] in F. destruct (step g s) as [[s'|]|] eqn:E; try discriminate. exists None. split; [discriminate|].
      intros x [|n']; [exact Logic.I|]. cbn [while_loop]. rewrite (exec_if _ _ _ _ _ _ (exec_look_la c (left s ++ x))).
      assert (Q : hd_error (left s ++ x) = hd_error (left s)) by (destruct s as [|[|[|s]]]; reflexivity).
      rewrite Q. apply negb_false_iff in ST. rewrite ST. rewrite exec_bind. pose proof (step_fits _ _ _ _ E x n') as K.
      destruct (exec (prog g n') (left s ++ x)); cbn in *; auto. destruct K as (? & K & _). discriminate.
  - destruct (after g) as [a|] eqn:A1; [|discriminate]. destruct (forallb _ a) eqn:F; [|discriminate]. injection AF as <-. cbn [prog].
    rewrite forallb_forall in F. generalize (@nil string). revert p. induction n as [|n IH]; intros p ls; [now left|].
    apply (outside_S (fun n => whileu_loop (prog g) c key n ls)); [reflexivity|]. cbn [whileu_loop].
    apply outside_if; intros _; [|apply outside_ret].
    destruct (contains ls (key (tok (hd_error (p ++ "(" :: m))))) eqn:CT.
    { left. cbn [bind token exec]. rewrite CT. cbn. eauto. }
    assert (Z : outside (fun n => bind (prog g n) (fun _ => whileu_loop (prog g) c key n (ls ++ [key (tok (hd_error (p ++ "(" :: m)))]))) (filter (stop c) a) n p m).
    { apply outside_bind with (sg := a); [apply IHg; auto|intros q; apply IH|].
      intros s I. specialize (F s I). destruct (stop c s) eqn:ST.
      + exists (Some s). split; [intros s' Q; injection Q as <-; apply filter_In; auto|]. intros x [|n']; [exact Logic.I|].
        cbn [whileu_loop]. rewrite (exec_if _ _ _ _ _ _ (exec_look_la c (left s ++ x))).
        assert (Q : hd_error (left s ++ x) = hd_error (left s)) by (destruct s as [|[|[|s]]]; reflexivity).
        rewrite Q. apply negb_true_iff in ST. rewrite ST. cbn. eauto.
      + cbn [orb] in F. destruct (step g s) as [[s'|]|] eqn:E; try discriminate. exists None. split; [discriminate|].
        intros x [|n']; [exact Logic.I|]. cbn [whileu_loop]. rewrite (exec_if _ _ _ _ _ _ (exec_look_la c (left s ++ x))).
        assert (Q : hd_error (left s ++ x) = hd_error (left s)) by (destruct s as [|[|[|s]]]; reflexivity).
        rewrite Q. apply negb_false_iff in ST. rewrite ST. cbn [bind token exec].
        destruct (contains (_ ++ _) _); [exact eq_refl|]. rewrite exec_bind. pose proof (step_fits _ _ _ _ E x n') as K.
        destruct (exec (prog g n') (left s ++ x)); cbn in *; auto. destruct K as (? & K & _). discriminate. }
    destruct Z as [Z|(o & I & Z)].
    + left. cbn [bind token exec]. rewrite CT. exact Z.
    + right. exists o. split; auto. intros x n'. cbn [bind token exec]. rewrite (head_same p _ m), CT. apply Z.
  - cbn [prog]. revert p. induction n as [|n IH]; intros p; [now left|].
    apply outside_S; [reflexivity|]. cbn [sep_loop].
    assert (X : forall m rest, exec (If matchTokenNext keep [","] Then sep_loop (prog g) keep m Else ret tt)%v rest =
       match rest with
       | t :: r => if matches [","] t then epre (kept keep [t]) (exec (sep_loop (prog g) keep m) r) else EOk tt rest []
       | [] => EOk tt [] []
       end).
    { intros m' rest'. rewrite exec_bind, exec_matchTokenNext. destruct rest' as [|t r]; [reflexivity|].
      destruct (matches [","] t); reflexivity. }
    apply outside_bind with (sg := ss); [apply IHg; auto| |].
    + intros [|t q].
      * left. rewrite X. cbn [app]. change (matches [","] "(") with false. exists []. reflexivity.
      * destruct (matches [","] t) eqn:M.
        -- destruct (IH q) as [H|(o & I & H)].
           ++ left. rewrite X. cbn [app]. rewrite M. destruct (exec (sep_loop (prog g) keep n) (q ++ "(" :: m)); exact H.
           ++ right. exists o. split; auto. intros x n'. rewrite X. cbn [app]. rewrite M. specialize (H x n').
              destruct (exec (sep_loop (prog g) keep n') (q ++ "(" :: left 0 ++ x)); exact H.
        -- left. rewrite X. cbn [app]. rewrite M. exists (t :: q). reflexivity.
    + intros s I. exists (Some s). split; [intros s' Q; injection Q as <-; exact I|]. intros x n'. rewrite X.
      destruct s as [|[|[|s]]]; cbn; eauto.
Qed.

Lemma script_after : forall d, after (script d) = Some [].
Proof. intros []; vm_compute; reflexivity. Qed.

Theorem hangs_never : forall d l e, hangs d l -> Forall ne l -> ~ verdict d l e.
Proof.
  intros d l e (p & m & -> & O & U) G V. assert (NV := V). destruct V as [N [n V]].
  destruct (outside_prog _ (script d) [] (script_after d) m U n p) as [H|(o & I & H)].
  - rewrite V in H. destruct e as [[] rest out|rest| |]; [| | |congruence].
    + destruct H as [q ->]. apply verdict_ok in NV as [NV _]. destruct q; discriminate.
    + destruct H as [q ->]. destruct (O [] bal_nil) as (more & out & v & L). rewrite <- app_assoc in L. cbn [app] in L.
      assert (V1 : verdict d (p ++ "(" :: more) (EOk tt [] out)) by (apply verdict_ok; eauto).
      assert (V2 : verdict d (p ++ "(" :: more) (EErr (q ++ "(" :: more))).
      { split; [discriminate|]. exists n. exact (err_local _ _ _ _ _ V more). }
      pose proof (verdict_det _ _ _ _ V1 V2). discriminate.
    + exact (calm_prog _ (script d) n _ G V).
  - assert (Q : o = None) by (destruct o as [s|]; auto; elim (I s eq_refl)). subst o.
    assert (B : balanced (left 0)) by (cbn; repeat (apply bal_tok; [discriminate|discriminate|]); constructor).
    destruct (O _ B) as (more & out & v & L). rewrite <- app_assoc in L. cbn [app] in L.
    assert (V1 : verdict d (p ++ "(" :: left 0 ++ more) (EOk tt [] out)) by (apply verdict_ok; eauto).
    destruct V1 as [_ [n' V1]]. specialize (H more n'). rewrite V1 in H. destruct H as (s & H & _). discriminate.
Qed.

(** ** Texts *)

Lemma tokens_ne : forall d ddl l, tokens d ddl l -> Forall ne l.
Proof. intros d ddl l T. eapply Forall_impl; [|eapply tokens_good, T]. intros t [X _]. exact X. Qed.

Theorem hangs_diverges : forall d ddl l, tokens d ddl l -> hangs d l -> diverges ddl d.
Proof.
  intros d ddl l T H. apply LayoutFacts.diverges_iff. intros ts err R. pose proof (tokens_ne _ _ _ T) as G.
  apply tokens_lexed in T as (toks & L & ->). apply returns_stage in R.
  inversion R as [e L'|toks' rest L' V|toks' rest out ts' L' V K]; subst; rewrite L in L'; [discriminate| |]; injection L' as <-;
    exact (hangs_never _ _ _ H G V).
Qed.

Theorem diverges_hangs : forall d ddl, diverges ddl d ->
  exists l, tokens d ddl l /\ (hangs d l \/ exists stmts, says d ddl stmts /\ readable stmts = false).
Proof.
  intros d ddl D. rewrite LayoutFacts.diverges_iff in D.
  destruct (lexed d (runes_of ddl)) as [toks|e|] eqn:L.
  - assert (T : tokens d ddl (strip toks)) by (apply tokens_lexed; eauto). exists (strip toks). split; auto.
    destruct (verdict_or_hangs d (strip toks)) as [[e V]|H]; [right|now left]. destruct e as [[] rest out|rest| |].
    + apply verdict_ok in V as [_ [v V]]. assert (S : says d ddl v) by (exists (strip toks), out; auto).
      exists v. split; auto. destruct (readable v) eqn:R; auto. exfalso. eapply D. exact (says_seen d ddl v S R).
    + exfalso. eapply D. apply returns_stage. econstructor 2; eauto.
    + exfalso. destruct V as [_ [n V]]. exact (calm_prog _ (script d) n _ (tokens_ne _ _ _ T) V).
    + now destruct V.
  - exfalso. eapply D. apply returns_stage. constructor; eauto.
  - exfalso. unfold lexed in L. destruct (scan d (M0 "") (runes_of ddl)); discriminate.
Qed.

Theorem rejected_iff : forall d ddl l, tokens d ddl l ->
  ((exists line near, rejected ddl d line near) <-> ~ hangs d l /\ ~ exists stmts, says d ddl stmts).
Proof.
  intros d ddl l T. pose proof (tokens_ne _ _ _ T) as G. split.
  - intros (line & near & R). apply tokens_lexed in T as (toks & L & ->). apply returns_stage in R.
    inversion R as [e L'|toks' rest L' V|]; subst; [congruence|]. rewrite L in L'. injection L' as <-. split.
    + intros H. exact (hangs_never _ _ _ H G V).
    + intros (stmts & l & out & T & S). apply tokens_lexed in T as (toks' & L2 & ->). rewrite L in L2. injection L2 as <-.
      assert (V' : verdict d (strip toks) (EOk tt [] out)) by (apply verdict_ok; eauto).
      pose proof (verdict_det _ _ _ _ V V'). discriminate.
  - intros [NH NS]. assert (T' := T). apply tokens_lexed in T as (toks & L & ->).
    destruct (verdict_or_hangs d (strip toks)) as [[e V]|H]; [|contradiction]. destruct e as [[] rest out|rest| |].
    + elim NS. apply verdict_ok in V as [_ [v V]]. exists v, (strip toks), out. auto.
    + do 2 eexists. apply returns_stage. econstructor 2; eauto.
    + exfalso. destruct V as [_ [n V]]. exact (calm_prog _ (script d) n _ G V).
    + now destruct V.
Qed.

Theorem diverges_iff_hangs : forall d ddl l, tokens d ddl l -> (forall stmts, says d ddl stmts -> readable stmts = true) ->
  (diverges ddl d <-> hangs d l).
Proof.
  intros d ddl l T R. split; [|now apply hangs_diverges]. intros D. apply diverges_hangs in D as (l' & T' & [H|(v & S & F)]).
  - now rewrite (tokens_det _ _ _ _ T T').
  - rewrite (R v S) in F. discriminate.
Qed.

(** Concrete cases. *)
Lemma is_hanging : forall d l, exec (prog (script d) (List.length l + Decide.depth (script d))) l = EFuel -> hangs d l.
Proof.
  intros d l E. destruct (verdict_or_hangs d l) as [[e [N [n V]]]|H]; auto. exfalso.
  pose proof (Decide.vmost_prog _ (script d) (script_loops d) l n (List.length l + Decide.depth (script d))) as M.
  rewrite V in M. rewrite M in E; auto.
Qed.
Lemma not_hanging : forall d l n e, exec (prog (script d) n) l = e -> e <> EFuel -> forallb (fun t => negb (t =? "")%string) l = true ->
  ~ hangs d l.
Proof.
  intros d l n e E N G H. apply (hangs_never d l e H); [|split; eauto].
  rewrite forallb_forall in G. apply Forall_forall. intros t I -> . now apply G in I.
Qed.
Ltac hanging := apply is_hanging; vm_compute; reflexivity.
Ltac unhanging := eapply (not_hanging _ _ 1000); [vm_compute; reflexivity|discriminate|reflexivity].
