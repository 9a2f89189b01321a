(** The syntax check ends if every opening bracket is closed. *)
From Coq Require Import String Ascii List Bool Arith NArith Lia.
From Verif Require Import GoStr GoNum Types Lexer VBase Exec Grammar GrammarFacts Ast Converter Parse Fuel Scan Spec Pipe
  Safe Seen Emit Conv Tokens Accept Meaning NoPanic Closed.
Import ListNotations.
Open Scope nat_scope.
Open Scope string_scope.

Lemma closed_inv : forall l, closed l = true <-> snd (unmatched l) = 0.
Proof. intros. apply Nat.eqb_eq. Qed.

Lemma closed_tail : forall t l, closed (t :: l) = true -> closed l = true.
Proof.
  intros t l. rewrite !closed_inv. cbn [unmatched]. destruct (unmatched l) as [a b].
  destruct (t =? "("), (t =? ")"), a; cbn; lia.
Qed.
Lemma closed_suffix : forall a b, closed (a ++ b) = true -> closed b = true.
Proof. induction a as [|t a IH]; intros b H; auto. apply IH. eapply closed_tail. exact H. Qed.

Lemma bal_app : forall a b, balanced a -> balanced b -> balanced (a ++ b).
Proof.
  intros a b A B. induction A as [|t l N1 N2 A IH|l1 l2 A1 IH1 A2 IH2]; cbn [app]; auto.
  - now constructor.
  - rewrite <- app_assoc. cbn [app]. now constructor.
Qed.

(** What follows an opening bracket ends with the closing one. *)
Lemma find_close : forall k l a, List.length l <= k -> unmatched l = (S a, 0) ->
  exists l1 r, balanced l1 /\ l = (l1 ++ ")" :: r)%list /\ unmatched r = (a, 0).
Proof.
  induction k as [|k IH]; intros [|t l] a K H; cbn in K; try lia; try discriminate.
  cbn [unmatched] in H. destruct (unmatched l) as [x y] eqn:U.
  destruct (t =? "(") eqn:E1.
  - apply String.eqb_eq in E1. subst t. destruct x as [|x]; [discriminate|]. inversion H; subst.
    destruct (IH l (S a) ltac:(lia) U) as (l1 & r & B & -> & R).
    rewrite app_length in K. cbn in K.
    destruct (IH r a ltac:(lia) R) as (l2 & r2 & B2 & -> & R2).
    exists ("(" :: l1 ++ ")" :: l2)%list, r2. split; [now constructor|]. split; auto.
    cbn. now rewrite <- app_assoc.
  - destruct (t =? ")") eqn:E2.
    + apply String.eqb_eq in E2. subst t. inversion H; subst. exists [], l. split; [constructor|auto].
    + inversion H; subst. destruct (IH l a ltac:(lia) U) as (l1 & r & B & -> & R).
      exists (t :: l1), r. apply String.eqb_neq in E1, E2. split; [now constructor|auto].
Qed.
Lemma closed_open : forall l, closed ("(" :: l) = true ->
  exists l1 r, balanced l1 /\ l = (l1 ++ ")" :: r)%list.
Proof.
  intros l H. apply closed_inv in H. cbn [unmatched] in H. destruct (unmatched l) as [[|a] b] eqn:U; cbn in H; [lia|]. subst.
  destruct (find_close _ l a (le_n _) U) as (l1 & r & B & E & _). eauto.
Qed.

(** ** Halting *)

Definition halts (p : nat -> V unit) (l : list string) : Prop :=
  exists r, r <> EFuel /\ eventually (fun n => exec (p n) l = r).

Lemma halts_bind : forall p q l, halts p l ->
  (forall n rest out, exec (p n) l = EOk tt rest out -> halts q rest) ->
  halts (fun n => bind (p n) (fun _ => q n)) l.
Proof.
  intros p q l (r & N & P) Q. destruct r as [[] rest out|rest| |]; [| | |congruence].
  - assert (H : halts q rest). { destruct P as [n0 P]. eapply (Q n0). apply P. lia. }
    destruct H as (r & N' & H). destruct (eventually_and _ _ P H) as [n0 X].
    exists (epre out r). split; [destruct r; cbn; congruence|]. exists n0. intros n L. destruct (X n L) as [X1 X2].
    rewrite exec_bind, X1. cbn [ebind]. now rewrite X2.
  - exists (EErr rest). split; [discriminate|]. revert P. apply eventually_mono. intros n E. now rewrite exec_bind, E.
  - exists EPanic. split; [discriminate|]. revert P. apply eventually_mono. intros n E. now rewrite exec_bind, E.
Qed.
Lemma halts_const : forall p l, exec p l <> EFuel -> halts (fun _ => p) l.
Proof. intros p l H. exists (exec p l). split; auto. now apply eventually_always. Qed.
Lemma halts_if : forall c p q l, (la_mem c (hd_error l) = true -> halts p l) ->
  (la_mem c (hd_error l) = false -> halts q l) ->
  halts (fun n => If look_la c Then p n Else q n)%v l.
Proof.
  intros c p q l P Q. destruct (la_mem c (hd_error l)) eqn:E.
  - destruct (P eq_refl) as (r & N & H). exists r. split; auto. revert H. apply eventually_mono. intros n X.
    rewrite (exec_if _ _ _ _ _ _ (exec_look_la c l)), E. exact X.
  - destruct (Q eq_refl) as (r & N & H). exists r. split; auto. revert H. apply eventually_mono. intros n X.
    rewrite (exec_if _ _ _ _ _ _ (exec_look_la c l)), E. exact X.
Qed.
Lemma halts_S : forall p l, halts (fun n => p (S n)) l -> halts p l.
Proof. intros p l (r & N & H). exists r. split; auto. now apply eventually_S. Qed.

Lemma halts_brackets : forall keep l, closed l = true -> halts (fun n => validateBrackets n keep) l.
Proof.
  intros keep l H. destruct l as [|t l].
  - exists (EErr []). split; [discriminate|]. apply eventually_always. reflexivity.
  - destruct (matches ["("] t) eqn:E.
    + apply match_lpar in E. subst. apply closed_open in H as (l1 & r & B & ->).
      pose proof (complete _ (Brackets keep) [FAny; FEof] eq_refl ("(" :: l1 ++ [")"]) r (kept keep ("(" :: l1 ++ [")"])) ("(" :: l1 ++ [")"])
        ltac:(exists l1; auto) (within_any _)) as C.
      exists (EOk tt r (kept keep ("(" :: l1 ++ [")"]))). split; [discriminate|].
      revert C. apply eventually_mono. intros n C. unfold accepts in C. cbn [app prog] in C.
      rewrite <- app_assoc in C. exact C.
    + exists (EErr (t :: l)). split; [discriminate|]. apply eventually_always. intros n.
      unfold validateBrackets, brackets_around. now rewrite exec_bind, exec_validateToken, E.
Qed.

Lemma halts_skip : forall l b, halts (fun n => skip_statement n b) l.
Proof.
  induction l as [|t l IH]; intros b; apply halts_S.
  - exists (EErr []). split; [discriminate|]. apply eventually_always. reflexivity.
  - assert (X : forall n, exec (skip_statement (S n) b) (t :: l) =
        if (if matches ["BEGIN"] t then true else b) then
          if matches ["END"] t then exec (skip_statement n false) l else exec (skip_statement n true) l
        else if matches [";"] t then EOk tt (t :: l) [] else exec (skip_statement n false) l).
    { intros n. cbn [skip_statement exec bind isOutOfRange hd_error matchToken tok].
      destruct (if matches ["BEGIN"] t then true else b); cbn [exec bind matchToken hd_error tok].
      - destruct (matches ["END"] t); reflexivity.
      - destruct (matches [";"] t); reflexivity. }
    destruct (if matches ["BEGIN"] t then true else b); [destruct (matches ["END"] t)|destruct (matches [";"] t)].
    + destruct (IH false) as (r & N & H). exists r. split; auto. revert H. apply eventually_mono. intros n H. now rewrite X.
    + destruct (IH true) as (r & N & H). exists r. split; auto. revert H. apply eventually_mono. intros n H. now rewrite X.
    + eexists. split; [|apply eventually_always; intros n; rewrite X; reflexivity]. discriminate.
    + destruct (IH false) as (r & N & H). exists r. split; auto. revert H. apply eventually_mono. intros n H. now rewrite X.
Qed.

(** A program of a grammar that eats moves on. *)
Lemma eats_shorter : forall A (g : gr A) n l rest out, eats g = true -> loops_eat g = true ->
  exec (prog g n) l = EOk tt rest out -> List.length rest < List.length l.
Proof.
  intros A g n l rest out E L H. apply (sound _ _ L) in H as (l1 & v & -> & H).
  apply eats_lang in H; auto. destruct l1; [congruence|]. rewrite app_length. cbn. lia.
Qed.

Theorem halts_prog : forall A (g : gr A), loops_eat g = true -> forall l, closed l = true -> halts (prog g) l.
Proof.
  induction g; cbn [loops_eat]; intros LE l CL.
  - apply halts_const. discriminate.
  - apply halts_const. rewrite exec_emits. discriminate.
  - apply halts_const. rewrite exec_one. destruct l as [|t l]; [discriminate|].
    destruct (cmem c t); [discriminate|]. destruct t, c; discriminate.
  - apply halts_if; intros _; apply halts_const; discriminate.
  - apply halts_if; intros _; apply halts_const; discriminate.
  - now apply halts_brackets.
  - apply halts_skip.
  - apply andb_true_iff in LE as [L1 L2]. cbn [prog]. apply halts_bind; auto.
    intros n rest out H. apply IHg2; auto. apply exec_suffix in H as [l1 ->]. eapply closed_suffix; eauto.
  - now apply IHg.
  - apply andb_true_iff in LE as [L1 L2]. cbn [prog]. apply halts_if; auto.
  - apply andb_true_iff in LE as [L1 L2]. cbn [prog].
    remember (List.length l) as k. revert l CL Heqk. induction k as [k IH] using lt_wf_ind. intros l CL ->.
    apply halts_S. cbn [while_loop]. apply halts_if; intros _; [|apply halts_const; discriminate].
    apply halts_bind; [now apply IHg|]. intros n rest out H.
    pose proof (eats_shorter _ _ _ _ _ _ L1 L2 H). eapply IH; eauto.
    apply exec_suffix in H as [l1 ->]. eapply closed_suffix; eauto.
  - apply andb_true_iff in LE as [L1 L2]. cbn [prog]. generalize (@nil string).
    remember (List.length l) as k. revert l CL Heqk. induction k as [k IH] using lt_wf_ind. intros l CL -> ls.
    apply halts_S. cbn [whileu_loop]. apply halts_if; intros _; [|apply halts_const; discriminate].
    destruct (contains ls (key (tok (hd_error l)))) eqn:E.
    + exists (EErr l). split; [discriminate|]. apply eventually_always. intros n. cbn [bind token exec]. now rewrite E.
    + assert (X : halts (fun n => bind (prog g n) (fun _ => whileu_loop (prog g) c key n (ls ++ [key (tok (hd_error l))]))) l).
      { apply halts_bind; [now apply IHg|]. intros n rest out H.
        pose proof (eats_shorter _ _ _ _ _ _ L1 L2 H). eapply IH; eauto.
        apply exec_suffix in H as [l1 ->]. eapply closed_suffix; eauto. }
      destruct X as (r & N & X). exists r. split; auto. revert X. apply eventually_mono. intros n X.
      cbn [bind token exec]. now rewrite E.
  - cbn [prog].
    remember (List.length l) as k. revert l CL Heqk. induction k as [k IH] using lt_wf_ind. intros l CL ->.
    apply halts_S. cbn [sep_loop]. apply halts_bind; [now apply IHg|]. intros n rest out H.
    assert (Len : List.length rest <= List.length l).
    { apply exec_suffix in H as [l1 ->]. rewrite app_length. lia. }
    assert (CR : closed rest = true) by (apply exec_suffix in H as [l1 ->]; eapply closed_suffix; eauto).
    assert (X : forall m, exec (If matchTokenNext keep [","] Then sep_loop (prog g) keep m Else ret tt)%v rest =
       match rest with
       | t :: r => if matches [","] t then epre (kept keep [t]) (exec (sep_loop (prog g) keep m) r) else EOk tt rest []
       | [] => EOk tt [] []
       end).
    { intros m. rewrite exec_bind, exec_matchTokenNext. destruct rest as [|t r]; [reflexivity|].
      destruct (matches [","] t); reflexivity. }
    destruct rest as [|t r].
    + eexists. split; [|apply eventually_always; intros m; rewrite X; reflexivity]. discriminate.
    + destruct (matches [","] t).
      * assert (Y : halts (sep_loop (prog g) keep) r).
        { eapply IH; [|eapply closed_tail; eauto|reflexivity]. cbn in Len. lia. }
        destruct Y as (y & N & Y). exists (epre (kept keep [t]) y). split; [destruct y; cbn; congruence|].
        revert Y. apply eventually_mono. intros m Y. rewrite X. now rewrite Y.
      * eexists. split; [|apply eventually_always; intros m; rewrite X; reflexivity]. discriminate.
Qed.

(** ** Parse *)

Theorem verdict_exists : forall d l, closed l = true -> exists e, verdict d l e.
Proof.
  intros d l H. destruct (halts_prog _ (script d) (script_loops d) l H) as (r & N & [n X]).
  exists r. split; auto. exists n. apply X. lia.
Qed.

Theorem total_readable : forall d ddl,
  (forall l, tokens d ddl l -> closed l = true) ->
  (forall stmts, says d ddl stmts -> readable stmts = true) ->
  exists ts err, returns ddl d ts err.
Proof.
  intros d ddl CL SF. destruct (lexed d (runes_of ddl)) as [toks|e|] eqn:L.
  - assert (T : tokens d ddl (strip toks)) by (apply tokens_lexed; eauto).
    destruct (verdict_exists d _ (CL _ T)) as [e V]. destruct e as [[] rest out|rest| |].
    + apply verdict_ok in V as [_ [v V]].
      assert (S : says d ddl v) by (exists (strip toks), out; auto).
      do 2 eexists. apply (says_seen d ddl v S). auto.
    + do 2 eexists. apply returns_stage. econstructor 2; eauto.
    + exfalso. destruct V as [_ [n V]]. eapply (calm_prog _ (script d) n); [|exact V].
      eapply Forall_impl; [|eapply tokens_good, T]. intros t [X _]. exact X.
    + now destruct V.
  - do 2 eexists. apply returns_stage. constructor; eauto.
  - exfalso. unfold lexed in L. destruct (scan d (M0 "") (runes_of ddl)); discriminate.
Qed.
