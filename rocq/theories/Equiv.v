(** Equivalence of validator programs under a condition on the next token, and tactics. *)
From Coq Require Import String Ascii List Bool Arith Lia.
From Verif Require Import GoStr GoNum Types Lexer VBase Words Exec Grammar GrammarFacts.
Import ListNotations.
Open Scope string_scope.
Open Scope v_scope.

Definition eqh {A} (P : option string -> Prop) (p q : V A) : Prop :=
  forall l, P (hd_error l) -> exec p l = exec q l.
Definition top (o : option string) : Prop := True.

Lemma eqh_equiv : forall A (p q : V A), eqh top p q -> equiv p q.
Proof. intros A p q H l. now apply H. Qed.
Lemma equiv_eqh : forall A P (p q : V A), equiv p q -> eqh P p q.
Proof. intros A P p q H l _. apply H. Qed.
Lemma eqh_refl : forall A P (p : V A), eqh P p p.
Proof. intros A P p l _. reflexivity. Qed.

Lemma eqh_seq : forall P (p p' : V unit) (q q' : V unit),
  eqh P p p' -> eqh top q q' -> eqh P (p ;; q) (p' ;; q').
Proof.
  intros P p p' q q' H K l HP. rewrite !exec_bind, (H l HP).
  destruct (exec p' l); simpl; auto. f_equal. now apply K.
Qed.

(** The test [matchToken ws] in the model is the test [look_la (next_in ws)] of the parser. *)
Lemma exec_matchToken : forall ws l, matches ws EOF = false ->
  exec (matchToken ws) l = EOk (la_mem (next_in ws) (hd_error l)) l [].
Proof.
  intros ws [|t l] H; cbn [matchToken exec hd_error tok la_mem next_in la_eof la_words la_neg].
  - now rewrite H.
  - now rewrite xorb_false_r.
Qed.

Lemma eqh_case : forall A (P : option string -> Prop) ws (p p' q q' : V A), matches ws EOF = false ->
  eqh (fun o => P o /\ la_mem (next_in ws) o = true) p p' ->
  eqh (fun o => P o /\ la_mem (next_in ws) o = false) q q' ->
  eqh P (If matchToken ws Then p Else q) (If look_la (next_in ws) Then p' Else q').
Proof.
  intros A P ws p p' q q' E H K l HP.
  rewrite (exec_if _ _ _ _ _ _ (exec_matchToken ws l E)).
  rewrite (exec_if _ _ _ _ _ _ (exec_look_la (next_in ws) l)).
  destruct (la_mem (next_in ws) (hd_error l)) eqn:X; [apply H|apply K]; auto.
Qed.

Lemma eqh_next : forall (P : option string -> Prop) keep ws (p p' q q' : V unit), matches ws EOF = false ->
  eqh top p p' ->
  eqh (fun o => P o /\ la_mem (next_in ws) o = false) q q' ->
  eqh P (If matchTokenNext keep ws Then p Else q)
        (If look_la (next_in ws) Then (one keep (CW ws) ;; p') Else q').
Proof.
  intros P keep ws p p' q q' E H K l HP.
  rewrite (exec_if _ _ _ _ _ _ (exec_look_la (next_in ws) l)).
  rewrite exec_bind, exec_matchTokenNext.
  destruct l as [|t l].
  - rewrite E. cbn [ebind]. rewrite epre_nil. cbn [hd_error la_mem next_in la_eof]. apply K. auto.
  - cbn [hd_error la_mem next_in la_words la_neg]. rewrite xorb_false_r.
    destruct (matches ws t) eqn:X; cbn [ebind].
    + rewrite exec_bind, exec_one. cbn [cmem]. rewrite X. cbn [ebind]. f_equal. now apply H.
    + rewrite epre_nil. apply K. split; [exact HP|].
      cbn [hd_error la_mem next_in la_words la_neg]. now rewrite X.
Qed.

Lemma eqh_next1 : forall (P : option string -> Prop) keep ws (q q' : V unit), matches ws EOF = false ->
  eqh (fun o => P o /\ la_mem (next_in ws) o = false) q q' ->
  eqh P (If matchTokenNext keep ws Then ret tt Else q)
        (If look_la (next_in ws) Then one keep (CW ws) Else q').
Proof.
  intros P keep ws q q' E K l HP.
  rewrite (exec_if _ _ _ _ _ _ (exec_look_la (next_in ws) l)).
  rewrite exec_bind, exec_matchTokenNext.
  destruct l as [|t l].
  - rewrite E. cbn [ebind]. rewrite epre_nil. cbn [hd_error la_mem next_in la_eof]. apply K. auto.
  - cbn [hd_error la_mem next_in la_words la_neg]. rewrite xorb_false_r.
    destruct (matches ws t) eqn:X; cbn [ebind].
    + rewrite exec_one. cbn [cmem]. rewrite X. cbn [ret exec epre]. now rewrite app_nil_r.
    + rewrite epre_nil. apply K. split; [exact HP|].
      cbn [hd_error la_mem next_in la_words la_neg]. now rewrite X.
Qed.

Lemma eqh_skipOpt : forall P keep ws, matches ws EOF = false ->
  eqh P (skipOpt keep ws) (If look_la (next_in ws) Then one keep (CW ws) Else ret tt).
Proof.
  intros P keep ws E l HP. unfold skipOpt. rewrite exec_bind, exec_matchTokenNext.
  rewrite (exec_if _ _ _ _ _ _ (exec_look_la (next_in ws) l)).
  destruct l as [|t l].
  - rewrite E. reflexivity.
  - cbn [hd_error la_mem next_in la_words la_neg]. rewrite xorb_false_r, exec_one. cbn [cmem].
    destruct (matches ws t); cbn [ebind ret exec epre]; now rewrite ?app_nil_r.
Qed.

(** A program that must begin with a word fails where that word is not next. *)
Lemma eqh_fail : forall (P : option string -> Prop) keep ws (q : V unit),
  (forall o, P o -> la_mem (next_in ws) o = false) ->
  eqh P syntaxError (one keep (CW ws) ;; q).
Proof.
  intros P keep ws q H l HP. apply H in HP. rewrite exec_bind, exec_one. destruct l as [|t l]; auto.
  cbn [hd_error la_mem next_in la_words la_neg] in HP. rewrite xorb_false_r in HP.
  cbn [cmem]. rewrite HP. destruct t; reflexivity.
Qed.
Lemma eqh_fail1 : forall (P : option string -> Prop) keep ws,
  (forall o, P o -> la_mem (next_in ws) o = false) ->
  eqh P syntaxError (one keep (CW ws)).
Proof.
  intros P keep ws H l HP. apply H in HP. rewrite exec_one. destruct l as [|t l]; auto.
  cbn [hd_error la_mem next_in la_words la_neg] in HP. rewrite xorb_false_r in HP.
  cbn [cmem]. rewrite HP. destruct t; reflexivity.
Qed.

(** Where the test is known, the parser's choice is known. *)
Lemma eqh_known_false : forall A (P : option string -> Prop) ws (p q q' : V A),
  (forall o, P o -> la_mem (next_in ws) o = false) -> eqh P p q' ->
  eqh P p (If look_la (next_in ws) Then q Else q').
Proof.
  intros A P ws p q q' H K l HP.
  rewrite (exec_if _ _ _ _ _ _ (exec_look_la (next_in ws) l)), (H _ HP). now apply K.
Qed.
Lemma eqh_known_true : forall A (P : option string -> Prop) ws (p q q' : V A),
  (forall o, P o -> la_mem (next_in ws) o = true) -> eqh P p q ->
  eqh P p (If look_la (next_in ws) Then q Else q').
Proof.
  intros A P ws p q q' H K l HP.
  rewrite (exec_if _ _ _ _ _ _ (exec_look_la (next_in ws) l)), (H _ HP). now apply K.
Qed.

Lemma eqh_weaken : forall A (P Q : option string -> Prop) (p q : V A),
  eqh Q p q -> (forall o, P o -> Q o) -> eqh P p q.
Proof. intros A P Q p q H I l HP. apply H. auto. Qed.

Lemma equiv_trans : forall A (p q r : V A), equiv p q -> equiv q r -> equiv p r.
Proof. intros A p q r H K l. now rewrite H. Qed.
Lemma equiv_sym : forall A (p q : V A), equiv p q -> equiv q p.
Proof. intros A p q H l. now rewrite H. Qed.

Lemma la_cons_false : forall w ws o,
  la_mem (next_in (w :: ws)) o = false <->
  la_mem (next_in [w]) o = false /\ la_mem (next_in ws) o = false.
Proof.
  intros w ws [t|]; cbn [la_mem next_in la_eof la_words la_neg].
  - rewrite !xorb_false_r, matches_cons, orb_false_iff. tauto.
  - tauto.
Qed.

Lemma la_app : forall a b o,
  la_mem (next_in (a ++ b)) o = la_mem (next_in a) o || la_mem (next_in b) o.
Proof.
  intros a b [t|]; cbn [la_mem next_in la_eof la_words la_neg]; auto.
  now rewrite !xorb_false_r, matches_app.
Qed.

(** Comparing a loop of the model with a loop of the parser whose test is a list of words. *)
Lemma sep_equiv : forall (f : nat -> V unit) body keep,
  f 0 = OutOfFuel -> (forall n, f (S n) = (body n ;; If matchTokenNext keep [","] Then f n Else ret tt)) ->
  forall p, (forall n, equiv (body n) (p n)) -> forall n, equiv (f n) (sep_loop p keep n).
Proof.
  intros f body keep H0 HS p Hp. induction n as [|n IH].
  - rewrite H0. apply equiv_refl.
  - rewrite HS. cbn [sep_loop]. apply equiv_bind; auto. intros _.
    apply equiv_bind; [apply equiv_refl|]. intros []; [exact IH|apply equiv_refl].
Qed.

(** Reassociation. *)
Lemma eqh_assoc_r : forall (P : option string -> Prop) (p a b k : V unit),
  eqh P p (a ;; b ;; k) -> eqh P p ((a ;; b) ;; k).
Proof. intros P p a b k H l HP. rewrite (H l HP). symmetry. apply bind_assoc. Qed.
Lemma eqh_assoc_l : forall (P : option string -> Prop) (q a b k : V unit),
  eqh P (a ;; b ;; k) q -> eqh P ((a ;; b) ;; k) q.
Proof. intros P q a b k H l HP. rewrite <- (H l HP). apply bind_assoc. Qed.
Lemma if_seq : forall (c : V bool) (a b k : V unit),
  equiv ((If c Then a Else b) ;; k) (If c Then (a ;; k) Else (b ;; k)).
Proof.
  intros c a b k l. rewrite !exec_bind. destruct (exec c l) as [x r o|r| |]; cbn [ebind]; auto.
  destruct x; rewrite exec_bind; destruct (exec _ r); cbn [epre ebind]; auto; now rewrite epre_app.
Qed.
Lemma eqh_if_r : forall (P : option string -> Prop) (p a b k : V unit) c,
  eqh P p (If c Then (a ;; k) Else (b ;; k)) -> eqh P p ((If c Then a Else b) ;; k).
Proof. intros P p a b k c H l HP. rewrite (H l HP). symmetry. apply if_seq. Qed.
Lemma eqh_if_l : forall (P : option string -> Prop) (q a b k : V unit) c,
  eqh P (If c Then (a ;; k) Else (b ;; k)) q -> eqh P ((If c Then a Else b) ;; k) q.
Proof. intros P q a b k c H l HP. rewrite <- (H l HP). apply if_seq. Qed.

(** [ret tt ;; k] is [k]. *)
Lemma eqh_ret_r : forall (P : option string -> Prop) (p k : V unit), eqh P p k -> eqh P p (ret tt ;; k).
Proof. intros. assumption. Qed.

(** A mandatory word. *)
Lemma eqh_must : forall (P : option string -> Prop) keep ws (p p' : V unit), matches ws EOF = false ->
  eqh top p p' ->
  eqh P (If matchTokenNext keep ws Then p Else syntaxError) (one keep (CW ws) ;; p').
Proof.
  intros P keep ws p p' E H l HP. rewrite !exec_bind, exec_matchTokenNext, exec_one.
  destruct l as [|t l].
  - rewrite E. reflexivity.
  - cbn [cmem]. destruct (matches ws t); cbn [ebind].
    + f_equal. now apply H.
    + destruct t; reflexivity.
Qed.

(** The first test of a loop body. *)
Lemma eqh_loop : forall (P : option string -> Prop) ws1 ws2 (p a b k r : V unit),
  eqh P p (If look_la (next_in ws1) Then (a ;; k) Else
           (If look_la (next_in ws2) Then (b ;; k) Else r)) ->
  eqh P p (If look_la (next_in (ws1 ++ ws2)) Then
             ((If look_la (next_in ws1) Then a Else b) ;; k) Else r).
Proof.
  intros P ws1 ws2 p a b k r H l HP. rewrite (H l HP). clear H HP p P.
  rewrite (exec_if _ _ _ _ _ _ (exec_look_la (next_in (ws1 ++ ws2)) l)).
  rewrite (exec_if _ _ _ _ _ _ (exec_look_la (next_in ws1) l)).
  rewrite la_app, (if_seq (look_la (next_in ws1)) a b k l).
  rewrite (exec_if _ _ _ _ _ _ (exec_look_la (next_in ws1) l)).
  destruct (la_mem (next_in ws1) (hd_error l)); cbn [orb]; auto.
  now rewrite (exec_if _ _ _ _ _ _ (exec_look_la (next_in ws2) l)).
Qed.

Lemma eqh_next_seq : forall (P : option string -> Prop) keep ws (p p' k q q' : V unit), matches ws EOF = false ->
  eqh top p (p' ;; k) ->
  eqh (fun o => P o /\ la_mem (next_in ws) o = false) q q' ->
  eqh P (If matchTokenNext keep ws Then p Else q)
        (If look_la (next_in ws) Then ((one keep (CW ws) ;; p') ;; k) Else q').
Proof.
  intros P keep ws p p' k q q' E H K l HP.
  rewrite (eqh_next P keep ws p (p' ;; k) q q' E H K l HP).
  rewrite !(exec_if _ _ _ _ _ _ (exec_look_la (next_in ws) l)).
  destruct (la_mem _ _); auto. symmetry. apply bind_assoc.
Qed.

(** After a loop, its test fails. *)
Lemma while_ends : forall body c n l u rest out,
  exec (while_loop body c n) l = EOk u rest out -> la_mem c (hd_error rest) = false.
Proof.
  intros body c n. induction n as [|n IH]; intros l u rest out; [discriminate|].
  cbn [while_loop]. rewrite (exec_if _ _ _ _ _ _ (exec_look_la c l)).
  destruct (la_mem c (hd_error l)) eqn:E.
  - rewrite exec_bind. destruct (exec (body n) l) as [a r o|r| |]; try discriminate. cbn [ebind].
    destruct (exec (while_loop body c n) r) as [a' r' o'|r'| |] eqn:F; try discriminate.
    cbn [epre]. intros H. inversion H; subst. eauto.
  - intros H. inversion H; subst. exact E.
Qed.

Lemma while_notnext : forall body c n ws,
  (forall o, la_mem (next_in ws) o = true -> la_mem c o = true) ->
  equiv (while_loop body c n)
        (while_loop body c n ;; If look_la (next_in ws) Then syntaxError Else ret tt).
Proof.
  intros body c n ws H l. rewrite exec_bind.
  destruct (exec (while_loop body c n) l) as [u rest out|r| |] eqn:E; auto.
  cbn [ebind]. rewrite (exec_if _ _ _ _ _ _ (exec_look_la (next_in ws) rest)).
  apply while_ends in E. destruct (la_mem (next_in ws) (hd_error rest)) eqn:F.
  - apply H in F. congruence.
  - cbn. destruct u. now rewrite app_nil_r.
Qed.

Lemma la_incl : forall a b o, forallb (fun w => contains b w) a = true ->
  la_mem (next_in a) o = true -> la_mem (next_in b) o = true.
Proof.
  intros a b [t|] H; cbn [la_mem next_in la_eof la_words la_neg]; auto.
  rewrite !xorb_false_r. intros M. apply matches_In in M as (w & I & M).
  eapply matches_from; eauto. rewrite forallb_forall in H. apply contains_spec. auto.
Qed.

(** A word that is one of several, and not the first, is one of the others. *)
Lemma la_drop : forall w ws o,
  la_mem (next_in (w :: ws)) o = true -> la_mem (next_in [w]) o = false ->
  la_mem (next_in ws) o = true.
Proof.
  intros w ws [t|]; cbn [la_mem next_in la_eof la_words la_neg]; [|discriminate].
  rewrite !xorb_false_r, matches_cons. intros H E. now rewrite E in H.
Qed.

Lemma eqh_assume_true : forall A (P : option string -> Prop) ws (p q : V A) r, matches ws EOF = false ->
  (forall o, P o -> la_mem (next_in ws) o = true) -> eqh P p r ->
  eqh P (If matchToken ws Then p Else q) r.
Proof.
  intros A P ws p q r E H K l HP.
  rewrite (exec_if _ _ _ _ _ _ (exec_matchToken ws l E)), (H _ HP). now apply K.
Qed.

(** The last alternative, which begins with a fixed word. *)
Lemma eqh_last : forall (P : option string -> Prop) keep ws (p q : V unit), matches ws EOF = false ->
  eqh (fun o => P o /\ la_mem (next_in ws) o = true) p (one keep (CW ws) ;; q) ->
  eqh P (If matchToken ws Then p Else syntaxError) (one keep (CW ws) ;; q).
Proof.
  intros P keep ws p q E H l HP.
  rewrite (exec_if _ _ _ _ _ _ (exec_matchToken ws l E)).
  destruct (la_mem (next_in ws) (hd_error l)) eqn:F; [now apply H|].
  apply (eqh_fail (fun o => la_mem (next_in ws) o = false)); auto.
Qed.

(** Tests for the end of the text. *)
Lemma eqh_eof : forall (P : option string -> Prop) (p q p' : V unit),
  eqh (fun o => P o /\ o = None) p p' -> eqh (fun o => P o /\ o <> None) q p' ->
  eqh P (If isOutOfRange Then p Else q) p'.
Proof.
  intros P p q p' H K [|t l] HP; rewrite exec_bind; cbn [isOutOfRange exec hd_error ebind]; rewrite epre_nil.
  - now apply H.
  - apply K. split; [exact HP|discriminate].
Qed.

(** Reading a word that is known to be next. *)
Lemma eqh_next_set : forall (P : option string -> Prop) keep ws,
  (forall o, P o -> la_mem (next_in ws) o = true) ->
  eqh P (next_set keep) (one keep (CW ws)).
Proof.
  intros P keep ws H l HP. apply H in HP. destruct l as [|t l]; [discriminate|].
  cbn [hd_error la_mem next_in la_words la_neg] in HP. rewrite xorb_false_r in HP.
  rewrite exec_next_set, exec_one. cbn [cmem]. now rewrite HP.
Qed.
Lemma eqh_next_known : forall (P : option string -> Prop) ws,
  (forall o, P o -> la_mem (next_in ws) o = true) ->
  eqh P next (one false (CW ws)).
Proof.
  intros P ws H l HP. rewrite <- (eqh_next_set P false ws H l HP).
  destruct l; reflexivity.
Qed.

Lemma eqh_must1 : forall (P : option string -> Prop) keep ws, matches ws EOF = false ->
  eqh P (If matchTokenNext keep ws Then ret tt Else syntaxError) (one keep (CW ws)).
Proof.
  intros P keep ws E l HP. rewrite exec_bind, exec_matchTokenNext, exec_one.
  destruct l as [|t l].
  - rewrite E. reflexivity.
  - cbn [cmem]. destruct (matches ws t); cbn [ebind ret exec epre].
    + now rewrite app_nil_r.
    + destruct t; reflexivity.
Qed.

(** A word of a list, when some words of it are already excluded. *)
Lemma eqh_words : forall (P : option string -> Prop) keep a b ex,
  (forall o, P o -> la_mem (next_in ex) o = false) ->
  forallb (fun w => contains (ex ++ b)%list w) a = true -> forallb (fun w => contains a w) b = true ->
  eqh P (validateToken keep a) (one keep (CW b)).
Proof.
  intros P keep a b ex H H1 H2 l HP. apply H in HP. rewrite exec_validateToken, exec_one.
  destruct l as [|t l]; auto. cbn [cmem]. replace (matches b t) with (matches a t).
  - destruct (matches a t); auto. destruct t; reflexivity.
  - pose proof (la_incl a (ex ++ b) (Some t) H1) as X. pose proof (la_incl b a (Some t) H2) as Y.
    rewrite la_app in X. cbn [hd_error la_mem next_in la_words la_neg] in *.
    rewrite !xorb_false_r in *. rewrite HP in X. cbn [orb] in X.
    destruct (matches a t), (matches b t); intuition congruence.
Qed.

Lemma eqh_brackets : forall (P : option string -> Prop) n keep (p q q' : V unit),
  eqh (fun o => P o /\ la_mem (next_in ["("]) o = true) p (validateBrackets n keep ;; q') ->
  eqh P (If matchToken ["("] Then p Else syntaxError) (validateBrackets n keep ;; q').
Proof.
  intros P n keep p q q' H l HP.
  rewrite (exec_if _ _ _ _ _ _ (exec_matchToken ["("] l eq_refl)).
  destruct (la_mem (next_in ["("]) (hd_error l)) eqn:F; [now apply H|].
  unfold validateBrackets, brackets_around. rewrite exec_bind, exec_bind.
  pose proof (eqh_fail1 (fun o => la_mem (next_in ["("]) o = false) keep ["("] (fun o X => X) l F) as Y.
  cbn [one] in Y. rewrite <- Y. reflexivity.
Qed.

Lemma eqh_notnext : forall (P : option string -> Prop) ws,
  (forall o, P o -> la_mem (next_in ws) o = false) ->
  eqh P (ret tt) (If look_la (next_in ws) Then syntaxError Else ret tt).
Proof. intros. apply eqh_known_false; [assumption|apply eqh_refl]. Qed.
Lemma eqh_isnext : forall (P : option string -> Prop) ws,
  (forall o, P o -> la_mem (next_in ws) o = true) ->
  eqh P (ret tt) (If look_la (next_in ws) Then ret tt Else syntaxError).
Proof. intros. apply eqh_known_true; [assumption|apply eqh_refl]. Qed.

(** An optional word that may not come again. *)
Lemma eqh_skipOpt_notnext : forall P keep ws, matches ws EOF = false ->
  eqh P (skipOpt keep ws) (If look_la (next_in ws) Then one keep (CW ws)
                           Else (If look_la (next_in ws) Then syntaxError Else ret tt)).
Proof.
  intros P keep ws E l HP. rewrite (eqh_skipOpt P keep ws E l HP).
  rewrite !(exec_if _ _ _ _ _ _ (exec_look_la (next_in ws) l)).
  destruct (la_mem (next_in ws) (hd_error l)); reflexivity.
Qed.

(** Loops until ";". *)
Lemma eqh_until : forall (P : option string -> Prop) (p p' : V unit),
  eqh (fun o => P o /\ la_mem (mk_la [";"] true false) o = true) p p' ->
  eqh P (If isOutOfRange Then ret tt Else If matchToken [";"] Then ret tt Else p)
        (If look_la (mk_la [";"] true false) Then p' Else ret tt).
Proof.
  intros P p p' H l HP.
  rewrite (exec_if _ _ _ _ _ _ (exec_look_la _ l)).
  destruct l as [|t l]; [reflexivity|].
  rewrite (exec_if _ isOutOfRange _ _ _ false) by reflexivity.
  rewrite (exec_if _ _ _ _ _ _ (exec_matchToken [";"] (t :: l) eq_refl)).
  specialize (H (t :: l)). cbn [hd_error la_mem next_in la_words la_neg] in *.
  rewrite xorb_false_r, xorb_true_r in *.
  destruct (matches [";"] t); [reflexivity|]. apply H. auto.
Qed.

(** Loops until the end of the text. *)
Lemma script_equiv : forall (f : nat -> V unit) body p,
  f 0 = OutOfFuel ->
  (forall n, f (S n) = (If isOutOfRange Then ret tt Else (body n ;; f n))) ->
  (forall n, equiv (body n) (p n)) ->
  forall n, equiv (f n) (while_loop p (mk_la [] true false) n).
Proof.
  intros f body p H0 HS Hb. induction n as [|n IH]; [rewrite H0; apply equiv_refl|].
  rewrite HS. cbn [while_loop]. intros [|t l]; [reflexivity|].
  rewrite (exec_if _ isOutOfRange _ _ _ false) by reflexivity.
  rewrite (exec_if _ _ _ _ _ _ (exec_look_la _ (t :: l))). cbn [hd_error la_mem la_words la_neg].
  change (xorb (matches [] t) true) with true. cbn match.
  rewrite !exec_bind, (Hb n (t :: l)).
  destruct (exec (p n) (t :: l)); cbn [ebind]; auto. f_equal. apply IH.
Qed.

Create HintDb eqv.
Ltac eqv_step :=
  first
  [ apply eqh_refl
  | solve [eauto 2 with eqv]
  | apply eqh_skipOpt; reflexivity
  | apply eqh_next1; [reflexivity|]
  | apply eqh_next; [reflexivity| |]
  | apply eqh_case; [reflexivity| |]
  | apply eqh_seq ].
Ltac eqv := repeat eqv_step.

(** Removes the excluded words from a list of possible words. *)
Ltac drop_words :=
  repeat match goal with
  | A : la_mem (next_in (?w :: ?ws)) ?o = true, B : la_mem (next_in [?w]) ?o = false |- _ =>
      pose proof (la_drop w ws o A B); clear A
  end.
