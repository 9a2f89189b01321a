(** The tokens before a syntax error are the beginning of a script. *)
From Coq Require Import String Ascii List Bool Arith Lia.
From Verif Require Import GoStr GoNum Types Lexer VBase Exec Grammar GrammarFacts Scan Spec Pipe.
From Verif Require GSqlite GPostgres GMysql.
Import ListNotations.
Open Scope nat_scope.
Open Scope string_scope.

Definition in_words (ws : list string) (o : option string) : bool :=
  match o with Some t => matches ws t | None => false end.
Definition is_semi (o : option string) : bool := match o with Some t => t =? ";" | None => false end.

(** A token that is the only token of its text. *)
Definition writable (d : rdbms) (t : string) : bool :=
  match lexed d (runes_of t) with LexOk [t'] => (t =? t') && negb (is_nl t) | _ => false end.
Lemma writable_lexed : forall d t, writable d t = true -> lexed d (runes_of t) = LexOk [t] /\ is_nl t = false.
Proof.
  intros d t H. unfold writable in H. destruct (lexed d (runes_of t)) as [[|t' [|]]| |]; try discriminate.
  apply andb_true_iff in H as [H N]. apply String.eqb_eq in H. subst. split; auto. now destruct (is_nl t').
Qed.
Notation all_writable d l := (Forall (fun t => writable d t = true) l).
Section Dialect.
Variable d : rdbms.
Lemma writable_open : writable d "(" = true.
Proof. destruct d; vm_compute; reflexivity. Qed.
Lemma writable_close : writable d ")" = true.
Proof. destruct d; vm_compute; reflexivity. Qed.
Lemma writable_end : writable d "END" = true.
Proof. destruct d; vm_compute; reflexivity. Qed.

(** A token of the class. *)
Definition rep (c : tclass) : option string :=
  let t := match c with
    | CW (w :: _) => to_upper w
    | CW [] => ""
    | CName _ => "x_"
    | CPos | CLit _ => "1"
    | CStr _ => "'x'"
    end in
  if cmem c t && writable d t then Some t else None.
Lemma rep_mem : forall c t, rep c = Some t -> cmem c t = true /\ writable d t = true.
Proof. intros c t. unfold rep. destruct (_ && _) eqn:E; [|discriminate]. intros H. inversion H; subst. now apply andb_true_iff. Qed.

(** An instance of [g] that can be followed by [x]. *)
Fixpoint wit {A} (g : gr A) (x : option string) : option (list string) :=
  match g with
  | Eps | Put _ | While _ _ | WhileU _ _ _ => Some []
  | One _ c => match rep c with Some t => Some [t] | None => None end
  | NotNext ws => if in_words ws x then None else Some []
  | IsNext ws => if in_words ws x then Some [] else None
  | Brackets _ => Some ["("; ")"]
  | Skip => if is_semi x then Some [] else None
  | Seq g h =>
      match wit h x with
      | Some b => match wit g (hdr b x) with Some a => Some (a ++ b)%list | None => None end
      | None => None
      end
  | Map _ g => wit g x
  | Cond _ g h => match wit h x with Some l => Some l | None => wit g x end
  | SepBy _ g => wit g x
  end.
Lemma wit_writable : forall A (g : gr A) x l, wit g x = Some l -> all_writable d l.
Proof.
  induction g; intros x l H; cbn [wit] in H; try (inversion H; subst; now constructor).
  - destruct (rep c) eqn:E; inversion H; subst. apply rep_mem in E as [_ E]. now repeat constructor.
  - destruct (in_words ws x); inversion H. constructor.
  - destruct (in_words ws x); inversion H. constructor.
  - inversion H; subst. constructor; [apply writable_open|]. constructor; [apply writable_close|]. constructor.
  - destruct (is_semi x); inversion H. constructor.
  - destruct (wit g2 x) as [b|] eqn:E2; [|discriminate]. destruct (wit g1 (hdr b x)) as [a|] eqn:E1; inversion H; subst.
    apply Forall_app. eauto.
  - eauto.
  - destruct (wit g2 x) as [b|] eqn:E2; [|eauto]. inversion H; subst. eauto.
  - eauto.
Qed.
Lemma wit_lang : forall A (g : gr A) x l, wit g x = Some l -> exists o v, lang g l x o v.
Proof.
  induction g; intros x l H; cbn [wit] in H; cbn [lang].
  - inversion H. exists [], tt. auto.
  - inversion H. exists out, tt. auto.
  - destruct (rep c) eqn:E; inversion H; subst. apply rep_mem in E as [E _]. eauto.
  - unfold in_words in H. exists [], tt. destruct x as [t|]; [destruct (matches ws t) eqn:E|]; inversion H; auto.
  - unfold in_words in H. exists [], tt. destruct x as [t|]; [destruct (matches ws t) eqn:E|]; inversion H; auto.
  - inversion H. do 2 eexists. exists []. split; [constructor|]. split; [reflexivity|]. split; reflexivity.
  - unfold is_semi in H. destruct x as [t|]; [|discriminate]. destruct (t =? ";") eqn:E; inversion H; subst.
    apply String.eqb_eq in E. subst. exists [], tt. split; [constructor|]. auto.
  - destruct (wit g2 x) as [b|] eqn:E2; [|discriminate]. destruct (wit g1 (hdr b x)) as [a|] eqn:E1; inversion H; subst.
    apply IHg1 in E1 as (o1 & v1 & H1). apply IHg2 in E2 as (o2 & v2 & H2).
    exists (o1 ++ o2)%list, (v1, v2). exists a, b, o1, o2. auto.
  - apply IHg in H as (o & v & H). exists o, (f v). eauto.
  - destruct (wit g2 x) as [b|] eqn:E2.
    + inversion H; subst. apply IHg2 in E2 as (o & v & E2). eauto.
    + apply IHg1 in H as (o & v & H). eauto.
  - inversion H. exists [], [], []. constructor.
  - inversion H. exists [], [], []. split; constructor.
  - apply IHg in H as (o & v & H). exists o, [v]. now constructor.
Qed.

(** The words without those on which the test succeeds. *)
Definition remove (c : la) (ws : list string) : list string := filter (fun w => negb (la_is c true (FW w))) ws.
Lemma in_words_In : forall ws o, in_words ws o = true <-> exists w, In w ws /\ in_words [w] o = true.
Proof.
  intros ws [t|]; cbn [in_words]; [|split; [discriminate|now intros (w & _ & H)]]. split.
  - apply matches_In.
  - intros (w & I & H). eapply matches_from; eauto.
Qed.
Lemma remove_spec : forall c ws o, la_mem c o = false -> in_words ws o = true -> in_words (remove c ws) o = true.
Proof.
  intros c ws o M H. apply in_words_In in H as (w & I & H). apply in_words_In. exists w. split; auto.
  apply filter_In. split; auto. destruct (la_is c true (FW w)) eqn:E; auto.
  apply (la_is_spec _ _ _ o) in E; [congruence|]. destruct o; auto.
Qed.

(** The test that has failed when the parser of [g] is done. *)
Fixpoint fin {A} (g : gr A) : option la :=
  match g with
  | While c _ | WhileU c _ _ => Some c
  | Seq _ h => fin h
  | Map _ g => fin g
  | _ => None
  end.
Definition remove_opt (o : option la) (ws : list string) : list string :=
  match o with Some c => remove c ws | None => ws end.
Lemma while_fin : forall p c n l rest o, exec (while_loop p c n) l = EOk tt rest o -> la_mem c (hd_error rest) = false.
Proof.
  intros p c. induction n as [|n IH]; intros l rest o; [discriminate|].
  cbn [while_loop]. rewrite (exec_if _ _ _ _ _ _ (exec_look_la c l)). destruct (la_mem c (hd_error l)) eqn:M.
  - rewrite exec_bind. destruct (exec (p n) l) as [[] r1 o1|r1| |]; try discriminate. cbn [ebind].
    destruct (exec (while_loop p c n) r1) as [[] r2 o2|r2| |] eqn:E2; try discriminate.
    intros H. inversion H; subst. eauto.
  - intros H. inversion H; subst. auto.
Qed.
Lemma whileu_fin : forall p c key n ls l rest o, exec (whileu_loop p c key n ls) l = EOk tt rest o ->
  la_mem c (hd_error rest) = false.
Proof.
  intros p c key. induction n as [|n IH]; intros ls l rest o; [discriminate|].
  cbn [whileu_loop]. rewrite (exec_if _ _ _ _ _ _ (exec_look_la c l)). destruct (la_mem c (hd_error l)) eqn:M.
  - cbn [bind token exec]. destruct (contains _ _); [discriminate|].
    rewrite exec_bind. destruct (exec (p n) l) as [[] r1 o1|r1| |]; try discriminate. cbn [ebind].
    destruct (exec (whileu_loop p c key n _) r1) as [[] r2 o2|r2| |] eqn:E2; try discriminate.
    intros H. inversion H; subst. eauto.
  - intros H. inversion H; subst. auto.
Qed.
Lemma fin_spec : forall A (g : gr A) c n l rest o, fin g = Some c -> exec (prog g n) l = EOk tt rest o ->
  la_mem c (hd_error rest) = false.
Proof.
  induction g; intros c' n l rest o F H; cbn [fin] in F; try discriminate; cbn [prog] in H.
  - rewrite exec_bind in H. destruct (exec (prog g1 n) l) as [[] r1 o1|r1| |]; try discriminate. cbn [ebind] in H.
    destruct (exec (prog g2 n) r1) as [[] r2 o2|r2| |] eqn:E2; try discriminate. inversion H; subst. eauto.
  - eauto.
  - inversion F; subst. eapply while_fin; eauto.
  - inversion F; subst. eapply whileu_fin; eauto.
Qed.
Lemma remove_fin : forall A (g : gr A) n l rest o ws, exec (prog g n) l = EOk tt rest o ->
  in_words ws (hd_error rest) = true -> in_words (remove_opt (fin g) ws) (hd_error rest) = true.
Proof.
  intros A g n l rest o ws H I. destruct (fin g) as [c|] eqn:F; cbn [remove_opt]; auto.
  apply remove_spec; auto. eapply fin_spec; eauto.
Qed.

(** What follows an instance of [g] may be replaced by [x], unless it is one of the words [isn g]. *)
Fixpoint swap {A} (g : gr A) (x : option string) : bool :=
  match g with
  | Eps | Put _ | One _ _ | Brackets _ | IsNext _ => true
  | NotNext ws => negb (in_words ws x)
  | Skip => is_semi x
  | Seq g h => (eats h || swap g x) && swap h x
  | Map _ g => swap g x
  | Cond _ g h => swap g x && swap h x
  | While _ g | WhileU _ _ g => swap g x
  | SepBy _ g => swap g x
  end.
Fixpoint isn {A} (g : gr A) : list string :=
  match g with
  | IsNext ws => ws
  | Seq g h => (if eats h then [] else remove_opt (fin h) (isn g)) ++ isn h
  | Map _ g => isn g
  | Cond _ g h => isn g ++ isn h
  | While c g | WhileU c _ g => isn g
  | SepBy _ g => isn g
  | _ => []
  end%list.
Definition swap_for {A} (L : list string -> option string -> list string -> A -> Prop) (p : V unit) (x : option string)
  (ws : list string) := forall l rest o, exec p l = EOk tt rest o ->
  exists l1 v, l = (l1 ++ rest)%list /\ L l1 (hd_error rest) o v /\ (L l1 x o v \/ in_words ws (hd_error rest) = true).
Lemma in_words_app : forall a b o, in_words (a ++ b) o = in_words a o || in_words b o.
Proof. intros a b [t|]; cbn; auto. apply matches_app. Qed.

Lemma while_swap : forall A (L : list string -> option string -> list string -> A -> Prop) p c x ws,
  (forall n, swap_for L (p n) x ws) -> (forall l nxt out (v : A), L l nxt out v -> l <> []) ->
  forall n, swap_for (fun l y o vs => exists hs, star L l y o vs hs) (while_loop p c n) x ws.
Proof.
  intros A L p c x ws S NE. induction n as [|n IH]; intros l rest o; [discriminate|].
  cbn [while_loop]. rewrite (exec_if _ _ _ _ _ _ (exec_look_la c l)). destruct (la_mem c (hd_error l)).
  - rewrite exec_bind. destruct (exec (p n) l) as [[] r1 o1|r1| |] eqn:E1; try discriminate. cbn [ebind].
    destruct (exec (while_loop p c n) r1) as [[] r2 o2|r2| |] eqn:E2; try discriminate.
    intros H. inversion H; subst. clear H. apply S in E1 as (l1 & v & -> & H1 & X1).
    apply IH in E2 as (l2 & vs & -> & [hs H2] & X2). pose proof (NE _ _ _ _ H1). destruct l1 as [|t l1]; [congruence|].
    exists ((t :: l1) ++ l2)%list, (v :: vs). split; [now rewrite <- app_assoc|]. split.
    + exists (t :: hs). cbn [app]. constructor; auto. now rewrite <- hd_error_hdr.
    + destruct l2 as [|t2 l2]; cbn [app hd_error] in *.
      * destruct X1 as [X1|X1]; [left|now right]. exists (t :: hs). rewrite app_nil_r.
        inversion H2; subst. rewrite <- (app_nil_r l1). constructor; auto. constructor.
      * destruct X2 as [[hs' X2]|X2]; [left|now right]. exists (t :: hs'). constructor; auto.
  - intros H. inversion H; subst. exists [], []. split; auto. split; [exists []; constructor|]. left. exists []. constructor.
Qed.
Lemma whileu_swap : forall A (L : list string -> option string -> list string -> A -> Prop) p c key x ws,
  (forall n, swap_for L (p n) x ws) -> (forall l nxt out (v : A), L l nxt out v -> l <> []) ->
  forall n ls, NoDup ls ->
  swap_for (fun l y o vs => exists hs, star L l y o vs hs /\ NoDup (ls ++ map key hs)%list) (whileu_loop p c key n ls) x ws.
Proof.
  intros A L p c key x ws S NE. induction n as [|n IH]; intros ls ND l rest o; [discriminate|].
  cbn [whileu_loop]. rewrite (exec_if _ _ _ _ _ _ (exec_look_la c l)). destruct (la_mem c (hd_error l)).
  - cbn [bind token exec]. destruct (contains ls (key (tok (hd_error l)))) eqn:C; [discriminate|]. apply contains_false in C.
    rewrite exec_bind. destruct (exec (p n) l) as [[] r1 o1|r1| |] eqn:E1; try discriminate. cbn [ebind].
    destruct (exec (whileu_loop p c key n (ls ++ [key (tok (hd_error l))])) r1) as [[] r2 o2|r2| |] eqn:E2; try discriminate.
    intros H. inversion H; subst. clear H. apply S in E1 as (l1 & v & -> & H1 & X1).
    pose proof (NE _ _ _ _ H1). destruct l1 as [|t l1]; [congruence|]. cbn [app hd_error tok] in C, E2.
    apply IH in E2 as (l2 & vs & -> & (hs & H2 & N2) & X2).
    2:{ apply NoDup_rev in ND. rewrite <- (rev_involutive (ls ++ [key t])).
        apply NoDup_rev. rewrite rev_app_distr. cbn. constructor; auto. now rewrite <- in_rev. }
    rewrite <- app_assoc in N2. cbn [app] in N2.
    exists ((t :: l1) ++ l2)%list, (v :: vs). split; [now rewrite <- app_assoc|]. split.
    + exists (t :: hs). cbn [app map]. split; auto. constructor; auto. now rewrite <- hd_error_hdr.
    + destruct l2 as [|t2 l2]; cbn [app hd_error] in *.
      * destruct X1 as [X1|X1]; [left|now right]. exists (t :: hs). rewrite app_nil_r. split; auto.
        inversion H2; subst. rewrite <- (app_nil_r l1). constructor; auto. constructor.
      * destruct X2 as [(hs' & X2 & N2')|X2]; [left|now right]. exists (t :: hs').
        rewrite <- app_assoc in N2'. split; auto. constructor; auto.
  - intros H. inversion H; subst. exists [], []. split; auto.
    assert (Z : exists hs : list string, star L [] x [] [] hs /\ NoDup (ls ++ map key hs)%list).
    { exists []. split; [constructor|]. cbn. now rewrite app_nil_r. }
    split; [|now left]. exists []. split; [constructor|]. cbn. now rewrite app_nil_r.
Qed.
Lemma sep_swap : forall A (L : list string -> option string -> list string -> A -> Prop) p keep x ws,
  (forall n, swap_for L (p n) x ws) -> forall n, swap_for (sepby L keep) (sep_loop p keep n) x ws.
Proof.
  intros A L p keep x ws S. induction n as [|n IH]; intros l rest o; [discriminate|]. cbn [sep_loop]. rewrite exec_bind.
  destruct (exec (p n) l) as [[] r1 o1|r1| |] eqn:E1; try discriminate.
  apply S in E1 as (l1 & v & -> & H1 & X1). cbn [ebind]. rewrite exec_bind, exec_matchTokenNext.
  assert (Z : exists l0 v0, (l1 ++ r1)%list = (l0 ++ r1)%list /\ sepby L keep l0 (hd_error r1) o1 v0 /\
     (sepby L keep l0 x o1 v0 \/ in_words ws (hd_error r1) = true)).
  { exists l1, [v]. split; auto. split; [now constructor|]. destruct X1; [left|now right]. now constructor. }
  destruct r1 as [|t r1].
  - change (matches [","] EOF) with false. cbn. rewrite ?app_nil_r. intros H. inversion H; subst. rewrite ?app_nil_r in Z. exact Z.
  - destruct (matches [","] t) eqn:E.
    + apply match_comma in E. subst t. cbn [ebind].
      destruct (exec (sep_loop p keep n) r1) as [[] r2 o2|r2| |] eqn:E2; try discriminate.
      apply IH in E2 as (l2 & vs & -> & H2 & X2). intros H. inversion H; subst.
      exists (l1 ++ "," :: l2)%list, (v :: vs). split; [now rewrite <- app_assoc|].
      split; [now constructor|]. destruct X2; [left|now right]. now constructor.
    + cbn. rewrite ?app_nil_r. intros H. inversion H; subst. exact Z.
Qed.

Lemma swap_exec : forall A (g : gr A), loops_eat g = true -> forall x, swap g x = true ->
  forall n, swap_for (lang g) (prog g n) x (isn g).
Proof.
  assert (D : forall A (g : gr A) n x ws, loops_eat g = true -> (forall l y o v, lang g l y o v -> lang g l x o v) ->
    swap_for (lang g) (prog g n) x ws).
  { intros A g n x ws LE F l rest o H. apply (sound _ g LE) in H as (l1 & v & -> & H). exists l1, v. eauto. }
  induction g; intros LE x S n; try (apply D; [exact LE|cbn [lang]; intros; assumption]); cbn [loops_eat swap isn] in *.
  - apply D; auto. cbn [lang]. intros l y o v (-> & -> & _). split; [auto|]. split; [auto|].
    destruct x as [t|]; [|exact I]. cbn in S. now destruct (matches ws t).
  - intros l rest o H. apply (sound _ (IsNext ws) LE) in H as (l1 & v & -> & H). exists l1, v. split; auto. split; auto.
    right. destruct H as (_ & _ & H). destruct (hd_error rest); [exact H|contradiction].
  - apply D; auto. cbn [lang]. intros l y o v (H & -> & _). split; [auto|]. split; [auto|].
    destruct x as [t|]; [|discriminate]. cbn in S. apply String.eqb_eq in S. now subst.
  - apply andb_true_iff in LE as [L1 L2]. apply andb_true_iff in S as [S1 S2]. intros l rest o H. cbn [prog] in H.
    rewrite exec_bind in H. destruct (exec (prog g1 n) l) as [[] r1 o1|r1| |] eqn:E1; try discriminate. cbn [ebind] in H.
    destruct (exec (prog g2 n) r1) as [[] r2 o2|r2| |] eqn:E2; try discriminate. inversion H; subst.
    pose proof E1 as E1'. apply (sound _ g1 L1) in E1' as (l1 & v1 & -> & H1).
    pose proof E2 as E2'. apply (IHg2 L2 _ S2) in E2' as (l2 & v2 & -> & H2 & X2).
    destruct (eats g2) eqn:EA.
    + pose proof (eats_lang _ _ _ _ _ _ EA H2). destruct l2 as [|t l2]; [congruence|].
      exists (l1 ++ t :: l2)%list, (v1, v2). split; [now rewrite <- app_assoc|]. split.
      * exists l1, (t :: l2), o1, o2. auto.
      * destruct X2 as [X2|X2]; [left|right; auto]. exists l1, (t :: l2), o1, o2. auto.
    + cbn [orb] in S1. destruct l2 as [|t l2].
      * cbn [app] in *. apply (IHg1 L1 _ S1) in E1 as (l1' & v1' & EQ & H1' & X1). apply app_inv_tail in EQ. subst l1'.
        exists l1, (v1', v2). split; auto. split.
        { exists l1, [], o1, o2. rewrite app_nil_r. auto. }
        destruct X1 as [X1|X1]; [|right].
        { destruct X2 as [X2|X2]; [left|right; rewrite in_words_app, X2; apply orb_true_r].
          exists l1, [], o1, o2. rewrite app_nil_r. auto. }
        rewrite in_words_app. apply (remove_fin _ g2 _ _ _ _ _ E2) in X1. now rewrite X1.
      * exists (l1 ++ t :: l2)%list, (v1, v2). split; [now rewrite <- app_assoc|]. split.
        { exists l1, (t :: l2), o1, o2. auto. }
        destruct X2 as [X2|X2]; [left|right; rewrite in_words_app, X2; apply orb_true_r].
        exists l1, (t :: l2), o1, o2. auto.
  - intros l rest o H. cbn [prog] in H. apply (IHg LE _ S) in H as (l1 & v & -> & H & X). exists l1, (f v). cbn [lang].
    split; auto. split; eauto. destruct X; [left|now right]. eauto.
  - apply andb_true_iff in LE as [L1 L2]. apply andb_true_iff in S as [S1 S2]. intros l rest o H. cbn [prog] in H.
    rewrite (exec_if _ _ _ _ _ _ (exec_look_la c l)) in H. rewrite in_words_app. cbn [lang]. destruct (la_mem c (hd_error l)).
    + apply (IHg1 L1 _ S1) in H as (l1 & v & -> & H & X). exists l1, v. split; auto. split; auto.
      destruct X as [X|X]; [auto|right; now rewrite X].
    + apply (IHg2 L2 _ S2) in H as (l1 & v & -> & H & X). exists l1, v. split; auto. split; auto.
      destruct X as [X|X]; [auto|right; rewrite X; apply orb_true_r].
  - apply andb_true_iff in LE as [L1 L2]. apply (while_swap _ (lang g)); [now apply IHg|].
    intros. eapply eats_lang; eauto.
  - apply andb_true_iff in LE as [L1 L2]. apply (whileu_swap _ (lang g) (prog g) c key x (isn g)); [now apply IHg| |constructor].
    intros. eapply eats_lang; eauto.
  - apply (sep_swap _ (lang g)). now apply IHg.
Qed.

(** The parser of [g] does not fail at a first token out of [ws]. *)
Definition all_la (c : la) (b : bool) (ws : list string) : bool := forallb (fun w => la_is c b (FW w)) ws.
Definition keep_false (c : la) (ws : list string) : list string := filter (fun w => negb (la_is c false (FW w))) ws.
Lemma keep_false_spec : forall c ws o, la_mem c o = true -> in_words ws o = true -> in_words (keep_false c ws) o = true.
Proof.
  intros c ws o M H. apply in_words_In in H as (w & I & H). apply in_words_In. exists w. split; auto.
  apply filter_In. split; auto. destruct (la_is c false (FW w)) eqn:E; auto.
  apply (la_is_spec _ _ _ o) in E; [congruence|]. destruct o; auto.
Qed.
(** The words among [ws] at which the parser of [g] may succeed without reading anything. *)
Fixpoint stay {A} (g : gr A) (ws : list string) : list string :=
  match g with
  | Map _ g => stay g ws
  | Cond c g h => if eats g then remove c ws else ws
  | _ => ws
  end.
Lemma stay_spec : forall A (g : gr A), loops_eat g = true -> forall ws n l o, exec (prog g n) l = EOk tt l o ->
  in_words ws (hd_error l) = true -> in_words (stay g ws) (hd_error l) = true.
Proof.
  induction g; intros LE ws' n l o H I; cbn [stay]; auto; cbn [loops_eat prog] in *.
  - eauto.
  - destruct (eats g1) eqn:EA; auto. apply andb_true_iff in LE as [L1 L2]. apply remove_spec; auto.
    rewrite (exec_if _ _ _ _ _ _ (exec_look_la c l)) in H. destruct (la_mem c (hd_error l)) eqn:M; auto.
    apply (sound _ g1 L1) in H as (l1 & v & E & H). apply (f_equal (@List.length string)) in E. rewrite app_length in E.
    pose proof (eats_lang _ _ _ _ _ _ EA H). destruct l1; [congruence|]. cbn in E. lia.
Qed.
Fixpoint eager {A} (g : gr A) (ws : list string) : bool :=
  match g with
  | Eps | Put _ => true
  | One _ (CW ws') => forallb (fun w => contains ws' w) ws
  | Seq g h => eager g ws && (eats g || eager h (stay g ws))
  | Map _ g => eager g ws
  | Cond c g h => eager g (keep_false c ws) && eager h (remove c ws)
  | While c g | WhileU c _ g => eats g && (all_la c false ws || eager g ws)
  | _ => match ws with [] => true | _ => false end
  end.
Lemma all_la_mem : forall c b ws o, all_la c b ws = true -> in_words ws o = true -> la_mem c o = b.
Proof.
  intros c b ws o A I. apply in_words_In in I as (w & I & H). unfold all_la in A. rewrite forallb_forall in A.
  eapply la_is_spec; [apply A, I|]. destruct o; auto.
Qed.
Lemma shorter : forall (l1 r : list string), r = (l1 ++ r)%list -> l1 = [].
Proof. intros l1 r E. apply (f_equal (@List.length string)) in E. rewrite app_length in E. destruct l1; auto. cbn in E. lia. Qed.
Lemma err_suffix : forall A (m : V A) l rest, exec m l = EErr rest -> exists l1, l = (l1 ++ rest)%list.
Proof.
  induction m as [a|k IH|k IH|t k IH| | |]; intros l rest H; cbn [exec] in H; try discriminate.
  - eapply IH; eauto.
  - destruct l as [|t l]; [eapply IH; eauto|]. apply IH in H as [l1 ->]. now exists (t :: l1).
  - destruct (exec k l) eqn:E; try discriminate. inversion H; subst. now apply IH.
  - inversion H; subst. now exists [].
Qed.

Lemma eager_err : forall A (g : gr A), loops_eat g = true -> forall ws, eager g ws = true -> forall n l,
  in_words ws (hd_error l) = true -> exec (prog g n) l = EErr l -> False.
Proof.
  induction g; cbn [loops_eat eager]; intros LE ws' EA n l I H; cbn [prog] in *.
  all: try (destruct ws'; [|discriminate]; destruct l; discriminate).
  - rewrite exec_emits in H. discriminate.
  - destruct c as [ws0| | | |]; try (destruct ws'; [|discriminate]; destruct l; discriminate).
    rewrite exec_one in H. destruct l as [|t l]; [discriminate|]. cbn [hd_error] in I.
    apply in_words_In in I as (w & I & M). rewrite forallb_forall in EA. apply EA in I. apply contains_spec in I.
    cbn [cmem] in H. rewrite (matches_from _ _ _ I M) in H. discriminate.
  - apply andb_true_iff in LE as [L1 L2]. apply andb_true_iff in EA as [A1 A2]. rewrite exec_bind in H.
    destruct (exec (prog g1 n) l) as [[] r1 o1|r1| |] eqn:E1; try discriminate.
    + cbn [ebind] in H. destruct (exec (prog g2 n) r1) as [[] r2 o2|r2| |] eqn:E2; try discriminate.
      cbn in H. inversion H; subst. pose proof E2 as E2'. apply err_suffix in E2' as [l2 ->].
      pose proof E1 as E1'. apply (sound _ g1 L1) in E1' as (l1 & v & E & H1). rewrite app_assoc in E. apply shorter in E.
      apply app_eq_nil in E as [-> ->]. apply orb_true_iff in A2 as [A2|A2].
      * eapply eats_lang; eauto.
      * cbn [app] in *. eapply IHg2; eauto. eapply stay_spec; eauto.
    + cbn in H. inversion H; subst. eapply IHg1; eauto.
  - eapply IHg; eauto.
  - apply andb_true_iff in LE as [L1 L2]. apply andb_true_iff in EA as [A1 A2].
    rewrite (exec_if _ _ _ _ _ _ (exec_look_la c l)) in H. destruct (la_mem c (hd_error l)) eqn:M.
    + eapply IHg1; eauto. now apply keep_false_spec.
    + eapply IHg2; eauto. now apply remove_spec.
  - apply andb_true_iff in LE as [L1 L2]. apply andb_true_iff in EA as [EE EA].
    destruct n as [|n]; [discriminate|]. cbn [while_loop] in H.
    rewrite (exec_if _ _ _ _ _ _ (exec_look_la c l)) in H. destruct (la_mem c (hd_error l)) eqn:M; [|discriminate].
    apply orb_true_iff in EA as [EA|EA]; [rewrite (all_la_mem _ _ _ _ EA I) in M; discriminate|].
    rewrite exec_bind in H. destruct (exec (prog g n) l) as [[] r1 o1|r1| |] eqn:E1; try discriminate.
    + cbn [ebind] in H. destruct (exec (while_loop (prog g) c n) r1) as [[] r2 o2|r2| |] eqn:E2; try discriminate.
      cbn in H. inversion H; subst. apply err_suffix in E2 as [l2 ->].
      apply (sound _ g L2) in E1 as (l1 & v & E & H1). rewrite app_assoc in E. apply shorter in E.
      apply app_eq_nil in E as [-> ->]. eapply eats_lang; eauto.
    + cbn in H. inversion H; subst. eapply IHg; eauto.
  - apply andb_true_iff in LE as [L1 L2]. apply andb_true_iff in EA as [EE EA].
    destruct n as [|n]; [discriminate|]. cbn [whileu_loop] in H.
    rewrite (exec_if _ _ _ _ _ _ (exec_look_la c l)) in H. destruct (la_mem c (hd_error l)) eqn:M; [|discriminate].
    apply orb_true_iff in EA as [EA|EA]; [rewrite (all_la_mem _ _ _ _ EA I) in M; discriminate|].
    cbn [bind token exec contains existsb] in H.
    rewrite exec_bind in H. destruct (exec (prog g n) l) as [[] r1 o1|r1| |] eqn:E1; try discriminate.
    + cbn [ebind] in H. destruct (exec (whileu_loop (prog g) c key n _) r1) as [[] r2 o2|r2| |] eqn:E2; try discriminate.
      cbn in H. inversion H; subst. apply err_suffix in E2 as [l2 ->].
      apply (sound _ g L2) in E1 as (l1 & v & E & H1). rewrite app_assoc in E. apply shorter in E.
      apply app_eq_nil in E as [-> ->]. eapply eats_lang; eauto.
    + cbn in H. inversion H; subst. eapply IHg; eauto.
Qed.

(** After the test [c] has answered [b], [g] does not fail at once. *)
Fixpoint words_eqb (a b : list string) : bool :=
  match a, b with
  | [], [] => true
  | x :: a, y :: b => (x =? y) && words_eqb a b
  | _, _ => false
  end.
Lemma words_eqb_eq : forall a b, words_eqb a b = true -> a = b.
Proof.
  induction a as [|x a IH]; intros [|y b] H; cbn in H; try discriminate; auto.
  apply andb_true_iff in H as [E H]. apply String.eqb_eq in E. subst. f_equal. auto.
Qed.
Definition same (c : la) (ws : list string) : bool := words_eqb (la_words c) ws && negb (la_neg c) && negb (la_eof c).
Lemma same_spec : forall c ws o, same c ws = true -> la_mem c o = in_words ws o.
Proof.
  intros [w [] []] ws o H; unfold same in H; cbn [la_words la_neg la_eof negb] in H;
    rewrite ?andb_false_r in H; try discriminate.
  rewrite !andb_true_r in H. apply words_eqb_eq in H. subst. destruct o as [t|]; cbn; auto. apply xorb_false_r.
Qed.
Fixpoint never {A} (c : la) (b : bool) (g : gr A) : bool :=
  match g with
  | NotNext ws => negb b && same c ws
  | IsNext ws => b && same c ws
  | Map _ g => never c b g
  | _ => false
  end.
Lemma never_err : forall A (g : gr A) c b, never c b g = true -> forall n l r, la_mem c (hd_error l) = b ->
  exec (prog g n) l = EErr r -> False.
Proof.
  induction g; intros c' b N n l r M H; cbn [never] in N; try discriminate; cbn [prog] in H.
  - apply andb_true_iff in N as [B S]. apply (same_spec _ _ (hd_error l)) in S. destruct b; [discriminate|].
    rewrite (exec_if _ _ _ _ _ _ (exec_look_la _ l)) in H. rewrite S in M. unfold in_words in M.
    destruct l as [|t l]; cbn [hd_error la_mem next_in la_words la_neg la_eof] in *; [discriminate|].
    rewrite xorb_false_r, M in H. discriminate.
  - apply andb_true_iff in N as [B S]. apply (same_spec _ _ (hd_error l)) in S. destruct b; [|discriminate].
    rewrite (exec_if _ _ _ _ _ _ (exec_look_la _ l)) in H. rewrite S in M. unfold in_words in M.
    destruct l as [|t l]; cbn [hd_error la_mem next_in la_words la_neg la_eof] in *; [discriminate|].
    rewrite xorb_false_r, M in H. discriminate.
  - eauto.
Qed.

(** The tokens that [g]'s parser has read when it fails can be completed to an instance of [g] followed by [x]. *)
Definition is_some {A} (o : option A) : bool := match o with Some _ => true | None => false end.
Fixpoint viab {A} (g : gr A) (x : option string) : bool :=
  match g with
  | Eps | Put _ | Brackets _ => true
  | One _ c => is_some (rep c)
  | NotNext ws => negb (in_words ws x)
  | IsNext ws => in_words ws x
  | Skip => is_semi x
  | Seq g h =>
      match wit h x with
      | Some b => viab g (hdr b x) && viab h x && swap g (hdr b x) && eager h (isn g)
      | None => false
      end
  | Map _ g => viab g x
  | Cond c g h => (never c true g || viab g x) && (never c false h || viab h x)
  | While _ g | WhileU _ _ g => viab g x && swap g x && match isn g with [] => true | _ => false end
  | SepBy _ g => is_some (wit g x) && viab g x
  end.

Definition viab_for {A} (L : list string -> option string -> list string -> A -> Prop) (p : V unit) (x : option string) :=
  forall l r, exec p l = EErr r -> exists l1 l3 o v, l = (l1 ++ r)%list /\ all_writable d l3 /\ L (l1 ++ l3)%list x o v.

Lemma brackets_err : forall n keep l r, exec (validateBracketsAux n keep) l = EErr r -> False.
Proof.
  induction n as [|n IH]; intros keep l r; [discriminate|]. cbn [validateBracketsAux].
  rewrite (exec_if _ (matchToken [")"]) _ _ _ (matches [")"] (tok (hd_error l)))) by reflexivity.
  destruct (matches [")"] (tok (hd_error l))) eqn:E; [discriminate|].
  rewrite (exec_if _ (matchToken ["("]) _ _ _ (matches ["("] (tok (hd_error l)))) by reflexivity.
  destruct l as [|t l]; cbn [hd_error tok] in *.
  - change (matches ["("] EOF) with false. cbv iota. destruct keep; cbn; intros H.
    + destruct (exec (validateBracketsAux n true) []) eqn:X; try discriminate. eauto.
    + destruct (exec (validateBracketsAux n false) []) eqn:X; try discriminate. eauto.
  - destruct (matches ["("] t) eqn:F.
    + rewrite exec_bind. unfold brackets_around. rewrite exec_bind, exec_validateToken, F. cbn [ebind].
      rewrite exec_bind. destruct (exec (validateBracketsAux n keep) l) as [[] r1 o1|r1| |] eqn:E1; try discriminate.
      * apply brackets_sound in E1 as (l1 & _ & _ & _ & r' & ->). cbn [ebind]. rewrite exec_validateToken.
        change (matches [")"] ")") with true. cbv iota. cbn [epre ebind].
        destruct (exec (validateBracketsAux n keep) r') eqn:E2; try discriminate. intros _. eauto.
      * intros _. eauto.
    + rewrite exec_bind, exec_next_set. cbn [ebind].
      destruct (exec (validateBracketsAux n keep) l) eqn:E2; try discriminate. intros _. eauto.
Qed.

Lemma skip_err : forall n b l r, exec (skip_statement n b) l = EErr r -> r = [] /\
  exists l3, all_writable d l3 /\ if b then exists mid e l2, (l ++ l3)%list = (mid ++ e :: l2)%list /\
                Forall (fun t => matches ["END"] t = false) mid /\ matches ["END"] e = true /\ skipped l2
             else skipped (l ++ l3)%list.
Proof.
  induction n as [|n IH]; intros b l r; [discriminate|]. cbn [skip_statement]. destruct l as [|t l].
  - intros H. inversion H; subst. split; auto. destruct b.
    + exists ["END"]. split; [constructor; [apply writable_end|constructor]|]. exists [], "END", []. repeat split; auto. constructor.
    + exists []. split; constructor.
  - cbn [exec bind isOutOfRange hd_error matchToken tok].
    destruct (matches ["BEGIN"] t) eqn:B; [|destruct b].
    + cbn [exec bind hd_error tok].
      assert (NE : matches ["END"] t = false) by (apply matches_one in B as [->| ->]; reflexivity).
      rewrite NE. cbn [exec bind next]. intros H. apply IH in H as (-> & l3 & W & mid & e & l2 & E & F & M & S).
      split; auto. exists l3. split; auto. destruct b.
      * exists (t :: mid), e, l2. cbn [app]. rewrite E. repeat split; auto.
      * cbn [app]. rewrite E. now constructor.
    + cbn [exec bind hd_error tok]. destruct (matches ["END"] t) eqn:NE; cbn [exec bind next]; intros H;
        apply IH in H as (-> & l3 & W & H); split; auto; exists l3; split; auto.
      * exists [], t, (l ++ l3)%list. repeat split; auto.
      * destruct H as (mid & e & l2 & E & F & M & S). exists (t :: mid), e, l2. cbn [app]. rewrite E. repeat split; auto.
    + cbn [exec bind hd_error tok]. destruct (matches [";"] t) eqn:E; cbn [exec bind next ret]; [discriminate|].
      intros H. apply IH in H as (-> & l3 & W & H). split; auto. exists l3. split; auto. cbn [app]. constructor; auto.
      intros ->. discriminate.
Qed.

Section Loops.
Context {A : Type} (L : list string -> option string -> list string -> A -> Prop) (p : nat -> V unit) (x : option string).
Hypothesis Sound : forall n, sound_for L (p n).
Hypothesis Viab : forall n, viab_for L (p n) x.

Lemma sep_viab : forall keep w, (exists o v, L w x o v) -> forall n l r, exec (sep_loop p keep n) l = EErr r ->
  exists l1 l3 o vs, l = (l1 ++ r)%list /\ all_writable d l3 /\ sepby L keep (l1 ++ l3)%list x o vs.
Proof.
  intros keep w W. induction n as [|n IH]; intros l r; [discriminate|]. cbn [sep_loop]. rewrite exec_bind.
  destruct (exec (p n) l) as [[] r1 o1|r1| |] eqn:E1; try discriminate.
  - apply Sound in E1 as (l1 & v & -> & H1). cbn [ebind]. rewrite exec_bind, exec_matchTokenNext.
    destruct r1 as [|t r1]; [change (matches [","] EOF) with false; cbn; discriminate|].
    destruct (matches [","] t) eqn:E; [|cbn; discriminate].
    apply match_comma in E. subst t. cbn [ebind].
    destruct (exec (sep_loop p keep n) r1) as [a r2 o2|r2| |] eqn:E2; try discriminate.
    cbn. intros H. inversion H; subst. apply IH in E2 as (l2 & l3 & o & vs & -> & WR & H2).
    exists (l1 ++ "," :: l2)%list, l3. do 2 eexists. split; [now rewrite <- app_assoc|]. split; auto.
    rewrite <- app_assoc. cbn [app]. eapply sep_cons; eauto.
  - cbn. intros H. inversion H; subst. apply Viab in E1 as (l1 & l3 & o & v & -> & WR & H1).
    exists l1, l3, o, [v]. split; auto. split; auto. now constructor.
Qed.

Hypothesis NE : forall l nxt out (v : A), L l nxt out v -> l <> [].
Hypothesis Swap : forall n, swap_for L (p n) x [].

Lemma last_or_next : forall n l r1 o1, exec (p n) l = EOk tt r1 o1 ->
  exists l1 v, l = (l1 ++ r1)%list /\ l1 <> [] /\
    forall l2 r l3, r1 = (l2 ++ r)%list -> (l2 = [] -> l3 = []) -> L l1 (hdr (l2 ++ l3) x) o1 v.
Proof.
  intros n l r1 o1 H. apply Swap in H as (l1 & v & -> & H & [X|X]).
  - exists l1, v. split; auto. split; [eapply NE; eauto|]. intros [|t l2] r l3 -> E; cbn [app hdr hd_error] in *; auto.
    now rewrite E by auto.
  - destruct (hd_error r1); discriminate.
Qed.

Lemma while_viab : forall c n l r, exec (while_loop p c n) l = EErr r ->
  exists l1 l3 o vs hs, l = (l1 ++ r)%list /\ all_writable d l3 /\ (l1 = [] -> l3 = []) /\ star L (l1 ++ l3)%list x o vs hs.
Proof.
  intros c. induction n as [|n IH]; intros l r; [discriminate|].
  cbn [while_loop]. rewrite (exec_if _ _ _ _ _ _ (exec_look_la c l)).
  destruct (la_mem c (hd_error l)); [|discriminate].
  rewrite exec_bind. destruct (exec (p n) l) as [[] r1 o1|r1| |] eqn:E1; try discriminate.
  - apply last_or_next in E1 as (l1 & v & -> & N1 & H1). cbn [ebind].
    destruct (exec (while_loop p c n) r1) as [a r2 o2|r2| |] eqn:E2; try discriminate.
    cbn. intros H. inversion H; subst. apply IH in E2 as (l2 & l3 & o & vs & hs & -> & WR & Z & H2).
    destruct l1 as [|t l1]; [congruence|].
    exists ((t :: l1) ++ l2)%list, l3. do 3 eexists. split; [now rewrite <- app_assoc|]. split; auto. split; [discriminate|].
    rewrite <- app_assoc. cbn [app]. econstructor; eauto.
  - cbn. intros H. inversion H; subst. apply Viab in E1 as (l1 & l3 & o & v & -> & WR & H1).
    destruct l1 as [|t l1].
    + exists [], [], [], [], []. repeat split; auto; constructor.
    + exists (t :: l1), l3. do 3 eexists. split; auto. split; auto. split; [discriminate|]. rewrite <- (app_nil_r (_ ++ l3)).
      cbn [app]. econstructor; eauto. constructor.
Qed.

Lemma NoDup_snoc : forall (ls : list string) k, NoDup ls -> ~ In k ls -> NoDup (ls ++ [k])%list.
Proof.
  intros ls k ND C. apply NoDup_rev in ND. rewrite <- (rev_involutive (ls ++ [k])).
  apply NoDup_rev. rewrite rev_app_distr. cbn. constructor; auto. now rewrite <- in_rev.
Qed.

Lemma whileu_viab : forall c key n ls l r, exec (whileu_loop p c key n ls) l = EErr r -> NoDup ls ->
  exists l1 l3 o vs hs, l = (l1 ++ r)%list /\ all_writable d l3 /\ (l1 = [] -> l3 = []) /\ star L (l1 ++ l3)%list x o vs hs /\
    NoDup (ls ++ map key hs)%list.
Proof.
  intros c key. induction n as [|n IH]; intros ls l r; [discriminate|].
  cbn [whileu_loop]. rewrite (exec_if _ _ _ _ _ _ (exec_look_la c l)).
  destruct (la_mem c (hd_error l)); [|discriminate].
  cbn [bind token exec]. destruct (contains ls (key (tok (hd_error l)))) eqn:C.
  { cbn. intros H ND. inversion H; subst. exists [], [], [], [], []. repeat split; auto; [constructor|].
    cbn. now rewrite app_nil_r. }
  apply contains_false in C.
  rewrite exec_bind. destruct (exec (p n) l) as [[] r1 o1|r1| |] eqn:E1; try discriminate.
  - apply last_or_next in E1 as (l1 & v & -> & N1 & H1). cbn [ebind].
    destruct l1 as [|t l1]; [congruence|]. cbn [hd_error app tok] in *.
    destruct (exec (whileu_loop p c key n (ls ++ [key t])) r1) as [a r2 o2|r2| |] eqn:E2; try discriminate.
    cbn. intros X ND. inversion X; subst. apply IH in E2 as (l2 & l3 & o & vs & hs & -> & WR & Z & H2 & ND');
      [|now apply NoDup_snoc].
    exists ((t :: l1) ++ l2)%list, l3. exists (o1 ++ o)%list, (v :: vs), (t :: hs).
    split; [cbn; now rewrite <- app_assoc|]. split; auto. split; [discriminate|]. split.
    + rewrite <- app_assoc. cbn [app]. econstructor; eauto.
    + cbn [map]. now rewrite <- app_assoc in ND'.
  - cbn. intros H ND. inversion H; subst. apply Viab in E1 as (l1 & l3 & o & v & -> & WR & H1).
    destruct l1 as [|t l1].
    + exists [], [], [], [], []. repeat split; auto; [constructor|]. cbn. now rewrite app_nil_r.
    + exists (t :: l1), l3. exists (o ++ [])%list, [v], [t]. split; auto. split; auto. split; [discriminate|]. split.
      * rewrite <- (app_nil_r (_ ++ l3)). cbn [app]. econstructor; eauto. constructor.
      * cbn in C. now apply NoDup_snoc.
Qed.
End Loops.

Theorem viable : forall A (g : gr A), loops_eat g = true -> forall x, viab g x = true ->
  forall n, viab_for (lang g) (prog g n) x.
Proof.
  induction g; cbn [loops_eat viab]; intros LE x' VI n l r H; cbn [prog lang] in *.
  - discriminate.
  - rewrite exec_emits in H. discriminate.
  - destruct (rep c) as [t|] eqn:R; [|discriminate]. apply rep_mem in R as [R WR]. rewrite exec_one in H.
    assert (l = r).
    { destruct l as [|t' l]; [now inversion H|]. destruct (cmem c t'); [discriminate|]. destruct t', c; now inversion H. }
    subst. exists [], [t], (kept keep [t]), t. repeat split; auto.
  - rewrite (exec_if _ _ _ _ _ _ (exec_look_la _ l)) in H. destruct (la_mem _ _); [|discriminate].
    inversion H; subst. exists [], [], [], tt. split; [auto|]. split; [constructor|]. split; [auto|]. split; [auto|]. destruct x' as [t|]; auto. cbn in VI. now destruct (matches ws t).
  - rewrite (exec_if _ _ _ _ _ _ (exec_look_la _ l)) in H. destruct (la_mem _ _); [discriminate|].
    inversion H; subst. exists [], [], [], tt. split; [auto|]. split; [constructor|]. split; [auto|]. split; [auto|]. destruct x' as [t|]; auto. discriminate.
  - unfold validateBrackets, brackets_around in H. rewrite exec_bind, exec_validateToken in H.
    assert (l = r).
    { destruct l as [|t l]; [now inversion H|]. destruct (matches ["("] t) eqn:E; [|now inversion H].
      cbn [ebind] in H. rewrite exec_bind in H.
      destruct (exec (validateBracketsAux n keep) l) as [[] r1 o1|r1| |] eqn:E1; try discriminate.
      - apply brackets_sound in E1 as (l1 & B & -> & -> & r' & ->). cbn [ebind] in H.
        rewrite exec_validateToken in H. change (matches [")"] ")") with true in H. discriminate.
      - exfalso. eapply brackets_err; eauto. }
    subst. exists [], ["("; ")"]. do 2 eexists. split; auto. split; [constructor; [apply writable_open|constructor; [apply writable_close|constructor]]|]. exists []. split; [constructor|]. repeat split; auto.
  - apply skip_err in H as (-> & l3 & WR & H). unfold is_semi in VI. destruct x' as [t|]; [|discriminate].
    apply String.eqb_eq in VI. subst. exists l, l3, [], tt. rewrite app_nil_r. auto.
  - apply andb_true_iff in LE as [L1 L2]. destruct (wit g2 x') as [b|] eqn:W; [|discriminate].
    apply andb_true_iff in VI as [VI EA]. apply andb_true_iff in VI as [VI SW]. apply andb_true_iff in VI as [V1 V2].
    rewrite exec_bind in H. destruct (exec (prog g1 n) l) as [[] r1 o1|r1| |] eqn:E1; try discriminate.
    + apply (swap_exec _ g1 L1 _ SW) in E1 as (l1 & v1 & -> & H1 & X1). cbn [ebind] in H.
      destruct (exec (prog g2 n) r1) as [a r2 o2|r2| |] eqn:E2; try discriminate. cbn in H. inversion H; subst.
      pose proof E2 as E2'. apply (IHg2 L2 _ V2) in E2' as (l2 & l3 & o2 & v2 & -> & WR & H2).
      destruct l2 as [|t l2].
      * destruct X1 as [X1|X1]; [|exfalso; eapply (eager_err _ g2); eauto].
        pose proof (wit_writable _ _ _ _ W) as WW. apply wit_lang in W as (o & v & W). exists l1, b, (o1 ++ o)%list, (v1, v). split; auto. split; auto.
        exists l1, b, o1, o. repeat split; auto.
      * exists (l1 ++ t :: l2)%list, l3, (o1 ++ o2)%list, (v1, v2). split; [now rewrite <- app_assoc|]. split; auto.
        exists l1, ((t :: l2) ++ l3)%list, o1, o2. rewrite <- app_assoc. repeat split; auto.
    + cbn in H. inversion H; subst. apply (IHg1 L1 _ V1) in E1 as (l1 & l3 & o1 & v1 & -> & WR & H1).
      pose proof (wit_writable _ _ _ _ W) as WW. apply wit_lang in W as (o & v & W). exists l1, (l3 ++ b)%list, (o1 ++ o)%list, (v1, v). split; auto.
      split; [now apply Forall_app|].
      exists (l1 ++ l3)%list, b, o1, o. rewrite <- app_assoc. repeat split; auto.
  - apply (IHg LE _ VI) in H as (l1 & l3 & o & v & -> & WR & H). exists l1, l3, o, (f v). eauto.
  - apply andb_true_iff in LE as [L1 L2]. apply andb_true_iff in VI as [V1 V2].
    rewrite (exec_if _ _ _ _ _ _ (exec_look_la c l)) in H. destruct (la_mem c (hd_error l)) eqn:M.
    + apply orb_true_iff in V1 as [V1|V1]; [exfalso; eapply never_err; eauto|].
      apply (IHg1 L1 _ V1) in H as (l1 & l3 & o & v & -> & WR & H). exists l1, l3, o, v. auto.
    + apply orb_true_iff in V2 as [V2|V2]; [exfalso; eapply never_err; eauto|].
      apply (IHg2 L2 _ V2) in H as (l1 & l3 & o & v & -> & WR & H). exists l1, l3, o, v. auto.
  - apply andb_true_iff in LE as [L1 L2]. apply andb_true_iff in VI as [VI V3]. apply andb_true_iff in VI as [V1 V2].
    eapply (while_viab (lang g) (prog g) x') in H as (l1 & l3 & o & vs & hs & -> & WR & _ & H).
    + exists l1, l3, o, vs. eauto.
    + now apply IHg.
    + intros. eapply eats_lang; eauto.
    + destruct (isn g) eqn:IS; [|discriminate]. rewrite <- IS. now apply swap_exec.
  - apply andb_true_iff in LE as [L1 L2]. apply andb_true_iff in VI as [VI V3]. apply andb_true_iff in VI as [V1 V2].
    eapply (whileu_viab (lang g) (prog g) x') in H as (l1 & l3 & o & vs & hs & -> & WR & _ & H & ND).
    + exists l1, l3, o, vs. split; auto. split; auto. exists hs. split; auto.
    + now apply IHg.
    + intros. eapply eats_lang; eauto.
    + destruct (isn g) eqn:IS; [|discriminate]. rewrite <- IS. now apply swap_exec.
    + constructor.
  - apply andb_true_iff in VI as [V1 V2]. destruct (wit g x') as [w|] eqn:W; [|discriminate].
    eapply (sep_viab (lang g) (prog g) x') in H as (l1 & l3 & o & vs & -> & WR & H).
    + exists l1, l3, o, vs. auto.
    + now apply sound.
    + now apply IHg.
    + eapply wit_lang; eauto.
Qed.

End Dialect.

Lemma script_viab : forall d, viab d (script d) None = true.
Proof. intros []; vm_compute; reflexivity. Qed.
Lemma script_eat : forall d, loops_eat (script d) = true.
Proof. intros []; vm_compute; reflexivity. Qed.
Theorem error_writable : forall d l rest, verdict d l (EErr rest) ->
  exists l1 more out stmts, l = (l1 ++ rest)%list /\ all_writable d more /\ lang (script d) (l1 ++ more) None out stmts.
Proof.
  intros d l rest [_ [n H]]. apply (viable d _ _ (script_eat d) None (script_viab d)) in H as (l1 & l3 & o & v & -> & W & H).
  exists l1, l3, o, v. auto.
Qed.
Theorem error_viable : forall d l rest, verdict d l (EErr rest) ->
  exists l1 more out stmts, l = (l1 ++ rest)%list /\ lang (script d) (l1 ++ more) None out stmts.
Proof.
  intros d l rest H. apply error_writable in H as (l1 & more & o & v & -> & _ & H). exists l1, more, o, v. auto.
Qed.
