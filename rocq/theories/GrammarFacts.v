(** Parsers for the grammars of Grammar.v, as validator programs; soundness and completeness.
    (Proof device: each validator will be shown to be equivalent to the parser of its grammar.) *)
From Coq Require Import String Ascii List Bool Arith Lia.
From Verif Require Import GoStr GoNum Types Lexer VBase Words Exec Grammar.
Import ListNotations.
Open Scope string_scope.
Open Scope v_scope.

Definition look_la (c : la) : V bool := Look (fun o => Ret (la_mem c o)).

Definition valid_name (d : rdbms) (t : string) : V bool :=
  If first_byte_in (id_quotes d) t Then ret true
  Else ret (name_pattern t && negb (contains (reserved d) (to_upper t))).

Definition one (keep : bool) (c : tclass) : V unit :=
  match c with
  | CW ws => validateToken keep ws
  | CName d => t <- token ;; If valid_name d t Then next_set keep Else syntaxError
  | CPos => t <- token ;; if negb (is_positive_integer_token t) then syntaxError else next_set keep
  | CLit d =>
      t <- token ;;
      if is_numeric_token t then next_set keep
      else If first_byte_in (str_quotes d) t Then next_set keep Else validateToken keep literal_words
  | CStr d =>
      t <- token ;; b <- first_byte_in (str_quotes d) t ;;
      if negb b then syntaxError else next_set keep
  end.

Fixpoint while_loop (body : nat -> V unit) (c : la) (n : nat) : V unit :=
  match n with
  | O => OutOfFuel
  | S n => If look_la c Then body n ;; while_loop body c n Else ret tt
  end.

Fixpoint whileu_loop (body : nat -> V unit) (c : la) (key : string -> string) (n : nat)
  (ls : list string) : V unit :=
  match n with
  | O => OutOfFuel
  | S n =>
    If look_la c Then
      t <- token ;;
      if contains ls (key t) then syntaxError
      else body n ;; whileu_loop body c key n (ls ++ [key t])
    Else ret tt
  end.

Fixpoint sep_loop (body : nat -> V unit) (keep : bool) (n : nat) : V unit :=
  match n with
  | O => OutOfFuel
  | S n => body n ;; If matchTokenNext keep [","] Then sep_loop body keep n Else ret tt
  end.

Fixpoint prog {A} (g : gr A) : nat -> V unit :=
  match g with
  | Eps => fun n => ret tt
  | Put o => fun n => fold_right (fun t k => Emit t k) (ret tt) o
  | One keep c => fun n => one keep c
  | NotNext ws => fun n => If look_la (next_in ws) Then syntaxError Else ret tt
  | IsNext ws => fun n => If look_la (next_in ws) Then ret tt Else syntaxError
  | Brackets keep => fun n => validateBrackets n keep
  | Skip => fun n => skip_statement n false
  | Seq g h => fun n => prog g n ;; prog h n
  | Map f g => prog g
  | Cond c g h => fun n => If look_la c Then prog g n Else prog h n
  | While c g => while_loop (prog g) c
  | WhileU c key g => fun n => whileu_loop (prog g) c key n []
  | SepBy keep g => sep_loop (prog g) keep
  end.

(** ** Facts about words *)

Lemma contains_spec : forall l t, contains l t = true <-> In t l.
Proof.
  intros l t. unfold contains. rewrite existsb_exists. split.
  - intros (x & H & E). apply String.eqb_eq in E. now subst.
  - intros H. exists t. rewrite String.eqb_refl. auto.
Qed.

Lemma contains_false : forall l t, contains l t = false <-> ~ In t l.
Proof.
  intros l t. rewrite <- contains_spec. destruct (contains l t); split; congruence.
Qed.

Lemma matches_spec : forall ws t,
  matches ws t = true <-> exists w, In w ws /\ (t = to_lower w \/ t = to_upper w).
Proof.
  intros ws t. unfold matches. rewrite contains_spec, in_app_iff, !in_map_iff. split.
  - intros [(w & <- & H)|(w & <- & H)]; exists w; auto.
  - intros (w & H & [->| ->]); [left|right]; exists w; auto.
Qed.

Lemma matches_one : forall w t, matches [w] t = true <-> t = to_lower w \/ t = to_upper w.
Proof.
  intros. rewrite matches_spec. split.
  - intros (w' & [->|[]] & H). exact H.
  - intros H. exists w. split; [now left | exact H].
Qed.

Lemma matches_In : forall ws t, matches ws t = true -> exists w, In w ws /\ matches [w] t = true.
Proof.
  intros ws t H. apply matches_spec in H as (w & I & E). exists w. split; auto.
  apply matches_one. auto.
Qed.

Lemma matches_from : forall ws w t, In w ws -> matches [w] t = true -> matches ws t = true.
Proof.
  intros ws w t I H. apply matches_one in H. apply matches_spec. eauto.
Qed.

Lemma matches_cons : forall w ws t, matches (w :: ws) t = matches [w] t || matches ws t.
Proof.
  intros. apply eq_true_iff_eq. rewrite orb_true_iff, !matches_spec. split.
  - intros (w' & [->|I] & E).
    + left. exists w'. split; [now left|auto].
    + right. exists w'. auto.
  - intros [(w' & [->|[]] & E)|(w' & I & E)].
    + exists w'. split; [now left|auto].
    + exists w'. split; [now right|auto].
Qed.

Lemma matches_app : forall a b t, matches (a ++ b)%list t = matches a t || matches b t.
Proof.
  induction a as [|w a IH]; intros b t; [reflexivity|]. cbn [app].
  now rewrite matches_cons, IH, (matches_cons w a), orb_assoc.
Qed.

(** A one-symbol keyword is matched by itself only. *)
Lemma matches_sym : forall w t, to_lower w = w -> to_upper w = w ->
  (matches [w] t = true <-> t = w).
Proof. intros w t L U. rewrite matches_one, L, U. tauto. Qed.

Lemma match_comma : forall t, matches [","] t = true <-> t = ",".
Proof. intros. now apply matches_sym. Qed.
Lemma match_lpar : forall t, matches ["("] t = true <-> t = "(".
Proof. intros. now apply matches_sym. Qed.
Lemma match_rpar : forall t, matches [")"] t = true <-> t = ")".
Proof. intros. now apply matches_sym. Qed.
Lemma match_semi : forall t, matches [";"] t = true <-> t = ";".
Proof. intros. now apply matches_sym. Qed.

Lemma sym_false : forall w t, to_lower w = w -> to_upper w = w ->
  (matches [w] t = false <-> t <> w).
Proof.
  intros w t L U. pose proof (matches_sym w t L U). destruct (matches [w] t); intuition congruence.
Qed.

(** ** Executing the elementary programs *)

Lemma exec_next_set : forall keep t l, exec (next_set keep) (t :: l) = EOk tt l (kept keep [t]).
Proof. now intros []. Qed.

Lemma exec_validateToken : forall keep ws l,
  exec (validateToken keep ws) l =
  match l with
  | [] => EErr []
  | t :: l' => if matches ws t then EOk tt l' (kept keep [t]) else EErr l
  end.
Proof.
  intros keep ws [|t l]; simpl; auto. destruct (matches ws t); auto. now destruct keep.
Qed.

Lemma exec_first_byte : forall qs t l, t <> "" ->
  exec (first_byte_in qs t) l = EOk (quoted qs t) l [].
Proof. intros qs [|c t] l H; [congruence|reflexivity]. Qed.

Lemma EOF_not_class : forall c, (forall ws, c <> CW ws) -> cmem c EOF = false.
Proof.
  intros [ws|d| |d|d] H; [now elim (H ws)| | | |]; try reflexivity; destruct d; vm_compute; reflexivity.
Qed.

Lemma exec_one : forall keep c l,
  exec (one keep c) l =
  match l with
  | [] => EErr []
  | t :: l' =>
      if cmem c t then EOk tt l' (kept keep [t])
      else match t, c with
           | "", CName _ | "", CLit _ | "", CStr _ => EPanic
           | _, _ => EErr l
           end
  end.
Proof.
  intros keep c l. destruct c as [ws|d| |d|d]; simpl one.
  - rewrite exec_validateToken. destruct l as [|t l]; auto. simpl. destruct (matches ws t); auto.
    destruct t; auto.
  - destruct l as [|t l].
    + destruct d; vm_compute; reflexivity.
    + simpl. destruct t as [|a t]; [reflexivity|].
      unfold valid_name, first_byte_in, slice01, cmem, legal_name, quoted.
      simpl bind. set (s := String a t). cbv zeta.
      destruct (contains (id_quotes d) (String a "")); simpl.
      * now destruct keep.
      * destruct (_ && _); simpl; auto. now destruct keep.
  - destruct l as [|t l].
    + reflexivity.
    + cbn [exec bind token tok hd_error cmem].
      destruct (is_positive_integer_token t) eqn:E; cbn [negb].
      * apply exec_next_set.
      * destruct t; reflexivity.
  - destruct l as [|t l].
    + destruct d; vm_compute; reflexivity.
    + cbn [exec bind token tok hd_error cmem]. unfold literal.
      destruct (is_numeric_token t) eqn:E; cbn [orb].
      * apply exec_next_set.
      * destruct t as [|a t].
        { vm_compute in E. reflexivity. }
        rewrite exec_bind, exec_first_byte by discriminate. unfold ebind. rewrite epre_nil.
        destruct (quoted (str_quotes d) (String a t)); cbn [orb].
        { apply exec_next_set. }
        rewrite exec_validateToken. destruct (matches literal_words (String a t)); auto.
  - destruct l as [|t l].
    + destruct d; vm_compute; reflexivity.
    + cbn [exec bind token tok hd_error cmem].
      destruct t as [|a t]; [reflexivity|].
      rewrite exec_bind, exec_first_byte by discriminate. unfold ebind. rewrite epre_nil.
      destruct (quoted (str_quotes d) (String a t)); cbn [negb]; [apply exec_next_set|reflexivity].
Qed.

Lemma exec_emits : forall o l, exec (fold_right (fun t k => Emit t k) (ret tt) o) l = EOk tt l o.
Proof.
  induction o as [|t o IH]; intros l; simpl; auto. rewrite IH. reflexivity.
Qed.

Lemma exec_look_la : forall c l, exec (look_la c) l = EOk (la_mem c (hd_error l)) l [].
Proof. reflexivity. Qed.

Lemma exec_if : forall A (c : V bool) (p q : V A) l b,
  exec c l = EOk b l [] -> exec (If c Then p Else q) l = if b then exec p l else exec q l.
Proof.
  intros A c p q l b H. rewrite exec_bind, H. simpl. rewrite epre_nil. now destruct b.
Qed.

Lemma exec_matchTokenNext : forall keep ws l,
  exec (matchTokenNext keep ws) l =
  match l with
  | [] => if matches ws EOF then EOk true [] (kept keep [EOF]) else EOk false [] []
  | t :: l' => if matches ws t then EOk true l' (kept keep [t]) else EOk false l []
  end.
Proof.
  intros keep ws l. unfold matchTokenNext, matchToken. cbn [bind exec].
  destruct l as [|t l]; cbn [hd_error tok].
  - destruct (matches ws EOF); auto. destruct keep; reflexivity.
  - destruct (matches ws t); auto. destruct keep; reflexivity.
Qed.

Lemma hd_error_hdr : forall l rest, hd_error (l ++ rest)%list = hdr l (hd_error rest).
Proof. now intros []. Qed.

(** ** Soundness *)

Lemma brackets_sound : forall n keep l rest out,
  exec (validateBracketsAux n keep) l = EOk tt rest out ->
  exists l1, balanced l1 /\ l = (l1 ++ rest)%list /\ out = kept keep l1 /\
    exists r', rest = ")" :: r'.
Proof.
  induction n as [|n IH]; intros keep l rest out; [discriminate|].
  cbn [validateBracketsAux]. rewrite (exec_if _ (matchToken [")"]) _ _ _ (matches [")"] (tok (hd_error l)))) by reflexivity.
  destruct l as [|t l].
  - cbn [hd_error tok]. change (matches [")"] EOF) with false.
    rewrite (exec_if _ (matchToken ["("]) _ _ _ false) by reflexivity.
    rewrite exec_bind. destruct keep; cbn.
    + intros H. destruct (exec (validateBracketsAux n true) []) eqn:E; try discriminate.
      inversion H; subst. apply IH in E as (l1 & B & E1 & E2 & r' & ->).
      destruct l1; discriminate.
    + rewrite epre_nil. intros E. apply IH in E as (l1 & B & E1 & E2 & r' & ->).
      destruct l1; discriminate.
  - cbn [hd_error tok]. destruct (matches [")"] t) eqn:E.
    + apply match_rpar in E. subst. intros H. inversion H; subst.
      exists []. split; [constructor|]. repeat split; auto. now destruct keep. eauto.
    + rewrite (exec_if _ (matchToken ["("]) _ _ _ (matches ["("] t)) by reflexivity.
      destruct (matches ["("] t) eqn:F.
      * apply match_lpar in F. subst.
        rewrite exec_bind. unfold brackets_around at 1. rewrite exec_bind, exec_validateToken.
        change (matches ["("] "(") with true. cbn match. unfold ebind at 2. rewrite exec_bind.
        destruct (exec (validateBracketsAux n keep) l) as [a r1 o1|r1| |] eqn:E1; try discriminate.
        destruct a. apply IH in E1 as (l1 & B1 & -> & -> & r' & ->).
        unfold ebind at 2. rewrite exec_validateToken. change (matches [")"] ")") with true.
        cbn match. cbn [epre ebind].
        destruct (exec (validateBracketsAux n keep) r') as [a r2 o2|r2| |] eqn:E2; try discriminate.
        destruct a. apply IH in E2 as (l2 & B2 & -> & -> & r2' & ->).
        intros H. inversion H; subst.
        exists ("(" :: l1 ++ ")" :: l2). split; [now constructor|]. split; [|split; [|eauto]].
        { cbn. now rewrite <- app_assoc. }
        { destruct keep; cbn; auto. rewrite <- !app_assoc. reflexivity. }
      * rewrite exec_bind, exec_next_set. cbn [ebind].
        destruct (exec (validateBracketsAux n keep) l) as [a r1 o1|r1| |] eqn:E1; try discriminate.
        destruct a. apply IH in E1 as (l1 & B1 & -> & -> & r' & ->).
        intros H. inversion H; subst.
        exists (t :: l1). split; [|split; [|split; [|eauto]]]; auto.
        { constructor; auto. intros ->; discriminate. intros ->; discriminate. }
        { destruct keep; reflexivity. }
Qed.

Lemma skip_sound : forall n b l rest out,
  exec (skip_statement n b) l = EOk tt rest out ->
  out = [] /\ hd_error rest = Some ";" /\
  exists l1, l = (l1 ++ rest)%list /\
    if b then exists mid e l2, l1 = (mid ++ e :: l2)%list /\
                Forall (fun t => matches ["END"] t = false) mid /\
                matches ["END"] e = true /\ skipped l2
    else skipped l1.
Proof.
  induction n as [|n IH]; intros b l rest out; [discriminate|].
  cbn [skip_statement]. destruct l as [|t l]; [discriminate|].
  cbn [exec bind isOutOfRange hd_error matchToken tok].
  destruct (matches ["BEGIN"] t) eqn:B; [|destruct b].
  - cbn [exec bind hd_error tok].
    assert (NE : matches ["END"] t = false).
    { apply matches_one in B as [->| ->]; reflexivity. }
    rewrite NE. cbn [exec bind next]. intros H. apply IH in H as (-> & R & l1 & -> & mid & e & l2 & -> & F & E & S).
    split; auto. split; auto.
    exists (t :: mid ++ e :: l2). split; auto. destruct b.
    + exists (t :: mid), e, l2. repeat split; auto.
    + now constructor.
  - cbn [exec bind hd_error tok]. destruct (matches ["END"] t) eqn:NE; cbn [exec bind next]; intros H;
      apply IH in H as (-> & R & l1 & -> & H); split; auto; split; auto; exists (t :: l1); split; auto.
    + exists [], t, l1. auto.
    + destruct H as (mid & e & l2 & -> & F & E & S). exists (t :: mid), e, l2. repeat split; auto.
  - cbn [exec bind hd_error tok]. destruct (matches [";"] t) eqn:E; cbn [exec bind next ret].
    + apply match_semi in E. subst. intros H. inversion H; subst. split; auto. split; auto.
      exists []. split; auto. constructor.
    + intros H. apply IH in H as (-> & R & l1 & -> & H). split; auto. split; auto.
      exists (t :: l1). split; auto. constructor; auto. intros ->. discriminate.
Qed.

Definition sound_for {A} (L : list string -> option string -> list string -> A -> Prop) (p : V unit) :=
  forall l rest out, exec p l = EOk tt rest out ->
  exists l1 v, l = (l1 ++ rest)%list /\ L l1 (hd_error rest) out v.

(** An item at which the loop test succeeds is not empty, if its program does not accept
    without reading; that is checked by [eats]. *)
Fixpoint eats {A} (g : gr A) : bool :=
  match g with
  | Eps | Put _ | NotNext _ | IsNext _ | Skip | While _ _ | WhileU _ _ _ => false
  | One _ _ | Brackets _ => true
  | Seq g h => eats g || eats h
  | Map _ g => eats g
  | Cond _ g h => eats g && eats h
  | SepBy _ g => eats g
  end.

Fixpoint loops_eat {A} (g : gr A) : bool :=
  match g with
  | Eps | Put _ | NotNext _ | IsNext _ | Skip | One _ _ | Brackets _ => true
  | Seq g h => loops_eat g && loops_eat h
  | Map _ g => loops_eat g
  | Cond _ g h => loops_eat g && loops_eat h
  | While _ g | WhileU _ _ g => eats g && loops_eat g
  | SepBy _ g => loops_eat g
  end.

Lemma eats_lang : forall A (g : gr A) l nxt out v, eats g = true -> lang g l nxt out v -> l <> [].
Proof.
  induction g; cbn [eats lang]; intros l nxt o v E H; try discriminate.
  - destruct H as (_ & -> & _). discriminate.
  - destruct H as (l1 & _ & -> & _). discriminate.
  - destruct H as (l1 & l2 & o1 & o2 & -> & -> & H1 & H2).
    apply orb_true_iff in E as [E|E].
    + apply IHg1 in H1; auto. destruct l1; [congruence|discriminate].
    + apply IHg2 in H2; auto. destruct l1; auto. discriminate.
  - destruct H as (a & -> & H). eauto.
  - apply andb_true_iff in E as [E1 E2]. destruct H; eauto.
  - destruct H as [l nxt o v H|l1 l2 nxt o1 o2 v vs H1 H2].
    + eauto.
    + destruct l1; discriminate.
Qed.

Lemma while_sound : forall A L p c, (forall n, sound_for L (p n)) ->
  (forall l nxt out (v : A), L l nxt out v -> l <> []) ->
  forall n l rest out, exec (while_loop p c n) l = EOk tt rest out ->
  exists l1 vs hs, l = (l1 ++ rest)%list /\ star L l1 (hd_error rest) out vs hs.
Proof.
  intros A L p c S NE. induction n as [|n IH]; intros l rest out; [discriminate|].
  cbn [while_loop]. rewrite (exec_if _ _ _ _ _ _ (exec_look_la c l)).
  destruct (la_mem c (hd_error l)).
  - rewrite exec_bind. destruct (exec (p n) l) as [a r1 o1|r1| |] eqn:E1; try discriminate.
    destruct a. apply S in E1 as (l1 & v & -> & H1). cbn [ebind].
    destruct (exec (while_loop p c n) r1) as [a r2 o2|r2| |] eqn:E2; try discriminate.
    destruct a. apply IH in E2 as (l2 & vs & hs & -> & H2).
    intros H. inversion H; subst. clear H.
    pose proof (NE _ _ _ _ H1). destruct l1 as [|t l1]; [congruence|].
    exists ((t :: l1) ++ l2)%list, (v :: vs), (t :: hs). split; [now rewrite <- app_assoc|].
    cbn [app]. constructor; auto. now rewrite <- hd_error_hdr.
  - intros H. inversion H; subst. exists [], [], []. split; auto. constructor.
Qed.

Lemma whileu_sound : forall A L p c key, (forall n, sound_for L (p n)) ->
  (forall l nxt out (v : A), L l nxt out v -> l <> []) ->
  forall n ls l rest out, exec (whileu_loop p c key n ls) l = EOk tt rest out -> NoDup ls ->
  exists l1 vs hs, l = (l1 ++ rest)%list /\ star L l1 (hd_error rest) out vs hs /\
    NoDup (ls ++ map key hs)%list.
Proof.
  intros A L p c key S NE. induction n as [|n IH]; intros ls l rest out; [discriminate|].
  cbn [whileu_loop]. rewrite (exec_if _ _ _ _ _ _ (exec_look_la c l)).
  destruct (la_mem c (hd_error l)).
  - cbn [bind token exec]. destruct (contains ls (key (tok (hd_error l)))) eqn:C; [discriminate|].
    rewrite exec_bind. destruct (exec (p n) l) as [a r1 o1|r1| |] eqn:E1; try discriminate.
    destruct a. apply S in E1 as (l1 & v & -> & H1). cbn [ebind].
    pose proof (NE _ _ _ _ H1). destruct l1 as [|t l1]; [congruence|]. cbn [hd_error app tok] in *.
    destruct (exec (whileu_loop p c key n (ls ++ [key t])) r1) as [a r2 o2|r2| |] eqn:E2; try discriminate.
    intros X ND. inversion X; subst. clear X.
    apply IH in E2 as (l2 & vs & hs & -> & H2 & ND').
    + exists ((t :: l1) ++ l2)%list, (v :: vs), (t :: hs). split; [now rewrite <- app_assoc|].
      split.
      * cbn [app]. constructor; auto. now rewrite <- hd_error_hdr.
      * cbn [map]. now rewrite <- app_assoc in ND'.
    + apply contains_false in C.
      apply NoDup_rev in ND. rewrite <- (rev_involutive (ls ++ [key t])).
      apply NoDup_rev. rewrite rev_app_distr. cbn. constructor; auto. now rewrite <- in_rev.
  - intros H ND. inversion H; subst. exists [], [], []. split; auto. split; [constructor|].
    cbn. now rewrite app_nil_r.
Qed.

Lemma sep_sound : forall A (L : _ -> _ -> _ -> A -> Prop) p keep, (forall n, sound_for L (p n)) ->
  forall n l rest out, exec (sep_loop p keep n) l = EOk tt rest out ->
  exists l1 vs, l = (l1 ++ rest)%list /\ sepby L keep l1 (hd_error rest) out vs.
Proof.
  intros A L p keep S. induction n as [|n IH]; intros l rest out; [discriminate|].
  cbn [sep_loop]. rewrite exec_bind.
  destruct (exec (p n) l) as [a r1 o1|r1| |] eqn:E1; try discriminate.
  destruct a. apply S in E1 as (l1 & v & -> & H1). cbn [ebind].
  rewrite exec_bind, exec_matchTokenNext. destruct r1 as [|t r1].
  - change (matches [","] EOF) with false. cbn. intros H. inversion H; subst.
    exists l1, [v]. split; auto. rewrite app_nil_r. now constructor.
  - destruct (matches [","] t) eqn:E.
    + apply match_comma in E. subst t. cbn [ebind].
      destruct (exec (sep_loop p keep n) r1) as [a r2 o2|r2| |] eqn:E2; try discriminate.
      destruct a. apply IH in E2 as (l2 & vs & -> & H2). intros H. inversion H; subst.
      exists (l1 ++ "," :: l2)%list, (v :: vs). split; [now rewrite <- app_assoc|].
      now constructor.
    + cbn. intros H. inversion H; subst. exists l1, [v]. split; auto. rewrite app_nil_r. now constructor.
Qed.

Theorem sound : forall A (g : gr A), loops_eat g = true -> forall n, sound_for (lang g) (prog g n).
Proof.
  induction g; cbn [loops_eat lang prog]; intros LE n l rest o H.
  - inversion H; subst. exists [], tt. auto.
  - rewrite exec_emits in H. inversion H; subst. exists [], tt. auto.
  - rewrite exec_one in H. destruct l as [|t l]; [discriminate|].
    destruct (cmem c t) eqn:E.
    + inversion H; subst. exists [t], t. auto.
    + destruct t, c; discriminate.
  - rewrite (exec_if _ _ _ _ _ _ (exec_look_la _ l)) in H. destruct l as [|t l].
    + inversion H; subst. exists [], tt. cbn. repeat split; auto.
    + cbn [hd_error la_mem next_in la_words la_neg] in H. rewrite xorb_false_r in H.
      destruct (matches ws t) eqn:E; [discriminate|].
      inversion H; subst. exists [], tt. repeat split; auto.
  - rewrite (exec_if _ _ _ _ _ _ (exec_look_la _ l)) in H. destruct l as [|t l]; [discriminate|].
    cbn [hd_error la_mem next_in la_words la_neg] in H. rewrite xorb_false_r in H.
    destruct (matches ws t) eqn:E; [|discriminate].
    inversion H; subst. exists [], tt. repeat split; auto.
  - unfold validateBrackets, brackets_around in H. rewrite exec_bind, exec_validateToken in H.
    destruct l as [|t l]; [discriminate|]. destruct (matches ["("] t) eqn:E; [|discriminate].
    apply match_lpar in E. subst. cbn [ebind] in H. rewrite exec_bind in H.
    destruct (exec (validateBracketsAux n keep) l) as [a r1 o1|r1| |] eqn:E1; try discriminate.
    destruct a. apply brackets_sound in E1 as (l1 & B & -> & -> & r' & ->). cbn [ebind] in H.
    rewrite exec_validateToken in H. change (matches [")"] ")") with true in H. cbn in H.
    inversion H; subst. exists ("(" :: l1 ++ [")"])%list, ("(" :: l1 ++ [")"])%list.
    split; [cbn; now rewrite <- app_assoc|]. exists l1. repeat split; auto. now destruct keep.
  - apply skip_sound in H as (-> & R & l1 & -> & S). exists l1, tt. auto.
  - apply andb_true_iff in LE as [L1 L2]. rewrite exec_bind in H.
    destruct (exec (prog g1 n) l) as [a r1 o1|r1| |] eqn:E1; try discriminate.
    destruct a. apply IHg1 in E1 as (l1 & v1 & -> & H1); auto. cbn [ebind] in H.
    destruct (exec (prog g2 n) r1) as [a r2 o2|r2| |] eqn:E2; try discriminate.
    destruct a. apply IHg2 in E2 as (l2 & v2 & -> & H2); auto. inversion H; subst.
    exists (l1 ++ l2)%list, (v1, v2). split; [now rewrite <- app_assoc|].
    exists l1, l2, o1, o2. repeat split; auto. cbn. now rewrite <- hd_error_hdr.
  - apply IHg in H as (l1 & v & -> & H); auto. exists l1, (f v). split; auto. eauto.
  - apply andb_true_iff in LE as [L1 L2]. rewrite (exec_if _ _ _ _ _ _ (exec_look_la c l)) in H.
    destruct (la_mem c (hd_error l)).
    + apply IHg1 in H as (l1 & v & -> & H); eauto.
    + apply IHg2 in H as (l1 & v & -> & H); eauto.
  - apply andb_true_iff in LE as [L1 L2].
    apply (while_sound _ (lang g)) in H as (l1 & vs & hs & -> & H); auto.
    + exists l1, vs. eauto.
    + intros. eapply eats_lang; eauto.
  - apply andb_true_iff in LE as [L1 L2].
    apply (whileu_sound _ (lang g)) in H as (l1 & vs & hs & -> & H & ND); auto.
    + exists l1, vs. eauto.
    + intros. eapply eats_lang; eauto.
    + constructor.
  - apply (sep_sound _ (lang g)) in H as (l1 & vs & -> & H); eauto.
Qed.

(** ** Completeness *)

Lemma la_is_spec : forall c b f o, la_is c b f = true -> fmem f o = true -> la_mem c o = b.
Proof.
  intros c b [w|k ex| |] [t|]; cbn [la_is fmem]; intros H M; try discriminate.
  - apply andb_true_iff in H as [H1 H2]. apply eqb_prop in H1, H2.
    apply matches_one in M as [->| ->]; assumption.
  - apply andb_true_iff in M as [M NE]. apply negb_true_iff in NE.
    apply andb_true_iff in H as [H1 H2]. apply eqb_prop in H2.
    cbn [la_mem]. replace (matches (la_words c) t) with false; [rewrite H2; now destruct b|].
    symmetry. destruct (matches (la_words c) t) eqn:E; auto.
    apply matches_In in E as (w & I & E). rewrite forallb_forall in H1. apply H1 in I.
    apply orb_true_iff in I as [I|I].
    { apply contains_spec in I. rewrite (matches_from _ _ _ I E) in NE. discriminate. }
    apply andb_true_iff in I as [I1 I2]. rewrite negb_true_iff in I1, I2.
    apply matches_one in E as [->| ->]; congruence.
  - now apply eqb_prop in H.
Qed.

Definition within (fol : list fcl) (o : option string) : Prop := exists f, In f fol /\ fmem f o = true.

Lemma within_app : forall a b o, within (a ++ b) o <-> within a o \/ within b o.
Proof.
  intros. unfold within. split.
  - intros (f & H & M). apply in_app_iff in H as [H|H]; [left|right]; eauto.
  - intros [(f & H & M)|(f & H & M)]; exists f; rewrite in_app_iff; auto.
Qed.

Lemma within_any : forall o, within [FAny; FEof] o.
Proof. intros [t|]; [exists FAny | exists FEof]; simpl; auto. Qed.

Lemma forallb_within : forall c b fol o, forallb (la_is c b) fol = true -> within fol o -> la_mem c o = b.
Proof.
  intros c b fol o H (f & I & M). rewrite forallb_forall in H. eapply la_is_spec; eauto.
Qed.

Lemma class_within : forall c t, cmem c t = true -> within (class_set c) (Some t).
Proof.
  intros [ws|d| |d|d] t H; cbn [class_set];
    try (eexists; split; [now left | cbn [fmem]; rewrite H; reflexivity]).
  cbn in H. apply matches_In in H as (w & I & H). exists (FW w). split; auto. now apply in_map.
Qed.

Lemma without_within : forall ws fol o,
  match o with Some t => matches ws t = false | None => True end ->
  within fol o -> within (flat_map (without ws) fol) o.
Proof.
  intros ws fol o H (f & I & M).
  assert (X : within (without ws f) o).
  { assert (Y : la_is (next_in ws) true f = false).
    { destruct (la_is (next_in ws) true f) eqn:E; auto.
      pose proof (la_is_spec _ _ _ _ E M) as X. destruct o as [t|]; [|discriminate].
      cbn [la_mem next_in la_words la_neg] in X. rewrite xorb_false_r in X. congruence. }
    destruct f as [w|c ex| |]; unfold without; rewrite ?Y; try (eexists; split; [now left|exact M]).
    exists (FC c (ws ++ ex)%list). split; [now left|]. destruct o as [t|]; [|discriminate].
    cbn [fmem] in *. apply andb_true_iff in M as [M1 M2]. rewrite M1, matches_app, H. exact M2. }
  destruct X as (f' & I' & M'). exists f'. split; auto. apply in_flat_map. eauto.
Qed.

Lemma look_within : forall A (g : gr A) fol l nxt out v, lang g l nxt out v -> within fol nxt ->
  within (look g fol) (hdr l nxt).
Proof.
  induction g; cbn [look lang]; intros fol l nxt o v H W.
  - destruct H as [-> _]. auto.
  - destruct H as [-> _]. auto.
  - destruct H as (H & -> & _). now apply class_within.
  - destruct H as (-> & _ & H). cbn [hdr]. eapply without_within; eauto.
  - destruct H as (-> & _ & H). cbn [hdr]. destruct nxt as [t|]; [|contradiction].
    now apply (class_within (CW ws)).
  - destruct H as (l1 & B & -> & _). cbn. exists (FW "("). split; [now left|reflexivity].
  - apply within_any.
  - destruct H as (l1 & l2 & o1 & o2 & -> & -> & H1 & H2).
    replace (hdr (l1 ++ l2) nxt) with (hdr l1 (hdr l2 nxt)) by now destruct l1. eauto.
  - destruct H as (a & -> & H). eauto.
  - apply within_app. destruct H as [H|H]; eauto.
  - destruct H as (hs & H). apply within_app. destruct H as [nxt|t l1 l2 nxt o1 o2 v vs hs H1 H2].
    + auto.
    + left. apply (IHg [FAny; FEof] _ _ _ _ H1). apply within_any.
  - destruct H as (hs & H & ND). apply within_app. destruct H as [nxt|t l1 l2 nxt o1 o2 v vs hs H1 H2].
    + auto.
    + left. apply (IHg [FAny; FEof] _ _ _ _ H1). apply within_any.
  - destruct H as [l nxt o v H|l1 l2 nxt o1 o2 v vs H1 H2].
    + eapply IHg; eauto. destruct W as (f & I & M). exists f. split; auto. now right.
    + replace (hdr (l1 ++ "," :: l2) nxt) with (hdr l1 (Some ",")) by now destruct l1.
      eapply IHg; eauto. exists (FW ","). split; [now left|reflexivity].
Qed.

Definition eventually (P : nat -> Prop) : Prop := exists n0, forall n, n0 <= n -> P n.

Lemma eventually_and : forall P Q, eventually P -> eventually Q -> eventually (fun n => P n /\ Q n).
Proof.
  intros P Q [a Ha] [b Hb]. exists (max a b). intros n H. split; [apply Ha|apply Hb]; lia.
Qed.
Lemma eventually_mono : forall (P Q : nat -> Prop), (forall n, P n -> Q n) -> eventually P -> eventually Q.
Proof. intros P Q H [a Ha]. exists a. auto. Qed.
Lemma eventually_S : forall (P : nat -> Prop), eventually (fun n => P (S n)) -> eventually P.
Proof.
  intros P [a Ha]. exists (S a). intros [|n] H; [lia|]. apply Ha. lia.
Qed.
Lemma eventually_always : forall (P : nat -> Prop), (forall n, P n) -> eventually P.
Proof. intros P H. exists 0. auto. Qed.

Definition accepts (p : V unit) (l rest out : list string) : Prop :=
  exec p (l ++ rest)%list = EOk tt rest out.

Lemma brackets_complete : forall keep l, balanced l -> forall rest,
  eventually (fun n => accepts (validateBracketsAux n keep) l (")" :: rest) (kept keep l)).
Proof.
  intros keep l B. induction B as [|t l N1 N2 B IH|l1 l2 B1 IH1 B2 IH2]; intros rest; apply eventually_S.
  - apply eventually_always. intros n. unfold accepts. destruct keep; reflexivity.
  - destruct (IH rest) as [n0 H]. exists n0. intros n Hn. specialize (H n Hn). unfold accepts in *.
    cbn [validateBracketsAux].
    rewrite (exec_if _ (matchToken [")"]) _ _ _ (matches [")"] t)) by reflexivity.
    rewrite (proj2 (sym_false ")" t eq_refl eq_refl)) by auto.
    rewrite (exec_if _ (matchToken ["("]) _ _ _ (matches ["("] t)) by reflexivity.
    rewrite (proj2 (sym_false "(" t eq_refl eq_refl)) by auto.
    cbn [app]. rewrite exec_bind, exec_next_set. cbn [ebind]. rewrite H. destruct keep; reflexivity.
  - destruct (IH1 (l2 ++ ")" :: rest)%list) as [n1 H1]. destruct (IH2 rest) as [n2 H2].
    exists (max n1 n2). intros n Hn. specialize (H1 n ltac:(lia)). specialize (H2 n ltac:(lia)).
    unfold accepts in *. cbn [validateBracketsAux].
    rewrite (exec_if _ (matchToken [")"]) _ _ _ false) by reflexivity.
    rewrite (exec_if _ (matchToken ["("]) _ _ _ true) by reflexivity.
    cbn [app]. rewrite <- app_assoc. cbn [app].
    rewrite exec_bind. unfold brackets_around at 1. rewrite exec_bind, exec_validateToken.
    change (matches ["("] "(") with true. cbn match. cbn [ebind]. rewrite exec_bind, H1.
    cbn [ebind]. rewrite exec_validateToken. change (matches [")"] ")") with true. cbn match.
    cbn [epre ebind]. rewrite H2. destruct keep; cbn; auto. rewrite <- !app_assoc. reflexivity.
Qed.

Lemma skip_block : forall P l e mid, Forall (fun t => matches ["END"] t = false) mid ->
  matches ["END"] e = true ->
  eventually (fun n => exec (skip_statement n false) l = P) ->
  eventually (fun n => exec (skip_statement n true) (mid ++ e :: l)%list = P).
Proof.
  intros P l e mid F E H. induction F as [|t mid N F IH]; apply eventually_S.
  - revert H. apply eventually_mono. intros n H. cbn [app skip_statement].
    cbn [exec bind isOutOfRange matchToken hd_error tok].
    assert (X : (if matches ["BEGIN"] e then true else true) = true) by (destruct (matches ["BEGIN"] e); reflexivity).
    rewrite X. cbn [exec bind matchToken hd_error tok]. rewrite E. cbn [exec bind next]. exact H.
  - revert IH. apply eventually_mono. intros n IH. cbn [app skip_statement].
    cbn [exec bind isOutOfRange matchToken hd_error tok].
    assert (X : (if matches ["BEGIN"] t then true else true) = true) by (destruct (matches ["BEGIN"] t); reflexivity).
    rewrite X. cbn [exec bind matchToken hd_error tok]. rewrite N. cbn [exec bind next]. exact IH.
Qed.

Lemma skip_complete : forall l, skipped l -> forall rest,
  eventually (fun n => accepts (skip_statement n false) l (";" :: rest) []).
Proof.
  intros l S. induction S as [|t l B N S IH|b mid e l B F E S IH]; intros rest; apply eventually_S.
  - apply eventually_always. intros n. reflexivity.
  - destruct (IH rest) as [n0 H]. exists n0. intros n Hn. specialize (H n Hn). unfold accepts in *.
    cbn [app skip_statement]. cbn [exec bind isOutOfRange matchToken hd_error tok]. rewrite B.
    cbn [exec bind matchToken hd_error tok]. rewrite (proj2 (sym_false ";" t eq_refl eq_refl)) by auto.
    cbn [exec bind next]. exact H.
  - pose proof (skip_block _ _ _ _ F E (IH rest)) as H.
    revert H. apply eventually_mono. intros n H. unfold accepts.
    cbn [app skip_statement]. cbn [exec bind isOutOfRange matchToken hd_error tok]. rewrite B.
    cbn [exec bind matchToken hd_error tok].
    replace (matches ["END"] b) with false by (apply matches_one in B as [->| ->]; reflexivity).
    cbn [exec bind next]. rewrite <- app_assoc. exact H.
Qed.

Definition complete_for {A} (L : list string -> option string -> list string -> A -> Prop)
  (fol : list fcl) (p : nat -> V unit) :=
  forall l rest out v, L l (hd_error rest) out v -> within fol (hd_error rest) ->
  eventually (fun n => accepts (p n) l rest out).

Lemma hdr_app : forall l1 l2 nxt, hdr (l1 ++ l2) nxt = hdr l1 (hdr l2 nxt).
Proof. now intros []. Qed.

Lemma while_complete : forall A (g : gr A) c fol,
  forallb (la_is c true) (look g [FAny; FEof]) = true -> forallb (la_is c false) fol = true ->
  complete_for (lang g) (look g [FAny; FEof] ++ fol) (prog g) ->
  forall l rest out vs hs, star (lang g) l (hd_error rest) out vs hs -> within fol (hd_error rest) ->
  eventually (fun n => accepts (while_loop (prog g) c n) l rest out).
Proof.
  intros A g c fol HT HF C l rest out vs hs S W.
  remember (hd_error rest) as nxt. revert Heqnxt W.
  induction S as [nxt|t l1 l2 nxt o1 o2 v vs hs H1 H2 IH]; intros -> W; apply eventually_S.
  - apply eventually_always. intros n. unfold accepts. cbn [while_loop app].
    rewrite (exec_if _ _ _ _ _ _ (exec_look_la c rest)), (forallb_within _ _ _ _ HF W). reflexivity.
  - assert (W2 : within (look g [FAny; FEof] ++ fol) (hdr l2 (hd_error rest))).
    { apply within_app. destruct l2 as [|t2 l2]; cbn; auto. left.
      inversion H2; subst. eapply (look_within _ g [FAny; FEof]) in H3; [exact H3|apply within_any]. }
    rewrite <- hd_error_hdr in H1, W2.
    specialize (C _ _ _ _ H1 W2). specialize (IH eq_refl W).
    destruct (eventually_and _ _ C IH) as [n0 H]. exists n0. intros n Hn. destruct (H n Hn) as [X Y].
    unfold accepts in *. cbn [while_loop]. rewrite (exec_if _ _ _ _ _ _ (exec_look_la c _)).
    assert (T : la_mem c (hd_error ((t :: l1 ++ l2) ++ rest)%list) = true).
    { cbn [app hd_error]. eapply forallb_within; [exact HT|]. eapply (look_within _ g [FAny; FEof]) in H1; [exact H1|apply within_any]. }
    rewrite T. rewrite exec_bind. cbn [app] in *. rewrite <- app_assoc, X. cbn [ebind]. rewrite Y. reflexivity.
Qed.

Lemma whileu_complete : forall A (g : gr A) c key fol,
  forallb (la_is c true) (look g [FAny; FEof]) = true -> forallb (la_is c false) fol = true ->
  complete_for (lang g) (look g [FAny; FEof] ++ fol) (prog g) ->
  forall l rest out vs hs, star (lang g) l (hd_error rest) out vs hs -> within fol (hd_error rest) ->
  forall ls, NoDup (ls ++ map key hs) ->
  eventually (fun n => accepts (whileu_loop (prog g) c key n ls) l rest out).
Proof.
  intros A g c key fol HT HF C l rest out vs hs S W.
  remember (hd_error rest) as nxt. revert Heqnxt W.
  induction S as [nxt|t l1 l2 nxt o1 o2 v vs hs H1 H2 IH]; intros -> W ls ND; apply eventually_S.
  - apply eventually_always. intros n. unfold accepts. cbn [whileu_loop app].
    rewrite (exec_if _ _ _ _ _ _ (exec_look_la c rest)), (forallb_within _ _ _ _ HF W). reflexivity.
  - assert (W2 : within (look g [FAny; FEof] ++ fol) (hdr l2 (hd_error rest))).
    { apply within_app. destruct l2 as [|t2 l2]; cbn; auto. left.
      inversion H2; subst. eapply (look_within _ g [FAny; FEof]) in H3; [exact H3|apply within_any]. }
    rewrite <- hd_error_hdr in H1, W2. cbn [map] in ND.
    assert (NI : ~ In (key t) ls).
    { apply NoDup_remove_2 in ND. rewrite in_app_iff in ND. tauto. }
    specialize (C _ _ _ _ H1 W2).
    assert (ND' : NoDup ((ls ++ [key t]) ++ map key hs)) by (rewrite <- app_assoc; exact ND).
    specialize (IH eq_refl W _ ND').
    destruct (eventually_and _ _ C IH) as [n0 H]. exists n0. intros n Hn. destruct (H n Hn) as [X Y].
    unfold accepts in *. cbn [whileu_loop]. rewrite (exec_if _ _ _ _ _ _ (exec_look_la c _)).
    assert (T : la_mem c (hd_error ((t :: l1 ++ l2) ++ rest)%list) = true).
    { cbn [app hd_error]. eapply forallb_within; [exact HT|]. eapply (look_within _ g [FAny; FEof]) in H1; [exact H1|apply within_any]. }
    rewrite T. cbn [bind token exec app hd_error tok].
    apply contains_false in NI. rewrite NI.
    rewrite exec_bind. cbn [app] in *. rewrite <- app_assoc, X. cbn [ebind]. rewrite Y. reflexivity.
Qed.

Lemma sep_complete : forall A (g : gr A) keep fol,
  forallb (la_is (next_in [","]) false) fol = true ->
  complete_for (lang g) (FW "," :: fol) (prog g) ->
  forall l rest out vs, sepby (lang g) keep l (hd_error rest) out vs -> within fol (hd_error rest) ->
  eventually (fun n => accepts (sep_loop (prog g) keep n) l rest out).
Proof.
  intros A g keep fol HF C l rest out vs S W.
  remember (hd_error rest) as nxt. revert Heqnxt W.
  induction S as [l nxt o v H|l1 l2 nxt o1 o2 v vs H1 H2 IH]; intros -> W; apply eventually_S.
  - assert (W2 : within (FW "," :: fol) (hd_error rest)).
    { destruct W as (f & I & M). exists f. split; auto. now right. }
    generalize (C _ _ _ _ H W2). apply eventually_mono. intros n X. unfold accepts in *.
    cbn [sep_loop]. rewrite exec_bind, X. cbn [ebind].
    rewrite exec_bind, exec_matchTokenNext.
    pose proof (forallb_within _ _ _ _ HF W) as F.
    destruct rest as [|t rest].
    + change (matches [","] EOF) with false. cbn. now rewrite app_nil_r.
    + cbn [hd_error la_mem next_in la_words la_neg] in F. rewrite xorb_false_r in F. rewrite F.
      cbn. now rewrite app_nil_r.
  - specialize (IH eq_refl W).
    assert (W2 : within (FW "," :: fol) (Some ",")) by (exists (FW ","); split; [now left|reflexivity]).
    specialize (C l1 ("," :: l2 ++ rest)%list o1 v H1 W2).
    destruct (eventually_and _ _ C IH) as [n0 H]. exists n0. intros n Hn. destruct (H n Hn) as [X Y].
    unfold accepts in *. cbn [sep_loop]. rewrite exec_bind, <- app_assoc. cbn [app]. rewrite X. cbn [ebind].
    rewrite exec_bind, exec_matchTokenNext. change (matches [","] ",") with true. cbn match.
    cbn [ebind]. rewrite Y. cbn. reflexivity.
Qed.

Theorem complete : forall A (g : gr A) fol, ok g fol = true -> complete_for (lang g) fol (prog g).
Proof.
  induction g; intros fol OK l rest o v H W; cbn [ok lang prog] in *.
  - destruct H as [-> ->]. apply eventually_always. reflexivity.
  - destruct H as [-> ->]. apply eventually_always. intros n. unfold accepts. apply exec_emits.
  - destruct H as (M & -> & ->). apply eventually_always. intros n. unfold accepts. cbn [app].
    rewrite exec_one, M. reflexivity.
  - destruct H as (-> & -> & N). apply eventually_always. intros n. unfold accepts. cbn [app].
    rewrite (exec_if _ _ _ _ _ _ (exec_look_la _ rest)).
    destruct rest as [|t rest]; [reflexivity|].
    cbn [hd_error la_mem next_in la_words la_neg] in *. rewrite N. reflexivity.
  - destruct H as (-> & -> & N). apply eventually_always. intros n. unfold accepts. cbn [app].
    rewrite (exec_if _ _ _ _ _ _ (exec_look_la _ rest)).
    destruct rest as [|t rest]; [contradiction|].
    cbn [hd_error la_mem next_in la_words la_neg] in *. rewrite N. reflexivity.
  - destruct H as (l1 & B & -> & -> & ->).
    generalize (brackets_complete keep l1 B rest). apply eventually_mono. intros n H.
    unfold accepts in *. unfold validateBrackets, brackets_around. cbn [app].
    rewrite exec_bind, exec_validateToken. change (matches ["("] "(") with true. cbn match. cbn [ebind].
    rewrite <- app_assoc. cbn [app]. rewrite exec_bind, H. cbn [ebind]. rewrite exec_validateToken.
    change (matches [")"] ")") with true. cbn. now destruct keep.
  - destruct H as (S & -> & N). destruct rest as [|t rest]; [discriminate|].
    cbn in N. inversion N; subst. now apply skip_complete.
  - destruct H as (l1 & l2 & o1 & o2 & -> & -> & H1 & H2). apply andb_true_iff in OK as [OK1 OK2].
    pose proof (look_within _ _ fol _ _ _ _ H2 W) as W2. rewrite <- hd_error_hdr in H1, W2.
    destruct (eventually_and _ _ (IHg1 _ OK1 _ _ _ _ H1 W2) (IHg2 _ OK2 _ _ _ _ H2 W)) as [n0 H].
    exists n0. intros n Hn. destruct (H n Hn) as [X Y]. unfold accepts in *.
    rewrite exec_bind, <- app_assoc, X. cbn [ebind]. rewrite Y. reflexivity.
  - destruct H as (a & -> & H). exact (IHg fol OK _ _ _ _ H W).
  - rewrite !andb_true_iff in OK. destruct OK as [[[T F] OK1] OK2]. destruct H as [H|H].
    + pose proof (look_within _ _ fol _ _ _ _ H W) as W2. rewrite <- hd_error_hdr in W2.
      generalize (IHg1 _ OK1 _ _ _ _ H W). apply eventually_mono. intros n X. unfold accepts in *.
      rewrite (exec_if _ _ _ _ _ _ (exec_look_la _ _)), (forallb_within _ _ _ _ T W2). exact X.
    + pose proof (look_within _ _ fol _ _ _ _ H W) as W2. rewrite <- hd_error_hdr in W2.
      generalize (IHg2 _ OK2 _ _ _ _ H W). apply eventually_mono. intros n X. unfold accepts in *.
      rewrite (exec_if _ _ _ _ _ _ (exec_look_la _ _)), (forallb_within _ _ _ _ F W2). exact X.
  - rewrite !andb_true_iff in OK. destruct OK as [[T F] OK1]. destruct H as [hs H].
    eapply while_complete; eauto.
  - rewrite !andb_true_iff in OK. destruct OK as [[T F] OK1]. destruct H as [hs [H ND]].
    eapply whileu_complete; eauto.
  - rewrite !andb_true_iff in OK. destruct OK as [F OK1].
    eapply sep_complete; eauto.
Qed.
