From Coq Require Import String List Bool Arith Lia.
From Verif Require Import GoStr GoNum Types VBase Exec Grammar GrammarFacts Ast Emit Enclosed Converter Parse Spec Pipe Meaning Witness Decide Local LayoutFacts Parts PartsFacts Safe Seen
  Values ValuesFacts Columns ColumnsFacts NotNull NotNullFacts Stops TypeNames TypeFacts Flags.
From Verif Require GSqlite GPostgres GMysql Read.
Import ListNotations.
Open Scope nat_scope.
Open Scope string_scope.
Open Scope gr_scope.

Definition in_words (ws s : list string) : Prop := exists t, In t s /\ matches ws t = true.
Lemma in_words_app : forall ws s s', in_words ws (s ++ s') <-> in_words ws s \/ in_words ws s'.
Proof.
  intros ws s s'. split.
  - intros (t & I & M). apply in_app_iff in I as [I|I]; [left|right]; exists t; auto.
  - intros [(t & I & M)|(t & I & M)]; exists t; split; auto; apply in_app_iff; auto.
Qed.
Lemma in_words_cons : forall ws t s, in_words ws (t :: s) <-> matches ws t = true \/ in_words ws s.
Proof.
  intros ws t s. split.
  - intros (x & [<-|I] & M); [now left|right; exists x; auto].
  - intros [M|(x & I & M)]; [exists t|exists x]; split; auto; [now left|now right].
Qed.
Lemma in_words_not : forall ws s, Forall (fun t => matches ws t = false) s -> ~ in_words ws s.
Proof. intros ws s F (t & I & M). rewrite Forall_forall in F. apply F in I. congruence. Qed.

(** a constraint contributes the words if and only if it is of the kind [f] *)
Definition gives (ws : list string) (f : a_item -> bool) (l : list string) (v : a_item) : Prop :=
  exists s, (forall r, outside 0 (l ++ r) = (s ++ outside 0 r)%list) /\ (in_words ws s <-> f v = true).
Lemma gives_quiet : forall ws f A (g : gr A) l nxt o v x, matches ws "()" = false -> depth ws g 0 = Some 0 -> lang g l nxt o v -> f x = false -> gives ws f l x.
Proof.
  intros ws f A g l nxt o v x MB D H F. apply (depth_runs ws MB _ _ 0 0 D) in H as (s & Q & E). exists s. split; auto.
  rewrite F. split; [intros C; now apply in_words_not in C|discriminate].
Qed.
(** ... because it begins with the word *)
Lemma gives_first : forall ws f t l x s, matches ws t = true -> (t =? "(") = false -> (t =? ")") = false ->
  (forall r, outside 0 (l ++ r) = (s ++ outside 0 r)%list) -> f x = true -> gives ws f (t :: l) x.
Proof.
  intros ws f t l x s M N1 N2 E F. exists (t :: s). split.
  - intros r. cbn [app outside]. rewrite N1, N2, E. reflexivity.
  - rewrite F. split; auto. intros _. apply in_words_cons. now left.
Qed.
Lemma word_plain : forall ws t, matches ws t = true -> forallb (fun w => negb (matches ["("; ")"] (to_lower w)) && negb (matches ["("; ")"] (to_upper w))) ws = true ->
  (t =? "(") = false /\ (t =? ")") = false.
Proof. intros ws t M X. pose proof (word_not _ _ _ M X) as Y. split; apply not_true_iff_false; intros C%String.eqb_eq; subst; discriminate. Qed.
Lemma runs_outside : forall ws l, runs ws l 0 0 -> exists s, forall r, outside 0 (l ++ r) = (s ++ outside 0 r)%list.
Proof. intros ws l (s & _ & E). eauto. Qed.

Lemma gives_star : forall d ws f, (forall t l nxt o v, lang (column_constraint d) (t :: l) nxt o v -> gives ws f (t :: l) v) ->
  forall l nxt o vs hs, star (lang (column_constraint d)) l nxt o vs hs -> (in_words ws (outside 0 l) <-> existsb f vs = true).
Proof.
  intros d ws f G l nxt o vs hs H. induction H as [nxt|t l1 l2 nxt o1 o2 v vs hs H1 H2 IH].
  - split; [intros (t & [] & _)|discriminate].
  - apply G in H1 as (s & E & K). change (t :: l1 ++ l2)%list with ((t :: l1) ++ l2)%list. rewrite E, in_words_app, K, IH. cbn [existsb].
    now rewrite orb_true_iff.
Qed.
Lemma column_words : forall d ws f, matches ws "()" = false -> depth ws (column_head d) 0 = Some 0 ->
  (forall t l nxt o v, lang (column_constraint d) (t :: l) nxt o v -> gives ws f (t :: l) v) ->
  forall l c, column_is d l c -> (word_outside ws l <-> existsb f (ac_items c) = true).
Proof.
  intros d ws f MB D G l c (nxt & o & H). apply column_cases in H as (l1 & l2 & o1 & o2 & nxt1 & hs & -> & H1 & H2).
  apply (depth_runs ws MB _ _ 0 0 D) in H1 as (s & F & E). unfold word_outside. rewrite E. fold (in_words ws (s ++ outside 0 l2)).
  rewrite in_words_app, (gives_star d ws f G _ _ _ _ _ H2). split; auto. intros [C|C]; auto. now apply in_words_not in C.
Qed.

Definition is_unique (i : a_item) : bool := match i with IUnique => true | _ => false end.
Definition is_primary (i : a_item) : bool := match i with IPrimary _ => true | _ => false end.
Definition is_auto (i : a_item) : bool := match i with IPrimary true => true | IAuto => true | _ => false end.

Ltac values H := destruct H as (a & -> & _); repeat match goal with x : (_ * _)%type |- _ => destruct x end; reflexivity.
Ltac quiet H := eapply gives_quiet; [reflexivity| |exact H|]; [vm_compute; reflexivity|first [values H|destruct H as [H|H]; values H]].
Lemma gives_unique : forall d t l nxt o v, lang (column_constraint d) (t :: l) nxt o v -> gives ["UNIQUE"] is_unique (t :: l) v.
Proof.
  intros d t l nxt o v H.
  assert (U : forall A (g : gr A) f l' nx, depth [] g 0 = Some 0 -> (forall x, is_unique (f x) = true) -> lang (kw ["UNIQUE"] ** g ==> f) l' nx o v -> gives ["UNIQUE"] is_unique l' v).
  { clear. intros A g f l' nx D F H. parts H. destruct a as [u a]. cbn [fst snd] in *. destruct H0 as (M & -> & _). destruct (word_plain _ _ M eq_refl) as [P1 P2].
    apply (depth_runs [] eq_refl _ _ 0 0 D) in H. apply runs_outside in H as (s & E). cbn [app]. eapply gives_first; eauto. }
  destruct d; cbn [column_constraint] in H; unfold GSqlite.column_constraint, GPostgres.column_constraint, GMysql.column_constraint in H; cases H.
  all: try (quiet H).
  all: eapply U; [| |exact H]; [vm_compute; reflexivity|reflexivity].
Qed.
Lemma gives_primary : forall d t l nxt o v, d <> MySQL -> lang (column_constraint d) (t :: l) nxt o v -> gives ["PRIMARY"] is_primary (t :: l) v.
Proof.
  intros d t l nxt o v N H.
  assert (U : forall A (g : gr A) f l' nx, depth [] g 0 = Some 0 -> (forall x, is_primary (f x) = true) -> lang (kw ["PRIMARY"] ** g ==> f) l' nx o v -> gives ["PRIMARY"] is_primary l' v).
  { clear. intros A g f l' nx D F H. parts H. destruct a as [u a]. cbn [fst snd] in *. destruct H0 as (M & -> & _). destruct (word_plain _ _ M eq_refl) as [P1 P2].
    apply (depth_runs [] eq_refl _ _ 0 0 D) in H. apply runs_outside in H as (s & E). cbn [app]. eapply gives_first; eauto. }
  destruct d; try (now elim N); cbn [column_constraint] in H; unfold GSqlite.column_constraint, GPostgres.column_constraint in H; cases H.
  all: try (quiet H).
  all: eapply U; [| |exact H]; [vm_compute; reflexivity|intros x; repeat match goal with x : (_ * _)%type |- _ => destruct x end; reflexivity].
Qed.
Definition auto_words (d : rdbms) : list string := match d with PostgreSQL => [] | MySQL => ["AUTO_INCREMENT"] | _ => ["AUTOINCREMENT"] end.
Lemma gives_sqlite_auto : forall l nxt o v, lang GSqlite.c_primary l nxt o v -> gives ["AUTOINCREMENT"] is_auto l v.
Proof.
  intros l nxt o v H. unfold GSqlite.c_primary in H. parts H. destruct a as (a1 & a2 & a3 & a4 & a5). cbn [fst snd] in *.
  apply (depth_runs ["AUTOINCREMENT"] eq_refl _ _ 0 0) in H0, H1, H2, H3; try reflexivity.
  pose proof (runs_app _ _ _ _ _ _ H0 (runs_app _ _ _ _ _ _ H1 (runs_app _ _ _ _ _ _ H2 H3))) as (s & F & E).
  destruct H as [(w & -> & M & -> & _)|(w & -> & -> & _)].
  - destruct (word_plain _ _ M eq_refl) as [P1 P2]. exists (s ++ [w])%list. split.
    + intros r. specialize (E (w :: r)). rewrite <- !app_assoc in *. cbn [app] in *. rewrite E. cbn [outside]. now rewrite P1, P2.
    + split; [reflexivity|]. intros _. apply in_words_app. right. apply in_words_cons. now left.
  - exists s. split; [intros r; rewrite app_nil_r; apply E|]. split; [intros C; now apply in_words_not in C|discriminate].
Qed.
Lemma gives_auto : forall d t l nxt o v, lang (column_constraint d) (t :: l) nxt o v -> gives (auto_words d) is_auto (t :: l) v.
Proof.
  intros d t l nxt o v H. destruct d; cbn [column_constraint auto_words] in *; unfold GSqlite.column_constraint, GPostgres.column_constraint, GMysql.column_constraint in H; cases H.
  all: try (quiet H).
  1, 3: now apply gives_sqlite_auto in H.
  destruct H as (a & -> & M & E & _). inversion E; subst. destruct (word_plain _ _ M eq_refl) as [P1 P2].
  apply (gives_first _ _ _ [] _ []); auto.
Qed.

(** ** MySQL: KEY *)

Definition ends_unique (x : list string) : Prop := exists p u, x = (p ++ [u])%list /\ matches ["UNIQUE"] u = true.
Definition hask (x s : list string) : Prop := exists p k q, s = (p ++ k :: q)%list /\ matches ["KEY"] k = true /\ ~ ends_unique (x ++ p).
Lemma hask_cons : forall x t s, hask x (t :: s) <-> (matches ["KEY"] t = true /\ ~ ends_unique x) \/ hask (x ++ [t]) s.
Proof.
  intros x t s. split.
  - intros ([|t' p] & k & q & E & K & N); cbn [app] in E; inversion E; subst.
    + left. rewrite app_nil_r in N. auto.
    + right. exists p, k, q. rewrite <- app_assoc. auto.
  - intros [[K N]|(p & k & q & -> & K & N)].
    + exists [], t, s. rewrite app_nil_r. auto.
    + exists (t :: p), k, q. rewrite <- app_assoc in N. auto.
Qed.
Lemma hask_quiet : forall s, Forall (fun t => matches ["KEY"; "UNIQUE"] t = false) s -> forall x r, hask x (s ++ r) <-> hask (x ++ s) r.
Proof.
  intros s F. induction F as [|t s M F IH]; intros x r; [now rewrite app_nil_r|].
  cbn [app]. rewrite hask_cons, IH, <- app_assoc. cbn [app]. split; auto. intros [[K _]|C]; auto.
  apply (matches_sub ["KEY"]) in M; [congruence|]. intros w [<-|[]]. cbn; auto.
Qed.
Lemma quiet_unique : forall t s x, Forall (fun t => matches ["KEY"; "UNIQUE"] t = false) (t :: s) -> ~ ends_unique (x ++ t :: s).
Proof.
  intros t s x F (p & u & E & U). assert (S : exists s' u', (t :: s = s' ++ [u'])%list).
  { destruct s as [|z s'] using rev_ind; [exists [], t; auto|exists (t :: s'), z; auto]. }
  destruct S as (s' & u' & S). rewrite S in E, F. rewrite app_assoc in E. apply app_inj_tail in E as [_ ->].
  apply Forall_app in F as [_ F]. inversion F as [|? ? F1 _]; subst. apply (matches_sub ["UNIQUE"]) in F1; [congruence|]. intros w [<-|[]]. cbn; auto.
Qed.
Lemma not_ends : forall x t, matches ["UNIQUE"] t = false -> ~ ends_unique (x ++ [t]).
Proof. intros x t M (p & u & E & U). apply app_inj_tail in E as [_ ->]. congruence. Qed.
Definition kstep (l : list string) (nxt : option string) (v : a_item) : Prop :=
  exists s, (forall r, outside 0 (l ++ r) = (s ++ outside 0 r)%list) /\
    forall x, (ends_unique x -> matches ["KEY"] (tok (hd_error l)) = false) ->
      (forall r, hask x (s ++ r) <-> is_primary v = true \/ hask (x ++ s) r) /\
      (ends_unique (x ++ s) -> matches ["KEY"] (tok nxt) = false).
Lemma kstep_quiet : forall A (g : gr A) t l nxt o v nxt' w, depth ["KEY"; "UNIQUE"] g 0 = Some 0 -> lang g (t :: l) nxt o v -> t <> "(" /\ t <> "()" /\ t <> ")" -> is_primary w = false ->
  kstep (t :: l) nxt' w.
Proof.
  intros A g t l nxt o v nxt' w D H (N1 & N2 & N3) W. apply (depth_runs ["KEY"; "UNIQUE"] eq_refl _ _ 0 0 D) in H as (s & F & E). exists s. split; auto. intros x _.
  assert (S : exists s', s = t :: s').
  { specialize (E []). cbn [app outside] in E. apply String.eqb_neq in N1, N3. rewrite N1, N3 in E. cbn [app outside] in E. rewrite !app_nil_r in E. eauto. }
  destruct S as (s' & ->). split.
  - intros r. rewrite (hask_quiet _ F), W. split; auto. intros [C|C]; [discriminate|auto].
  - intros C. exfalso. revert C. now apply quiet_unique.
Qed.
Lemma mysql_kstep : forall t l nxt o v, lang GMysql.column_constraint (t :: l) nxt o v -> kstep (t :: l) nxt v.
Proof.
  intros t l nxt o v H. pose proof (head_not_bracket MySQL _ _ _ _ _ H) as B. unfold GMysql.column_constraint in H. cases H.
  all: try (eapply kstep_quiet; [|exact H|exact B|]; [vm_compute; reflexivity|values H]).
  - unfold GMysql.c_primary in H. destruct H as [H|H].
    + destruct H as (a & -> & H). assert (X : exists k, (t :: l = [k])%list /\ matches ["KEY"] k = true).
      { clear B. parts H. destruct H0 as [-> _], H1 as [-> _]. destruct H as (M & -> & _). eexists. split; [reflexivity|exact M]. }
      clear H. destruct X as (k & E & M). inversion E; subst. destruct (word_plain _ _ M eq_refl) as [P1 P2].
      assert (MU : matches ["UNIQUE"] k = false) by (eapply word_not; [exact M|reflexivity]).
      exists [k]. split; [intros r; cbn [app outside]; now rewrite P1, P2|]. intros x X. cbn [hd_error tok] in X. split.
      * intros r. split; [intros _; now left|]. intros _. cbn [app]. rewrite hask_cons. left. split; auto. intros C. apply X in C. congruence.
      * intros C. now apply not_ends in C.
    + destruct H as (a & -> & H). assert (X : exists u k, (t :: l = [u; k])%list /\ matches ["PRIMARY"] u = true /\ matches ["KEY"] k = true).
      { clear B. parts H. destruct H0 as (M1 & -> & _). destruct H as (M & -> & _). eexists _, _. split; [reflexivity|]. split; [exact M1|exact M]. }
      clear H. destruct X as (u & k & E & M1 & M). inversion E; subst. destruct (word_plain _ _ M eq_refl) as [P1 P2]. destruct (word_plain _ _ M1 eq_refl) as [P3 P4].
      assert (MU : matches ["UNIQUE"] k = false) by (eapply word_not; [exact M|reflexivity]).
      assert (MU1 : matches ["UNIQUE"] u = false) by (eapply word_not; [exact M1|reflexivity]).
      exists [u; k]. split; [intros r; cbn [app outside]; now rewrite P1, P2, P3, P4|]. intros x X. split.
      * intros r. split; [intros _; now left|]. intros _. cbn [app]. rewrite hask_cons. right. rewrite hask_cons. left. split; auto. now apply not_ends.
      * intros C. exfalso. revert C. change (x ++ [u; k])%list with (x ++ [u] ++ [k])%list. rewrite app_assoc. now apply not_ends.
  - unfold GMysql.c_unique in H. destruct H as (a & -> & H).
    assert (X : exists u, matches ["UNIQUE"] u = true /\ ((t :: l = [u] /\ matches ["KEY"] (tok nxt) = false)%list \/ exists k, (t :: l = [u; k])%list /\ matches ["KEY"] k = true)).
    { clear B. parts H. destruct H0 as (M1 & -> & _). exists (fst a). split; [exact M1|]. destruct H as [(f & _ & M & -> & _)|(-> & _ & M)].
      - right. eexists. split; [reflexivity|exact M].
      - left. split; [reflexivity|]. destruct nxt; auto. }
    clear H. destruct X as (u & M1 & [[E N]|(k & E & M)]); inversion E; subst; destruct (word_plain _ _ M1 eq_refl) as [P1 P2].
    + assert (K : matches ["KEY"] u = false) by (eapply word_not; [exact M1|reflexivity]).
      exists [u]. split; [intros r; cbn [app outside]; now rewrite P1, P2|]. intros x X. split; [|auto].
      intros r. cbn [app]. rewrite hask_cons, K. split; [intros [[C _]|C]; [discriminate|auto]|intros [C|C]; [discriminate|auto]].
    + destruct (word_plain _ _ M eq_refl) as [P3 P4]. assert (K : matches ["KEY"] u = false) by (eapply word_not; [exact M1|reflexivity]).
      assert (MU : matches ["UNIQUE"] k = false) by (eapply word_not; [exact M|reflexivity]).
      exists [u; k]. split; [intros r; cbn [app outside]; now rewrite P1, P2, P3, P4|]. intros x X. split.
      * intros r. cbn [app]. rewrite hask_cons, K, hask_cons, <- app_assoc. cbn [app]. split.
        -- intros [[C _]|[[_ C]|C]]; [discriminate| |auto]. exfalso. apply C. exists x, u. auto.
        -- intros [C|C]; [discriminate|auto].
      * intros C. exfalso. revert C. change (x ++ [u; k])%list with (x ++ [u] ++ [k])%list. rewrite app_assoc. now apply not_ends.
Qed.
Lemma kstep_star : forall l nxt o vs hs, star (lang (column_constraint MySQL)) l nxt o vs hs ->
  forall x, (ends_unique x -> matches ["KEY"] (tok (hdr l nxt)) = false) -> (hask x (outside 0 l) <-> existsb is_primary vs = true).
Proof.
  intros l nxt o vs hs H. induction H as [nxt|t l1 l2 nxt o1 o2 v vs hs H1 H2 IH]; intros x X.
  - split; [intros (p & k & q & E & _); now destruct p|discriminate].
  - apply mysql_kstep in H1 as (s & E & K). change (t :: l1 ++ l2)%list with ((t :: l1) ++ l2)%list. rewrite E.
    destruct (K x X) as [K1 K2]. rewrite K1, (IH _ K2). cbn [existsb]. now rewrite orb_true_iff.
Qed.
Lemma mysql_primary : forall l c, column_is MySQL l c -> (key_written l <-> existsb is_primary (ac_items c) = true).
Proof.
  intros l c (nxt & o & H). apply column_cases in H as (l1 & l2 & o1 & o2 & nxt1 & hs & -> & H1 & H2).
  apply (depth_runs ["KEY"; "UNIQUE"] eq_refl _ _ 0 0) in H1 as (s & F & E); [|vm_compute; reflexivity].
  change (key_written (l1 ++ l2)) with (hask [] (outside 0 (l1 ++ l2))). rewrite E, (hask_quiet _ F). eapply kstep_star; eauto.
  cbn [app]. intros C. exfalso. destruct s as [|t s]; [destruct C as (p & u & E' & _); now destruct p|]. now apply (quiet_unique t s []) in C.
Qed.

(** ** Constraint names *)
Definition named_auto (l : list string) : Prop :=
  exists p a b q, outside 0 l = (p ++ a :: b :: q)%list /\ matches ["CONSTRAINT"] a = true /\ matches ["AUTOINCREMENT"; "AUTO_INCREMENT"] b = true.
Lemma name_auto : forall d x, cmem (name_class d) x = true -> (matches not_names x = true <-> matches ["AUTOINCREMENT"; "AUTO_INCREMENT"] x = true).
Proof.
  intros d x M. split.
  - intros N. apply matches_spec in N as (w & I & N). cbn [In not_names] in I.
    repeat (destruct I as [<-|I]; [destruct N as [->| ->]; first [vm_compute; reflexivity | exfalso; revert M; destruct d; vm_compute; discriminate]|]). contradiction.
  - intros N. apply matches_some in N as (w & I & N). apply matches_some. exists w. split; auto. cbn in I |- *. tauto.
Qed.
Lemma constraint_word : forall d t l nxt o v, lang (column_constraint d) (t :: l) nxt o v -> runs ["CONSTRAINT"] (t :: l) 0 0.
Proof.
  intros d t l nxt o v H. eapply (depth_runs ["CONSTRAINT"] eq_refl); [|exact H]. destruct d; vm_compute; reflexivity.
Qed.
Lemma constraints_word : forall d l nxt o vs hs, star (lang (column_constraint d)) l nxt o vs hs -> ~ in_words ["CONSTRAINT"] (outside 0 l).
Proof.
  intros d l nxt o vs hs H. induction H as [nxt|t l1 l2 nxt o1 o2 v vs hs H1 H2 IH].
  - intros (t & [] & _).
  - apply constraint_word in H1 as (s & F & E). change (t :: l1 ++ l2)%list with ((t :: l1) ++ l2)%list. rewrite E, in_words_app.
    intros [C|C]; auto. now apply in_words_not in C.
Qed.
Lemma cname_cases : forall d l nxt o v, lang (column_cname d) l nxt o v ->
  l = [] /\ v = None \/
  (exists c, l = [c] /\ v = None /\ matches ["CONSTRAINT"] c = true /\ matches ["CHECK"] (tok nxt) = true) \/
  (exists c x, l = [c; x] /\ v = Some x /\ matches ["CONSTRAINT"] c = true /\ cmem (name_class d) x = true).
Proof.
  intros d l nxt o v H. destruct d; cbn [column_cname] in H; unfold GSqlite.constraint_name, GPostgres.constraint_name, GMysql.constraint_name in H.
  1, 2, 4: destruct H as [H|H]; [right; right; parts H; destruct H0 as (M & -> & _), H as (N & -> & _); eexists _, _; split; [reflexivity|]; repeat split; auto
    |left; destruct H as (a & -> & -> & _); auto].
  destruct H as [H|H].
  - right. parts H. destruct H0 as (M & -> & _). destruct H as [H|H].
    + left. destruct H as (a1 & E & -> & _ & K). eexists. split; [reflexivity|]. split; [congruence|]. split; [exact M|]. destruct nxt; [exact K|contradiction].
    + right. destruct H as (a' & E & N & -> & _). eexists _, _. split; [reflexivity|]. split; [congruence|]. split; [exact M|exact N].
  - left. destruct H as (a & -> & -> & _); auto.
Qed.

Lemma split_word : forall ws s a t r p b q, Forall (fun x => matches ws x = false) s -> ~ in_words ws r -> matches ws b = true -> matches ws t = false ->
  (s ++ a :: t :: r = p ++ b :: q)%list -> b = a /\ q = t :: r.
Proof.
  intros ws s. induction s as [|x s IH]; intros a t r p b q F R B T E.
  - destruct p as [|y p]; cbn [app] in E; inversion E; subst; auto. exfalso. destruct p as [|z p]; cbn [app] in *; inversion H1; subst; [congruence|].
    apply R. apply in_words_app. right. apply in_words_cons. now left.
  - inversion F as [|? ? X F']; subst. destruct p as [|y p]; cbn [app] in E; inversion E; subst; [congruence|]. eapply IH; eauto.
Qed.
Lemma split_word1 : forall ws s a r p b q, Forall (fun x => matches ws x = false) s -> ~ in_words ws r -> matches ws b = true ->
  (s ++ a :: r = p ++ b :: q)%list -> b = a /\ q = r.
Proof.
  intros ws s. induction s as [|x s IH]; intros a r p b q F R B E.
  - destruct p as [|y p]; cbn [app] in E; inversion E; subst; auto. exfalso. apply R. apply in_words_app. right. apply in_words_cons. now left.
  - inversion F as [|? ? X F']; subst. destruct p as [|y p]; cbn [app] in E; inversion E; subst; [congruence|]. eapply IH; eauto.
Qed.
Lemma auto_named : forall d l c, column_is d l c -> (named_auto l <-> exists x, ac_cname c = Some x /\ matches not_names x = true).
Proof.
  intros d l c (nxt & o & H). apply column_full in H.
  destruct H as ((n & ty & cn & is) & E & l1 & l' & o1 & o' & -> & -> & H1 & l2 & l'' & o2 & o'' & -> & -> & H2 & l3 & l4 & o3 & o4 & -> & -> & H3 & hs & H4 & _).
  cbn [fst snd] in *. inversion E; subst c. cbn [ac_cname]. pose proof (constraints_word _ _ _ _ _ _ H4) as R. 
  assert (D : depth ["CONSTRAINT"] (column_name d ** column_type d) 0 = Some 0) by (destruct d; vm_compute; reflexivity).
  assert (X : lang (column_name d ** column_type d) (l1 ++ l2) (hdr (l3 ++ l4) nxt) (o1 ++ o2) (n, ty)) by (apply lang_seq; [rewrite <- hdr_app; exact H1|exact H2]).
  apply (depth_runs ["CONSTRAINT"] eq_refl _ _ 0 0 D) in X as (s & F & O). clear H1 H2.
  assert (EO : outside 0 (l1 ++ l2 ++ l3 ++ l4) = (s ++ outside 0 (l3 ++ l4))%list) by (rewrite <- O; f_equal; now rewrite <- !app_assoc).
  unfold named_auto. rewrite EO. clear EO O.
  destruct (cname_cases _ _ _ _ _ H3) as [[-> ->]|[(k & -> & -> & K & N)|(k & x & -> & -> & K & N)]]; cbn [app].
  - split; [|intros (x & C & _); discriminate]. intros (p & a & b & q & Q & A & _). exfalso. 
    assert (C : in_words ["CONSTRAINT"] (s ++ outside 0 l4)) by (rewrite Q; apply in_words_app; right; apply in_words_cons; now left).
    apply in_words_app in C as [C|C]; [now apply in_words_not in C|auto].
  - split; [|intros (x & C & _); discriminate]. intros (p & a & b & q & Q & A & B). exfalso. destruct (word_plain _ _ K eq_refl) as [P1 P2].
    cbn [outside] in Q. rewrite P1, P2 in Q. cbn [app] in Q. destruct (split_word1 ["CONSTRAINT"] _ _ _ _ _ _ F R A Q) as [-> Q2].
    destruct l4 as [|t l4]; [discriminate|]. cbn [hdr tok] in N. destruct (word_plain _ _ N eq_refl) as [P3 P4]. cbn [outside] in Q2. rewrite P3, P4 in Q2. cbn [app] in Q2.
    inversion Q2; subst. assert (C : matches ["AUTOINCREMENT"; "AUTO_INCREMENT"] t = false) by (eapply word_not; [exact N|reflexivity]). congruence.
  - destruct (word_plain _ _ K eq_refl) as [P1 P2]. cbn [outside]. rewrite P1, P2. cbn [app].
    assert (PX : matches ["CONSTRAINT"; "("; ")"] x = false).
    { pose proof (class_within _ _ N) as W. eapply (forallb_within (next_in ["CONSTRAINT"; "("; ")"]) false) in W; [|destruct d; vm_compute; reflexivity].
      cbn [la_mem next_in la_words la_neg] in W. now rewrite xorb_false_r in W. }
    assert (P3 : (x =? "(") = false) by (apply not_true_iff_false; intros C%String.eqb_eq; subst; discriminate).
    assert (P4 : (x =? ")") = false) by (apply not_true_iff_false; intros C%String.eqb_eq; subst; discriminate).
    assert (PC : matches ["CONSTRAINT"] x = false) by (eapply matches_sub; [|exact PX]; intros w [<-|[]]; cbn; auto).
    rewrite P3, P4. cbn [app]. split.
    + intros (p & a & b & q & Q & A & B). destruct (split_word ["CONSTRAINT"] _ _ _ _ _ _ _ F R A PC Q) as [_ Q2]. inversion Q2; subst.
      exists x. split; auto. now apply (name_auto d).
    + intros (y & Y & M). inversion Y; subst. exists s, k, y, (outside 0 l4). split; auto. split; auto. now apply (name_auto d).
Qed.

(** ** The reported flags *)
Lemma seen_exists : forall f, (forall i, f (seen_item i) = f i) -> forall is, existsb f (map seen_item is) = existsb f is.
Proof. intros f H is. induction is as [|i is IH]; cbn [map existsb]; auto. now rewrite H, IH. Qed.
Lemma flags_written : forall d t c, column_is d t c -> flags d t (column_of d (seen_column c)).
Proof.
  intros d t c H.
  assert (P : primary_written d t <-> existsb is_primary (ac_items c) = true).
  { destruct d; cbn [primary_written]; try now apply mysql_primary.
    all: match type of H with column_is ?d' _ _ => apply (column_words d' ["PRIMARY"] is_primary); [reflexivity|vm_compute; reflexivity| |exact H] end; intros t' l nxt o v; apply gives_primary; discriminate. }
  assert (U : unique_written t <-> existsb is_unique (ac_items c) = true).
  { apply (column_words d ["UNIQUE"] is_unique); [reflexivity|destruct d; vm_compute; reflexivity| |exact H]. intros t' l nxt o v. apply gives_unique. }
  assert (A : auto_written d t <-> existsb is_auto (ac_items c) = true \/ exists x, ac_cname c = Some x /\ matches not_names x = true).
  { unfold auto_written. rewrite <- (auto_named _ _ _ H). apply or_iff_compat_r. fold (auto_words d).
    apply (column_words d (auto_words d) is_auto); [destruct d; reflexivity|destruct d; vm_compute; reflexivity| |exact H]. intros t' l nxt o v. apply gives_auto. }
  unfold flags. rewrite P, U, A. clear.
  assert (S1 : forall i, is_primary (seen_item i) = is_primary i) by (now intros [| | | |[]| | | |]).
  assert (S2 : forall i, is_unique (seen_item i) = is_unique i) by (now intros [| | | |[]| | | |]).
  assert (S3 : forall i, is_auto (seen_item i) = is_auto i) by (now intros [| | | |[]| | | |]).
  destruct c as [n ty cn is]. unfold seen_column. cbn [ac_cname ac_items ac_name ac_type].
  assert (Z : forall c', ac_items c' = map seen_item is \/ ac_items c' = (IAuto :: map seen_item is) ->
    (c_pk (col_constraint (column_of d c')) = true <-> existsb is_primary is = true) /\ (c_unique (col_constraint (column_of d c')) = true <-> existsb is_unique is = true) /\
    c_auto (col_constraint (column_of d c')) = existsb is_auto (ac_items c')).
  { intros c' E. unfold column_of, constraint_of. cbn [col_constraint c_pk c_unique c_auto].
    fold is_primary is_unique is_auto. destruct E as [E|E]; rewrite E; cbn [existsb is_primary is_unique orb]; rewrite (seen_exists is_primary S1), (seen_exists is_unique S2); repeat split; auto. }
  destruct cn as [x|].
  - destruct (matches not_names x) eqn:M.
    + destruct (Z (mk_acolumn n ty None (IAuto :: map seen_item is))) as (Z1 & Z2 & Z3); [now right|]. rewrite Z3. do 2 (split; auto). cbn [ac_items existsb is_auto orb]. split; auto.
      intros _. right. eauto.
    + destruct (Z (mk_acolumn n ty (Some x) (map seen_item is))) as (Z1 & Z2 & Z3); [now left|]. rewrite Z3. do 2 (split; auto). cbn [ac_items]. rewrite (seen_exists is_auto S3). split; auto.
      intros [C|(y & Y & C)]; auto. inversion Y; subst. congruence.
  - destruct (Z (mk_acolumn n ty None (map seen_item is))) as (Z1 & Z2 & Z3); [now left|]. rewrite Z3. do 2 (split; auto). cbn [ac_items]. rewrite (seen_exists is_auto S3). split; auto.
    intros [C|(y & Y & C)]; auto. discriminate.
Qed.
Theorem flags_texts : forall d ddl stmts l cs, says d ddl stmts -> readable stmts = true -> tokens d ddl l -> column_texts d l cs ->
  exists ts, accepted ddl d ts /\ Forall2 (flags d) cs (result_columns ts).
Proof.
  intros d ddl stmts l cs S F T C.
  destruct (column_wise d (fun t c r => flags d t r) ddl stmts) with (l := l) (cs := cs) as (ts & A & Y); auto.
  - intros c o _ _ t. apply flags_written.
  - exists ts. split; auto. clear - Y. induction Y as [|t r l l' (c & _ & Y1) Y2 IH]; constructor; auto.
Qed.
