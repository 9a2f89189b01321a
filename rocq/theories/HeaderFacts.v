(** TEMP and IF NOT EXISTS at the beginning of CREATE TABLE. *)
From Coq Require Import String List Bool Arith Lia.
From Verif Require Import GoStr Types Lexer VBase Exec Grammar GrammarFacts Ast Emit Converter Parse Seen Spec Pipe Meaning Decide Local Read Parts PartsFacts SkippedFacts OrderResult Header.
From Verif Require OrderFacts GSqlite GPostgres GMysql.
Import ListNotations.
Open Scope nat_scope.
Open Scope string_scope.
Open Scope list_scope.

(** ** Execution of the first words *)
Lemma exec_seq : forall A B (g : gr A) (h : gr B) n l, exec (prog (Seq g h) n) l = ebind (exec (prog g n) l) (fun _ => prog h n).
Proof. intros. apply exec_bind. Qed.
Lemma exec_word : forall keep ws n t l, matches ws t = true -> exec (prog (One keep (CW ws)) n) (t :: l) = EOk tt l (kept keep [t]).
Proof. intros keep ws n t l M. cbn [prog]. rewrite exec_one. cbn [cmem]. now rewrite M. Qed.
Lemma exec_case : forall A c (g h : gr A) n l, exec (prog (Cond c g h) n) l = if la_mem c (hd_error l) then exec (prog g n) l else exec (prog h n) l.
Proof. intros. cbn [prog]. apply exec_if. apply exec_look_la. Qed.
Lemma exec_script : forall d n t l, exec (prog (script d) (S n)) (t :: l) =
  ebind (exec (prog (statement d) n) (t :: l)) (fun _ => prog (script d) n).
Proof.
  intros d n t l. rewrite script_while. cbn [prog while_loop]. erewrite exec_if by apply exec_look_la. cbn [hd_error la_mem la_words la_neg].
  replace (xorb (matches [] t) true) with true by reflexivity. apply exec_bind.
Qed.
Lemma ebind_pre : forall A B o (r : eres A) (f : A -> V B), ebind (epre o r) f = epre o (ebind r f).
Proof. intros A B o [a rest out|rest| |] f; cbn; auto. now rewrite epre_app. Qed.
Lemma next_not : forall ws (l : list string), (forall x, hd_error l = Some x -> matches ws x = false) -> la_mem (next_in ws) (hd_error l) = false.
Proof. intros ws [|x l] H; [reflexivity|]. cbn [hd_error la_mem next_in la_words la_neg]. now rewrite (H x eq_refl). Qed.
Lemma next_is : forall ws t (l : list string), matches ws t = true -> la_mem (next_in ws) (hd_error (t :: l)) = true.
Proof. intros ws t l H. cbn [hd_error la_mem next_in la_words la_neg]. now rewrite H. Qed.

(** [skipped g]: from here on, nothing has been done *)
Lemma run_temp : forall n c t l, kwd "CREATE" c -> matches ["TEMP"; "TEMPORARY"] t = true ->
  (forall x, hd_error l = Some x -> matches ["TEMP"; "TEMPORARY"] x = false) ->
  exec (prog GSqlite.statement n) (c :: t :: l) = exec (prog GSqlite.statement n) (c :: l).
Proof.
  intros n c t l C T N. unfold GSqlite.statement, optkw, opt. cbn [prog]. cbv beta.
  change (exec (prog (One false (CW ["CREATE"]) ** (Cond (next_in ["TEMP"; "TEMPORARY"]) (Map Some (One false (CW ["TEMP"; "TEMPORARY"]))) (Map (fun _ => None) Eps) **
    (Cond (next_in ["TABLE"]) GSqlite.create_table GSqlite.create_other))) n) (c :: t :: l) =
    exec (prog (One false (CW ["CREATE"]) ** (Cond (next_in ["TEMP"; "TEMPORARY"]) (Map Some (One false (CW ["TEMP"; "TEMPORARY"]))) (Map (fun _ => None) Eps) **
    (Cond (next_in ["TABLE"]) GSqlite.create_table GSqlite.create_other))) n) (c :: l)).
  rewrite !exec_seq, !exec_word by exact C. cbn [ebind kept]. f_equal. rewrite !exec_seq, !exec_case, (next_is _ _ _ T), (next_not _ _ N).
  change (prog (Map Some (One false (CW ["TEMP"; "TEMPORARY"]))) n) with (prog (One false (CW ["TEMP"; "TEMPORARY"])) n).
  rewrite exec_word by exact T. reflexivity.
Qed.
Lemma same_rest : forall d l1 o1 v1 l l', lang (script d) l1 None o1 v1 -> (forall e, verdict d l e <-> verdict d l' e) ->
  forall e, verdict d (l1 ++ l) e <-> verdict d (l1 ++ l') e.
Proof.
  intros d l1 o1 v1 l l' S Q e. split; intros V; destruct (verdict_back _ _ _ _ _ _ S V) as (e' & V' & ->);
    (eapply verdict_app; [exact S|]); now apply Q.
Qed.
(** TEMP, TEMPORARY (SQLite) *)
Theorem temporary : forall d s s' l1 v1 c t X, d <> PostgreSQL -> d <> MySQL -> (exists o1, lang (script d) l1 None o1 v1) -> kwd "CREATE" c ->
  matches ["TEMP"; "TEMPORARY"] t = true -> (forall x, hd_error X = Some x -> matches ["TEMP"; "TEMPORARY"] x = false) ->
  tokens d s (l1 ++ c :: X) -> tokens d s' (l1 ++ c :: t :: X) -> alike d s s'.
Proof.
  intros d s s' l1 v1 c t X P M [o1 S] C T N L L'. eapply same_verdict; [exact L|exact L'|]. eapply same_rest; [exact S|]. intros e.
  assert (E : forall n, exec (prog (script d) n) (c :: X) = exec (prog (script d) n) (c :: t :: X)).
  { intros [|n]; [rewrite script_while; reflexivity|]. rewrite !exec_script. f_equal. symmetry.
    destruct d; try congruence; apply (run_temp n c t X C T N). }
  unfold verdict. split; intros [F [n V]]; (split; [exact F|]); exists n; rewrite <- V; [symmetry|]; apply E.
Qed.

(** ** IF NOT EXISTS *)
Definition table_rest (d : rdbms) (n : nat) : V unit :=
  match d with
  | PostgreSQL => prog (GPostgres.table_name ** kw ["("] ** SepBy true GPostgres.element ** kw [")"] ** GPostgres.table_options ** kw [";"]) n
  | MySQL => prog (GMysql.table_name ** kw ["("] ** SepBy true GMysql.element ** kw [")"] ** GMysql.table_options ** kw [";"]) n
  | _ => prog (GSqlite.table_name ** kw ["("] ** SepBy true GSqlite.element ** kw [")"] ** GSqlite.table_options ** kw [";"]) n
  end.
Lemma not_temp : forall t, kwd "TABLE" t -> matches ["TEMP"; "TEMPORARY"] t = false.
Proof. intros t H. apply matches_one in H as [-> | ->]; reflexivity. Qed.
Lemma exec_map : forall A B (f : A -> B) (g : gr A) n, prog (Map f g) n = prog g n.
Proof. reflexivity. Qed.
Lemma exec_put : forall o n l, exec (prog (Put o) n) l = EOk tt l o.
Proof. intros. apply exec_emits. Qed.
Lemma exec_notnext : forall ws n l, la_mem (next_in ws) (hd_error l) = false -> exec (prog (NotNext ws) n) l = EOk tt l [].
Proof. intros ws n l H. cbn [prog]. erewrite exec_if by apply exec_look_la. now rewrite H. Qed.
Lemma exec_eps : forall n l, exec (prog Eps n) l = EOk tt l [].
Proof. reflexivity. Qed.
Lemma ebind_ok : forall A B (a : A) rest out (f : A -> V B), ebind (EOk a rest out) f = epre out (exec (f a) rest).
Proof. reflexivity. Qed.


Ltac heads :=
  unfold GSqlite.statement, GPostgres.statement, GMysql.statement, GSqlite.create_table, GPostgres.create_table, GMysql.create_table,
    GSqlite.if_not_exists, GPostgres.if_not_exists, GMysql.if_not_exists, optkw, opt;
  match goal with |- context [Seq ?a ?b] =>
    match a with
    | GSqlite.table_name => let R := fresh "R" in generalize (Seq a b); intros R
    | GPostgres.table_name => let R := fresh "R" in generalize (Seq a b); intros R
    | GMysql.table_name => let R := fresh "R" in generalize (Seq a b); intros R
    end
  end.
Ltac runs :=
  repeat first [rewrite exec_map | rewrite exec_word by assumption | rewrite exec_put
    | rewrite exec_notnext by assumption | rewrite exec_eps | rewrite ebind_ok | rewrite ebind_pre | rewrite epre_app | rewrite epre_nil | rewrite exec_seq
    | rewrite exec_case; match goal with H : la_mem ?c ?l = _ |- context [la_mem ?c ?l] => rewrite H end].
Lemma run_plain : forall d n c t X, kwd "CREATE" c -> kwd "TABLE" t -> no_if X ->
  exec (prog (statement d) n) (c :: t :: X) = epre ["CREATE"; t] (exec (table_rest d n) X).
Proof.
  intros d n c t X C T N. unfold kwd in *. pose proof (next_not _ _ N) as N'. pose proof (not_temp t T) as TT.
  assert (NT : la_mem (next_in ["TEMP"; "TEMPORARY"]) (hd_error (t :: X)) = false) by (apply next_not; intros x E; now injection E as <-).
  assert (YT : la_mem (next_in ["TABLE"]) (hd_error (t :: X)) = true) by now apply next_is.
  destruct d; cbn [statement table_rest]; heads; runs; reflexivity.
Qed.
Lemma run_if : forall d n c t i m e X, kwd "CREATE" c -> kwd "TABLE" t -> kwd "IF" i -> kwd "NOT" m -> kwd "EXISTS" e ->
  exec (prog (statement d) n) (c :: t :: i :: m :: e :: X) = epre ["CREATE"; t; i; m; e] (exec (table_rest d n) X).
Proof.
  intros d n c t i m e X C T I M E. unfold kwd in *. pose proof (not_temp t T) as TT.
  assert (NT : forall X, la_mem (next_in ["TEMP"; "TEMPORARY"]) (hd_error (t :: X)) = false) by (intros Y; apply next_not; intros x Q; now injection Q as <-).
  assert (YT : forall X, la_mem (next_in ["TABLE"]) (hd_error (t :: X)) = true) by (intros; now apply next_is).
  assert (YI : forall X, la_mem (next_in ["IF"]) (hd_error (i :: X)) = true) by (intros; now apply next_is).
  specialize (NT (i :: m :: e :: X)). specialize (YT (i :: m :: e :: X)). specialize (YI (m :: e :: X)).
  destruct d; cbn [statement table_rest]; heads; runs; reflexivity.
Qed.
(** the validator keeps the same, but for the three words *)
Definition with_words (o o' : list string) (e e' : eres unit) : Prop :=
  match e, e' with
  | EOk _ r a, EOk _ r' a' => r = r' /\ exists b, a = o ++ b /\ a' = o' ++ b
  | EErr r, EErr r' => r = r'
  | EPanic, EPanic => True
  | EFuel, EFuel => True
  | _, _ => False
  end.
Lemma with_words_pre : forall o o' r, with_words o o' (epre o r) (epre o' r).
Proof. intros o o' [a r b|r| |]; cbn; eauto. Qed.
Lemma run_both : forall d n c t i m e X, kwd "CREATE" c -> kwd "TABLE" t -> kwd "IF" i -> kwd "NOT" m -> kwd "EXISTS" e -> no_if X ->
  with_words ["CREATE"; t] ["CREATE"; t; i; m; e] (exec (prog (script d) n) (c :: t :: X)) (exec (prog (script d) n) (c :: t :: i :: m :: e :: X)).
Proof.
  intros d n c t i m e X C T I M E N. destruct n as [|n]; [rewrite script_while; exact Logic.I|].
  rewrite !exec_script, run_plain, run_if by assumption. rewrite !ebind_pre. apply with_words_pre.
Qed.
Lemma err_both : forall d l1 o1 v1 c t i m e X rest, lang (script d) l1 None o1 v1 ->
  kwd "CREATE" c -> kwd "TABLE" t -> kwd "IF" i -> kwd "NOT" m -> kwd "EXISTS" e -> no_if X ->
  (verdict d (l1 ++ c :: t :: X) (EErr rest) <-> verdict d (l1 ++ c :: t :: i :: m :: e :: X) (EErr rest)).
Proof.
  intros d l1 o1 v1 c t i m e X rest S C T I M E N.
  split; intros V; destruct (verdict_back _ _ _ _ _ _ S V) as (e' & [F [n V']] & Q); destruct e' as [? ? ?|r| |]; try discriminate Q;
    injection Q as <-; change (@EErr unit rest) with (epre o1 (@EErr unit rest)); (eapply verdict_app; [exact S|]);
    (split; [discriminate|]); exists n; pose proof (run_both d n c t i m e X C T I M E N) as R; rewrite V' in R; cbn [with_words] in R.
  - destruct (exec _ (c :: t :: i :: _)); cbn [with_words] in R; try contradiction. now subst.
  - destruct (exec _ (c :: t :: X)); cbn [with_words] in R; try contradiction. now subst.
Qed.
Theorem if_rejected : forall d s s' l1 v1 c t i m e X, (exists o1, lang (script d) l1 None o1 v1) ->
  kwd "CREATE" c -> kwd "TABLE" t -> kwd "IF" i -> kwd "NOT" m -> kwd "EXISTS" e -> no_if X ->
  tokens d s (l1 ++ c :: t :: X) -> tokens d s' (l1 ++ c :: t :: i :: m :: e :: X) ->
  forall near, (exists line, rejected s d line near) <-> (exists line, rejected s' d line near).
Proof.
  intros d s s' l1 v1 c t i m e X [o1 S] C T I M E N (k & L & Hk)%tokens_lexed (k' & L' & Hk')%tokens_lexed near.
  pose proof (fun rest => err_both d l1 o1 v1 c t i m e X rest S C T I M E N) as Q. rewrite Hk, Hk' in Q.
  split; intros [line H]; apply returns_stage in H; inversion H as [|t1 rest L1 V|]; subst; try congruence;
    [rewrite L in L1|rewrite L' in L1]; injection L1 as <-; apply Q in V; eexists; apply returns_stage; eapply st_validate; eauto.
Qed.

(** ** What is reported *)

Lemma word_inv : forall keep ws c l1 l2 nxt o v, c :: l2 = l1 -> lang (One keep (CW ws)) l1 nxt o v -> l2 = [] /\ matches ws c = true /\ o = kept keep [c].
Proof. intros keep ws c l1 l2 nxt o v E (M & X & ->). subst l1. injection X as <- ->. auto. Qed.
Lemma seq_word : forall A keep ws (g : gr A) c l nxt o v, lang (One keep (CW ws) ** g) (c :: l) nxt o v ->
  exists o' a, matches ws c = true /\ v = (c, a) /\ o = kept keep [c] ++ o' /\ lang g l nxt o' a.
Proof.
  intros A keep ws g c l nxt o [v a] (l1 & l2 & o1 & o2 & E & -> & (M & -> & ->) & H). cbn [fst snd cmem] in *.
  injection E as <- ->. exists o2, a. auto.
Qed.
Lemma seq_put : forall A (g : gr A) p l nxt o v, lang (Put p ** g) l nxt o v -> exists o' a, v = (tt, a) /\ o = p ++ o' /\ lang g l nxt o' a.
Proof. intros A g p l nxt o [[] a] (l1 & l2 & o1 & o2 & -> & -> & [-> ->] & H). exists o2, a. auto. Qed.
(** one of the forms of [IF NOT EXISTS] *)
Definition if_form (g : gr bool) : Prop :=
  (forall l nxt o v, lang g l nxt o v -> l = [] /\ v = false \/ exists i l', l = i :: l' /\ kwd "IF" i) /\
  (forall i m e nxt, kwd "IF" i -> kwd "NOT" m -> kwd "EXISTS" e -> lang g [i; m; e] nxt [i; m; e] true).
Lemma if_words : forall i m e nxt, kwd "IF" i -> kwd "NOT" m -> kwd "EXISTS" e ->
  lang (kw ["IF"] ** kw ["NOT"] ** kw ["EXISTS"]) [i; m; e] nxt [i; m; e] (i, (m, e)).
Proof.
  intros i m e nxt I M E. apply (lang_seq _ _ _ _ [i] [m; e] _ [i] [m; e]); [now apply (lang_one true)|].
  apply (lang_seq _ _ _ _ [m] [e] _ [m] [e]); [now apply (lang_one true)|now apply (lang_one true)].
Qed.
Lemma if_forms : if_form GSqlite.if_not_exists /\ if_form GPostgres.if_not_exists /\ if_form GMysql.if_not_exists.
Proof.
  assert (W : forall l nxt o v, lang (kw ["IF"] ** kw ["NOT"] ** kw ["EXISTS"]) l nxt o v -> exists i l', l = i :: l' /\ kwd "IF" i).
  { intros l nxt o v (l1 & l2 & o1 & o2 & -> & _ & (M & -> & _) & _). cbn [app]. eauto. }
  unfold GSqlite.if_not_exists, GPostgres.if_not_exists, GMysql.if_not_exists, opt. split; [|split]; split.
  - intros l nxt o v (a & -> & [(b & -> & H)|(b & -> & H)]); [right; eauto|left]. destruct H as [-> _]. auto.
  - intros i m e nxt I M E. exists (Some (i, (m, e))). split; [reflexivity|]. left. exists (i, (m, e)). split; [reflexivity|]. now apply if_words.
  - intros l nxt o v [(b & -> & H)|(b & -> & H)]; [right; eauto|left]. destruct H as (-> & _). auto.
  - intros i m e nxt I M E. left. exists (i, (m, e)). split; [reflexivity|]. now apply if_words.
  - intros l nxt o v [(b & -> & H)|(b & -> & H)]; [right; eauto|left]. destruct H as [-> _]. auto.
  - intros i m e nxt I M E. left. exists (i, (m, e)). split; [reflexivity|]. now apply if_words.
Qed.
Lemma seq_if : forall A g (h : gr A) l nxt o v, if_form g -> no_if l -> lang (g ** h) l nxt o v ->
  exists o' a, v = (false, a) /\ lang h l nxt o' a.
Proof.
  intros A g h l nxt o [b a] [F _] N (l1 & l2 & o1 & o2 & -> & -> & G & H). cbn [fst snd] in *.
  apply F in G as [[-> ->]|(i & l' & -> & K)]; [exists o2, a; auto|]. specialize (N i eq_refl). unfold kwd in K. congruence.
Qed.
Lemma if_seq : forall A g (h : gr A) l nxt o a i m e, if_form g -> lang h l nxt o a -> kwd "IF" i -> kwd "NOT" m -> kwd "EXISTS" e ->
  lang (g ** h) (i :: m :: e :: l) nxt (i :: m :: e :: o) (true, a).
Proof. intros A g h l nxt o a i m e [_ F] H I M E. apply (lang_seq _ _ _ _ [i; m; e] l _ [i; m; e]); auto. Qed.
Lemma word_seq : forall A keep ws (g : gr A) c l nxt o a, matches ws c = true -> lang g l nxt o a ->
  lang (One keep (CW ws) ** g) (c :: l) nxt (kept keep [c] ++ o) (c, a).
Proof. intros A keep ws g c l nxt o a M H. apply (lang_seq _ _ _ _ [c] l); auto. now apply lang_one. Qed.
Lemma put_seq : forall A (g : gr A) p l nxt o a, lang g l nxt o a -> lang (Put p ** g) l nxt (p ++ o) (tt, a).
Proof. intros A g p l nxt o a H. apply (lang_seq _ _ _ _ [] l); auto. apply lang_put. Qed.

(** CREATE TABLE with and without the words; [R] is what follows them. *)
Lemma table_if : forall A I (R : gr A) (f : unit * (string * (bool * A)) -> a_stmt) l nxt o v t, if_form I -> no_if l ->
  lang (Put ["CREATE"] ** kw ["TABLE"] ** I ** R ==> f) (t :: l) nxt o v ->
  exists a, v = f (tt, (t, (false, a))) /\ forall i m e, kwd "IF" i -> kwd "NOT" m -> kwd "EXISTS" e ->
  exists o', lang (Put ["CREATE"] ** kw ["TABLE"] ** I ** R ==> f) (t :: i :: m :: e :: l) nxt o' (f (tt, (t, (true, a)))).
Proof.
  intros A I R f l nxt o v t F N (x & -> & H). apply seq_put in H as (o1 & a1 & -> & -> & H). apply seq_word in H as (o2 & a2 & M & -> & -> & H).
  apply seq_if in H as (o3 & a3 & -> & H); auto. exists a3. split; [reflexivity|]. intros i m e Ki Km Ke. eexists.
  apply lang_map. apply put_seq. apply word_seq; auto. eapply if_seq; eauto.
Qed.
Lemma other_not : forall A ws (g : gr A) t l nxt o v, kwd "TABLE" t -> matches ws "TABLE" = false -> matches ws "table" = false ->
  lang (kw_ ws ** g) (t :: l) nxt o v -> False.
Proof. intros A ws g t l nxt o v T M M' H. apply seq_word in H as (_ & _ & K & _). apply matches_one in T as [-> | ->]; cbn in *; congruence. Qed.
Lemma create_inv : forall d c t l nxt o v, kwd "TABLE" t -> no_if l -> lang (statement d) (c :: t :: l) nxt o v ->
  exists sc n es, v = STable (mk_atable false sc n es) /\
  forall i m e, kwd "IF" i -> kwd "NOT" m -> kwd "EXISTS" e -> exists o', lang (statement d) (c :: t :: i :: m :: e :: l) nxt o' (STable (mk_atable true sc n es)).
Proof.
  intros d c t l nxt o v T N H. destruct if_forms as (FS & FP & FM). pose proof (not_temp t T) as TT.
  assert (SQ : lang GSqlite.statement (c :: t :: l) nxt o v -> exists sc n es, v = STable (mk_atable false sc n es) /\
    forall i m e, kwd "IF" i -> kwd "NOT" m -> kwd "EXISTS" e -> exists o', lang GSqlite.statement (c :: t :: i :: m :: e :: l) nxt o' (STable (mk_atable true sc n es))).
  { clear H. intros (x & -> & H). apply seq_word in H as (o1 & a1 & M & -> & -> & H). destruct a1 as [tm a1].
    assert (X : exists o2, lang (Case ["TABLE"] of GSqlite.create_table or GSqlite.create_other) (t :: l) nxt o2 a1).
    { destruct H as (l1 & l2 & o2 & o3 & E & -> & K & H). cbn [fst snd] in *. apply OrderFacts.optkw_inv in K as [_ [-> |(y & -> & K)]].
      - cbn [app] in E. subst l2. eauto.
      - injection E as <- ->. congruence. }
    destruct X as [o2 X]. apply cond_inv in X as [X|X].
    - apply (table_if _ _ _ _ _ _ _ _ _ FS N) in X as ([[sc n] [a2 [es a3]]] & -> & K). exists sc, n, es. split; [reflexivity|].
      intros i m e I J E. destruct (K i m e I J E) as [o' Y]. eexists. exists (c, (None, STable (mk_atable true sc n es))). split; [reflexivity|].
      apply word_seq; auto. apply (lang_seq _ _ _ _ [] (t :: i :: m :: e :: l) _ [] o'); [right; now exists tt|left; exact Y].
    - exfalso. destruct X as (x & _ & X). eapply other_not; [exact T| | |exact X]; reflexivity. }
  destruct d; try (apply SQ; exact H).
  - destruct H as (x & -> & H). apply seq_word in H as (o1 & a1 & M & -> & -> & X). apply cond_inv in X as [X|X].
    + apply (table_if _ _ _ _ _ _ _ _ _ FP N) in X as ([[sc n] [a2 [es a3]]] & -> & K). exists sc, n, es. split; [reflexivity|].
      intros i m e I J E. destruct (K i m e I J E) as [o' Y]. eexists. exists (c, STable (mk_atable true sc n es)). split; [reflexivity|].
      apply word_seq; auto. left. exact Y.
    + exfalso. destruct X as (x & _ & X). eapply other_not; [exact T| | |exact X]; reflexivity.
  - destruct H as (x & -> & H). apply seq_word in H as (o1 & a1 & M & -> & -> & X). apply cond_inv in X as [X|X].
    + apply (table_if _ _ _ _ _ _ _ _ _ FM N) in X as ([[sc n] [a2 [es a3]]] & -> & K). exists sc, n, es. split; [reflexivity|].
      intros i m e I J E. destruct (K i m e I J E) as [o' Y]. eexists. exists (c, STable (mk_atable true sc n es)). split; [reflexivity|].
      apply word_seq; auto. left. exact Y.
    + exfalso. destruct X as (x & _ & X). eapply other_not; [exact T| | |exact X]; reflexivity.
Qed.

(** The table is reported as before, but for the flag. *)
Theorem if_accepted : forall d s s' l1 v1 c t i m e X stmts, (exists o1, lang (script d) l1 None o1 v1) ->
  kwd "TABLE" t -> kwd "IF" i -> kwd "NOT" m -> kwd "EXISTS" e -> no_if X ->
  tokens d s (l1 ++ c :: t :: X) -> tokens d s' (l1 ++ c :: t :: i :: m :: e :: X) -> says d s stmts -> readable stmts = true ->
  exists tb ts, t_if_not_exists tb = false /\ accepted s d (tables_of d (seen v1) ++ tb :: ts) /\ accepted s' d (tables_of d (seen v1) ++ if_not_exists tb :: ts).
Proof.
  intros d s s' l1 v1 c t i m e X stmts [o1 S] T I M E N K K' (l & out & L & H) R.
  rewrite (tokens_det _ _ _ _ L K) in H. clear L l.
  assert (V : verdict d (l1 ++ c :: t :: X) (EOk tt [] out)) by (apply verdict_ok; eauto).
  destruct (verdict_back _ _ _ _ _ _ S V) as (e' & V' & Q). destruct e' as [[] r o2| | |]; try discriminate Q. injection Q as <- ->.
  apply verdict_ok in V' as [_ [v2 H2]].
  assert (W : within [FEof] None) by (exists FEof; split; [now left|reflexivity]).
  pose proof (script_app _ _ _ _ _ _ _ _ S H2) as H3.
  destruct (Read.lang_det _ (script d) [FEof] _ _ [] [] _ _ _ _ (script_ok_eof d) H W H3 W eq_refl) as (_ & _ & ->). clear H H3 V.
  destruct v2 as [|st v2].
  { rewrite script_while in H2. destruct H2 as [hs H2]. remember (c :: t :: X) as y. remember (@nil a_stmt) as z. destruct H2; discriminate. }
  destruct (script_split _ _ _ _ H2 [] st v2 eq_refl) as (a1 & a2 & a3 & b1 & b2 & b3 & E1 & E2 & P1 & P2 & P3).
  assert (Z : a1 = []).
  { rewrite script_while in P1. destruct P1 as [hs P1]. remember (@nil a_stmt) as z. destruct P1; [reflexivity|discriminate]. }
  subst a1. cbn [app] in E1. destruct a2 as [|c' a2]; [destruct (statement_cons _ _ _ _ _ P2) as (? & ? & ?); discriminate|].
  injection E1 as <- E1. destruct a2 as [|t' a2].
  { exfalso. assert (F : forall nxt o v, lang (statement d) [c] nxt o v -> False); [|eapply F; eassumption]. clear. intros nxt o v H.
    destruct d; destruct H as (x & _ & H); apply seq_word in H as (o1 & a1 & _ & _ & _ & H).
    all: try (destruct H as (l1 & l2 & o2 & o3 & E & _ & _ & H); symmetry in E; apply app_eq_nil in E as [_ ->]).
    all: apply cond_inv in H as [H|H]; destruct H as (x1 & _ & H); try (apply seq_put in H as (o4 & a4 & _ & _ & H));
      destruct H as (l1' & l2' & ? & ? & E' & _ & (_ & -> & _) & _); discriminate. }
  injection E1 as <- ->.
  assert (NA : no_if a2) by (intros x Hx; apply N; destruct a2; [discriminate|exact Hx]).
  destruct (create_inv _ _ _ _ _ _ _ T NA P2) as (sc & n & es & -> & B). destruct (B i m e I M E) as [o' P2']. clear B.
  assert (Y : says d s (v1 ++ STable (mk_atable false sc n es) :: v2)) by (eexists _, _; split; [exact K|]; eapply script_app; [exact S|exact H2]).
  assert (Y' : says d s' (v1 ++ STable (mk_atable true sc n es) :: v2)).
  { eexists _, _. split; [exact K'|]. eapply script_app; [exact S|]. apply script_one in P2'. apply (script_app _ _ _ _ _ _ _ _ P2' P3). }
  exists (table_of d (seen_table (mk_atable false sc n es))), (tables_of d (seen v2)). split; [reflexivity|].
  apply says_seen in Y; auto. apply says_seen in Y'; [|rewrite readable_mid in *; exact R].
  unfold tables_of, seen in *. rewrite !map_app, !flat_map_app in Y, Y'. split; [exact Y|exact Y'].
Qed.
(** A text with the words is a script exactly if it is one without them. *)
Theorem if_says : forall d s s' l1 v1 c t i m e X, (exists o1, lang (script d) l1 None o1 v1) ->
  kwd "CREATE" c -> kwd "TABLE" t -> kwd "IF" i -> kwd "NOT" m -> kwd "EXISTS" e -> no_if X ->
  tokens d s (l1 ++ c :: t :: X) -> tokens d s' (l1 ++ c :: t :: i :: m :: e :: X) ->
  ((exists stmts, says d s stmts) <-> (exists stmts, says d s' stmts)).
Proof.
  intros d s s' l1 v1 c t i m e X [o1 S] C T I M E N K K'.
  split; intros (v & l & out & L & H); [rewrite (tokens_det _ _ _ _ L K) in H|rewrite (tokens_det _ _ _ _ L K') in H]; clear L l.
  - assert (V : verdict d (l1 ++ c :: t :: X) (EOk tt [] out)) by (apply verdict_ok; eauto).
    destruct (verdict_back _ _ _ _ _ _ S V) as (e' & [_ [n V']] & Q). destruct e' as [[] r o2| | |]; try discriminate Q. injection Q as <- ->.
    pose proof (run_both d n c t i m e X C T I M E N) as R. rewrite V' in R. destruct (exec _ (c :: t :: i :: _)) as [[] r' o3| | |] eqn:Z; cbn [with_words] in R; try contradiction.
    destruct R as [<- _]. assert (Y : verdict d (c :: t :: i :: m :: e :: X) (EOk tt [] o3)) by (split; [discriminate|eauto]).
    apply verdict_ok in Y as [_ [v2 Y]]. eexists _, _, _. split; [exact K'|eapply script_app; [exact S|exact Y]].
  - assert (V : verdict d (l1 ++ c :: t :: i :: m :: e :: X) (EOk tt [] out)) by (apply verdict_ok; eauto).
    destruct (verdict_back _ _ _ _ _ _ S V) as (e' & [_ [n V']] & Q). destruct e' as [[] r o2| | |]; try discriminate Q. injection Q as <- ->.
    pose proof (run_both d n c t i m e X C T I M E N) as R. rewrite V' in R. destruct (exec _ (c :: t :: X)) as [[] r' o3| | |] eqn:Z; cbn [with_words] in R; try contradiction.
    destruct R as [-> _]. assert (Y : verdict d (c :: t :: X) (EOk tt [] o3)) by (split; [discriminate|eauto]).
    apply verdict_ok in Y as [_ [v2 Y]]. eexists _, _, _. split; [exact K|eapply script_app; [exact S|exact Y]].
Qed.
