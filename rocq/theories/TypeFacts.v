From Coq Require Import String List Bool Arith Lia.
From Verif Require Import GoStr Unicode UnicodeFacts GoNum Types VBase Exec Grammar GrammarFacts Ast Emit Enclosed Converter Parse Spec Pipe Meaning Witness Decide Local LayoutFacts Parts PartsFacts Safe Seen
  Values ValuesFacts Columns ColumnsFacts NotNull NotNullFacts Stops Names TypeNames.
From Verif Require GSqlite GPostgres GMysql Read.
Import ListNotations.
Open Scope nat_scope.
Open Scope string_scope.
Open Scope gr_scope.

(** ** Types *)
Lemma type_upper : forall d T, In T (type_names d) -> to_upper T = T /\ go_upper T = T /\ go_upper (to_lower T) = T.
Proof.
  assert (H : forall d, forallb (fun T => (to_upper T =? T) && (go_upper T =? T) && (go_upper (to_lower T) =? T))%bool (type_names d) = true) by (intros []; vm_compute; reflexivity).
  intros d T I. specialize (H d). rewrite forallb_forall in H. apply H in I. apply andb_true_iff in I as [I I3]. apply andb_true_iff in I as [I1 I2]. apply String.eqb_eq in I1, I2, I3. auto.
Qed.
Lemma is_type_matches : forall d w, matches (type_names d) w = true <-> exists T, is_type d T w.
Proof.
  intros d w. rewrite matches_spec. split; intros (T & I & E); exists T; destruct (type_upper _ _ I) as [U _] || destruct (type_upper d T) as [U _]; auto; unfold is_type; rewrite U in *; tauto.
Qed.
Lemma is_type_upper : forall d T w, is_type d T w -> go_upper w = T.
Proof. intros d T w [I [->| ->]]; now apply (type_upper d). Qed.

Lemma type_first : forall d, forallb (la_is (next_in (type_names d)) true) (look (column_type d) [FAny; FEof]) = true.
Proof. intros []; vm_compute; reflexivity. Qed.
Lemma bad_type : forall d w rest, w <> "" -> (forall T, ~ is_type d T w) -> stops (column_type d) (w :: rest) (w :: rest).
Proof.
  intros d w rest N B.
  assert (M : forall ws, forallb (contains (type_names d)) ws = true -> matches ws w = false).
  { intros ws I. apply not_true_is_false. intros C. apply matches_some in C as (u & J & C). rewrite forallb_forall in I. apply I, contains_spec in J.
    assert (X : matches (type_names d) w = true) by (apply matches_some; eauto). apply is_type_matches in X as (T & X). now apply (B T). }
  assert (K : forall ws, forallb (contains (type_names d)) ws = true -> la_mem (next_in ws) (hd_error (w :: rest)) = false).
  { intros ws I. cbn [hd_error la_mem next_in la_words la_neg]. rewrite xorb_false_r. auto. }
  destruct d; cbn [column_type]; unfold GSqlite.type_name, GPostgres.type_name, GMysql.type_name.
  all: repeat (apply stops_cond_r; [apply K; vm_compute; reflexivity|]).
  all: apply stops_map; apply stops_one; auto; cbn [cmem]; apply M; vm_compute; reflexivity.
Qed.
Theorem type_unknown : forall d ddl s1 v1 a oa p n w rest,
  (exists o1, lang (script d) s1 None o1 v1) -> lang (opening d) a None oa tt -> before d p -> cmem (name_class d) n = true ->
  (forall T, ~ is_type d T w) -> tokens d ddl (s1 ++ a ++ p ++ n :: w :: rest) -> exists line, rejected ddl d line w.
Proof.
  intros d ddl s1 v1 a oa p n w rest S1 A P M B T.
  assert (N : w <> "") by (eapply token_nonempty; [exact T|]; rewrite !in_app_iff; cbn [In]; tauto).
  eapply (type_rejected d ddl s1 v1 a oa p n []); eauto. cbn [app]. now apply bad_type.
Qed.

(** the parts of a column *)
Lemma column_full : forall d l nxt o c, lang (element d) l nxt o (EColumn c) ->
  lang (column_name d ** column_type d ** column_cname d ** column_rest d ==> fun '(n, (t, (c, l))) => EColumn (mk_acolumn n t c l)) l nxt o (EColumn c).
Proof.
  intros d l nxt o c H. destruct d; cbn [element] in H; unfold GSqlite.element, GPostgres.element, GMysql.element in H;
      (destruct H as [H|H]; [exfalso; destruct H as ([? ?] & E & _); discriminate|exact H]).
Qed.
Lemma type_head : forall d l nxt o v, lang (column_type d) l nxt o v -> exists w q T, l = w :: q /\ is_type d T w /\ at_word v = w.
Proof.
  intros d l nxt o v H.
  assert (X : exists w q, l = w :: q /\ matches (type_names d) w = true /\ at_word v = w).
  { assert (G : forall A keep ws (g : gr A) f, forallb (contains (type_names d)) ws = true -> (forall w a, at_word (f (w, a)) = w) ->
      lang (One keep (CW ws) ** g ==> f) l nxt o v -> exists w q, l = w :: q /\ matches (type_names d) w = true /\ at_word v = w).
    { clear H. intros A keep ws g f I F H. parts H. destruct a as [w a]. cbn [fst snd] in *. destruct H0 as (M & -> & _). exists w. eexists. split; [reflexivity|]. split; [|apply F].
      cbn [cmem] in M. apply matches_some in M as (u & J & M). rewrite forallb_forall in I. apply I, contains_spec in J. apply matches_some. eauto. }
    assert (G1 : forall keep ws f, forallb (contains (type_names d)) ws = true -> (forall w, at_word (f w) = w) ->
      lang (One keep (CW ws) ==> f) l nxt o v -> exists w q, l = w :: q /\ matches (type_names d) w = true /\ at_word v = w).
    { clear H G. intros keep ws f I F H. parts H. destruct H as (M & -> & _). exists a. eexists. split; [reflexivity|]. split; [|apply F].
      cbn [cmem] in M. apply matches_some in M as (u & J & M). rewrite forallb_forall in I. apply I, contains_spec in J. apply matches_some. eauto. }
    destruct d; cbn [column_type] in H; unfold GSqlite.type_name, GPostgres.type_name, GMysql.type_name in H; cases H.
    all: first [eapply G1; [| |exact H]; [vm_compute; reflexivity|reflexivity] | eapply G; [| |exact H]; [vm_compute; reflexivity|intros w a; repeat match goal with x : (_ * _)%type |- _ => destruct x end; reflexivity]]. }
  destruct X as (w & q & -> & M & E). apply is_type_matches in M as (T & M). exists w, q, T. auto.
Qed.
Lemma not_varying : forall d l nxt o v, d <> PostgreSQL -> lang (column_type d) l nxt o v -> at_varying v = false.
Proof.
  intros d l nxt o v N H. destruct d; try (now elim N); cbn [column_type] in H; unfold GSqlite.type_name, GMysql.type_name in H; cases H.
  all: destruct H as (a & -> & _); repeat match goal with x : (_ * _)%type |- _ => destruct x end; reflexivity.
Qed.
Lemma reported_name : forall v, dt_name (type_of v) = if at_varying v then
      if go_upper (at_word v) =? "BIT" then "VARBIT" else if go_upper (at_word v) =? "CHARACTER" then "VARCHAR" else go_upper (at_word v) ++ " VARYING"
    else go_upper (at_word v).
Proof. intros [w b [[n [m|]]|]]; reflexivity. Qed.
Lemma varying_word : forall t, ((t =? "VARYING") || (t =? "varying"))%bool = matches ["VARYING"] t.
Proof.
  intros t. apply eq_true_iff_eq. rewrite orb_true_iff, !String.eqb_eq. split; [intros [->| ->]; reflexivity|].
  intros M. apply matches_spec in M as (u & [<-|[]] & [->| ->]); auto.
Qed.
Lemma other_type : forall ws w, matches ws w = true -> forallb (fun u => negb (matches ["BIT"; "CHARACTER"] (to_upper u)) && negb (matches ["BIT"; "CHARACTER"] (go_upper (to_lower u))) && (go_upper (to_upper u) =? to_upper u))%bool ws = true ->
  (go_upper w =? "BIT") = false /\ (go_upper w =? "CHARACTER") = false.
Proof.
  intros ws w M F. apply matches_spec in M as (u & I & M). rewrite forallb_forall in F. apply F in I. apply andb_true_iff in I as [I1 I3]. apply andb_true_iff in I1 as [I1 I2].
  apply negb_true_iff in I1, I2. apply String.eqb_eq in I3. split; apply not_true_iff_false; intros C%String.eqb_eq.
  all: destruct M as [->| ->]; [rewrite C in I2; discriminate|rewrite I3 in C; rewrite C in I1; discriminate].
Qed.
Lemma pg_type : forall l nxt o v, lang GPostgres.type_name l nxt o v -> exists w q, l = w :: q /\ at_word v = w /\
  (at_varying v = false /\ (go_upper w =? "BIT") = false /\ (go_upper w =? "CHARACTER") = false \/
   at_varying v = true /\ matches ["BIT"; "CHARACTER"] w = true /\ (exists x q', q = x :: q' /\ matches ["VARYING"] x = true) \/
   at_varying v = false /\ exists nx o d, lang GPostgres.digits1 q nx o d).
Proof.
  intros l nxt o v H. unfold GPostgres.type_name in H. cases H.
  1: { parts H. destruct a as (w & x & dg). cbn [fst snd] in *. destruct H0 as (M & -> & _). exists w. eexists. split; [reflexivity|]. split; [reflexivity|]. right.
    cbn [at_varying]. destruct H1 as [(y & -> & N & -> & _)|(y & -> & -> & _)].
    - left. split; [reflexivity|]. split; [exact M|]. eexists _, _. split; [reflexivity|exact N].
    - right. split; [reflexivity|]. eexists _, _, _. exact H. }
  all: parts H; repeat match goal with x : (_ * _)%type |- _ => destruct x end; cbn [fst snd] in *.
  1, 2, 3, 4: match goal with H : lang (kw _) _ _ _ _ |- _ => destruct H as (M & -> & _) end; eexists _, _; split; [reflexivity|]; split; [reflexivity|]; left; split; [reflexivity|];
    eapply other_type; [exact M|vm_compute; reflexivity].
  destruct H as (M & -> & _); eexists _, _; split; [reflexivity|]; split; [reflexivity|]; left; split; [reflexivity|].
    eapply other_type; [exact M|vm_compute; reflexivity].
Qed.
Lemma column_begin : forall d t c, column_is d t c -> exists n w q T, t = (n :: w :: q)%list /\ is_type d T w /\
  dt_name (type_of (ac_type c)) = type_reported d T q.
Proof.
  intros d t c (nxt & o & H). apply column_full in H.
  destruct H as ((n & ty & cn & is) & E & l1 & l' & o1 & o' & -> & -> & H1 & l2 & l'' & o2 & o'' & -> & -> & H2 & H3).
  cbn [fst snd] in *. inversion E; subst c. cbn [ac_type]. destruct H1 as (_ & -> & _).
  destruct (type_head _ _ _ _ _ H2) as (w & q & T & -> & I & W). exists n, w, (q ++ l'')%list, T. split; [reflexivity|]. split; [exact I|].
  rewrite reported_name, W, (is_type_upper _ _ _ I).
  assert (D : d = PostgreSQL \/ d <> PostgreSQL) by (destruct d; auto; right; discriminate). destruct D as [->|D].
  2: { rewrite (not_varying _ _ _ _ _ D H2). destruct d; auto. now elim D. }
  pose proof (is_type_upper _ _ _ I) as U.
  apply pg_type in H2 as (w' & q' & E2 & _ & C). inversion E2; subst w' q'. rewrite U in C. clear E2.
  destruct C as [(-> & B & C)|[(-> & M & x & q' & -> & N)|(-> & nx & od & dg & Dg)]].
  - unfold type_reported. rewrite B, C. destruct (q ++ l'')%list; auto. now destruct (_ || _)%bool.
  - cbn [app type_reported]. rewrite varying_word, N. apply matches_spec in M as (u & [<-|[<-|[]]] & [->| ->]); rewrite <- U; reflexivity.
  - unfold type_reported. destruct (q ++ l'')%list as [|x r] eqn:Q; auto. rewrite varying_word.
    assert (X : lang (GPostgres.digits1 ** column_cname PostgreSQL ** column_rest PostgreSQL) (x :: r) None (od ++ o'') (dg, (cn, is))).
    { rewrite <- Q. apply lang_seq.
      - eapply (nxtfree_lang _ GPostgres.digits1); [reflexivity|exact Dg].
      - eapply (nxtfree_lang _ (column_cname PostgreSQL ** column_rest PostgreSQL)); [vm_compute; reflexivity|exact H3]. }
    apply (look_within _ _ [FEof]) in X; [|exists FEof; split; [now left|reflexivity]]. cbn [hdr] in X.
    eapply (forallb_within (next_in ["VARYING"]) false) in X; [|vm_compute; reflexivity]. cbn [la_mem next_in la_words la_neg] in X. rewrite xorb_false_r in X.
    now rewrite X.
Qed.
Theorem types_reported : forall d ddl stmts l cs, says d ddl stmts -> readable stmts = true -> tokens d ddl l -> column_texts d l cs ->
  exists ts, accepted ddl d ts /\
  Forall2 (fun t r => exists n w q T, t = (n :: w :: q)%list /\ is_type d T w /\ dt_name (col_type r) = type_reported d T q) cs (result_columns ts).
Proof.
  intros d ddl stmts l cs S F T C.
  destruct (column_wise d (fun t c r => exists n w q T, t = (n :: w :: q)%list /\ is_type d T w /\ dt_name (col_type r) = type_reported d T q) ddl stmts) with (l := l) (cs := cs) as (ts & A & Y); auto.
  - intros c o _ _ t H. apply column_begin in H as (n & w & q & T' & E & I & R). exists n, w, q, T'. do 2 (split; auto). rewrite <- R. clear.
    destruct c as [cn ty [x|] is]; unfold seen_column; cbn [ac_cname ac_items ac_name ac_type]; [|reflexivity]. now destruct (matches not_names x).
  - exists ts. split; auto. clear - Y. induction Y as [|t r l l' (c & _ & Y1) Y2 IH]; constructor; auto.
Qed.

(** ** Keywords *)
Lemma keyword_reserved : forall d w, keyword w -> In (to_upper w) (reserved d).
Proof.
  assert (H : forall d, forallb (contains (reserved d)) core_keywords = true) by (intros []; vm_compute; reflexivity).
  intros d w K. specialize (H d). rewrite forallb_forall in H. apply H in K. now apply contains_spec.
Qed.
Lemma keyword_unquoted : forall d w, keyword w -> quoted (id_quotes d) w = false.
Proof.
  intros d [|c w] K; [reflexivity|]. apply not_true_iff_false. intros Q. unfold keyword in K.
  assert (X : exists q, In q (id_quotes d) /\ q = String c "") by (unfold quoted in Q; apply contains_spec in Q; eauto).
  destruct X as (q & I & E).
  assert (U : exists r, to_upper (String c w) = String c r).
  { destruct d; cbn [id_quotes In] in I; repeat (destruct I as [<-|I]; [inversion E; subst c; eexists; reflexivity|]); contradiction. }
  destruct U as (r & U). rewrite U in K.
  assert (G : forall k, In k core_keywords -> forall c' r', k = String c' r' -> ~ In (String c' "") ["""" ; "`"; "["; "'"]).
  { assert (B : forallb (fun k => match k with String c' _ => negb (contains ["""" ; "`"; "["; "'"] (String c' "")) | _ => true end) core_keywords = true) by (vm_compute; reflexivity).
    rewrite forallb_forall in B. intros k J c' r' -> C. apply B in J. apply negb_true_iff in J. apply contains_spec in C. congruence. }
  apply (G _ K _ _ eq_refl). rewrite <- E. destruct d; cbn in I |- *; tauto.
Qed.
Lemma keyword_not_name : forall d w, keyword w -> legal_name d w = false.
Proof.
  intros d w K. unfold legal_name. rewrite (keyword_unquoted _ _ K). cbn [orb]. apply (keyword_reserved d) in K. apply contains_spec in K. rewrite K. cbn [negb]. apply andb_false_r.
Qed.
Theorem keyword_illegal : forall d t, keyword t -> ~ legal d t.
Proof.
  intros d t K [(q & s & -> & I)|[_ N]].
  - pose proof (keyword_unquoted d _ K) as Q. apply not_true_iff_false in Q. apply Q. cbn [quoted]. now apply contains_spec.
  - now apply N, keyword_reserved.
Qed.
Lemma stops_skip : forall A B C ws (g : gr A) (f : option A -> B) (h : gr C) l rest, la_mem (next_in ws) (hd_error l) = false ->
  stops h l rest -> stops ((opt ws g ==> f) ** h) l rest.
Proof.
  intros A B C ws g f h l rest M. apply eventually_mono. intros n H. unfold opt. cbn [prog].
  rewrite exec_bind, (exec_if _ _ _ _ _ _ (exec_look_la _ _)), M. cbn [ebind exec ret bind]. rewrite ?app_nil_l. now rewrite H.
Qed.
Lemma stops_skip2 : forall B C ws (g : gr B) f (h : gr C) l rest, la_mem (next_in ws) (hd_error l) = false ->
  stops h l rest -> stops (Cond (next_in ws) g (NotNext ws ==> f) ** h) l rest.
Proof.
  intros B C ws g f h l rest M. apply eventually_mono. intros n H. cbn [prog].
  rewrite exec_bind, (exec_if _ _ _ _ _ _ (exec_look_la _ _)), M, (exec_if _ _ _ _ _ _ (exec_look_la _ _)), M. cbn [ebind exec ret bind]. rewrite ?app_nil_l. now rewrite H.
Qed.
Lemma stops_skip3 : forall B C ws (g : gr B) f (h : gr C) l rest, la_mem (next_in ws) (hd_error l) = false ->
  stops h l rest -> stops (Cond (next_in ws) g (Eps ==> f) ** h) l rest.
Proof.
  intros B C ws g f h l rest M. apply eventually_mono. intros n H. cbn [prog].
  rewrite exec_bind, (exec_if _ _ _ _ _ _ (exec_look_la _ _)), M. cbn [ebind exec ret bind]. rewrite ?app_nil_l. now rewrite H.
Qed.
Theorem bad_table : forall d ddl s1 v1 c b w rest,
  (exists o1, lang (script d) s1 None o1 v1) -> matches ["CREATE"] c = true -> matches ["TABLE"] b = true ->
  legal_name d w = false -> matches ["IF"] w = false ->
  tokens d ddl (s1 ++ c :: b :: w :: rest) -> exists line, rejected ddl d line w.
Proof.
  intros d ddl s1 v1 c b w rest [o1 S1] C B L F T.
  assert (N : w <> "") by (eapply token_nonempty; [exact T|]; rewrite !in_app_iff; cbn [In]; tauto).
  change w with (tok (hd_error (w :: rest))) at 1. eapply stops_rejected; [exact S1| |exact T]. apply stops_script; [discriminate|].
  assert (I : la_mem (next_in ["IF"]) (hd_error (w :: rest)) = false).
  { cbn [hd_error la_mem next_in la_words la_neg]. now rewrite xorb_false_r. }
  assert (BT : la_mem (next_in ["TABLE"]) (hd_error (b :: w :: rest)) = true).
  { cbn [hd_error la_mem next_in la_words la_neg]. rewrite xorb_false_r. exact B. }
  destruct d; cbn [statement]; unfold GSqlite.statement, GPostgres.statement, GMysql.statement.
  all: apply stops_map; eapply (stops_seq _ _ _ _ [c]); [reflexivity|repeat split; exact C|].
  1, 4: eapply (stops_seq2 _ _ _ _ [FW "TABLE"] []); [reflexivity|right; exists tt; repeat split|apply (words_within ["TABLE"]); exact B|].
  all: apply stops_cond_l; [exact BT|].
  all: apply stops_map; eapply (stops_seq _ _ _ _ []); [reflexivity|apply lang_put|]; eapply (stops_seq _ _ _ _ [b]); [reflexivity|repeat split; exact B|].
  all: unfold GSqlite.if_not_exists, GPostgres.if_not_exists, GMysql.if_not_exists; (apply stops_skip || apply stops_skip2 || apply stops_skip3); [exact I|]; apply stops_seq1, stops_map, stops_seq1, stops_one; auto.
Qed.
Theorem keyword_table : forall d ddl s1 v1 c b w rest,
  (exists o1, lang (script d) s1 None o1 v1) -> matches ["CREATE"] c = true -> matches ["TABLE"] b = true -> keyword w ->
  tokens d ddl (s1 ++ c :: b :: w :: rest) -> exists line, rejected ddl d line w.
Proof.
  intros d ddl s1 v1 c b w rest S1 C B K T. eapply bad_table; eauto; [now apply keyword_not_name|].
  apply not_true_is_false. intros M. apply matches_spec in M as (u & [<-|[]] & [->| ->]); apply contains_spec in K; discriminate.
Qed.

(** the words with which elements other than columns begin *)
Definition starts (d : rdbms) : list string :=
  match d with
  | PostgreSQL => ["CONSTRAINT"; "PRIMARY"; "UNIQUE"; "CHECK"; "FOREIGN"; "EXCLUDE"]
  | MySQL => ["CONSTRAINT"; "PRIMARY"; "UNIQUE"; "FOREIGN"; "INDEX"; "KEY"; "FULLTEXT"; "SPATIAL"; "CHECK"]
  | _ => ["CONSTRAINT"; "PRIMARY"; "UNIQUE"; "CHECK"; "FOREIGN"]
  end.
Theorem bad_column : forall d ddl s1 v1 a oa p w rest,
  (exists o1, lang (script d) s1 None o1 v1) -> lang (opening d) a None oa tt -> before d p ->
  legal_name d w = false -> matches (starts d) w = false ->
  tokens d ddl (s1 ++ a ++ p ++ w :: rest) -> exists line, rejected ddl d line w.
Proof.
  intros d ddl s1 v1 a oa p w rest [o1 S1] A P L M T.
  assert (N : w <> "") by (eapply token_nonempty; [exact T|]; rewrite !in_app_iff; cbn [In]; tauto).
  change w with (tok (hd_error (w :: rest))) at 1.
  eapply stops_rejected; [exact S1| |exact T]. apply stops_script.
  { intros E. apply app_eq_nil in E as [E _]. subst a. destruct d; destruct A as (? & _ & l1 & l2 & ? & ? & E & _ & (_ & -> & _) & _); discriminate E. }
  eapply stops_table; [exact A|]. apply stops_elements; auto.
  destruct d; (apply stops_cond_r; [|apply stops_map, stops_seq1, stops_one; auto]).
  all: cbn [hd_error la_mem next_in la_words la_neg]; rewrite xorb_false_r; exact M.
Qed.
Theorem keyword_column : forall d ddl s1 v1 a oa p w rest,
  (exists o1, lang (script d) s1 None o1 v1) -> lang (opening d) a None oa tt -> before d p -> keyword w -> ~ In w constraint_starts ->
  tokens d ddl (s1 ++ a ++ p ++ w :: rest) -> exists line, rejected ddl d line w.
Proof.
  intros d ddl s1 v1 a oa p w rest S1 A P K C T. eapply bad_column; eauto; [now apply keyword_not_name|]. clear T.
  apply not_true_is_false. intros M. apply matches_spec in M as (u & I & M).
  destruct d; cbn [starts In] in I; repeat (destruct I as [<-|I]; [destruct M as [-> | ->]|]); try contradiction.
  all: first [apply C, contains_spec; reflexivity | apply contains_spec in K; discriminate].
Qed.
