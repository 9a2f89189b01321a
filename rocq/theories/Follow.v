(** What cannot follow the DEFAULT value of a column. *)
From Coq Require Import String List Bool Arith Lia.
From Verif Require Import GoStr GoNum Types VBase Exec Grammar GrammarFacts Ast Emit Converter Parse Spec Pipe Meaning Witness Decide Local LayoutFacts Parts PartsFacts Numbers NumbersFacts Stops.
From Verif Require GSqlite GPostgres GMysql.
Import ListNotations.
Open Scope nat_scope.
Open Scope string_scope.
Open Scope gr_scope.
Open Scope list_scope.

Definition ends {A} (g : gr A) (l rest : list string) : Prop := exists o, eventually (fun n => exec (prog g n) l = EOk tt rest o).

Lemma ends_map : forall A B (f : A -> B) (g : gr A) l rest, ends g l rest -> ends (g ==> f) l rest.
Proof. auto. Qed.
Lemma ends_seq : forall A B (g : gr A) (h : gr B) l r rest, ends g l r -> ends h r rest -> ends (g ** h) l rest.
Proof.
  intros A B g h l r rest [o1 E1] [o2 E2]. exists (o1 ++ o2). generalize (eventually_and _ _ E1 E2). apply eventually_mono.
  intros n [X Y]. cbn [prog]. rewrite exec_bind, X. cbn [ebind]. now rewrite Y.
Qed.
Lemma ends_stops : forall A B (g : gr A) (h : gr B) l r rest, ends g l r -> stops h r rest -> stops (g ** h) l rest.
Proof.
  intros A B g h l r rest [o1 E1] E2. generalize (eventually_and _ _ E1 E2). apply eventually_mono.
  intros n [X Y]. cbn [prog]. rewrite exec_bind, X. cbn [ebind]. now rewrite Y.
Qed.
Lemma ends_eps : forall l, ends Eps l l.
Proof. intros l. exists []. apply eventually_always. reflexivity. Qed.
Lemma ends_one : forall keep c t l, cmem c t = true -> ends (One keep c) (t :: l) l.
Proof. intros keep c t l M. eexists. apply eventually_always. intros n. cbn [prog]. rewrite exec_one, M. reflexivity. Qed.
Lemma ends_cond_l : forall A c (g h : gr A) l rest, la_mem c (hd_error l) = true -> ends g l rest -> ends (Cond c g h) l rest.
Proof.
  intros A c g h l rest M [o E]. exists o. revert E. apply eventually_mono. intros n H. cbn [prog].
  now rewrite (exec_if _ _ _ _ _ _ (exec_look_la _ _)), M.
Qed.
Lemma ends_cond_r : forall A c (g h : gr A) l rest, la_mem c (hd_error l) = false -> ends h l rest -> ends (Cond c g h) l rest.
Proof.
  intros A c g h l rest M [o E]. exists o. revert E. apply eventually_mono. intros n H. cbn [prog].
  now rewrite (exec_if _ _ _ _ _ _ (exec_look_la _ _)), M.
Qed.
(** parts before which nothing else stands *)
Lemma ends_lang : forall A (g : gr A) fol l1 l2 o v, ok g fol = true -> lang g l1 (hd_error l2) o v -> within fol (hd_error l2) -> ends g (l1 ++ l2) l2.
Proof. intros A g fol l1 l2 o v K H W. exists o. exact (complete _ _ _ K _ _ _ _ H W). Qed.

Definition outside_of (ws : list string) (o : option string) : Prop := forall t, o = Some t -> matches ws t = false.
Lemma outside_la : forall ws o, outside_of ws o -> la_mem (next_in ws) o = false.
Proof. intros ws [t|] H; cbn [la_mem next_in la_words la_neg la_eof]; auto. now rewrite H. Qed.

Lemma ends_sep1 : forall A keep (g : gr A) l rest, ends g l rest -> outside_of [","] (hd_error rest) -> ends (SepBy keep g) l rest.
Proof.
  intros A keep g l rest [o E] N. exists o. apply eventually_S. revert E. apply eventually_mono. intros n H.
  cbn [prog sep_loop]. rewrite exec_bind, H. cbn [ebind]. rewrite exec_bind, exec_matchTokenNext.
  destruct rest as [|t rest]; cbn [hd_error] in N.
  - change (matches [","] EOF) with false. cbn. now rewrite !app_nil_r.
  - rewrite (N t eq_refl). cbn. now rewrite !app_nil_r.
Qed.
Lemma ends_sep : forall A keep (g : gr A) l1 nxt o v, ok g [FW ","] = true -> sepby (lang g) keep l1 nxt o v -> nxt = Some "," ->
  forall l2 rest, ends g l2 rest -> outside_of [","] (hd_error rest) -> ends (SepBy keep g) (l1 ++ "," :: l2) rest.
Proof.
  intros A keep g l1 nxt o v K H. assert (W : within [FW ","] (Some ",")) by (exists (FW ","); split; [now left|reflexivity]).
  assert (X : forall l o v, lang g l (Some ",") o v -> forall l2 rest, ends (SepBy keep g) l2 rest -> ends (SepBy keep g) (l ++ "," :: l2) rest).
  { clear - K W. intros l o v H l2 rest [o2 S]. eexists. apply eventually_S.
    pose proof (complete _ _ _ K l ("," :: l2) o v H W) as C.
    generalize (eventually_and _ _ C S). apply eventually_mono. intros n [X Y]. cbn [prog sep_loop] in *. unfold accepts in X.
    rewrite exec_bind, X. cbn [ebind]. rewrite exec_bind, exec_matchTokenNext. change (matches [","] ",") with true. cbn match.
    cbn [ebind]. rewrite Y. cbn. reflexivity. }
  induction H as [l nxt o v H|l1 l2 nxt o1 o2 v vs H1 H2 IH]; intros -> l3 rest S N.
  - eapply X; eauto. now apply ends_sep1.
  - rewrite <- app_assoc. cbn [app]. eapply X; eauto.
Qed.
Lemma ends_elements : forall d p X rest, before d p -> ends (element d) X rest -> outside_of [","] (hd_error rest) -> ends (elements d) (p ++ X) rest.
Proof.
  intros d p X rest [->|(es & oe & ve & -> & E)] S N.
  - now apply ends_sep1.
  - rewrite <- app_assoc. cbn [app]. eapply ends_sep; [apply element_ok|exact E|reflexivity|exact S|exact N].
Qed.
Lemma ends_column : forall d n X rest, cmem (name_class d) n = true ->
  ends (column_name d ** column_type d ** column_cname d ** column_rest d) (n :: X) rest -> ends (element d) (n :: X) rest.
Proof.
  intros d n X rest M S. pose proof (class_within _ _ M) as W.
  destruct d; (apply ends_cond_r; [eapply forallb_within; [|exact W]; vm_compute; reflexivity|exact S]).
Qed.
Lemma ends_constraints : forall d h oh X rest, lang (column_head d) h (hd_error X) oh tt -> within (map FW (constraint_words d)) (hd_error X) ->
  ends (column_rest d) X rest -> ends (element d) (h ++ X) rest.
Proof.
  intros d h oh X rest H W S.
  assert (F : ok (column_type d ** column_cname d) (map FW (constraint_words d)) = true) by (destruct d; vm_compute; reflexivity).
  unfold column_head in H. parts H.
  destruct a as (n & ty & c). cbn [fst snd] in *. destruct H0 as (M & -> & ->). rewrite <- !app_assoc. cbn [app].
  apply ends_column; auto. eapply ends_seq; [apply ends_one; exact M|].
  cbn [ok] in F. apply andb_true_iff in F as [F1 F2].
  eapply ends_seq; [eapply ends_lang; [exact F1| |]| ].
  - rewrite hd_error_hdr. exact H1.
  - rewrite hd_error_hdr. eapply look_within; [exact H|exact W].
  - eapply ends_seq; [eapply ends_lang; [exact F2|exact H|exact W]|exact S].
Qed.

(** the loop over the constraints: some rounds, *)
Lemma rounds : forall A ws key (g : gr A), forallb (la_is (next_in ws) true) (look g [FAny; FEof]) = true -> ok g (map FW ws) = true ->
  forall l nxt o v hs, star (lang g) l nxt o v hs -> forall k X r, nxt = Some k -> matches ws k = true ->
  forall ls, NoDup (ls ++ map key hs) ->
  eventually (fun n => exec (whileu_loop (prog g) (next_in ws) key n (ls ++ map key hs)) (k :: X) = r) ->
  eventually (fun n => exec (whileu_loop (prog g) (next_in ws) key n ls) (l ++ k :: X) = epre o r).
Proof.
  intros A ws key g HT K l nxt o v hs S. induction S as [nxt|t l1 l2 nxt o1 o2 v vs hs H1 H2 IH]; intros k X rest -> M ls ND I.
  - cbn [map] in I. rewrite app_nil_r in I. revert I. apply eventually_mono. intros n Q. now rewrite epre_nil.
  - apply eventually_S. assert (T : matches ws t = true).
    { eapply (look_within _ g [FAny; FEof]) in H1; [|apply within_any]. cbn [hdr] in H1. pose proof (forallb_within _ _ _ _ HT H1) as Y.
      cbn [la_mem next_in la_words la_neg] in Y. rewrite xorb_false_r in Y. exact Y. }
    assert (W : within (map FW ws) (hdr l2 (Some k))).
    { destruct l2 as [|t2 l2]; [now apply words_within|]. inversion H2; subst. cbn [hdr].
      eapply (look_within _ g [FAny; FEof]) in H3; [|apply within_any]. cbn [hdr] in H3. pose proof (forallb_within _ _ _ _ HT H3) as Y.
      cbn [la_mem next_in la_words la_neg] in Y. rewrite xorb_false_r in Y. now apply words_within. }
    assert (R : hdr l2 (Some k) = hd_error (l2 ++ k :: X)) by now destruct l2. rewrite R in H1, W.
    pose proof (complete _ _ _ K _ _ _ _ H1 W) as C. cbn [map] in *.
    assert (NI : ~ In (key t) ls). { apply NoDup_remove_2 in ND. rewrite in_app_iff in ND. tauto. }
    assert (ND' : NoDup ((ls ++ [key t]) ++ map key hs)) by (rewrite <- app_assoc; exact ND).
    specialize (IH k X rest eq_refl M _ ND'). rewrite <- app_assoc in IH. specialize (IH I).
    generalize (eventually_and _ _ C IH). apply eventually_mono. intros n [Y Z]. unfold accepts in Y.
    cbn [whileu_loop app]. rewrite (exec_if _ _ _ _ _ _ (exec_look_la _ _)).
    cbn [hd_error la_mem next_in la_words la_neg]. rewrite T. cbn [xorb bind token exec hd_error tok].
    apply contains_false in NI. rewrite NI. rewrite exec_bind. cbn [app] in Y. rewrite <- app_assoc, Y. cbn [ebind]. rewrite Z. now rewrite epre_app.
Qed.
(** and the last one *)
Lemma last_round : forall A ws key (g : gr A) k X rest ls, matches ws k = true -> ~ In (key k) ls -> ends g (k :: X) rest ->
  outside_of ws (hd_error rest) ->
  exists o, eventually (fun n => exec (whileu_loop (prog g) (next_in ws) key n ls) (k :: X) = EOk tt rest o).
Proof.
  intros A ws key g k X rest ls M I [o S] N. exists o. apply eventually_S.
  assert (L : eventually (fun n => exec (whileu_loop (prog g) (next_in ws) key n (ls ++ [key k])) rest = EOk tt rest [])).
  { apply eventually_S, eventually_always. intros n. cbn [whileu_loop]. rewrite (exec_if _ _ _ _ _ _ (exec_look_la _ _)), (outside_la _ _ N). reflexivity. }
  generalize (eventually_and _ _ S L). apply eventually_mono. intros n [X1 X2].
  cbn [whileu_loop app]. rewrite (exec_if _ _ _ _ _ _ (exec_look_la _ _)).
  cbn [hd_error la_mem next_in la_words la_neg]. rewrite M. cbn [xorb bind token exec hd_error tok].
  apply contains_false in I. rewrite I. rewrite exec_bind, X1. cbn [ebind]. rewrite X2. cbn. now rewrite app_nil_r.
Qed.

(** The table stops after a column: what follows neither continues the column nor begins another element nor closes the table. *)
Lemma column_end : forall d ddl s1 v1 a oa p h oh items oi vi hs k X rest,
  (exists o1, lang (script d) s1 None o1 v1) -> lang (opening d) a None oa tt -> before d p -> lang (column_head d) h (hd_error (items ++ [k])) oh tt ->
  star (lang (column_constraint d)) items (Some k) oi vi hs -> NoDup (map (kind d) hs) -> matches (constraint_words d) k = true ->
  ~ In (kind d k) (map (kind d) hs) -> ends (column_constraint d) (k :: X) rest ->
  outside_of (constraint_words d) (hd_error rest) -> outside_of [","; ")"] (hd_error rest) -> Forall (fun t => t <> "") rest ->
  tokens d ddl (s1 ++ a ++ p ++ h ++ items ++ k :: X) -> exists line, rejected ddl d line (tok (hd_error rest)).
Proof.
  intros d ddl s1 v1 a oa p h oh items oi vi hs k X rest [o1 S1] A P H S ND M I E N1 N2 F T.
  eapply stops_rejected; [exact S1| |exact T]. apply stops_script.
  { intros Q. apply app_eq_nil in Q as [Q _]. subst a. destruct d; destruct A as (? & _ & l1 & l2 & ? & ? & Q & _ & (_ & -> & _) & _); discriminate Q. }
  eapply stops_inside; [exact A|].
  assert (HT : forallb (la_is (next_in (constraint_words d)) true) (look (column_constraint d) [FAny; FEof]) = true) by (destruct d; vm_compute; reflexivity).
  assert (K : ok (column_constraint d) (map FW (constraint_words d)) = true) by (destruct d; vm_compute; reflexivity).
  eapply ends_stops.
  - apply ends_elements; [exact P| |intros t Q; specialize (N2 t Q); rewrite matches_cons in N2; now apply orb_false_iff in N2].
    eapply ends_constraints; [replace (hd_error (items ++ k :: X)) with (hd_error (items ++ [k])) by (now destruct items); exact H| |].
    + rewrite hd_error_hdr. destruct S as [|t l1 l2 nxt o2 o3 v vs hs' H1 H2]; [now apply words_within|]. cbn [hdr].
      eapply (look_within _ (column_constraint d) [FAny; FEof]) in H1; [|apply within_any]. cbn [hdr] in H1. pose proof (forallb_within _ _ _ _ HT H1) as Y.
      cbn [la_mem next_in la_words la_neg] in Y. rewrite xorb_false_r in Y. now apply words_within.
    + destruct (last_round _ (constraint_words d) (kind d) _ k X rest (map (kind d) hs) M I E N1) as [o L].
      eexists. unfold column_rest. cbn [prog]. refine (eventually_mono _ _ _ (rounds _ _ (kind d) _ HT K _ _ _ _ _ S k X _ eq_refl M [] ND L)).
      intros n ->. cbn [epre]. reflexivity.
  - apply stops_seq1. destruct rest as [|t rest].
    + apply eventually_always. intros n. cbn [prog]. rewrite exec_one. reflexivity.
    + apply stops_one; [now inversion F|]. cbn [cmem]. specialize (N2 t eq_refl). rewrite matches_cons in N2. now apply orb_false_iff in N2.
Qed.

(** after a DEFAULT value *)
Lemma default_ends : forall d k x rest, kwd "DEFAULT" k -> x <> "(" -> literal d x = true ->
  (d = MySQL -> outside_of ["ON"] (hd_error rest)) -> ends (column_constraint d) (k :: x :: rest) rest.
Proof.
  intros d k x rest K B L O. assert (M : la_mem (next_in ["("]) (Some x) = false).
  { cbn [la_mem next_in la_words la_neg]. rewrite xorb_false_r. apply not_true_is_false. intros M. apply matches_spec in M as (u & [<-|[]] & [->| ->]); now apply B. }
  unfold kwd in K. revert k K.
  word_cases; match goal with |- ends _ (?t :: _) _ => let t' := eval vm_compute in t in change t with t' end.
  all: destruct d; cbn [column_constraint];
    repeat first [apply ends_map | apply ends_cond_l; [reflexivity|] | apply ends_cond_r; [reflexivity|]].
  all: eapply ends_seq; [apply ends_one; reflexivity|].
  all: apply ends_cond_r; [exact M|]; repeat apply ends_map.
  all: try (apply ends_one; exact L).
  all: eapply ends_seq; [apply ends_one; exact L|].
  all: apply ends_cond_r; [apply outside_la, O, eq_refl|]; apply ends_map, ends_eps.
Qed.
Theorem after_default : forall d ddl s1 v1 a oa p h oh items oi vi hs k x rest,
  (exists o1, lang (script d) s1 None o1 v1) -> lang (opening d) a None oa tt -> before d p -> lang (column_head d) h (hd_error (items ++ [k])) oh tt ->
  star (lang (column_constraint d)) items (Some k) oi vi hs -> NoDup (map (kind d) hs) ->
  kwd "DEFAULT" k -> ~ In (kind d k) (map (kind d) hs) -> x <> "(" -> literal d x = true ->
  outside_of (constraint_words d) (hd_error rest) -> outside_of [","; ")"] (hd_error rest) -> (d = MySQL -> outside_of ["ON"] (hd_error rest)) ->
  tokens d ddl (s1 ++ a ++ p ++ h ++ items ++ k :: x :: rest) -> exists line, rejected ddl d line (tok (hd_error rest)).
Proof.
  intros d ddl s1 v1 a oa p h oh items oi vi hs k x rest S1 A P H S ND K I B L N1 N2 N3 T.
  assert (M : matches (constraint_words d) k = true).
  { clear - K. unfold kwd in K. revert k K. word_cases; destruct d; vm_compute; reflexivity. }
  eapply column_end; eauto. 
  - now apply default_ends.
  - rewrite Forall_forall. intros t J. eapply token_nonempty; [exact T|]. rewrite !in_app_iff; cbn [In]; tauto.
Qed.

(** ** The last ";" *)

Lemma stops_end : forall keep c, stops (One keep c) [] [].
Proof. intros keep c. apply eventually_always. intros n. cbn [prog]. rewrite exec_one. reflexivity. Qed.
Lemma skipped_stops : forall l, skipped l -> stops Skip l [].
Proof.
  intros l S. unfold stops. cbn [prog]. induction S as [|t l B N S IH|b mid e l B F E S IH].
  - apply eventually_S, eventually_always. reflexivity.
  - apply eventually_S. revert IH. apply eventually_mono. intros n H.
    cbn [skip_statement]. cbn [exec bind isOutOfRange matchToken hd_error tok]. rewrite B.
    cbn [exec bind matchToken hd_error tok]. rewrite (proj2 (sym_false ";" t eq_refl eq_refl)) by auto.
    cbn [exec bind next]. exact H.
  - apply eventually_S. generalize (skip_block _ _ _ _ F E IH). apply eventually_mono. intros n H.
    rewrite Decide.skip_unfold, B. assert (NE : matches ["END"] b = false) by (apply matches_one in B as [->| ->]; reflexivity). rewrite NE. exact H.
Qed.

Lemma options_ends : forall d o nxt oo v, lang (options d) o nxt oo v -> ends (options d) o [].
Proof.
  intros d o nxt oo v H. rewrite <- (app_nil_r o) at 1.
  assert (N : nxtfree (options d) = true) by (destruct d; vm_compute; reflexivity).
  eapply (ends_lang _ _ [FEof]); [destruct d; vm_compute; reflexivity|eapply nxtfree_lang; [exact N|exact H]|exists FEof; split; [now left|reflexivity]].
Qed.
Lemma table_stops_end : forall d a na oa va es oe ve o oo vo, lang (opening d) a na oa va -> lang (elements d) es (Some ")") oe ve ->
  lang (options d) o (Some ";") oo vo -> stops (statement d) (a ++ es ++ ")" :: o) [].
Proof.
  intros d a na oa va es oe ve o oo vo A E O. eapply stops_inside; [exact A|].
  eapply (stops_seq2 _ _ _ _ [FW ")"]); [destruct d; vm_compute; reflexivity|exact E|exists (FW ")"); split; [now left|reflexivity]|].
  eapply ends_stops; [apply ends_one; reflexivity|]. eapply ends_stops; [eapply options_ends; eauto|apply stops_end].
Qed.

Lemma skip_tail : forall ws l nxt o v, lang (kw_ ws ** Skip ** kw_ [";"] ==> fun _ => SOther) l nxt o v ->
  exists w l', l = w :: l' ++ [";"] /\ matches ws w = true /\ stops (kw_ ws ** Skip ** kw_ [";"] ==> fun _ => SOther) (w :: l') [].
Proof.
  intros ws l nxt o v H. parts H. destruct H0 as (M & -> & _). apply sym_is in H as (-> & _); [|reflexivity..].
  destruct H1 as (S & _). match goal with S : skipped ?x |- _ => exists (fst a), x end. cbn [app]. do 2 (split; auto).
  apply stops_map. eapply ends_stops; [apply ends_one; exact M|]. apply stops_seq1. now apply skipped_stops.
Qed.
Lemma other_stops_end : forall d l nxt o, lang (statement d) l nxt o SOther -> exists l', l = l' ++ [";"] /\ stops (statement d) l' [] /\ l' <> [].
Proof.
  assert (T : forall ws w, matches ws w = true -> forallb (fun u => negb (matches ["TABLE"] (to_lower u)) && negb (matches ["TABLE"] (to_upper u))) ws = true ->
    la_mem (next_in ["TABLE"]) (Some w) = false).
  { intros ws w M F. apply matches_spec in M as (u & I & E). rewrite forallb_forall in F. specialize (F u I).
    apply andb_true_iff in F as [F1 F2]. rewrite negb_true_iff in F1, F2. cbn [la_mem next_in la_words la_neg]. destruct E as [->| ->]; [rewrite F1|rewrite F2]; reflexivity. }
  intros d l nxt o H.
  destruct d; cbn [statement] in *; unfold GSqlite.statement, GPostgres.statement, GMysql.statement in *; parts H.
  all: destruct H as [H|H]; [unfold GSqlite.create_table, GPostgres.create_table, GMysql.create_table in H; parts H; exfalso;
    repeat match goal with x : (_ * _)%type |- _ => destruct x end; cbn [fst snd] in *; congruence|].
  all: apply skip_tail in H as (w & l' & -> & M & S).
  all: destruct H0 as (C & -> & _).
  all: eexists; (split; [rewrite ?app_comm_cons, ?app_assoc; reflexivity|]); (split; [|discriminate]); rewrite <- ?app_assoc; cbn [app].
  all: apply stops_map; eapply ends_stops; [apply ends_one; exact C|].
  1,4: eapply ends_stops; [eapply (ends_lang _ _ (look GSqlite.create_other [FAny; FEof])); [vm_compute; reflexivity|exact H1|]|].
  1,3: cbn [hd_error]; apply (words_within ["VIRTUAL"; "VIEW"; "TRIGGER"; "INDEX"; "UNIQUE"]) in M; exact M.
  all: apply stops_cond_r; [cbn [hd_error]; eapply T; [exact M|vm_compute; reflexivity]|exact S].
Qed.
Theorem last_semicolon : forall d ddl l o v, lang (script d) (l ++ [";"]) None o v -> tokens d ddl l -> exists line, rejected ddl d line EOF.
Proof.
  intros d ddl l o v H T. assert (N : v <> []).
  { intros ->. rewrite script_while in H. destruct H as [hs H]. inversion H. destruct l; discriminate. }
  apply exists_last in N as (vs & s & ->).
  destruct (script_split _ _ _ _ H vs s [] eq_refl) as (l1 & l2 & l3 & o1 & o2 & o3 & E & -> & S1 & S2 & S3).
  rewrite script_while in S3. destruct S3 as [hs S3]. inversion S3; subst. rewrite app_nil_r in E.
  assert (X : exists l', l2 = l' ++ [";"] /\ stops (statement d) l' [] /\ l' <> []).
  { destruct s as [t|].
    - destruct (table_split _ _ _ _ _ S2) as (a & oa & es & oe & ve & p & -> & -> & A & B & O).
      exists (a ++ es ++ ")" :: p). split; [now rewrite <- !app_assoc|].
      split; [eapply table_stops_end; eauto|]. intros Q. apply app_eq_nil in Q as [_ Q]. apply app_eq_nil in Q as [_ Q]. discriminate.
    - destruct (other_stops_end _ _ _ _ S2) as (l' & -> & Q). exists l'. auto. }
  destruct X as (l' & -> & S & N). rewrite app_assoc in E. apply app_inj_tail in E as [-> _].
  change EOF with (tok (hd_error (@nil string))). eapply stops_rejected; [exact S1|apply stops_script; eauto|exact T].
Qed.

(** ** C37, C38 *)

Lemma quoted_outside : forall d y, quoted (str_quotes d) y = true ->
  outside_of (constraint_words d) (Some y) /\ outside_of [","; ")"] (Some y) /\ (d = MySQL -> outside_of ["ON"] (Some y)).
Proof.
  intros d y Q. assert (X : forall ws, forallb (fun w => negb (quoted (str_quotes d) (to_lower w)) && negb (quoted (str_quotes d) (to_upper w))) ws = true ->
    outside_of ws (Some y)).
  { intros ws F t [= <-]. apply not_true_is_false. intros M. apply matches_spec in M as (u & I & E). rewrite forallb_forall in F.
    specialize (F u I). apply andb_true_iff in F as [F1 F2]. rewrite negb_true_iff in F1, F2. destruct E as [->| ->]; congruence. }
  split; [|split; [|intros ->]]; apply X; try destruct d; vm_compute; reflexivity.
Qed.
Theorem two_strings : forall d ddl s1 v1 a oa p h oh items oi vi hs k x y rest,
  (exists o1, lang (script d) s1 None o1 v1) -> lang (opening d) a None oa tt -> before d p -> lang (column_head d) h (hd_error (items ++ [k])) oh tt ->
  star (lang (column_constraint d)) items (Some k) oi vi hs -> NoDup (map (kind d) hs) ->
  kwd "DEFAULT" k -> ~ In (kind d k) (map (kind d) hs) -> quoted (str_quotes d) x = true -> quoted (str_quotes d) y = true ->
  tokens d ddl (s1 ++ a ++ p ++ h ++ items ++ k :: x :: y :: rest) -> exists line, rejected ddl d line y.
Proof.
  intros d ddl s1 v1 a oa p h oh items oi vi hs k x y rest S1 A P H S ND K I X Y T.
  destruct (quoted_outside _ _ Y) as (N1 & N2 & N3).
  change y with (tok (hd_error (y :: rest))) at 1. eapply after_default; eauto.
  - intros ->. destruct d; discriminate.
  - unfold literal. now rewrite X, orb_true_r.
Qed.
Theorem decimal_point : forall d ddl s1 v1 a oa p h oh items oi vi hs k x rest,
  (exists o1, lang (script d) s1 None o1 v1) -> lang (opening d) a None oa tt -> before d p -> lang (column_head d) h (hd_error (items ++ [k])) oh tt ->
  star (lang (column_constraint d)) items (Some k) oi vi hs -> NoDup (map (kind d) hs) ->
  kwd "DEFAULT" k -> ~ In (kind d k) (map (kind d) hs) -> literal d x = true ->
  tokens d ddl (s1 ++ a ++ p ++ h ++ items ++ k :: x :: "." :: rest) -> exists line, rejected ddl d line ".".
Proof.
  intros d ddl s1 v1 a oa p h oh items oi vi hs k x rest S1 A P H S ND K I L T.
  change "." with (tok (hd_error ("." :: rest))) at 1. eapply after_default; eauto.
  - intros ->. destruct d; vm_compute in L; discriminate.
  - intros t [= <-]. destruct d; vm_compute; reflexivity.
  - intros t [= <-]. reflexivity.
  - intros _ t [= <-]. reflexivity.
Qed.
