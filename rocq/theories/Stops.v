(** Where the validator stops in a statement whose beginning is correct. *)
From Coq Require Import String List Bool Arith Lia.
From Verif Require Import GoStr GoNum Types VBase Exec Grammar GrammarFacts Ast Emit Converter Parse Spec Pipe Meaning Witness Decide Local LayoutFacts Parts PartsFacts Numbers NumbersFacts.
From Verif Require GSqlite GPostgres GMysql.
Import ListNotations.
Open Scope nat_scope.
Open Scope string_scope.
Open Scope gr_scope.

Definition stops {A} (g : gr A) (l rest : list string) : Prop := eventually (fun n => exec (prog g n) l = EErr rest).

Lemma stops_map : forall A B (f : A -> B) (g : gr A) l rest, stops g l rest -> stops (g ==> f) l rest.
Proof. auto. Qed.
Lemma stops_seq1 : forall A B (g : gr A) (h : gr B) l rest, stops g l rest -> stops (g ** h) l rest.
Proof. intros A B g h l rest. apply eventually_mono. intros n H. cbn [prog]. now rewrite exec_bind, H. Qed.
Lemma stops_seq2 : forall A B (g : gr A) (h : gr B) fol l1 l2 o v rest, ok g fol = true -> lang g l1 (hd_error l2) o v ->
  within fol (hd_error l2) -> stops h l2 rest -> stops (g ** h) (l1 ++ l2) rest.
Proof.
  intros A B g h fol l1 l2 o v rest K H W S. pose proof (complete _ _ _ K _ _ _ _ H W) as C.
  generalize (eventually_and _ _ C S). apply eventually_mono. intros n [X Y]. cbn [prog].
  unfold accepts in X. rewrite exec_bind, X. cbn [ebind]. now rewrite Y.
Qed.
(** ... for parts that do not depend on what follows *)
Lemma stops_seq : forall A B (g : gr A) (h : gr B) l1 l2 o v rest, ok g [FAny; FEof] = true -> lang g l1 (hd_error l2) o v ->
  stops h l2 rest -> stops (g ** h) (l1 ++ l2) rest.
Proof. intros. eapply stops_seq2; eauto. apply within_any. Qed.
Lemma stops_cond_l : forall A c (g h : gr A) l rest, la_mem c (hd_error l) = true -> stops g l rest -> stops (Cond c g h) l rest.
Proof.
  intros A c g h l rest M. apply eventually_mono. intros n H. cbn [prog].
  now rewrite (exec_if _ _ _ _ _ _ (exec_look_la _ _)), M.
Qed.
Lemma stops_cond_r : forall A c (g h : gr A) l rest, la_mem c (hd_error l) = false -> stops h l rest -> stops (Cond c g h) l rest.
Proof.
  intros A c g h l rest M. apply eventually_mono. intros n H. cbn [prog].
  now rewrite (exec_if _ _ _ _ _ _ (exec_look_la _ _)), M.
Qed.
Lemma stops_one : forall keep c t l, t <> "" -> cmem c t = false -> stops (One keep c) (t :: l) (t :: l).
Proof. intros keep c t l E M. apply eventually_always. intros n. cbn [prog]. rewrite exec_one, M. destruct t; [now elim E|reflexivity]. Qed.
Lemma stops_while : forall A c (g : gr A) l rest, la_mem c (hd_error l) = true -> stops g l rest -> stops (While c g) l rest.
Proof.
  intros A c g l rest M H. apply eventually_S. revert H. apply eventually_mono. intros n H. cbn [prog while_loop].
  now rewrite (exec_if _ _ _ _ _ _ (exec_look_la _ _)), M, exec_bind, H.
Qed.
Lemma stops_sep1 : forall A keep (g : gr A) l rest, stops g l rest -> stops (SepBy keep g) l rest.
Proof. intros A keep g l rest H. apply eventually_S. revert H. apply eventually_mono. intros n H. cbn [prog sep_loop]. now rewrite exec_bind, H. Qed.
Lemma stops_sep : forall A keep (g : gr A) l1 nxt o v, ok g [FW ","] = true -> sepby (lang g) keep l1 nxt o v -> nxt = Some "," ->
  forall l2 rest, stops g l2 rest -> stops (SepBy keep g) (l1 ++ "," :: l2) rest.
Proof.
  intros A keep g l1 nxt o v K H. assert (W : within [FW ","] (Some ",")) by (exists (FW ","); split; [now left|reflexivity]).
  assert (X : forall l o v, lang g l (Some ",") o v -> forall l2 rest, stops (SepBy keep g) l2 rest -> stops (SepBy keep g) (l ++ "," :: l2) rest).
  { clear - K W. intros l o v H l2 rest S. apply eventually_S.
    pose proof (complete _ _ _ K l ("," :: l2) o v H W) as C.
    generalize (eventually_and _ _ C S). apply eventually_mono. intros n [X Y]. cbn [prog sep_loop] in *. unfold accepts in X.
    rewrite exec_bind, X. cbn [ebind]. rewrite exec_bind, exec_matchTokenNext. change (matches [","] ",") with true. cbn match.
    cbn [ebind]. now rewrite Y. }
  induction H as [l nxt o v H|l1 l2 nxt o1 o2 v vs H1 H2 IH]; intros -> l3 rest S.
  - eapply X; eauto. now apply stops_sep1.
  - rewrite <- app_assoc. cbn [app]. eapply X; eauto.
Qed.

Lemma words_within : forall ws t, matches ws t = true -> within (map FW ws) (Some t).
Proof. intros ws t H. apply matches_In in H as (w & I & H). exists (FW w). split; auto. now apply in_map. Qed.

(** the loop stops after some rounds *)
Lemma whileu_after : forall A ws key (g : gr A), forallb (la_is (next_in ws) true) (look g [FAny; FEof]) = true -> ok g (map FW ws) = true ->
  forall l nxt o v hs, star (lang g) l nxt o v hs -> forall k X rest, nxt = Some k -> matches ws k = true ->
  forall ls, NoDup (ls ++ map key hs) ->
  eventually (fun n => exec (whileu_loop (prog g) (next_in ws) key n (ls ++ map key hs)) (k :: X) = EErr rest) ->
  eventually (fun n => exec (whileu_loop (prog g) (next_in ws) key n ls) (l ++ k :: X) = EErr rest).
Proof.
  intros A ws key g HT K l nxt o v hs S. induction S as [nxt|t l1 l2 nxt o1 o2 v vs hs H1 H2 IH]; intros k X rest -> M ls ND I.
  - cbn [map] in I. now rewrite app_nil_r in I.
  - apply eventually_S. assert (T : matches ws t = true).
    { eapply (look_within _ g [FAny; FEof]) in H1; [|apply within_any]. cbn [hdr] in H1. pose proof (forallb_within _ _ _ _ HT H1) as Y.
      cbn [la_mem next_in la_words la_neg] in Y. rewrite xorb_false_r in Y. exact Y. }
    assert (W : within (map FW ws) (hdr l2 (Some k))).
    { destruct l2 as [|t2 l2]; [now apply words_within|]. inversion H2; subst. cbn [hdr].
      eapply (look_within _ g [FAny; FEof]) in H3; [|apply within_any]. cbn [hdr] in H3. pose proof (forallb_within _ _ _ _ HT H3) as Y.
      cbn [la_mem next_in la_words la_neg] in Y. rewrite xorb_false_r in Y. now apply words_within. }
    assert (R : hdr l2 (Some k) = hd_error (l2 ++ k :: X)) by now destruct l2. rewrite R in H1, W.
    pose proof (complete _ _ _ K _ _ _ _ H1 W) as C. cbn [map] in *.
    assert (NI : ~ In (key t) ls). { apply NoDup_remove_2 in ND. rewrite in_app_iff in ND. tauto. }
    assert (ND' : NoDup ((ls ++ [key t]) ++ map key hs)) by (rewrite <- app_assoc; exact ND).
    specialize (IH k X rest eq_refl M _ ND'). rewrite <- app_assoc in IH. specialize (IH I).
    generalize (eventually_and _ _ C IH). apply eventually_mono. intros n [Y Z]. unfold accepts in Y.
    cbn [whileu_loop app]. rewrite (exec_if _ _ _ _ _ _ (exec_look_la _ _)).
    cbn [hd_error la_mem next_in la_words la_neg]. rewrite T. cbn [xorb bind token exec hd_error tok].
    apply contains_false in NI. rewrite NI. rewrite exec_bind. cbn [app] in Y. rewrite <- app_assoc, Y. cbn [ebind]. now rewrite Z.
Qed.
(** ... at a repeated key *)
Lemma whileu_repeated : forall A ws key (g : gr A) k rest ls, matches ws k = true -> In (key k) ls ->
  eventually (fun n => exec (whileu_loop (prog g) (next_in ws) key n ls) (k :: rest) = EErr (k :: rest)).
Proof.
  intros A ws key g k rest ls M I. apply eventually_S, eventually_always. intros n. cbn [whileu_loop app]. rewrite (exec_if _ _ _ _ _ _ (exec_look_la _ _)).
  cbn [hd_error la_mem next_in la_words la_neg]. rewrite M. cbn [xorb bind token exec hd_error tok].
  apply contains_spec in I. rewrite I. reflexivity.
Qed.
(** ... or in the next round *)
Lemma whileu_next : forall A ws key (g : gr A) k X rest ls, matches ws k = true -> ~ In (key k) ls -> stops g (k :: X) rest ->
  eventually (fun n => exec (whileu_loop (prog g) (next_in ws) key n ls) (k :: X) = EErr rest).
Proof.
  intros A ws key g k X rest ls M I S. apply eventually_S. revert S. apply eventually_mono. intros n S.
  cbn [whileu_loop app]. rewrite (exec_if _ _ _ _ _ _ (exec_look_la _ _)).
  cbn [hd_error la_mem next_in la_words la_neg]. rewrite M. cbn [xorb bind token exec hd_error tok].
  apply contains_false in I. rewrite I. now rewrite exec_bind, S.
Qed.

(** ** From the elements to the script *)

Lemma stops_rejected : forall d ddl l1 o1 v1 l rest, lang (script d) l1 None o1 v1 -> stops (script d) l rest -> tokens d ddl (l1 ++ l) ->
  exists line, rejected ddl d line (tok (hd_error rest)).
Proof.
  intros d ddl l1 o1 v1 l rest S1 [n0 S] (t & L & E)%tokens_lexed.
  assert (V : verdict d l (EErr rest)) by (split; [discriminate|exists n0; apply S; lia]).
  pose proof (verdict_app _ _ _ _ _ _ S1 V) as V'. cbn [epre] in V'. rewrite E in V'.
  eexists. apply returns_stage. eapply st_validate; eauto.
Qed.
Lemma stops_script : forall d l rest, l <> [] -> stops (statement d) l rest -> stops (script d) l rest.
Proof. intros d [|t l] rest N S; [now elim N|]. rewrite script_while. apply stops_while; auto. Qed.

Lemma lang_hd : forall A (g : gr A) l X nxt o v, nxtfree g = true -> lang g l nxt o v -> lang g l (hd_error X) o v.
Proof. intros. eapply nxtfree_lang; eauto. Qed.
Lemma one_hd : forall keep ws l nxt o v X, lang (One keep (CW ws)) l nxt o v -> within (map FW ws) (hd_error (l ++ X)).
Proof. intros keep ws l nxt o v X (M & -> & _). cbn [app hd_error]. now apply words_within. Qed.

Lemma stops_inside : forall d a na oa va X rest, lang (opening d) a na oa va ->
  stops (elements d ** kw [")"] ** options d ** kw [";"]) X rest -> stops (statement d) (a ++ X) rest.
Proof.
  intros d a na oa va X rest A S. apply (nxtfree_lang _ _ (opening_nxtfree d) _ _ (hd_error X)) in A.
  destruct d; cbn [opening options elements element statement] in *; parts A;
    repeat match goal with x : (_ * _)%type |- _ => destruct x end; cbn [fst snd] in *; rewrite <- ?app_assoc in *.
  all: unfold GSqlite.statement, GPostgres.statement, GMysql.statement.
  all: match goal with H : lang (kw ["("]) _ _ _ _ |- _ => apply sym_is in H as (-> & -> & ->); [|reflexivity..] end.
  all: match goal with H : lang (kw ["TABLE"]) _ _ _ _ |- _ => destruct H as (T & -> & ->) end.
  all: match goal with H : lang (kw_ ["CREATE"]) _ _ _ _ |- _ => destruct H as (C & -> & ->) end.
  all: match goal with H : lang (Put _) _ _ _ _ |- _ => destruct H as (-> & ->) end.
  all: cbn [app hdr] in *.
  all: apply stops_map; eapply (stops_seq _ _ _ _ [s]); [reflexivity|repeat split; exact C|].
  1, 4: eapply (stops_seq2 _ _ _ _ [FW "TABLE"]); [reflexivity|eapply nxtfree_lang; [|exact H0]; reflexivity|apply (words_within ["TABLE"]); exact T|].
  all: apply stops_cond_l; [cbn [hd_error la_mem next_in la_words la_neg]; rewrite xorb_false_r; exact T|].
  all: apply stops_map; eapply (stops_seq _ _ _ _ []); [reflexivity|apply lang_put|];
    eapply (stops_seq _ _ _ _ [s0]); [reflexivity|repeat split; exact T|].
  all: match goal with
    I : lang ?ine ?li (hdr (?l4 ++ _) _) _ _, N : lang ?tn ?l4 _ _ _ |- _ =>
      eapply (stops_seq2 _ _ _ _ (look tn [FW "("])); [reflexivity| | |];
      [rewrite hd_error_hdr; rewrite hdr_app in I; exact I
      |rewrite hd_error_hdr; eapply look_within; [exact N|apply (words_within ["("]); reflexivity]|];
      eapply (stops_seq2 _ _ _ _ [FW "("]); [reflexivity|exact N|apply (words_within ["("]); reflexivity|];
      eapply (stops_seq _ _ _ _ ["("]); [reflexivity|apply (lang_one true); reflexivity|]
    end.
  all: exact S.
Qed.
Lemma stops_table : forall d a na oa va X rest, lang (opening d) a na oa va -> stops (elements d) X rest -> stops (statement d) (a ++ X) rest.
Proof. intros. eapply stops_inside; eauto. now apply stops_seq1. Qed.

Lemma element_ok : forall d, ok (element d) [FW ","] = true.
Proof. intros []; vm_compute; reflexivity. Qed.
Lemma stops_elements : forall d p X rest, before d p -> stops (element d) X rest -> stops (elements d) (p ++ X) rest.
Proof.
  intros d p X rest [->|(es & oe & ve & -> & E)] S.
  - now apply stops_sep1.
  - rewrite <- app_assoc. cbn [app]. eapply stops_sep; [apply element_ok|exact E|reflexivity|exact S].
Qed.

(** the beginning of a column, then something wrong *)
Definition column_rest (d : rdbms) : gr (list a_item) := WhileU (next_in (constraint_words d)) (kind d) (column_constraint d).
Lemma stops_column : forall d n X rest, cmem (name_class d) n = true ->
  stops (column_name d ** column_type d ** column_cname d ** column_rest d) (n :: X) rest -> stops (element d) (n :: X) rest.
Proof.
  intros d n X rest M S. pose proof (class_within _ _ M) as W.
  destruct d; (apply stops_cond_r; [eapply forallb_within; [|exact W]; vm_compute; reflexivity|exact S]).
Qed.
(** the same in the type of the column *)
Lemma stops_type : forall d n X rest, cmem (name_class d) n = true -> stops (column_type d) X rest -> stops (element d) (n :: X) rest.
Proof.
  intros d n X rest M S. apply stops_column; auto. eapply (stops_seq _ _ _ _ [n] X); [reflexivity|now apply lang_one|].
  now apply stops_seq1.
Qed.
(** ... and in its constraints *)
Lemma stops_constraints : forall d h oh X rest, lang (column_head d) h (hd_error X) oh tt -> within (map FW (constraint_words d)) (hd_error X) ->
  stops (column_rest d) X rest -> stops (element d) (h ++ X) rest.
Proof.
  intros d h oh X rest H W S.
  assert (F : ok (column_type d ** column_cname d) (map FW (constraint_words d)) = true) by (destruct d; vm_compute; reflexivity).
  unfold column_head in H. parts H.
  destruct a as (n & ty & c). cbn [fst snd] in *. destruct H0 as (M & -> & ->). rewrite <- !app_assoc. cbn [app].
  apply stops_column; auto. eapply (stops_seq _ _ _ _ [n]); [reflexivity|now apply lang_one|].
  cbn [ok] in F. apply andb_true_iff in F as [F1 F2].
  eapply stops_seq2; [exact F1| | |].
  - rewrite hd_error_hdr. exact H1.
  - rewrite hd_error_hdr. eapply look_within; [exact H|exact W].
  - eapply stops_seq2; [exact F2|exact H|exact W|exact S].
Qed.

(** ** C21 *)

(** A column with a correct beginning; the loop over its constraints stops in what follows. *)
Lemma constraints_rejected : forall d ddl s1 v1 a oa p h oh items oi vi hs k X rest,
  (exists o1, lang (script d) s1 None o1 v1) -> lang (opening d) a None oa tt -> before d p -> lang (column_head d) h (hd_error (items ++ [k])) oh tt ->
  star (lang (column_constraint d)) items (Some k) oi vi hs -> NoDup (map (kind d) hs) -> matches (constraint_words d) k = true ->
  eventually (fun n => exec (whileu_loop (prog (column_constraint d)) (next_in (constraint_words d)) (kind d) n (map (kind d) hs)) (k :: X) = EErr rest) ->
  tokens d ddl (s1 ++ a ++ p ++ h ++ items ++ k :: X) -> exists line, rejected ddl d line (tok (hd_error rest)).
Proof.
  intros d ddl s1 v1 a oa p h oh items oi vi hs k X rest [o1 S1] A P H S ND M I T.
  eapply stops_rejected; [exact S1| |exact T]. apply stops_script.
  { intros E. apply app_eq_nil in E as [E _]. subst a. destruct d; destruct A as (? & _ & l1 & l2 & ? & ? & E & _ & (_ & -> & _) & _); discriminate E. }
  eapply stops_table; [exact A|]. apply stops_elements; auto.
  assert (HT : forallb (la_is (next_in (constraint_words d)) true) (look (column_constraint d) [FAny; FEof]) = true) by (destruct d; vm_compute; reflexivity).
  assert (K : ok (column_constraint d) (map FW (constraint_words d)) = true) by (destruct d; vm_compute; reflexivity).
  eapply stops_constraints; [replace (hd_error (items ++ k :: X)) with (hd_error (items ++ [k])) by (now destruct items); exact H| |].
  - rewrite hd_error_hdr. destruct S as [|t l1 l2 nxt o2 o3 v vs hs' H1 H2]; [now apply words_within|]. cbn [hdr].
    eapply (look_within _ (column_constraint d) [FAny; FEof]) in H1; [|apply within_any]. cbn [hdr] in H1. pose proof (forallb_within _ _ _ _ HT H1) as Y.
    cbn [la_mem next_in la_words la_neg] in Y. rewrite xorb_false_r in Y. now apply words_within.
  - eapply (whileu_after _ _ _ _ HT K _ _ _ _ _ S); eauto.
Qed.
Theorem repeated_at : forall d ddl s1 v1 a oa p h oh items oi vi hs k rest,
  (exists o1, lang (script d) s1 None o1 v1) -> lang (opening d) a None oa tt -> before d p -> lang (column_head d) h (hd_error (items ++ [k])) oh tt ->
  star (lang (column_constraint d)) items (Some k) oi vi hs -> NoDup (map (kind d) hs) ->
  matches (constraint_words d) k = true -> In (kind d k) (map (kind d) hs) ->
  tokens d ddl (s1 ++ a ++ p ++ h ++ items ++ k :: rest) -> exists line, rejected ddl d line k.
Proof.
  intros d ddl s1 v1 a oa p h oh items oi vi hs k rest S1 A P H S ND M I T.
  change k with (tok (hd_error (k :: rest))) at 1. eapply constraints_rejected; eauto. now apply whileu_repeated.
Qed.

Lemma first_repeat : forall A (L : _ -> _ -> _ -> A -> Prop) key l nxt o v hs, star L l nxt o v hs -> forall ls : list string, NoDup ls ->
  ~ NoDup (ls ++ map key hs) -> exists l1 k l2 o1 v1 hs1 k' nxt' o' v', l = (l1 ++ k :: l2)%list /\ star L l1 (Some k) o1 v1 hs1 /\
    NoDup (ls ++ map key hs1) /\ In (key k) (ls ++ map key hs1) /\ In k hs /\ L (k :: k') nxt' o' v'.
Proof.
  intros A L key l nxt o v hs S. induction S as [nxt|t l1 l2 nxt o1 o2 v vs hs H1 H2 IH]; intros ls N D.
  - cbn [map] in D. rewrite app_nil_r in D. contradiction.
  - destruct (in_dec string_dec (key t) ls) as [I|I].
    + exists [], t, (l1 ++ l2)%list, [], [], [], l1, (hdr l2 nxt), o1, v. cbn [app map]. rewrite app_nil_r.
      split; [reflexivity|]. split; [constructor|]. split; [exact N|]. split; [exact I|]. split; [now left|exact H1].
    + assert (N' : NoDup (ls ++ [key t])).
      { apply (NoDup_Add (a := key t) (l := ls)); [|now split]. rewrite <- (app_nil_r ls) at 1. apply Add_app. }
      destruct (IH (ls ++ [key t])%list N') as (m1 & k & m2 & p1 & w1 & hs1 & k' & nxt' & o' & v' & -> & S & ND & J & K & Lk).
      { rewrite <- app_assoc. exact D. }
      rewrite <- app_assoc in ND, J. cbn [app] in ND, J.
      exists (t :: l1 ++ m1)%list, k, m2, (o1 ++ p1)%list, (v :: w1), (t :: hs1), k', nxt', o', v'. cbn [app map]. rewrite <- app_assoc.
      split; [reflexivity|]. split; [constructor; auto; rewrite hdr_app in H1; exact H1|].
      split; [exact ND|]. split; [exact J|]. split; [now right|exact Lk].
Qed.
Theorem repeated : forall d ddl s1 v1 a oa p h oh items oi vi hs rest,
  (exists o1, lang (script d) s1 None o1 v1) -> lang (opening d) a None oa tt -> before d p ->
  lang (column_head d) h (hd_error (items ++ rest)) oh tt ->
  star (lang (column_constraint d)) items (hd_error rest) oi vi hs -> ~ NoDup (map (kind d) hs) ->
  tokens d ddl (s1 ++ a ++ p ++ h ++ items ++ rest) -> exists line k, In k hs /\ rejected ddl d line k.
Proof.
  intros d ddl s1 v1 a oa p h oh items oi vi hs rest S1 A P H S ND T.
  destruct (first_repeat _ _ (kind d) _ _ _ _ _ S [] (NoDup_nil _) ND) as (l1 & k & l2 & o1 & w1 & hs1 & k' & nxt' & o' & v' & -> & S' & N & J & K & Lk).
  cbn [app] in N, J.
  assert (HT : forallb (la_is (next_in (constraint_words d)) true) (look (column_constraint d) [FAny; FEof]) = true) by (destruct d; vm_compute; reflexivity).
  assert (M : matches (constraint_words d) k = true).
  { eapply (look_within _ (column_constraint d) [FAny; FEof]) in Lk; [|apply within_any]. cbn [hdr] in Lk. pose proof (forallb_within _ _ _ _ HT Lk) as X.
    cbn [la_mem next_in la_words la_neg] in X. rewrite xorb_false_r in X. exact X. }
  rewrite <- app_assoc in *. cbn [app] in *.
  destruct (repeated_at d ddl s1 v1 a oa p h oh l1 o1 w1 hs1 k (l2 ++ rest)%list) as [line R]; auto.
  - replace (hd_error (l1 ++ [k])) with (hd_error (l1 ++ k :: l2 ++ rest)) by now destruct l1. exact H.
  - eauto.
Qed.

(** ** C23 *)

Lemma digit_bad : forall (f : string * (string * string) -> string * option string) x rest, x <> "" -> is_positive_integer_token x = false ->
  stops (opt ["("] (kw ["("] ** One true CPos ** kw [")"] ==> f)) ("(" :: x :: rest) (x :: rest).
Proof.
  intros f x rest N B. apply stops_cond_l; [reflexivity|]. apply stops_map, stops_map.
  eapply (stops_seq _ _ _ _ ["("]); [reflexivity|apply (lang_one true); reflexivity|].
  apply stops_seq1. now apply stops_one.
Qed.
Lemma digit_bad2 : forall (f : string * (string * (option string * string)) -> string * option string) x rest, x <> "" -> is_positive_integer_token x = false ->
  stops (opt ["("] (kw ["("] ** One true CPos ** opt [","] (kw [","] ** One true CPos ==> snd) ** kw [")"] ==> f)) ("(" :: x :: rest) (x :: rest).
Proof.
  intros f x rest N B. apply stops_cond_l; [reflexivity|]. apply stops_map, stops_map.
  eapply (stops_seq _ _ _ _ ["("]); [reflexivity|apply (lang_one true); reflexivity|].
  apply stops_seq1. now apply stops_one.
Qed.
Lemma scale_bad : forall (f : string * (string * (option string * string)) -> string * option string) k x rest,
  x <> "" -> is_positive_integer_token x = false -> is_positive_integer_token k = true ->
  stops (opt ["("] (kw ["("] ** One true CPos ** opt [","] (kw [","] ** One true CPos ==> snd) ** kw [")"] ==> f)) ("(" :: k :: "," :: x :: rest) (x :: rest).
Proof.
  intros f k x rest N B K. apply stops_cond_l; [reflexivity|]. apply stops_map, stops_map.
  eapply (stops_seq _ _ _ _ ["("]); [reflexivity|apply (lang_one true); reflexivity|].
  eapply (stops_seq _ _ _ _ [k]); [reflexivity|apply (lang_one true); exact K|].
  apply stops_seq1. apply stops_cond_l; [reflexivity|]. apply stops_map, stops_map.
  eapply (stops_seq _ _ _ _ [","]); [reflexivity|apply (lang_one true); reflexivity|]. now apply stops_one.
Qed.

(** a word that matches is one of finitely many tokens *)
Lemma matches_all : forall (P : string -> Prop) ws, (forall w, In w ws -> P (to_lower w) /\ P (to_upper w)) -> forall w, matches ws w = true -> P w.
Proof. intros P ws H w M. apply matches_spec in M as (u & I & [->| ->]); now apply H. Qed.

Ltac word_cases := apply matches_all; cbn [In]; intros w W;
  repeat (destruct W as [<-|W]; [split|]); try contradiction.
Ltac pick :=
  repeat first [apply stops_map
    | apply stops_cond_l; [reflexivity|]
    | apply stops_cond_r; [reflexivity|]].
Ltac type_word w := pick; eapply (stops_seq _ _ _ _ [w]); [reflexivity|apply (lang_one true); reflexivity|].

Lemma type_stops : forall d w x rest, sized d w -> x <> "" -> is_positive_integer_token x = false ->
  stops (column_type d) (w ++ "(" :: x :: rest) (x :: rest).
Proof.
  intros d w x rest [(t & -> & M)|(-> & t & v & -> & M & V)] N B; cbn [app].
  - revert t M. destruct d; try discriminate.
    + word_cases; match goal with |- stops _ (?t :: _) _ => let t' := eval vm_compute in t in change t with t' end.
      all: cbn [column_type]; unfold GPostgres.type_name.
      all: match goal with |- stops _ (?t :: _) _ => type_word t end.
      all: try (apply stops_seq1; apply digit_bad; assumption).
      all: try (apply digit_bad; assumption).
      all: try (apply digit_bad2; assumption).
      all: eapply (stops_seq2 _ _ _ _ [FW "("] []); [reflexivity|right; exists tt; repeat split|apply (words_within ["("]); reflexivity|apply digit_bad; assumption].
    + word_cases; match goal with |- stops _ (?t :: _) _ => let t' := eval vm_compute in t in change t with t' end.
      all: cbn [column_type]; unfold GMysql.type_name.
      all: match goal with |- stops _ (?t :: _) _ => type_word t end.
      all: first [apply digit_bad; assumption | apply digit_bad2; assumption | apply stops_seq1; apply digit_bad; assumption].
  - cbn [column_type]. unfold GPostgres.type_name.
    assert (T : la_mem (next_in ["BIT"; "CHARACTER"]) (Some t) = true) by (cbn [la_mem next_in la_words la_neg]; now rewrite xorb_false_r).
    apply stops_cond_l; [exact T|]. apply stops_map. eapply (stops_seq _ _ _ _ [t]); [reflexivity|now apply (lang_one true)|].
    eapply (stops_seq2 _ _ _ _ [FW "("] [v]); [reflexivity| |apply (words_within ["("]); reflexivity|apply digit_bad; assumption].
    left. exists v. split; [reflexivity|]. now apply (lang_one true).
Qed.
Lemma type_stops2 : forall d w k x rest, matches (scaled_words d) w = true -> is_positive_integer_token k = true -> x <> "" -> is_positive_integer_token x = false ->
  stops (column_type d) (w :: "(" :: k :: "," :: x :: rest) (x :: rest).
Proof.
  intros d w k x rest M K N B. revert w M. destruct d; try discriminate.
  - word_cases; match goal with |- stops _ (?t :: _) _ => let t' := eval vm_compute in t in change t with t' end.
    all: cbn [column_type]; unfold GPostgres.type_name.
    all: match goal with |- stops _ (?t :: _) _ => type_word t end.
    all: apply scale_bad; assumption.
  - word_cases; match goal with |- stops _ (?t :: _) _ => let t' := eval vm_compute in t in change t with t' end.
    all: cbn [column_type]; unfold GMysql.type_name.
    all: match goal with |- stops _ (?t :: _) _ => type_word t end.
    all: apply scale_bad; assumption.
Qed.

Lemma type_rejected : forall d ddl s1 v1 a oa p n l x rest,
  (exists o1, lang (script d) s1 None o1 v1) -> lang (opening d) a None oa tt -> before d p -> cmem (name_class d) n = true ->
  stops (column_type d) (l ++ x :: rest) (x :: rest) ->
  tokens d ddl (s1 ++ a ++ p ++ n :: l ++ x :: rest) -> exists line, rejected ddl d line x.
Proof.
  intros d ddl s1 v1 a oa p n l x rest [o1 S1] A P M S T.
  change x with (tok (hd_error (x :: rest))) at 1.
  eapply stops_rejected; [exact S1| |exact T]. apply stops_script.
  { intros E. apply app_eq_nil in E as [E _]. subst a. destruct d; destruct A as (? & _ & l1 & l2 & ? & ? & E & _ & (_ & -> & _) & _); discriminate E. }
  eapply stops_table; [exact A|]. apply stops_elements; auto. now apply stops_type.
Qed.
Lemma token_nonempty : forall d ddl l x, tokens d ddl l -> In x l -> x <> "".
Proof. intros d ddl l x T I. apply tokens_good in T. rewrite Forall_forall in T. now apply T. Qed.

Theorem bad_digit : forall d ddl s1 v1 a oa p n w x rest,
  (exists o1, lang (script d) s1 None o1 v1) -> lang (opening d) a None oa tt -> before d p -> cmem (name_class d) n = true ->
  sized d w -> (forall k, ~ positive_int x k) ->
  tokens d ddl (s1 ++ a ++ p ++ n :: w ++ "(" :: x :: rest) -> exists line, rejected ddl d line x.
Proof.
  intros d ddl s1 v1 a oa p n w x rest S1 A P M W B T. apply not_positive in B.
  assert (N : x <> ""). { eapply token_nonempty; [exact T|]. rewrite !in_app_iff; cbn [In]; rewrite in_app_iff; cbn [In]; tauto. }
  replace (n :: w ++ "(" :: x :: rest)%list with (n :: (w ++ ["("]) ++ x :: rest)%list in T by now rewrite <- app_assoc.
  eapply type_rejected; eauto. rewrite <- app_assoc. cbn [app]. now apply type_stops.
Qed.
Theorem bad_scale : forall d ddl s1 v1 a oa p n w k kn x rest,
  (exists o1, lang (script d) s1 None o1 v1) -> lang (opening d) a None oa tt -> before d p -> cmem (name_class d) n = true ->
  matches (scaled_words d) w = true -> positive_int k kn -> (forall m, ~ positive_int x m) ->
  tokens d ddl (s1 ++ a ++ p ++ n :: w :: "(" :: k :: "," :: x :: rest) -> exists line, rejected ddl d line x.
Proof.
  intros d ddl s1 v1 a oa p n w k kn x rest S1 A P M W K B T. apply not_positive in B. apply positive_spec in K as [K _].
  assert (N : x <> ""). { eapply token_nonempty; [exact T|]. rewrite !in_app_iff; cbn [In]; tauto. }
  change (n :: w :: "(" :: k :: "," :: x :: rest)%list with (n :: [w; "("; k; ","] ++ x :: rest)%list in T.
  eapply type_rejected; eauto. cbn [app]. now apply type_stops2.
Qed.

(** ** C22 *)

Lemma default_stops : forall d k x rest, kwd "DEFAULT" k -> x <> "" -> x <> "(" -> literal d x = false ->
  stops (column_constraint d) (k :: x :: rest) (x :: rest).
Proof.
  intros d k x rest K N B L. assert (M : la_mem (next_in ["("]) (Some x) = false).
  { cbn [la_mem next_in la_words la_neg]. rewrite xorb_false_r. apply not_true_is_false. intros M. apply matches_spec in M as (u & [<-|[]] & [->| ->]); now apply B. }
  unfold kwd in K. revert k K.
  word_cases; match goal with |- stops _ (?t :: _) _ => let t' := eval vm_compute in t in change t with t' end.
  all: destruct d; pick; cbn [column_constraint]; pick.
  all: eapply (stops_seq _ _ _ _ [_]); [reflexivity|apply (lang_one true); reflexivity|].
  all: apply stops_cond_r; [exact M|]; repeat apply stops_map.
  all: try apply stops_seq1; now apply stops_one.
Qed.
Theorem bad_default : forall d ddl s1 v1 a oa p h oh items oi vi hs k x rest,
  (exists o1, lang (script d) s1 None o1 v1) -> lang (opening d) a None oa tt -> before d p -> lang (column_head d) h (hd_error (items ++ [k])) oh tt ->
  star (lang (column_constraint d)) items (Some k) oi vi hs -> NoDup (map (kind d) hs) ->
  kwd "DEFAULT" k -> ~ In (kind d k) (map (kind d) hs) -> x <> "(" -> literal d x = false ->
  tokens d ddl (s1 ++ a ++ p ++ h ++ items ++ k :: x :: rest) -> exists line, rejected ddl d line x.
Proof.
  intros d ddl s1 v1 a oa p h oh items oi vi hs k x rest S1 A P H S ND K I B L T.
  assert (N : x <> "") by (eapply token_nonempty; [exact T|]; rewrite !in_app_iff; cbn [In]; tauto).
  assert (M : matches (constraint_words d) k = true).
  { clear - K. unfold kwd in K. revert k K. word_cases; destruct d; vm_compute; reflexivity. }
  change x with (tok (hd_error (x :: rest))) at 1. eapply constraints_rejected; eauto. apply whileu_next; auto. now apply default_stops.
Qed.
