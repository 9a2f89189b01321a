From Coq Require Import String List Bool Arith Lia Permutation.
From Verif Require Import GoStr Types VBase Exec Grammar GrammarFacts Ast Emit Enclosed Converter Parse Spec Pipe Meaning Witness Decide Local LayoutFacts Parts PartsFacts Safe Seen Stops ColumnsFacts Exclude SkippedFacts Order.
From Verif Require GSqlite GPostgres GMysql Read.
Import ListNotations.
Open Scope nat_scope.
Open Scope string_scope.
Open Scope gr_scope.
Open Scope list_scope.

(** ** What may follow *)

(** The words [wss] are the only ones that cannot follow [g]. *)
Definition listed (wss : list (list string)) (ws : list string) : bool :=
  existsb (fun w => if list_eq_dec string_dec w ws then true else false) wss.
Fixpoint bars {A} (g : gr A) (wss : list (list string)) : bool :=
  match g with
  | Eps | Put _ | One _ _ | Brackets _ | IsNext _ => true
  | NotNext ws => listed wss ws
  | Skip => true
  | Seq g h => bars g wss && bars h wss
  | Map _ g => bars g wss
  | Cond _ g h => bars g wss && bars h wss
  | While _ g | WhileU _ _ g => bars g wss
  | SepBy _ g => bars g wss
  end.
Lemma hdr_none : forall l nxt, hdr l None = None -> hdr l nxt = nxt.
Proof. intros [|] nxt H; [reflexivity|discriminate]. Qed.
Lemma hdr_move : forall A (g : gr A) l l2 nxt o v,
  (forall l o v, lang g l None o v -> lang g l nxt o v) -> lang g l (hdr l2 None) o v -> lang g l (hdr l2 nxt) o v.
Proof. intros A g l [|] nxt o v H K; auto. Qed.
Theorem bars_lang : forall A (g : gr A) wss nxt, bars g wss = true -> Forall (fun ws => la_mem (next_in ws) nxt = false) wss ->
  forall l o v, lang g l None o v -> lang g l nxt o v.
Proof.
  intros A g wss nxt B F. induction g; cbn [bars] in B; cbn [lang] in *; intros l o v H; auto.
  - destruct H as (-> & -> & _). repeat split; auto. apply existsb_exists in B as (w & I & E).
    destruct (list_eq_dec string_dec w ws); [subst|discriminate]. rewrite Forall_forall in F. specialize (F _ I).
    destruct nxt; auto. cbn [la_mem next_in la_words la_neg] in F. now rewrite xorb_false_r in F.
  - destruct H as (_ & _ & []).
  - destruct H as (? & ? & H). discriminate.
  - apply andb_true_iff in B as [B1 B2]. destruct H as (l1 & l2 & o1 & o2 & -> & -> & H1 & H2).
    exists l1, l2, o1, o2. repeat split; auto. apply hdr_move; auto.
  - destruct H as (a & -> & H). eauto.
  - apply andb_true_iff in B as [B1 B2]. destruct H; auto.
  - destruct H as [hs H]. exists hs. remember None as n. induction H; subst; constructor; auto. apply hdr_move; auto.
  - destruct H as (hs & H & N). exists hs. split; auto. clear N. remember None as n. induction H; subst; constructor; auto. apply hdr_move; auto.
  - remember None as n. induction H; subst; constructor; auto.
Qed.

(** ... and everything that can be followed by something can stand at the end. *)
Fixpoint endable {A} (g : gr A) : bool :=
  match g with
  | Eps | Put _ | One _ _ | Brackets _ | NotNext _ => true
  | IsNext _ | Skip => false
  | Seq g h => endable h && (eats h || endable g)
  | Map _ g => endable g
  | Cond _ g h => endable g && endable h
  | While _ g | WhileU _ _ g => endable g
  | SepBy _ g => endable g
  end.
Lemma hdr_stay : forall A (g : gr A) l l2 nxt o v,
  (forall l o v, lang g l nxt o v -> lang g l None o v) -> lang g l (hdr l2 nxt) o v -> lang g l (hdr l2 None) o v.
Proof. intros A g l [|] nxt o v H K; auto. Qed.
Theorem endable_lang : forall A (g : gr A) nxt, endable g = true -> forall l o v, lang g l nxt o v -> lang g l None o v.
Proof.
  intros A g nxt B. induction g; cbn [endable] in B; cbn [lang] in *; intros l o v H; auto; try discriminate.
  - destruct H as (-> & -> & _). auto.
  - apply andb_true_iff in B as [B1 B2]. destruct H as (l1 & l2 & o1 & o2 & -> & -> & H1 & H2).
    exists l1, l2, o1, o2. repeat split; auto. apply orb_true_iff in B2 as [B2|B2].
    + pose proof (eats_lang _ _ _ _ _ _ B2 H2) as N. destruct l2; [congruence|]. exact H1.
    + apply (hdr_stay _ _ _ _ nxt); auto.
  - destruct H as (a & -> & H). eauto.
  - apply andb_true_iff in B as [B1 B2]. destruct H; auto.
  - destruct H as [hs H]. exists hs. remember nxt as n. induction H; subst; constructor; auto. apply (hdr_stay _ _ _ _ nxt); auto.
  - destruct H as (hs & H & N). exists hs. split; auto. clear N. remember nxt as n. induction H; subst; constructor; auto. apply (hdr_stay _ _ _ _ nxt); auto.
  - remember nxt as n. induction H; subst; constructor; auto.
Qed.

Lemma constraint_endable : forall d, endable (column_constraint d) = true.
Proof. intros []; vm_compute; reflexivity. Qed.
Lemma constraint_bars : forall d, bars (column_constraint d) [["NOT"]; ["KEY"]] = true.
Proof. intros []; vm_compute; reflexivity. Qed.
Lemma element_bars : forall d, bars (element d) [["NOT"]; ["KEY"]] = true.
Proof. intros []; vm_compute; reflexivity. Qed.
Lemma element_any : forall d t o e x, x = Some "," \/ x = Some ")" -> lang (element d) t None o e -> lang (element d) t x o e.
Proof.
  intros d t o e x X. eapply bars_lang; [apply element_bars|]. destruct X as [-> | ->]; repeat constructor.
Qed.

(** ** The values do not depend on what follows *)
Lemma eof : within [FEof] (hd_error (@nil string)).
Proof. exists FEof. split; [now left|reflexivity]. Qed.
Lemma constraint_ok_eof : forall d, ok (column_constraint d) [FEof] = true.
Proof. intros []; vm_compute; reflexivity. Qed.
Lemma constraint_det : forall d c n n' o v o' v', lang (column_constraint d) c n o v -> lang (column_constraint d) c n' o' v' -> o = o' /\ v = v'.
Proof.
  intros d c n n' o v o' v' H H'. apply (endable_lang _ _ _ (constraint_endable d)) in H, H'.
  now destruct (Read.lang_det _ _ [FEof] _ _ [] [] _ _ _ _ (constraint_ok_eof d) H eof H' eof eq_refl) as (_ & ? & ?).
Qed.

(** ** Exactly the barred words cannot follow a constraint *)
Lemma head_differs : forall A (g : gr A) ws, forallb (la_is (next_in ws) false) (look g [FAny; FEof]) = true ->
  forall t r nxt o v, lang g (t :: r) nxt o v -> matches ws t = false.
Proof.
  intros A g ws F t r nxt o v H. eapply (look_within _ g [FAny; FEof]) in H; [|apply within_any]. cbn [hdr] in H.
  pose proof (forallb_within _ _ _ _ F H) as Y. cbn [la_mem next_in la_words la_neg] in Y. now rewrite xorb_false_r in Y.
Qed.
Lemma head_is : forall A (g : gr A) ws, forallb (la_is (next_in ws) true) (look g [FAny; FEof]) = true ->
  forall t r nxt o v, lang g (t :: r) nxt o v -> matches ws t = true.
Proof.
  intros A g ws F t r nxt o v H. eapply (look_within _ g [FAny; FEof]) in H; [|apply within_any]. cbn [hdr] in H.
  pose proof (forallb_within _ _ _ _ F H) as Y. cbn [la_mem next_in la_words la_neg] in Y. now rewrite xorb_false_r in Y.
Qed.
Lemma la_next : forall ws x, la_mem (next_in ws) (Some x) = matches ws x.
Proof. intros. cbn [la_mem next_in la_words la_neg]. apply xorb_false_r. Qed.

(** SQLite *)
Definition s_rest : gr a_item :=
  Case ["PRIMARY"] of GSqlite.c_primary or
  Case ["NOT"] of GSqlite.c_notnull or
  Case ["UNIQUE"] of GSqlite.c_unique or
  Case ["CHECK"] of GSqlite.c_check or
  Case ["DEFAULT"] of GSqlite.c_default or
  Case ["COLLATE"] of GSqlite.c_collate or GSqlite.c_generated.
Lemma s_cases : forall c nxt o v, lang GSqlite.column_constraint c nxt o v <-> lang GSqlite.c_references c nxt o v \/ lang s_rest c nxt o v.
Proof. intros. unfold GSqlite.column_constraint, s_rest. cbn [lang]. tauto. Qed.
Lemma s_ref_next : forall c x o v, lang GSqlite.c_references c None o v ->
  (exists o v, lang GSqlite.c_references c (Some x) o v) <-> matches ["NOT"] x = false.
Proof.
  intros c x o v H. split.
  - intros (o' & v' & H'). unfold GSqlite.c_references in H'. parts H'. destruct H' as (-> & -> & N). cbn [hdr] in N. exact N.
  - intros N. exists o, v. revert H. apply (bars_lang _ _ [["NOT"]]); [vm_compute; reflexivity|]. constructor; auto. now rewrite la_next.
Qed.
Lemma s_next : forall t r x o v, lang GSqlite.column_constraint (t :: r) None o v ->
  (exists o v, lang GSqlite.column_constraint (t :: r) (Some x) o v) <-> matches (if matches ["REFERENCES"] t then ["NOT"] else []) x = false.
Proof.
  intros t r x o v H. apply s_cases in H as [H|H].
  - rewrite (head_is _ GSqlite.c_references ["REFERENCES"] ltac:(vm_compute; reflexivity) _ _ _ _ _ H). rewrite <- (s_ref_next _ x _ _ H). split.
    + intros (o' & v' & H'). apply s_cases in H' as [H'|H']; eauto.
      pose proof (head_is _ GSqlite.c_references ["REFERENCES"] ltac:(vm_compute; reflexivity) _ _ _ _ _ H) as Y.
      rewrite (head_differs _ s_rest ["REFERENCES"] ltac:(vm_compute; reflexivity) _ _ _ _ _ H') in Y. discriminate.
    + intros (o' & v' & H'). exists o', v'. apply s_cases. now left.
  - rewrite (head_differs _ s_rest ["REFERENCES"] ltac:(vm_compute; reflexivity) _ _ _ _ _ H). split; [reflexivity|].
    intros _. exists o, v. apply s_cases. right. eapply nxtfree_lang; [vm_compute; reflexivity|exact H].
Qed.

(** MySQL *)
Definition m_rest : gr a_item :=
  Case ["PRIMARY"; "KEY"] of GMysql.c_primary or
  Case ["NOT"] of GMysql.c_notnull or
  Case ["NULL"] of GMysql.c_null or
  Case ["DEFAULT"] of GMysql.c_default or
  Case ["COLLATE"] of GMysql.c_collate or
  Case ["REFERENCES"] of GMysql.c_references or
  Case ["GENERATED"; "AS"] of GMysql.c_generated or
  Case ["COMMENT"] of GMysql.c_comment or
  Case ["COLUMN_FORMAT"] of GMysql.c_format or
  Case ["ENGINE_ATTRIBUTE"; "SECONDARY_ENGINE_ATTRIBUTE"] of GMysql.c_engine or
  Case ["STORAGE"] of GMysql.c_storage or
  Case ["AUTO_INCREMENT"] of GMysql.c_auto or
  (kw_ ["VISIBLE"; "INVISIBLE"; "VIRTUAL"; "STORED"] ==> fun _ => INone).
Lemma m_cases : forall c nxt o v, lang GMysql.column_constraint c nxt o v <->
  lang GMysql.c_unique c nxt o v \/ lang GMysql.c_check c nxt o v \/ lang m_rest c nxt o v.
Proof. intros. unfold GMysql.column_constraint, m_rest. cbn [lang]. tauto. Qed.
Lemma m_unique_next : forall t r x o v, lang GMysql.c_unique (t :: r) None o v ->
  (exists o v, lang GMysql.c_unique (t :: r) (Some x) o v) <-> matches (match r with [] => ["KEY"] | _ => [] end) x = false.
Proof.
  intros t r x o v H. destruct r as [|k r].
  - split.
    + intros (o' & v' & H'). destruct H' as (a & -> & l1 & l2 & o1 & o2 & E & -> & (M & -> & ->) & K).
      injection E as -> <-. destruct K as [(? & _ & _ & Y & _)|(_ & _ & N)]; [discriminate|]. exact N.
    + intros N. exists o, v. revert H. apply (bars_lang _ _ [["KEY"]]); [vm_compute; reflexivity|]. constructor; auto. now rewrite la_next.
  - split; [reflexivity|]. intros _. exists o, v. unfold GMysql.c_unique in *. destruct H as (a & -> & l1 & l2 & o1 & o2 & E & -> & (M & -> & ->) & H).
    injection E as -> <-. exists a. split; auto. apply (lang_seq _ _ _ _ [fst a] (k :: r)); [cbn; auto|].
    destruct H as [H|(C & _)]; [left|discriminate]. destruct H as (y & E2 & Y). exists y. split; auto.
Qed.
Lemma last_snoc : forall (l : list string) x y, last (l ++ [x]) y = x.
Proof. intros. apply last_last. Qed.
Lemma last_in : forall (l : list string) x y z, last (z :: l ++ [x]) y = x.
Proof. intros. apply (last_last (z :: l)). Qed.
Lemma optkw_inv : forall ws l nxt o v, lang (optkw false ws) l nxt o v -> o = [] /\ (l = [] \/ exists x, l = [x] /\ matches ws x = true).
Proof.
  intros ws l nxt o v [(a & _ & M & -> & ->)|(a & _ & -> & ->)]; split; auto. right. exists a. auto.
Qed.
Lemma skip_inv : forall ws l nxt o v, lang (GMysql.skip_word ws) l nxt o v -> o = [] /\
  ((exists x, l = [x] /\ matches ws x = true) \/ l = [] /\ match nxt with Some t => matches ws t = false | None => True end).
Proof.
  intros ws l nxt o v [(a & _ & M & -> & ->)|(-> & -> & N)]; split; auto. left. exists a. auto.
Qed.
(** the text of a CHECK constraint *)
Lemma check_inv : forall l nxt o v, lang GMysql.c_check l nxt o v -> exists t b n e, l = t :: ("(" :: b ++ [")"]) ++ n ++ e /\ balanced b /\
  matches ["CHECK"] t = true /\ o = t :: "(" :: b ++ [")"] /\ v = ICheck ("(" :: b ++ [")"]) /\
  (e = [] \/ exists x, e = [x] /\ matches ["ENFORCED"] x = true) /\
  ((exists x, n = [x] /\ matches ["NOT"] x = true) \/ n = [] /\ match hdr e nxt with Some t => matches ["NOT"] t = false | None => True end).
Proof.
  intros l nxt o v H. destruct H as (x & -> & y & -> & l1 & l2 & o1 & o2 & -> & -> & (M & -> & ->) & l3 & l4 & o3 & o4 & -> & -> & (b & B & -> & -> & E) & l5 & l6 & o5 & o6 & -> & -> & N & K).
  apply optkw_inv in K as [-> K]. apply skip_inv in N as [-> N]. destruct y as (t & e & s1 & s2). cbn [fst snd] in *. subst e.
  exists t, b, l5, l6. cbn [kept app]. rewrite app_nil_r. repeat split; auto.
Qed.
Lemma check_make : forall t b n e nxt, balanced b -> matches ["CHECK"] t = true ->
  (e = [] \/ exists x, e = [x] /\ matches ["ENFORCED"] x = true) ->
  ((exists x, n = [x] /\ matches ["NOT"] x = true) \/ n = [] /\ match hdr e nxt with Some t => matches ["NOT"] t = false | None => True end) ->
  exists o v, lang GMysql.c_check (t :: ("(" :: b ++ [")"]) ++ n ++ e) nxt o v.
Proof.
  intros t b n e nxt B M E N. assert (X : exists o v, lang (optkw false ["ENFORCED"]) e nxt o v).
  { destruct E as [->|(x & -> & E)].
    - exists [], None. right. exists tt. cbn. auto.
    - exists [], (Some x). left. exists x. cbn. auto. }
  assert (Y : exists o v, lang (GMysql.skip_word ["NOT"]) n (hdr e nxt) o v).
  { destruct N as [(x & -> & N)|[-> N]].
    - exists [], tt. left. exists x. cbn. auto.
    - exists [], tt. right. cbn [lang]. auto. }
  destruct X as (o1 & v1 & X), Y as (o2 & v2 & Y). do 2 eexists. eexists. split; [reflexivity|].
  exists (t, ("(" :: b ++ [")"], (v2, v1))). split; [reflexivity|].
  apply (lang_seq _ _ _ _ [t] (("(" :: b ++ [")"]) ++ n ++ e)); [now apply lang_one|].
  apply lang_seq; [exists b; auto|]. apply lang_seq; [exact Y|exact X].
Qed.
Lemma not_bracket : forall ws x, forallb (fun w => negb (to_upper w =? ")") && negb (to_lower w =? ")")) ws = true -> matches ws x = true -> x <> ")".
Proof.
  intros ws x F M ->. rewrite forallb_forall in F. apply SkippedFacts.matches_in in M as (w & I & E). specialize (F _ I).
  apply andb_true_iff in F as [F1 F2]. destruct E as [E|E]; rewrite E in *; discriminate.
Qed.
Lemma m_check_next : forall t r x o v, lang GMysql.c_check (t :: r) None o v ->
  (exists o v, lang GMysql.c_check (t :: r) (Some x) o v) <-> matches (if last r "" =? ")" then ["NOT"] else []) x = false.
Proof.
  intros t r x o v H. destruct (last r "" =? ")") eqn:L.
  - apply String.eqb_eq in L. split.
    + intros (o' & v' & H'). apply check_inv in H' as (t' & b & n & e & E & _ & M & _ & _ & K & N). injection E as <- ->.
      destruct K as [->|(y & -> & K)].
      * destruct N as [(y & -> & N)|[-> N]]; [|exact N]. cbn [app] in L. rewrite last_in in L.
        exfalso. eapply not_bracket; [|exact N|exact L]. reflexivity.
      * cbn [app] in L. rewrite !app_assoc in L. rewrite last_in in L. exfalso. eapply not_bracket; [|exact K|exact L]. reflexivity.
    + intros N. exists o, v. revert H. apply (bars_lang _ _ [["NOT"]]); [vm_compute; reflexivity|]. constructor; auto. now rewrite la_next.
  - split; [reflexivity|]. intros _. apply check_inv in H as (t' & b & n & e & E & B & M & _ & _ & K & N). injection E as <- ->.
    apply check_make; auto. destruct N as [N|[-> N]]; auto. destruct K as [->|(y & -> & K)].
    + exfalso. rewrite !app_nil_r in L. change ("(" :: b ++ [")"]) with (("(" :: b) ++ [")"]) in L. rewrite last_snoc in L. discriminate.
    + right. split; auto.
Qed.
Lemma m_next : forall t r x o v, lang GMysql.column_constraint (t :: r) None o v ->
  (exists o v, lang GMysql.column_constraint (t :: r) (Some x) o v) <-> matches (barred MySQL (t :: r)) x = false.
Proof.
  assert (U : forall t r nxt o v, lang GMysql.c_unique (t :: r) nxt o v -> matches ["UNIQUE"] t = true /\ matches ["CHECK"] t = false).
  { intros t r nxt o v H. split; [eapply (head_is _ GMysql.c_unique); [|exact H]|eapply (head_differs _ GMysql.c_unique); [|exact H]]; vm_compute; reflexivity. }
  assert (K : forall t r nxt o v, lang GMysql.c_check (t :: r) nxt o v -> matches ["CHECK"] t = true).
  { intros t r nxt o v H. eapply (head_is _ GMysql.c_check); [|exact H]; vm_compute; reflexivity. }
  assert (R : forall t r nxt o v, lang m_rest (t :: r) nxt o v -> matches ["UNIQUE"] t = false /\ matches ["CHECK"] t = false).
  { intros t r nxt o v H. split; (eapply (head_differs _ m_rest); [|exact H]); vm_compute; reflexivity. }
  intros t r x o v H. apply m_cases in H as [H|[H|H]]; unfold barred.
  - destruct (U _ _ _ _ _ H) as [U1 U2]. rewrite U1, U2. cbn [andb].
    replace (if match r with [] => true | _ => false end then ["KEY"] else []) with (match r with [] => ["KEY"] | _ => [] end) by now destruct r.
    rewrite <- (m_unique_next _ _ x _ _ H). split; intros (o' & v' & H').
    + apply m_cases in H' as [H'|[H'|H']]; eauto; [apply K in H'|apply R in H' as [H' _]]; congruence.
    + exists o', v'. apply m_cases. auto.
  - pose proof (K _ _ _ _ _ H) as K1. rewrite K1. cbn [andb].
    assert (U1 : matches ["UNIQUE"] t = false) by (eapply (head_differs _ GMysql.c_check); [|exact H]; vm_compute; reflexivity). rewrite U1. cbn [andb].
    rewrite <- (m_check_next _ _ x _ _ H). split; intros (o' & v' & H').
    + apply m_cases in H' as [H'|[H'|H']]; eauto; [apply U in H' as [H' _]|apply R in H' as [_ H']]; congruence.
    + exists o', v'. apply m_cases. auto.
  - destruct (R _ _ _ _ _ H) as [R1 R2]. rewrite R1, R2. cbn [andb]. split; [reflexivity|]. intros _. exists o, v. apply m_cases. right. right.
    eapply nxtfree_lang; [|exact H]. vm_compute; reflexivity.
Qed.

Lemma constraint_cons : forall d c nxt o v, lang (column_constraint d) c nxt o v -> exists t r, c = t :: r.
Proof.
  intros d c nxt o v H. apply eats_lang in H; [|destruct d; vm_compute; reflexivity]. destruct c; [congruence|]. eauto.
Qed.
Theorem follow : forall d c, is_constraint d c -> forall x, (exists o v, lang (column_constraint d) c (Some x) o v) <-> matches (barred d c) x = false.
Proof.
  intros d c (o & v & H) x. destruct (constraint_cons _ _ _ _ _ H) as (t & r & ->). destruct d.
  - exact (s_next _ _ x _ _ H).
  - split; [reflexivity|]. intros _. exists o, v. eapply nxtfree_lang; [|exact H]. vm_compute; reflexivity.
  - exact (m_next _ _ x _ _ H).
  - exact (s_next _ _ x _ _ H).
Qed.
Lemma follow_value : forall d c o v x, lang (column_constraint d) c None o v -> matches (barred d c) x = false -> lang (column_constraint d) c (Some x) o v.
Proof.
  intros d c o v x H B. assert (I : is_constraint d c) by (exists o, v; auto). apply (follow _ _ I) in B as (o' & v' & K).
  now destruct (constraint_det _ _ _ _ _ _ _ _ H K) as [-> ->].
Qed.
