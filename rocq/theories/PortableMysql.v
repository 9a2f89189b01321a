(** The common grammar is part of the grammars of MySQL and SQLite. *)
From Coq Require Import String List Bool.
From Verif Require Import GoStr GoNum Types Words Grammar GrammarFacts Ast Build Portable PortableFacts.
From Verif Require GSqlite GMysql.
Import ListNotations.
Open Scope string_scope.
Open Scope gr_scope.
Open Scope list_scope.

(** ** MySQL *)

Lemma my_type : forall three, sub (p_type three) GMysql.type_name.
Proof.
  intros three l nxt v H. unfold GMysql.type_name.
  assert (CH : forall w n l', matches GMysql.char_types w = true -> gen p_digits1 l' nxt n -> gen GMysql.type_name (w :: l') nxt (mk_atype w false n)).
  { intros w n l' M G. apply gen_left. apply gen_map with (a := (w, n)); [|reflexivity]. apply gen_tok; [exact M|exact G]. }
  assert (NU : forall w n l', matches GMysql.number_types w = true -> gen p_digits2 l' nxt n -> gen GMysql.type_name (w :: l') nxt (mk_atype w false n)).
  { intros w n l' M G. apply gen_right, gen_left. apply gen_map with (a := (w, n)); [|reflexivity]. apply gen_tok; [exact M|exact G]. }
  assert (IN : forall w n l', matches GMysql.int_types w = true -> gen p_digits1 l' nxt n -> gen GMysql.type_name (w :: l') nxt (mk_atype w false n)).
  { intros w n l' M G. apply gen_right, gen_right, gen_left. apply gen_map with (a := (w, n)); [|reflexivity]. apply gen_tok; [exact M|exact G]. }
  assert (PL : forall w, matches GMysql.plain_types w = true -> gen GMysql.type_name [w] nxt (mk_atype w false None)).
  { intros w M. do 4 apply gen_right. eapply gen_map; [now apply gen_one|reflexivity]. }
  apply type_cases in H as [(w & -> & -> & H)|(-> & [(w & n & l' & -> & -> & M & H)|[(w & n & l' & -> & -> & M & H)|(w & n & z & l' & -> & -> & M & H)]])].
  - assert (M : exists x, In x ("NUMERIC" :: p_plain) /\ matches [x] w = true).
    { destruct H as [[_ M]|[_ M]]; apply matches_In in M as (x & I & M); exists x; split; auto; [cbn in I |- *; intuition|now right]. }
    destruct M as (x & I & M). unfold p_plain in I. cbn [In] in I.
    repeat (destruct I as [<-|I]; [first [apply CH; [by_words|apply gen_none]|apply NU; [by_words|apply gen_none]|apply IN; [by_words|apply gen_none]|apply PL; by_words]|]). contradiction.
  - apply matches_In in M as (x & I & M). cbn [In] in I. destruct I as [<-|[<-|[<-|[]]]]; [apply CH|apply CH|apply IN]; auto; by_words.
  - apply NU; auto; by_words.
  - do 3 apply gen_right. apply gen_left. apply gen_map with (a := (w, (n, z))); [|reflexivity]. apply gen_tok; [cbn [cmem]; by_words|exact H].
Qed.
Lemma my_keys : forall l nxt cols, gen (p_columns MySQL) l nxt cols -> gen (GMysql.keys true) l nxt cols.
Proof.
  intros l nxt cols H. apply gen_map_inv in H as ([o [ls c]] & -> & H). apply gen_seq_inv in H as (l1 & l2 & -> & H1 & H). apply gen_seq_inv in H as (l3 & l4 & -> & H3 & H4). cbn [fst snd] in *.
  assert (X : gen (SepBy true (GMysql.key_part true)) l3 (hdr l4 nxt) (map Some ls)).
  { clear -H3. destruct H3 as [u H]. cbn [lang] in H. remember (hdr l4 nxt) as n eqn:E. clear E.
    assert (K : forall t n', legal_name MySQL t = true -> gen (GMysql.key_part true) [t] n' (Some t)).
    { intros t n' L. apply gen_map with (a := (Some t, None)); [|reflexivity]. apply gen_last; [|apply gen_none]. apply gen_right.
      apply gen_map with (a := (t, None)); [|reflexivity]. apply gen_tok; [exact L|apply gen_none]. }
    induction H as [l nxt' o v H|l1 l2 nxt' o1 o2 v vs H H2 IH]; cbn [map].
    - apply gen_sepby1. destruct H as (M & -> & _). now apply K.
    - apply gen_sepby; auto. destruct H as (M & -> & _). now apply K. }
  apply gen_map with (a := (o, (map Some ls, c))).
  - apply gen_seq; [exact H1|]. apply gen_seq; [exact X|exact H4].
  - clear. unfold GMysql.some_of. induction ls as [|t ls IH]; cbn; auto. now f_equal.
Qed.
Lemma my_skip : forall ws nxt, match nxt with Some t => matches ws t = false | None => True end -> gen (GMysql.skip_word ws) [] nxt tt.
Proof. intros ws nxt N. apply gen_right. now apply gen_notnext. Qed.
Lemma my_item : forall three, into item_follows (p_item three MySQL) GMysql.column_constraint.
Proof.
  intros three l nxt v Fo H. unfold GMysql.column_constraint.
  apply item_cases in H as [(a & b & -> & Ma & Mb & ->)|[(a & b & -> & Ma & Mb & ->)|[(a & -> & Ma & ->)|[(a & e & -> & Ma & He & -> & N)|[(a & e & -> & Ma & He & ->)|[(a & t & -> & Ma & Lt & ->)|(a & t & l1 & l2 & o & u & -> & Ma & Lt & H1 & H2 & -> & N)]]]]]].
  - apply gen_left. apply gen_right. apply gen_map with (a := (a, b)); [|reflexivity]. apply gen_tok; auto. now apply gen_one.
  - apply gen_right, gen_left. apply gen_map with (a := (a, b)); [|reflexivity]. apply gen_tok; auto. now apply gen_one.
  - do 3 apply gen_right. apply gen_left. apply gen_map with (a := (a, tt)); [|reflexivity]. apply gen_tok; auto. apply my_skip. now apply follows_not.
  - do 4 apply gen_right. apply gen_left. apply gen_map with (a := e); [|reflexivity]. apply gen_map with (a := (a, (e, (tt, None)))); [|reflexivity].
    apply gen_tok; auto. apply gen_last; [exact He|]. apply gen_skip; [now apply my_skip|apply gen_none].
  - do 5 apply gen_right. apply gen_left. apply gen_map with (a := (a, AExpr e)); [|reflexivity]. apply gen_tok; auto. apply gen_left. eapply gen_map; [exact He|reflexivity].
  - do 5 apply gen_right. apply gen_left. apply gen_map with (a := (a, ALit t)); [|reflexivity]. apply gen_tok; auto. apply gen_right.
    apply gen_map with (a := (t, None)); [|reflexivity]. apply gen_tok; [exact Lt|apply gen_none].
  - do 7 apply gen_right. apply gen_left. apply gen_map with (a := (a, ((None, t), (o, u)))); [|reflexivity]. apply gen_tok; auto.
    change (t :: l1 ++ l2) with ([t] ++ l1 ++ l2). apply gen_seq; [now apply bare|]. apply gen_seq; [exact H1|exact H2].
Qed.
Lemma my_cname : forall ws, sub (p_cname MySQL) (GMysql.constraint_name ws).
Proof.
  intros ws l nxt v H. unfold p_cname in H. apply gen_opt_inv in H as [[-> ->]|(a & -> & H)].
  - apply gen_right. eapply gen_map; [apply gen_eps|reflexivity].
  - apply gen_left. apply gen_map_inv in H as ([k n] & -> & H). apply gen_seq_inv in H as (l1 & l2 & -> & H1 & H2). cbn [fst snd] in *.
    apply gen_map with (a := (k, Some n)); [|reflexivity]. apply gen_seq; [exact H1|]. apply gen_right. eapply gen_map; [exact H2|reflexivity].
Qed.
Lemma columns_open : forall d l nxt cols, gen (p_columns d) l nxt cols -> exists t l', l = t :: l' /\ matches ["("] t = true.
Proof.
  intros d l nxt cols H. apply gen_map_inv in H as ([o u] & -> & H). apply gen_seq_inv in H as (l1 & l2 & -> & H1 & H). apply gen_one_inv in H1 as [-> M]. exists o, l2. split; [reflexivity|exact M].
Qed.
Lemma my_open : forall l nxt, (exists t l', l = t :: l' /\ matches ["("] t = true) -> gen (GMysql.name_or_keys false) [] (hdr l nxt) tt.
Proof. intros l nxt (t & l' & -> & M). apply gen_left. now apply gen_isnext. Qed.
Lemma my_body : into ends (p_body MySQL)
  (Case ["PRIMARY"] of GMysql.t_primary or Case ["UNIQUE"] of GMysql.t_unique or Case ["FOREIGN"] of GMysql.t_foreign or Case ["CHECK"] of GMysql.t_check or
   Case ["INDEX"; "KEY"] of GMysql.t_index or GMysql.t_fulltext).
Proof.
  intros l nxt v En H.
  apply body_cases in H as [(a & b & l' & cols & -> & Ma & Mb & H & ->)|[(a & l' & cols & -> & Ma & H & ->)|[(a & e & -> & Ma & H & ->)|(a & b & l1 & cols & r & t & l2 & k & l3 & u & -> & Ma & Mb & H1 & Mr & Lt & H2 & H3 & ->)]]].
  - apply gen_left. apply gen_map with (a := (a, (b, (None, (cols, []))))); [|reflexivity]. do 2 (apply gen_tok; auto). apply gen_skip; [apply gen_none|]. apply gen_last; [now apply my_keys|apply gen_while].
  - apply gen_right, gen_left. apply gen_map with (a := (a, (None, (tt, (None, (cols, [])))))); [|reflexivity]. apply gen_tok; auto. apply gen_skip; [apply gen_none|].
    apply gen_skip; [apply my_open; eapply columns_open; exact H|]. apply gen_skip; [apply gen_none|]. apply gen_last; [now apply my_keys|apply gen_while].
  - apply gen_right, gen_right, gen_right, gen_left. apply gen_map with (a := e); [|reflexivity]. apply gen_map with (a := (a, (e, (tt, None)))); [|reflexivity].
    apply gen_tok; auto. apply gen_last; [exact H|]. apply gen_skip; [|apply gen_none]. apply my_skip. destruct En as [->| ->]; reflexivity.
  - do 2 apply gen_right. apply gen_left. apply gen_map with (a := (a, (b, (tt, (cols, (r, ((None, t), (k, u)))))))); [|reflexivity]. do 2 (apply gen_tok; auto).
    apply gen_skip; [apply columns_open in H1 as (x & y & -> & M); cbn [app]; apply my_open; eauto|].
    apply gen_seq; [exact H1|]. apply gen_tok; auto. change (t :: l2 ++ l3) with ([t] ++ l2 ++ l3). apply gen_seq; [now apply bare|]. apply gen_seq; [now apply my_keys|exact H3].
Qed.
Lemma my_ine : sub p_ine GMysql.if_not_exists.
Proof.
  intros l nxt v H. apply gen_cond_inv in H as [H|H]; [now apply gen_left|apply gen_right]. apply gen_map_inv in H as (a & -> & H). apply gen_notnext_inv in H as [-> _].
  eapply gen_map; [apply gen_eps|reflexivity].
Qed.
Theorem my_script : forall three, sub (p_script three MySQL) GMysql.script.
Proof.
  intros three. apply script_into. intros l nxt v H. apply gen_map_inv in H as ([k s] & -> & H). apply gen_seq_inv in H as (l1 & l2 & -> & H1 & H). cbn [fst snd] in *.
  apply gen_map with (a := (k, s)); [|reflexivity]. apply gen_seq; [exact H1|]. apply gen_cond_inv in H as [H|H]; [apply gen_left|apply gen_right].
  - eapply (create_into three MySQL); [..|exact H].
    + apply my_ine.
    + apply element_into.
      * apply column_into; [apply my_type|apply my_cname|]. apply items_into; [apply my_item|keys_differ|apply words_upper; reflexivity].
      * apply constraint_into; [apply my_cname|apply my_body].
    + apply gen_while.
  - eapply other_into; [reflexivity|exact H].
Qed.

(** ** SQLite *)

Lemma li_type : sub (p_type true) GSqlite.type_name.
Proof.
  intros l nxt v H. apply type_cases in H as [(w & -> & -> & [[_ M]|[E _]])|[E _]]; try discriminate.
  eapply gen_map; [apply gen_one; cbn [cmem]; by_words|reflexivity].
Qed.
Lemma li_options : forall l nxt u, gen p_options l nxt u -> gen GSqlite.ref_options l nxt u.
Proof.
  intros l nxt u [o (hs & H)]. eapply gen_whiles. eapply star_sub with (P := fun _ => True); [|auto|exact H|auto].
  intros nxt' _ l' v' G. apply gen_cond_inv in G as [G|G]; [now apply gen_left|]. apply gen_right. now apply gen_left.
Qed.
Lemma li_item : into item_follows (p_item true SQLite) GSqlite.column_constraint.
Proof.
  intros l nxt v Fo H. unfold GSqlite.column_constraint.
  apply item_cases in H as [(a & b & -> & Ma & Mb & ->)|[(a & b & -> & Ma & Mb & ->)|[(a & -> & Ma & ->)|[(a & e & -> & Ma & He & -> & N)|[(a & e & -> & Ma & He & ->)|[(a & t & -> & Ma & Lt & ->)|(a & t & l1 & l2 & o & u & -> & Ma & Lt & H1 & H2 & -> & N)]]]]]].
  - apply gen_left. apply gen_map with (a := (a, (b, (None, (None, None))))); [|reflexivity]. do 2 (apply gen_tok; auto). do 2 (apply gen_skip; [apply gen_none|]). apply gen_none.
  - apply gen_right, gen_left. apply gen_map with (a := (a, (b, None))); [|reflexivity]. do 2 (apply gen_tok; auto). apply gen_none.
  - do 2 apply gen_right. apply gen_left. apply gen_map with (a := (a, None)); [|reflexivity]. apply gen_tok; auto. apply gen_none.
  - do 3 apply gen_right. apply gen_left. apply gen_map with (a := (a, e)); [|reflexivity]. apply gen_tok; [exact Ma|exact He].
  - do 4 apply gen_right. apply gen_left. apply gen_map with (a := (a, AExpr e)); [|reflexivity]. apply gen_tok; auto. apply gen_left. eapply gen_map; [exact He|reflexivity].
  - do 4 apply gen_right. apply gen_left. apply gen_map with (a := (a, ALit t)); [|reflexivity]. apply gen_tok; auto. apply gen_right. eapply gen_map; [now apply gen_one|reflexivity].
  - do 6 apply gen_right. apply gen_left. apply gen_map with (a := (a, ((None, t), (o, (u, tt))))); [|reflexivity]. apply gen_tok; auto.
    change (t :: l1 ++ l2) with ([t] ++ l1 ++ l2). apply gen_seq; [now apply bare|]. apply gen_seq; [exact H1|]. apply gen_last; [now apply li_options|]. apply gen_notnext. exact (N eq_refl).
Qed.
Lemma li_body : into ends (p_body SQLite)
  (Case ["PRIMARY"] of GSqlite.t_primary or Case ["UNIQUE"] of GSqlite.t_unique or Case ["CHECK"] of GSqlite.t_check or GSqlite.t_foreign).
Proof.
  intros l nxt v En H.
  apply body_cases in H as [(a & b & l' & cols & -> & Ma & Mb & H & ->)|[(a & l' & cols & -> & Ma & H & ->)|[(a & e & -> & Ma & H & ->)|(a & b & l1 & cols & r & t & l2 & k & l3 & u & -> & Ma & Mb & H1 & Mr & Lt & H2 & H3 & ->)]]].
  - apply gen_left. apply gen_map with (a := (a, (b, (cols, None)))); [|reflexivity]. do 2 (apply gen_tok; auto). apply gen_last; [exact H|apply gen_none].
  - apply gen_right, gen_left. apply gen_map with (a := (a, (cols, None))); [|reflexivity]. apply gen_tok; auto. apply gen_last; [exact H|apply gen_none].
  - apply gen_right, gen_right, gen_left. apply gen_map with (a := (a, e)); [|reflexivity]. apply gen_tok; [exact Ma|exact H].
  - do 3 apply gen_right. apply gen_map with (a := (a, (b, (cols, (r, ((None, t), (Some k, u))))))); [|reflexivity]. do 2 (apply gen_tok; auto).
    apply gen_seq; [exact H1|]. apply gen_tok; auto. change (t :: l2 ++ l3) with ([t] ++ l2 ++ l3). apply gen_seq; [now apply bare|]. apply gen_seq; [apply gen_some; exact H2|now apply li_options].
Qed.
Lemma li_ine : sub p_ine GSqlite.if_not_exists.
Proof.
  intros l nxt v H. apply gen_cond_inv in H as [H|H]; apply gen_map_inv in H as (a & -> & H).
  - apply gen_map with (a := Some a); [|reflexivity]. now apply gen_some.
  - apply gen_notnext_inv in H as [-> _]. apply gen_map with (a := None); [|reflexivity]. apply gen_none.
Qed.
Theorem li_script : sub (p_script true SQLite) GSqlite.script.
Proof.
  apply script_into. intros l nxt v H. apply gen_map_inv in H as ([k s] & -> & H). apply gen_seq_inv in H as (l1 & l2 & -> & H1 & H). cbn [fst snd] in *.
  apply gen_map with (a := (k, (None, s))); [|reflexivity]. apply gen_seq; [exact H1|]. apply gen_skip; [apply gen_none|]. apply gen_cond_inv in H as [H|H]; [apply gen_left|apply gen_right].
  - eapply (create_into true SQLite); [..|exact H].
    + apply li_ine.
    + apply element_into.
      * apply column_into; [apply li_type|apply sub_refl|]. apply items_into; [apply li_item|keys_differ|apply words_upper; reflexivity].
      * apply constraint_into; [apply sub_refl|apply li_body].
    + do 2 apply gen_right. apply gen_eps.
  - eapply other_into; [reflexivity|exact H].
Qed.
