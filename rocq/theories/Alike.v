(** The same statements have the same tables in all dialects in which they are legal, and texts without number signs
    and back quotes have the same tokens in all dialects. *)
From Coq Require Import String Ascii NArith List Bool Arith Lia.
From Verif Require Import GoStr GoNum Types Words Lexer Grammar GrammarFacts Ast Emit Safe Seen Spec Scan Meaning Build Portable PortableFacts PortableMysql ListedFacts.
From Verif Require Force.
Import ListNotations.
Open Scope nat_scope.
Open Scope string_scope.
Open Scope list_scope.

(** ** Tokens *)

Definition plain_rune (c : rune) : Prop := c <> c_sharp /\ c <> c_bquote.
Lemma scan_plain : forall d d' rs m, Forall plain_rune rs -> scan d m rs = scan d' m rs.
Proof.
  intros d d' rs. induction rs as [|c rs IH]; intros m F; [reflexivity|]. inversion F as [|? ? [P Q] F']; subst. cbn [scan].
  assert (E : step d m c = step d' m c).
  { destruct m; cbn [step]; try reflexivity; unfold step2; apply N.eqb_neq in P, Q; rewrite ?P, ?Q; reflexivity. }
  rewrite E. destruct (step d' m c); auto. now rewrite IH.
Qed.
Lemma runes_ascii : forall s r, In r (runes_of s) -> (r < 128)%N -> has_char (ascii_of_N r) s.
Proof.
  assert (A : forall n s r, String.length s < n -> In r (runes_of s) -> (r < 128)%N -> has_char (ascii_of_N r) s).
  2: { intros s r. apply (A (S (String.length s))). lia. }
  induction n as [|n IH]; intros s r L I R; [lia|]. destruct s as [|b0 s1]; [contradiction|]. cbn [String.length] in L. unfold has_char in *.
  assert (T : forall s', String.length s' <= String.length s1 -> (forall c, In c (list_ascii_of_string s') -> In c (list_ascii_of_string s1)) -> In r (runes_of s') ->
    In (ascii_of_N r) (list_ascii_of_string (String b0 s1))).
  { intros s' L' C I'. right. apply C. apply IH; auto. lia. }
  cbn [runes_of] in I. destruct (N.ltb_spec (N_of_ascii b0) 128) as [B|B].
  { destruct I as [<-|I]; [left; symmetry; apply ascii_N_embedding|]. now apply (T s1). }
  assert (Bad : In r (65533%N :: runes_of s1) -> In (ascii_of_N r) (list_ascii_of_string (String b0 s1))).
  { intros [<-|I']; [lia|]. now apply (T s1). }
  destruct (in_range 194 223 b0) eqn:R2.
  { destruct s1 as [|b1 s2]; [now apply Bad|]. destruct (in_range 128 191 b1) eqn:R1; [|now apply Bad].
    unfold in_range in R2. apply andb_true_iff in R2 as [R2 _]. apply N.leb_le in R2. destruct I as [<-|I]; [lia|]. apply (T s2); auto; cbn; auto. }
  destruct (in_range 224 239 b0) eqn:R3.
  { destruct s1 as [|b1 [|b2 s3]]; [now apply Bad..|].
    match type of I with In _ (if ?c then _ else _) => destruct c eqn:R1; [|now apply Bad] end.
    destruct I as [E|I]; [|apply (T s3); auto; cbn; auto]. exfalso. unfold in_range in *. apply andb_true_iff in R3 as [R3 _]. apply andb_true_iff in R1 as [R1 _]. apply andb_true_iff in R1 as [R1 _].
    apply N.leb_le in R3, R1. destruct (N.eqb_spec (N_of_ascii b0) 224) as [Q|Q]; unfold low6 in E; lia. }
  destruct (in_range 240 244 b0) eqn:R4; [|now apply Bad].
  destruct s1 as [|b1 [|b2 [|b3 s4]]]; [now apply Bad..|].
  match type of I with In _ (if ?c then _ else _) => destruct c eqn:R1; [|now apply Bad] end.
  destruct I as [E|I]; [|apply (T s4); auto; cbn; auto]. exfalso. unfold in_range in *. apply andb_true_iff in R4 as [R4 _]. do 3 (apply andb_true_iff in R1 as [R1 _]).
  apply N.leb_le in R4, R1. destruct (N.eqb_spec (N_of_ascii b0) 240) as [Q|Q]; unfold low6 in E; lia.
Qed.
Lemma plain_runes : forall ddl, plain_text ddl -> Forall plain_rune (runes_of ddl).
Proof.
  intros ddl [A B]. apply Forall_forall. intros r I. split; intros ->; [apply A|apply B]; apply (runes_ascii _ _ I); reflexivity.
Qed.
Theorem plain_tokens : forall d d' ddl l, plain_text ddl -> tokens d ddl l -> tokens d' ddl l.
Proof.
  intros d d' ddl l P T. apply tokens_lexed in T as (toks & L & ->). apply tokens_lexed. exists toks. split; auto.
  unfold lexed in *. now rewrite (scan_plain d' d) by now apply plain_runes.
Qed.

(** ** Names and literals *)

Lemma known_quotes : forall d, known d -> name_quotes d = id_quotes d /\ string_quotes d = str_quotes d.
Proof. intros d [<-|[<-|[<-|[]]]]; auto. Qed.
Lemma pattern_bare : forall t, name_pattern t = true -> quoted any_quote t = false.
Proof. intros [|c t] H; [reflexivity|]. cbn [quoted]. cbn [name_pattern] in H. apply andb_true_iff in H as [H _]. clear -H. destruct c as [[] [] [] [] [] [] [] []]; vm_compute in H |- *; congruence. Qed.
Lemma quoted_sub : forall a b t, (forall q, In q a -> In q b) -> quoted a t = true -> quoted b t = true.
Proof. intros a b [|c t] S H; [discriminate|]. cbn [quoted] in *. apply contains_spec. apply S. now apply contains_spec. Qed.
Lemma any_ids : forall d q, In q (id_quotes d) -> In q any_quote.
Proof. intros [] q H; cbn in *; intuition. Qed.
Definition collation (t : string) : Prop := matches ["BINARY"; "NOCASE"; "RTRIM"] t = true.
Definition named (d : rdbms) (t : string) : Prop := legal_name d t = true \/ collation t.
Lemma collation_bare : forall t, collation t -> quoted any_quote t = false.
Proof. intros t M. apply matches_spec in M as (w & [<-|[<-|[<-|[]]]] & [->| ->]); reflexivity. Qed.
Lemma named_quoted : forall d t, named d t -> quoted any_quote t = quoted (id_quotes d) t.
Proof.
  intros d t N. destruct (quoted (id_quotes d) t) eqn:Q; [eapply quoted_sub; [apply any_ids|exact Q]|].
  destruct N as [L|C]; [|now apply collation_bare]. unfold legal_name in L. rewrite Q in L. cbn in L. apply andb_true_iff in L as [L _]. now apply pattern_bare.
Qed.
Lemma unquote_alike : forall d d' t, known d -> known d' -> named d t -> named d' t -> unquote d t = unquote d' t.
Proof.
  intros d d' t K K' N N'. unfold unquote. destruct (known_quotes _ K) as [-> _]. destruct (known_quotes _ K') as [-> _].
  now rewrite <- (named_quoted _ _ N), <- (named_quoted _ _ N').
Qed.
Lemma literal_alike : forall d d' t, known d -> known d' -> literal d t = true -> literal d' t = true -> literal_value d t = literal_value d' t.
Proof.
  intros d d' t K K' L L'. unfold literal_value. destruct (known_quotes _ K) as [_ ->]. destruct (known_quotes _ K') as [_ ->].
  destruct (is_numeric_token t) eqn:Nu; [reflexivity|]. unfold literal in L, L'. rewrite Nu in L, L'. cbn [orb] in L, L'.
  assert (X : matches literal_words t = true -> quoted any_quote t = false).
  { intros M. apply matches_spec in M as (w & I & E). cbn in I. repeat (destruct I as [<-|I]; [destruct E as [->| ->]; reflexivity|]). contradiction. }
  assert (Y : forall d, (quoted (str_quotes d) t || matches literal_words t = true)%bool -> quoted [""""; "'"] t = quoted (str_quotes d) t).
  { intros e H. destruct (quoted (str_quotes e) t) eqn:Q; [eapply quoted_sub; [|exact Q]; destruct e; cbn; tauto|]. cbn in H. apply X in H.
    destruct (quoted [""""; "'"] t) eqn:Q2; auto. rewrite <- H. symmetry. eapply quoted_sub; [|exact Q2]. cbn. tauto. }
  rewrite <- (Y d), <- (Y d'); auto.
Qed.

(** ** Statements *)

Definition join (a b : table_constraint) : table_constraint :=
  match a, b with mk_tc p1 u1 c1 f1, mk_tc p2 u2 c2 f2 => mk_tc (p1 ++ p2) (u1 ++ u2) (c1 ++ c2) (f1 ++ f2) end.
Lemma constraints_app : forall d a b, constraints_of d (a ++ b) = join (constraints_of d a) (constraints_of d b).
Proof. intros d a b. unfold constraints_of, join. now rewrite !flat_map_app. Qed.

Section Same.
Variables d d' : rdbms.
Hypothesis K : known d.
Hypothesis K' : known d'.
Lemma tok_alike : forall t, name_tok d t -> name_tok d' t -> unquote d t = unquote d' t.
Proof. intros t [L _] [L' _]. apply unquote_alike; auto; now left. Qed.
Lemma cname_alike : forall ws l ws' l' n o o', em_cname d ws l n o -> em_cname d' ws' l' n o' -> opt_name d n = opt_name d' n.
Proof. intros ws l ws' l' n o o' H H'. destruct n as [t|]; [|reflexivity]. inversion H; subst. inversion H'; subst. now apply tok_alike. Qed.
Lemma ref_alike : forall r o o', em_ref d r o -> em_ref d' r o' -> reference_of d r = reference_of d' r.
Proof.
  intros r o o' H H'. assert (E : unquote d (ar_table r) = unquote d' (ar_table r)) by (inversion H; subst; inversion H'; subst; cbn [ar_table]; now apply tok_alike).
  unfold reference_of. now rewrite E.
Qed.
Lemma seen_alike : forall i h o h' o', em_item d i h o -> em_item d' i h' o' ->
  match seen_item i with
  | IDefault x => default_of d x = default_of d' x
  | ICollate t => unquote d t = unquote d' t
  | IReferences r => reference_of d r = reference_of d' r
  | _ => True
  end.
Proof.
  intros i h o h' o' H H'. inversion H; subst; inversion H'; subst; cbn [seen_item]; auto.
  - apply literal_alike; auto; [now destruct H1|]. match goal with X : lit_tok d' _ |- _ => now destruct X end.
  - apply unquote_alike; auto.
  - eapply ref_alike; eauto.
Qed.
Lemma items_alike : forall is hs o hs' o' n, em_items d is hs o -> em_items d' is hs' o' -> opt_name d n = opt_name d' n ->
  forall b : bool, let l := (if b then [IAuto] else []) ++ map seen_item is in constraint_of d n l = constraint_of d' n l.
Proof.
  intros is hs o hs' o' n H H' E b l.
  assert (F : Forall (fun i => match i with IDefault x => default_of d x = default_of d' x | ICollate t => unquote d t = unquote d' t
    | IReferences r => reference_of d r = reference_of d' r | _ => True end) l).
  { apply Forall_app. split; [destruct b; repeat constructor|]. clear -H H' K K'. revert hs' o' H'. induction H as [|i is h hs o os H1 H2 IH]; intros hs' o' H'; cbn [map]; [constructor|].
    inversion H'; subst. constructor; [eapply seen_alike; eauto|eauto]. }
  clearbody l. unfold constraint_of. rewrite E. f_equal; f_equal; clear -F; induction F as [|i l P F IH]; cbn [first_of]; auto; destruct i; auto; now rewrite P.
Qed.
Lemma column_alike : forall c o o', em_column d c o -> em_column d' c o' -> column_of d (seen_column c) = column_of d' (seen_column c).
Proof.
  intros [n ty cn is] o o' H H'. inversion H as [n1 ty1 cn1 is1 ot oc oi hs key N T C I]; subst. inversion H' as [n' ty' cn' is' ot' oc' oi' hs' key' N' T' C' I']; subst.
  pose proof (cname_alike _ _ _ _ _ _ _ C C') as E. unfold seen_column. cbn [ac_cname ac_items ac_name ac_type].
  assert (X : forall n0 b, opt_name d n0 = opt_name d' n0 -> column_of d (mk_acolumn n ty n0 ((if b : bool then [IAuto] else []) ++ map seen_item is)) =
    column_of d' (mk_acolumn n ty n0 ((if b : bool then [IAuto] else []) ++ map seen_item is))).
  { intros n0 b E0. unfold column_of. cbn [ac_cname ac_items ac_name ac_type]. rewrite (tok_alike n); auto. f_equal. eapply items_alike; eauto. }
  destruct cn as [t|]; [destruct (matches not_names t)|].
  - now apply (X None true).
  - now apply (X (Some t) false).
  - now apply (X None false).
Qed.
Lemma table_alike : forall t o o', em_table d t o -> em_table d' t o' -> table_of d (seen_table t) = table_of d' (seen_table t).
Proof.
  intros [i s n es] o o' H H'. inversion H as [i0 s0 n0 es0 c k oi os oe _ _ _ Sc N E]; subst. inversion H' as [i' s' n' es' c' k' oi' os' oe' _ _ _ Sc' N' E']; subst.
  unfold seen_table, table_of. cbn [at_ine at_schema at_name at_elements]. rewrite (tok_alike n) by auto.
  assert (So : opt_name d s = opt_name d' s). { destruct s as [s|]; [|reflexivity]. apply tok_alike; [apply Sc|apply Sc']. }
  rewrite So.
  assert (X : forall e o o', em_element d e o -> em_element d' e o' -> columns_of d [seen_element e] = columns_of d' [seen_element e] /\ constraints_of d [seen_element e] = constraints_of d' [seen_element e]).
  { clear -K K'. intros e o o' H H'. destruct e as [c|nm b]; cbn [seen_element]; inversion H; subst; inversion H'; subst.
    - split; [|reflexivity]. cbn [columns_of flat_map]. erewrite column_alike; eauto.
    - split; [reflexivity|]. assert (En : opt_name d nm = opt_name d' nm) by (eapply cname_alike; eauto).
      destruct b; cbn [seen_body constraints_of flat_map]; unfold constraints_of; cbn [flat_map]; rewrite ?En; auto.
      match goal with A : em_body d _ _, B : em_body d' _ _ |- _ => inversion A; subst; inversion B; subst end. erewrite ref_alike; eauto. }
  assert (Y : forall es oe oe', em_elements d es oe -> em_elements d' es oe' -> columns_of d (map seen_element es) = columns_of d' (map seen_element es) /\ constraints_of d (map seen_element es) = constraints_of d' (map seen_element es)).
  { clear -X. intros es oe oe' E. revert oe'. induction E as [e o0 H|e es o0 os0 H H2 IH]; intros oe' E'.
    - inversion E' as [e1 o1 A1|e1 es1 o1 os1 A1 A2]; [|now inversion A2]. subst. eapply X; eauto.
    - assert (Z : exists o1 os1, em_element d' e o1 /\ em_elements d' es os1) by (inversion E'; subst; [now inversion H2|eauto]).
      destruct Z as (o1 & os1 & A1 & A2). apply IH in A2 as [IH1 IH2]. destruct (X _ _ _ H A1) as [X1 X2]. cbn [map].
      change (seen_element e :: map seen_element es) with ([seen_element e] ++ map seen_element es). split.
      + unfold columns_of in *. rewrite !flat_map_app. now rewrite X1, IH1.
      + now rewrite !constraints_app, X2, IH2. }
  destruct (Y _ _ _ E E') as [-> ->]. reflexivity.
Qed.
Lemma script_alike : forall v o o', em_script d v o -> em_script d' v o' -> tables_of d (seen v) = tables_of d' (seen v).
Proof.
  intros v o o' H. revert o'. induction H as [|t ss o os H1 H2 IH|ss os H2 IH]; intros o' H'; inversion H'; subst; cbn [seen map seen_stmt tables_of flat_map].
  - reflexivity.
  - erewrite table_alike by eauto. f_equal. eapply IH; eauto.
  - eapply IH; eauto.
Qed.
End Same.

Theorem same_statements : forall ddl stmts d d', known d -> known d' -> says d ddl stmts -> says d' ddl stmts -> readable stmts = true ->
  exists ts, accepted ddl d ts /\ accepted ddl d' ts.
Proof.
  intros ddl stmts d d' K K' S S' R. exists (tables_of d (seen stmts)). split; [now apply says_seen|].
  replace (tables_of d (seen stmts)) with (tables_of d' (seen stmts)); [now apply says_seen|].
  destruct S as (l & o & T & L). destruct S' as (l' & o' & T' & L'). symmetry.
  apply (script_alike d d' K K' stmts o o'); [apply (lang_em d l)|apply (lang_em d' l')]; auto; eapply tokens_good; eassumption.
Qed.

(** ** Scripts of the common grammar *)

Lemma sepby_all : forall A k (g : gr A) (P : A -> Prop), (forall l nxt v, gen g l nxt v -> P v) -> forall l nxt vs, gen (SepBy k g) l nxt vs -> Forall P vs.
Proof.
  intros A k g P H l nxt vs [o L]. cbn [lang] in L. induction L; constructor; auto; try constructor; eapply H; eexists; eauto.
Qed.
Lemma star_all : forall A (g : gr A) (P : A -> Prop), (forall l nxt v, gen g l nxt v -> P v) -> forall l nxt o vs hs, star (lang g) l nxt o vs hs -> Forall P vs.
Proof. intros A g P H l nxt o vs hs L. induction L; constructor; auto. eapply H. eexists. eauto. Qed.
Lemma portable_readable : forall three d l nxt v, gen (p_script three d) l nxt v -> readable v = true.
Proof.
  intros three d l nxt v [o (hs & H)]. unfold readable. apply forallb_forall. apply Forall_forall. eapply star_all; [|exact H]. clear. intros l nxt v H.
  apply gen_map_inv in H as ([k s] & -> & H). apply gen_seq_inv in H as (l1 & l2 & -> & _ & H). cbn [fst snd] in *.
  apply gen_cond_inv in H as [H|H]; [|now apply gen_map_inv in H as (a & -> & _)].
  apply gen_map_inv in H as ([k' [i [[sc t] [o [ls [c z]]]]]] & -> & H). do 4 (apply gen_seq_inv in H as (? & ? & -> & _ & H)). apply gen_seq_inv in H as (? & ? & -> & H & _). cbn [fst snd] in *.
  assert (F : Forall (fun e => readable_element e = true /\ silent e = false) ls).
  { eapply sepby_all; [|exact H]. clear. intros l nxt v H. apply gen_cond_inv in H as [H|H].
    - apply gen_map_inv in H as ([n b] & -> & H). apply gen_seq_inv in H as (? & ? & -> & _ & H). cbn [fst snd] in *.
      apply body_cases in H as [(? & ? & ? & ? & _ & _ & _ & _ & ->)|[(? & ? & ? & _ & _ & _ & ->)|[(? & ? & _ & _ & _ & ->)|(? & ? & ? & ? & ? & ? & ? & ? & ? & ? & _ & _ & _ & _ & _ & _ & _ & _ & ->)]]]; destruct n; split; reflexivity.
    - apply gen_map_inv in H as ([n [ty [cn is]]] & -> & H). do 3 (apply gen_seq_inv in H as (? & ? & -> & _ & H)). cbn [fst snd] in *. split; [|reflexivity].
      destruct H as [o (hs & H & _)]. cbn [readable_element ac_items]. apply forallb_forall. apply Forall_forall. eapply star_all; [|exact H]. clear. intros l nxt v H.
      apply item_cases in H as [(? & ? & _ & _ & _ & ->)|[(? & ? & _ & _ & _ & ->)|[(? & _ & _ & ->)|[(? & ? & _ & _ & _ & -> & _)|[(? & ? & _ & _ & _ & ->)|[(? & ? & _ & _ & _ & ->)|(? & ? & ? & ? & ? & ? & _ & _ & _ & _ & _ & -> & _)]]]]]]; reflexivity. }
  cbn [readable_stmt]. unfold readable_table. cbn [at_elements]. apply andb_true_iff. split.
  - apply forallb_forall. apply Forall_forall. eapply Forall_impl; [|exact F]. now intros e [E _].
  - destruct F as [|e es [_ E] F]; [reflexivity|]. destruct es; [reflexivity|]. cbn [first_ok]. now rewrite E.
Qed.
Lemma portable_script : forall three d, In d (dialects three) -> sub (p_script three d) (script d).
Proof.
  intros [] d I; cbn in I.
  - destruct I as [<-|[<-|[<-|[]]]]; [apply li_script|apply pg_script|apply my_script].
  - destruct I as [<-|[<-|[]]]; [apply pg_script|apply my_script].
Qed.
Theorem portable_says : forall three d ddl l stmts, portable three l stmts -> In d (dialects three) -> tokens d ddl l -> says d ddl stmts.
Proof. intros three d ddl l stmts P I T. destruct (portable_script _ _ I _ _ _ (P d I)) as [o L]. exists l, o. auto. Qed.
Theorem portable_alike : forall three ddl l stmts, portable three l stmts -> (forall d, In d (dialects three) -> tokens d ddl l) ->
  exists ts, forall d, In d (dialects three) -> says d ddl stmts /\ accepted ddl d ts.
Proof.
  intros three ddl l stmts P T. assert (R : readable stmts = true).
  { destruct (P MySQL) as [o L]; [destruct three; cbn; auto|]. eapply portable_readable. exists o. exact L. }
  assert (M : In MySQL (dialects three)) by (destruct three; cbn; auto).
  assert (Kn : forall d, In d (dialects three) -> known d) by (destruct three; cbn; unfold known; cbn; intuition).
  exists (tables_of MySQL (seen stmts)). intros d I. assert (S : says d ddl stmts) by (eapply portable_says; eauto). split; [exact S|].
  destruct (same_statements ddl stmts d MySQL) as (ts & A & B); auto.
  - eapply portable_says; eauto.
  - assert (C : accepted ddl MySQL (tables_of MySQL (seen stmts))) by (apply says_seen; auto; eapply portable_says; eauto).
    now rewrite <- (accepted_det _ _ _ _ B C).
Qed.
Theorem portable_force : forall ddl l stmts, portable true l stmts -> (forall d, known d -> tokens d ddl l) ->
  exists ts, force_returns ddl ts None /\ forall d, known d -> accepted ddl d ts.
Proof.
  intros ddl l stmts P T. destruct (portable_alike true ddl l stmts P T) as (ts & A). exists ts. split.
  - apply Force.force_iff. split; [reflexivity|]. left. exists SQLite, [], [PostgreSQL; MySQL]. split; [reflexivity|]. split; [apply A; now left|]. intros d' [].
  - intros d K. now apply A.
Qed.
