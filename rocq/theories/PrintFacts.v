(** The text that is printed for tables is a script of the dialect, and it stands for these tables. *)
From Coq Require Import String Ascii NArith ZArith List Bool Arith Lia.
From Verif Require Import GoStr GoNum Types Grammar GrammarFacts Ast Safe Spec Numbers Utf8 Layout Parts Quoted Build
  Print PrintText PrintFloat PrintItems PrintTypes PrintColumn Meaning.
From Verif Require GSqlite GPostgres GMysql.
Import ListNotations.
Open Scope nat_scope.
Open Scope string_scope.
Open Scope list_scope.

(** ** Lists with commas *)

Lemma commas_cons : forall l ls, ls <> [] -> commas (l :: ls) = l ++ "," :: commas ls.
Proof. now intros l [|l' ls] H. Qed.
Lemma gen_commas : forall A (g : gr A) nxt ls vs, ls <> [] -> Forall2 (fun l v => gen g l (Some ",") v /\ gen g l nxt v) ls vs ->
  gen (SepBy true g) (commas ls) nxt vs.
Proof.
  intros A g nxt ls vs N F. induction F as [|l v ls vs [H H'] F IH]; [congruence|]. destruct ls as [|l' ls].
  - inversion F; subst. now apply gen_sepby1.
  - rewrite commas_cons by discriminate. apply gen_sepby; auto. apply IH. discriminate.
Qed.
Lemma spells_commas : forall d pss ls, Forall2 (spells d) pss ls -> spells d (commas pss) (commas ls).
Proof.
  intros d pss ls F. induction F as [|ps l pss ls H F IH]; [constructor|]. destruct F as [|ps' l' pss ls H' F].
  - exact H.
  - rewrite !commas_cons by discriminate. apply spells_app; auto. apply spells_one; [symbols|exact IH].
Qed.

Lemma names_spells : forall d cs, Forall (key_ok d) cs -> spells d (names_text cs) (names_text cs).
Proof.
  intros d cs F. unfold names_text. apply spells_one; [symbols|]. apply spells_app; [|one_words].
  apply spells_commas. induction F as [|c cs H F IH]; constructor; auto. apply spells_one; [now apply key_piece|constructor].
Qed.
Lemma names_gen : forall d (k : gr string) cs nxt, Forall (key_ok d) cs -> cs <> [] -> (forall c nxt, key_ok d c -> gen k [c] nxt c) ->
  gen (kw ["("] ** SepBy true k ** kw [")"]) (names_text cs) nxt ("(", (cs, ")")).
Proof.
  intros d k cs nxt F N H. unfold names_text. apply gen_tok; [reflexivity|]. apply gen_seq; [|now apply gen_one].
  apply gen_commas; [destruct cs; [congruence|discriminate]|]. clear N. induction F as [|c cs C F IH]; constructor; auto.
Qed.
Definition columns (d : rdbms) : gr (list string) :=
  match d with PostgreSQL => GPostgres.columns | MySQL => GMysql.columns | _ => GSqlite.columns end.
Lemma columns_gen : forall d cs nxt, known d -> keys_ok d cs -> gen (columns d) (names_text cs) nxt cs.
Proof.
  intros d cs nxt K [N F]. assert (G : gen (kw ["("] ** SepBy true (One true (CName d)) ** kw [")"]) (names_text cs) nxt ("(", (cs, ")"))).
  { apply (names_gen d); auto. intros c nx H. apply gen_one. now apply key_legal. }
  dialects d K; (eapply gen_map; [exact G|reflexivity]).
Qed.
Lemma keys_gen : forall cs nxt, keys_ok MySQL cs -> gen (GMysql.keys true) (names_text cs) nxt cs.
Proof.
  intros cs nxt [N F]. unfold GMysql.keys, names_text. eapply gen_map with (a := ("(", (map Some cs, ")"))).
  - apply gen_tok; [reflexivity|]. apply gen_seq; [|now apply gen_one].
    apply gen_commas; [destruct cs; [congruence|discriminate]|]. clear N.
    assert (E : forall c nx, key_ok MySQL c -> gen (GMysql.key_part true) [c] nx (Some c)).
    { intros c nx C. apply key_legal in C. eapply gen_map with (a := (Some c, None)); [|reflexivity]. eapply gen_last; [|apply gen_none].
      apply gen_right. eapply gen_map; [apply gen_tok; [exact C|apply gen_none]|reflexivity]. }
    induction F as [|c cs C F IH]; constructor; auto.
  - unfold GMysql.some_of. clear N F. induction cs as [|c cs IH]; [reflexivity|]. cbn. now rewrite IH.
Qed.

(** ** Table constraints *)

Definition table_cname (d : rdbms) : gr (option string) :=
  match d with
  | PostgreSQL => GPostgres.constraint_name
  | MySQL => GMysql.constraint_name ["PRIMARY"; "UNIQUE"; "FOREIGN"; "CHECK"]
  | _ => GSqlite.constraint_name
  end.
Lemma table_cname_gen : forall d n nxt, known d -> gen (table_cname d) (cname_text d n) nxt (cname d n).
Proof.
  intros d n nxt K. unfold cname_text, cname. destruct (n =? "")%string; dialects d K; cbn [table_cname].
  1,2: apply gen_none. 1: apply gen_right; build.
  1,2: apply gen_some; eapply gen_map; [apply gen_tok; [tok|]; apply gen_one, name_legal|reflexivity].
  apply gen_left. eapply gen_map; [apply gen_tok; [tok|]; apply gen_right; eapply gen_map; [apply gen_one, name_legal|reflexivity]|reflexivity].
Qed.
Lemma cname_spells : forall d n, name_ok n -> spells d (cname_text d n) (cname_text d n).
Proof. intros d n H. unfold cname_text. apply spells_if. intros _. apply spells_one; [words|]. apply spells_one; [now apply name_piece|constructor]. Qed.

(** the bodies of table constraints *)
Definition body (d : rdbms) : gr a_body :=
  match d with
  | SQLite | Other _ => Case ["PRIMARY"] of GSqlite.t_primary or Case ["UNIQUE"] of GSqlite.t_unique or Case ["CHECK"] of GSqlite.t_check or GSqlite.t_foreign
  | PostgreSQL => Case ["PRIMARY"] of GPostgres.t_primary or Case ["UNIQUE"] of GPostgres.t_unique or Case ["CHECK"] of GPostgres.t_check or
      Case ["FOREIGN"] of GPostgres.t_foreign or GPostgres.t_exclude
  | MySQL => Case ["PRIMARY"] of GMysql.t_primary or Case ["UNIQUE"] of GMysql.t_unique or Case ["FOREIGN"] of GMysql.t_foreign or
      Case ["CHECK"] of GMysql.t_check or Case ["INDEX"; "KEY"] of GMysql.t_index or GMysql.t_fulltext
  end.
Lemma constraint_prints : forall d n ps l b, known d -> name_ok n -> spells d ps l ->
  (forall x, In x [","; ")"] -> gen (body d) l (Some x) b) -> safe_body b = true -> b <> BNone ->
  prints d (cname_text d n ++ ps) (EConstraint (cname d n) b).
Proof.
  intros d n ps l b K N S G Y NB. exists (cname_text d n ++ l). split; [|split; [|split]].
  - apply spells_app; auto. now apply cname_spells.
  - intros x X. assert (E : gen (table_cname d ** body d) (cname_text d n ++ l) (Some x) (cname d n, b)).
    { apply gen_seq; [now apply table_cname_gen|auto]. }
    dialects d K; cbn [element]; apply gen_left; (eapply gen_map; [exact E|reflexivity]).
  - exact Y.
  - cbn. destruct (cname d n), b; congruence.
Qed.

Ltac commas_or I := cbn [In] in I; destruct I as [<-|[<-|[]]].
Ltac the_columns := first [now apply (columns_gen SQLite) | now apply (columns_gen PostgreSQL) | now apply (columns_gen MySQL) | now apply keys_gen].
Lemma pk_prints : forall d n cs, known d -> name_ok n -> keys_ok d cs ->
  prints d (cname_text d n ++ ["PRIMARY"; "KEY"] ++ names_text cs) (EConstraint (cname d n) (BPrimary cs)).
Proof.
  intros d n cs K N C. apply (constraint_prints d n _ (["PRIMARY"; "KEY"] ++ names_text cs)); auto; try discriminate.
  - apply spells_app; [one_words|]. apply names_spells, C.
  - intros x X. dialects d K; cbn [body app]; apply gen_left.
    + commas_or X; (eapply gen_map; [apply gen_tok; [tok|]; apply gen_tok; [tok|]; eapply gen_last; [the_columns|build]|reflexivity]).
    + commas_or X; (eapply gen_map; [apply gen_tok; [tok|]; apply gen_tok; [tok|]; eapply gen_last; [the_columns|build]|reflexivity]).
    + commas_or X; (eapply gen_map; [apply gen_tok; [tok|]; apply gen_tok; [tok|]; eapply gen_skip; [apply gen_none|]; eapply gen_last; [the_columns|build]|reflexivity]).
Qed.
Lemma unique_prints : forall d n cs, known d -> name_ok n -> keys_ok d cs ->
  prints d (cname_text d n ++ ["UNIQUE"] ++ names_text cs) (EConstraint (cname d n) (BUnique cs)).
Proof.
  intros d n cs K N C. apply (constraint_prints d n _ (["UNIQUE"] ++ names_text cs)); auto; try discriminate.
  - apply spells_app; [one_words|]. apply names_spells, C.
  - intros x X. dialects d K; cbn [body app]; apply gen_right, gen_left.
    + commas_or X; (eapply gen_map; [apply gen_tok; [tok|]; eapply gen_last; [the_columns|build]|reflexivity]).
    + commas_or X; (eapply gen_map; [apply gen_tok; [tok|]; eapply gen_last; [the_columns|build]|reflexivity]).
    + commas_or X; (eapply gen_map; [apply gen_tok; [tok|]; eapply gen_skip; [apply gen_none|]; eapply gen_skip; [unfold names_text; build|];
        eapply gen_skip; [apply gen_none|]; eapply gen_last; [the_columns|build]|reflexivity]).
Qed.
Lemma check_prints : forall d n s, known d -> name_ok n -> expr_ok d s -> exists e,
  prints d (cname_text d n ++ ["CHECK"; s]) (EConstraint (cname d n) (BCheck e)) /\ text e = s.
Proof.
  intros d n s K N H. apply expr_tokens in H as (bd & P & B & T & C). exists ("(" :: bd ++ [")"]). split; auto.
  apply (constraint_prints d n _ ("CHECK" :: "(" :: bd ++ [")"])); auto; try discriminate.
  - apply spells_one; [words|]. now apply spells_last.
  - intros x X. dialects d K; cbn [body].
    + do 2 apply gen_right. apply gen_left. eapply gen_map; [apply gen_tok; [tok|now apply gen_brackets]|reflexivity].
    + do 2 apply gen_right. apply gen_left. eapply gen_map; [apply gen_tok; [tok|eapply gen_last; [now apply gen_brackets|apply gen_none]]|reflexivity].
    + do 3 apply gen_right. apply gen_left.
      commas_or X; (eapply gen_map; [eapply gen_map; [apply gen_tok; [tok|eapply gen_last; [now apply gen_brackets|build]]|reflexivity]|reflexivity]).
  - cbn [safe_body]. now rewrite C.
Qed.
Lemma reference_spells : forall d r, reference_ok d r -> spells d (reference_text d r) (reference_text d r).
Proof.
  intros d [t cs] [T C]. cbn [ref_table ref_columns] in *. unfold reference_text. cbn [ref_table ref_columns]. apply spells_app.
  - apply spells_one; [words|]. apply spells_one; [now apply name_piece|constructor].
  - destruct cs as [cs|]; [apply names_spells, C|constructor].
Qed.
Lemma fk_prints : forall d n cs r, known d -> name_ok n -> keys_ok d cs -> reference_ok d r -> (d = MySQL -> ref_columns r <> None) ->
  prints d (cname_text d n ++ ["FOREIGN"; "KEY"] ++ names_text cs ++ reference_text d r)
    (EConstraint (cname d n) (BForeign cs (mk_aref None (in_quotes d (ref_table r)) (ref_columns r)))).
Proof.
  intros d n cs r K N C R M. apply (constraint_prints d n _ (["FOREIGN"; "KEY"] ++ names_text cs ++ reference_text d r)); auto; try discriminate.
  - apply spells_app; [one_words|]. apply spells_app; [apply names_spells, C|now apply reference_spells].
  - assert (RC : forall ws nxt, known d -> gen (opt ws (columns d)) (match ref_columns r with Some cs => names_text cs | None => [] end) nxt (ref_columns r)).
    { intros ws nxt _. destruct R as [_ R]. destruct (ref_columns r) as [k|]; [apply gen_some; now apply columns_gen|apply gen_none]. }
    intros x X. unfold reference_text. dialects d K; cbn [body app columns] in *.
    + do 3 apply gen_right. eapply gen_map; [apply gen_tok; [tok|]; apply gen_tok; [tok|]; eapply gen_seq; [the_columns|]; apply gen_tok; [tok|];
        apply gen_name_sqlite; [tok|]; eapply gen_last; [now apply RC|apply gen_while]|reflexivity].
    + do 3 apply gen_right. apply gen_left. eapply gen_map; [apply gen_tok; [tok|]; apply gen_tok; [tok|]; eapply gen_seq; [the_columns|]; apply gen_tok; [tok|];
        apply gen_name_postgres; [tok|]; eapply gen_last; [now apply RC|apply gen_while]|reflexivity].
    + do 2 apply gen_right. apply gen_left. destruct R as [_ R]. destruct (ref_columns r) as [k|]; [|now destruct (M eq_refl)].
      eapply gen_map; [apply gen_tok; [tok|]; apply gen_tok; [tok|]; eapply gen_skip; [unfold names_text; build|]; eapply gen_seq; [the_columns|]; apply gen_tok; [tok|];
        apply gen_name_mysql; [tok|]; eapply gen_last; [the_columns|apply gen_while]|reflexivity].
Qed.

(** ** Tables *)

Definition tc_app (a b : table_constraint) : table_constraint :=
  mk_tc (tc_pk a ++ tc_pk b) (tc_unique a ++ tc_unique b) (tc_check a ++ tc_check b) (tc_fk a ++ tc_fk b).
Lemma constraints_app : forall d a b, constraints_of d (a ++ b) = tc_app (constraints_of d a) (constraints_of d b).
Proof. intros. unfold constraints_of, tc_app. cbn [tc_pk tc_unique tc_check tc_fk]. now rewrite !flat_map_app. Qed.
Lemma columns_app : forall d a b, columns_of d (a ++ b) = columns_of d a ++ columns_of d b.
Proof. intros. apply flat_map_app. Qed.

Lemma gather : forall X d (txt : X -> list string) (cols : X -> list column) (tcs : X -> table_constraint) xs,
  Forall (fun x => exists e, prints d (txt x) e /\ columns_of d [e] = cols x /\ constraints_of d [e] = tcs x) xs ->
  exists es, Forall2 (prints d) (map txt xs) es /\ columns_of d es = flat_map cols xs /\
    constraints_of d es = fold_right tc_app zero_tc (map tcs xs).
Proof.
  intros X d txt cols tcs xs F. induction F as [|x xs (e & P & C & T) F (es & P' & C' & T')]; [exists []; repeat split; constructor|].
  exists (e :: es). split; [now constructor|]. change (e :: es) with ([e] ++ es). rewrite columns_app, constraints_app, C, C', T, T'. auto.
Qed.
Lemma flat_single : forall A (xs : list A), flat_map (fun x => [x]) xs = xs.
Proof. intros A xs. induction xs as [|x xs IH]; [reflexivity|]. cbn. now rewrite IH. Qed.
Lemma flat_nil : forall A B (xs : list A), flat_map (fun _ => @nil B) xs = [].
Proof. intros A B xs. induction xs; auto. Qed.

Lemma table_elements : forall d t, known d -> Forall (column_ok d) (t_columns t) -> tc_ok d (t_constraints t) ->
  exists es, Forall2 (prints d) (map (column_text d) (t_columns t) ++ tc_text d (t_constraints t)) es /\
    columns_of d es = t_columns t /\ constraints_of d es = t_constraints t.
Proof.
  intros d t K C (P & U & H & F).
  destruct (gather _ d (column_text d) (fun c => [c]) (fun _ => zero_tc) (t_columns t)) as (e1 & A1 & B1 & C1).
  { eapply Forall_impl; [|exact C]. intros c X. destruct (column_prints d c K X) as (a & A & <-). exists (EColumn a). auto. }
  destruct (gather _ d (fun x => cname_text d (pk_name x) ++ ["PRIMARY"; "KEY"] ++ names_text (pk_columns x)) (fun _ => [])
    (fun x => mk_tc [x] [] [] []) (tc_pk (t_constraints t))) as (e2 & A2 & B2 & C2).
  { eapply Forall_impl; [|exact P]. intros [n cs] [X Y]. eexists. split; [now apply pk_prints|]. split; [reflexivity|].
    unfold constraints_of. cbn [flat_map app]. now rewrite cname_meaning. }
  destruct (gather _ d (fun x => cname_text d (uq_name x) ++ ["UNIQUE"] ++ names_text (uq_columns x)) (fun _ => [])
    (fun x => mk_tc [] [x] [] []) (tc_unique (t_constraints t))) as (e3 & A3 & B3 & C3).
  { eapply Forall_impl; [|exact U]. intros [n cs] [X Y]. eexists. split; [now apply unique_prints|]. split; [reflexivity|].
    unfold constraints_of. cbn [flat_map app]. now rewrite cname_meaning. }
  destruct (gather _ d (fun x => cname_text d (ck_name x) ++ ["CHECK"; ck_expr x]) (fun _ => [])
    (fun x => mk_tc [] [] [x] []) (tc_check (t_constraints t))) as (e4 & A4 & B4 & C4).
  { eapply Forall_impl; [|exact H]. intros [n s] [X Y]. destruct (check_prints d n s K X Y) as (e & E & T). eexists. split; [exact E|].
    split; [reflexivity|]. unfold constraints_of. cbn [flat_map app]. now rewrite cname_meaning, T. }
  destruct (gather _ d (fun x => cname_text d (fk_name x) ++ ["FOREIGN"; "KEY"] ++ names_text (fk_columns x) ++ reference_text d (fk_references x)) (fun _ => [])
    (fun x => mk_tc [] [] [] [x]) (tc_fk (t_constraints t))) as (e5 & A5 & B5 & C5).
  { eapply Forall_impl; [|exact F]. intros [n cs r] (X & Y & Z & M). eexists. split; [now apply fk_prints|]. split; [reflexivity|].
    unfold constraints_of. cbn [flat_map app]. rewrite cname_meaning by auto. unfold reference_of. cbn [ar_table ar_columns]. rewrite unquote_name by auto. now destruct r. }
  exists (e1 ++ e2 ++ e3 ++ e4 ++ e5). split; [|split].
  - unfold tc_text. repeat apply Forall2_app; assumption.
  - rewrite !columns_app, B1, B2, B3, B4, B5, flat_single, !flat_nil. now rewrite !app_nil_r.
  - rewrite !constraints_app, C1, C2, C3, C4, C5. clear. destruct (t_constraints t) as [a b c f]. cbn [tc_pk tc_unique tc_check tc_fk].
    assert (Z : forall X (xs : list X), fold_right tc_app zero_tc (map (fun _ => zero_tc) xs) = zero_tc).
    { intros X xs. induction xs as [|x xs IH]; [reflexivity|]. cbn [map fold_right]. now rewrite IH. }
    assert (Z2 : forall xs, fold_right tc_app zero_tc (map (fun x => mk_tc [x] [] [] []) xs) = mk_tc xs [] [] []).
    { induction xs as [|x xs IH]; [reflexivity|]. cbn [map fold_right]. now rewrite IH. }
    assert (Z3 : forall xs, fold_right tc_app zero_tc (map (fun x => mk_tc [] [x] [] []) xs) = mk_tc [] xs [] []).
    { induction xs as [|x xs IH]; [reflexivity|]. cbn [map fold_right]. now rewrite IH. }
    assert (Z4 : forall xs, fold_right tc_app zero_tc (map (fun x => mk_tc [] [] [x] []) xs) = mk_tc [] [] xs []).
    { induction xs as [|x xs IH]; [reflexivity|]. cbn [map fold_right]. now rewrite IH. }
    assert (Z5 : forall xs, fold_right tc_app zero_tc (map (fun x => mk_tc [] [] [] [x]) xs) = mk_tc [] [] [] xs).
    { induction xs as [|x xs IH]; [reflexivity|]. cbn [map fold_right]. now rewrite IH. }
    rewrite Z, Z2, Z3, Z4, Z5. unfold tc_app, zero_tc. cbn [tc_pk tc_unique tc_check tc_fk app]. now rewrite !app_nil_r.
Qed.

Definition statement (d : rdbms) : gr a_stmt :=
  match d with PostgreSQL => GPostgres.statement | MySQL => GMysql.statement | _ => GSqlite.statement end.

Theorem table_prints : forall d t, known d -> table_ok d t -> exists a l, spells d (table_text d t) ("CREATE" :: l) /\
  (forall nxt, gen (statement d) ("CREATE" :: l) nxt (STable a)) /\ table_of d a = t /\ safe_table a = true.
Proof.
  intros d t K (S & N & C & T & E). destruct (table_elements d t K C T) as (es & P & M & M').
  set (pss := map (column_text d) (t_columns t) ++ tc_text d (t_constraints t)) in *.
  assert (NE : pss <> []).
  { unfold pss. destruct E as [E|E]; [destruct (t_columns t); [congruence|discriminate]|]. destruct (t_columns t); [|discriminate].
    cbn. unfold tc_text. destruct (t_constraints t) as [[|] [|] [|] [|]]; cbn; try discriminate. now destruct E. }
  assert (L : exists ls, Forall2 (spells d) pss ls /\ ls <> [] /\ Forall2 (fun l e => gen (element d) l (Some ",") e /\ gen (element d) l (Some ")") e) ls es).
  { revert NE. clearbody pss. clear -P. induction P as [|ps e pss es (l & A & B & _) P IH]; [congruence|]. intros _.
    assert (B' : gen (element d) l (Some ",") e /\ gen (element d) l (Some ")") e) by (split; apply B; cbn; auto).
    destruct pss as [|ps' pss]; [inversion P; subst; exists [l]; repeat constructor; auto; try discriminate; apply B'|].
    destruct IH as (ls & I1 & I2 & I3); [discriminate|]. exists (l :: ls). split; [now constructor|]. split; [discriminate|now constructor]. }
  destruct L as (ls & L1 & L2 & L3).
  set (ine := if t_if_not_exists t then ["IF"; "NOT"; "EXISTS"] else []).
  set (sch := if (t_schema t =? "")%string then [] else [in_quotes d (t_schema t); "."]).
  exists (mk_atable (t_if_not_exists t) (cname d (t_schema t)) (in_quotes d (t_name t)) es),
    ("TABLE" :: ine ++ (sch ++ [in_quotes d (t_name t)]) ++ "(" :: commas ls ++ [")"; ";"]). split; [|split; [|split]].
  - unfold table_text. fold pss ine sch. cbn [app]. apply spells_one; [words|]. apply spells_one; [words|].
    apply spells_app; [unfold ine; destruct (t_if_not_exists t); one_words|]. rewrite <- app_assoc. cbn [app].
    apply spells_app; [unfold sch; apply spells_if; intros _; apply spells_one; [now apply name_piece|one_words]|].
    apply spells_one; [now apply name_piece|]. apply spells_one; [symbols|]. apply spells_app; [now apply spells_commas|one_words].
  - intros nxt.
    assert (G : gen (SepBy true (element d) ** kw [")"] ** kw [";"]) (commas ls ++ [")"; ";"]) nxt (es, (")", ";"))).
    { apply gen_seq; [now apply gen_commas|]. apply gen_tok; [tok|now apply gen_one]. }
    assert (G0 : gen (SepBy true (element d)) (commas ls) (Some ")") es) by now apply gen_commas.
    assert (HD : hdr ((sch ++ [in_quotes d (t_name t)]) ++ "(" :: commas ls ++ [")"; ";"]) nxt = Some (in_quotes d (if (t_schema t =? "")%string then t_name t else t_schema t))).
    { unfold sch. now destruct (t_schema t =? "")%string. }
    dialects d K; cbn [statement element] in *.
    + assert (I : gen GSqlite.if_not_exists ine (hdr ((sch ++ [in_quotes SQLite (t_name t)]) ++ "(" :: commas ls ++ [")"; ";"]) nxt) (t_if_not_exists t)).
      { unfold ine, GSqlite.if_not_exists. destruct (t_if_not_exists t); [eapply gen_map; [apply gen_some; build|reflexivity]|eapply gen_map; [apply gen_none|reflexivity]]. }
      assert (TN : forall nx, gen GSqlite.table_name (sch ++ [in_quotes SQLite (t_name t)]) (Some nx) (cname SQLite (t_schema t), in_quotes SQLite (t_name t))).
      { intros nx. unfold sch, cname, GSqlite.table_name. destruct (t_schema t =? "")%string; cbn [app].
        - eapply gen_map; [apply gen_tok; [apply name_legal|apply gen_none]|reflexivity].
        - eapply gen_map; [apply gen_tok; [apply name_legal|apply gen_some; apply gen_tok; [tok|apply gen_one, name_legal]]|reflexivity]. }
      assert (CT : gen GSqlite.create_table ("TABLE" :: ine ++ (sch ++ [in_quotes SQLite (t_name t)]) ++ "(" :: commas ls ++ [")"; ";"]) nxt
        (STable (mk_atable (t_if_not_exists t) (cname SQLite (t_schema t)) (in_quotes SQLite (t_name t)) es))).
      { eapply gen_map; [eapply gen_skip; [apply gen_put|]; apply gen_tok; [tok|]; apply gen_seq; [exact I|]; apply gen_seq; [apply TN|];
          apply gen_tok; [tok|]; apply gen_seq; [exact G0|]; apply gen_tok; [tok|]; eapply gen_skip; [do 2 apply gen_right; apply gen_eps|]; apply gen_one; tok|reflexivity]. }
      eapply gen_map; [apply gen_tok; [tok|]; eapply gen_skip; [apply gen_none|]; apply gen_left; exact CT|reflexivity].
    + assert (I : gen GPostgres.if_not_exists ine (hdr ((sch ++ [in_quotes PostgreSQL (t_name t)]) ++ "(" :: commas ls ++ [")"; ";"]) nxt) (t_if_not_exists t)).
      { rewrite HD. unfold ine, GPostgres.if_not_exists. destruct (t_if_not_exists t); [apply gen_left; build|apply gen_right; build]. }
      assert (TN : forall nx, gen GPostgres.table_name (sch ++ [in_quotes PostgreSQL (t_name t)]) (Some nx) (cname PostgreSQL (t_schema t), in_quotes PostgreSQL (t_name t))).
      { intros nx. unfold sch, cname, GPostgres.table_name. destruct (t_schema t =? "")%string; cbn [app].
        - eapply gen_map; [apply gen_tok; [apply name_legal|apply gen_none]|reflexivity].
        - eapply gen_map; [apply gen_tok; [apply name_legal|apply gen_some; apply gen_tok; [tok|apply gen_one, name_legal]]|reflexivity]. }
      assert (CT : gen GPostgres.create_table ("TABLE" :: ine ++ (sch ++ [in_quotes PostgreSQL (t_name t)]) ++ "(" :: commas ls ++ [")"; ";"]) nxt
        (STable (mk_atable (t_if_not_exists t) (cname PostgreSQL (t_schema t)) (in_quotes PostgreSQL (t_name t)) es))).
      { eapply gen_map; [eapply gen_skip; [apply gen_put|]; apply gen_tok; [tok|]; apply gen_seq; [exact I|]; apply gen_seq; [apply TN|];
          apply gen_tok; [tok|]; apply gen_seq; [exact G0|]; apply gen_tok; [tok|]; eapply gen_skip; [apply gen_while|]; apply gen_one; tok|reflexivity]. }
      eapply gen_map; [apply gen_tok; [tok|]; apply gen_left; exact CT|reflexivity].
    + assert (I : gen GMysql.if_not_exists ine (hdr ((sch ++ [in_quotes MySQL (t_name t)]) ++ "(" :: commas ls ++ [")"; ";"]) nxt) (t_if_not_exists t)).
      { rewrite HD. unfold ine, GMysql.if_not_exists. destruct (t_if_not_exists t); [apply gen_left; build|apply gen_right; build]. }
      assert (TN : forall nx, gen GMysql.table_name (sch ++ [in_quotes MySQL (t_name t)]) (Some nx) (cname MySQL (t_schema t), in_quotes MySQL (t_name t))).
      { intros nx. unfold sch, cname, GMysql.table_name. destruct (t_schema t =? "")%string; cbn [app].
        - eapply gen_map; [apply gen_tok; [apply name_legal|apply gen_none]|reflexivity].
        - eapply gen_map; [apply gen_tok; [apply name_legal|apply gen_some; apply gen_tok; [tok|apply gen_one, name_legal]]|reflexivity]. }
      assert (CT : gen GMysql.create_table ("TABLE" :: ine ++ (sch ++ [in_quotes MySQL (t_name t)]) ++ "(" :: commas ls ++ [")"; ";"]) nxt
        (STable (mk_atable (t_if_not_exists t) (cname MySQL (t_schema t)) (in_quotes MySQL (t_name t)) es))).
      { eapply gen_map; [eapply gen_skip; [apply gen_put|]; apply gen_tok; [tok|]; apply gen_seq; [exact I|]; apply gen_seq; [apply TN|];
          apply gen_tok; [tok|]; apply gen_seq; [exact G0|]; apply gen_tok; [tok|]; eapply gen_skip; [apply gen_while|]; apply gen_one; tok|reflexivity]. }
      eapply gen_map; [apply gen_tok; [tok|]; apply gen_left; exact CT|reflexivity].
  - unfold table_of. cbn [at_schema at_name at_ine at_elements]. rewrite cname_meaning, unquote_name, M, M' by auto. now destruct t.
  - unfold safe_table. cbn [at_elements]. apply andb_true_iff. clear -P. split.
    + induction P as [|ps e pss es (l & _ & _ & A & _) P IH]; [reflexivity|]. cbn [forallb]. now rewrite A, IH.
    + destruct P as [|ps e pss es (l & _ & _ & _ & A) P]; [reflexivity|]. destruct es; [reflexivity|]. now rewrite A.
Qed.

(** ** Scripts *)

Theorem print_says : forall d ts, known d -> Forall (table_ok d) ts -> exists stmts, says d (print d ts) stmts /\ safe stmts = true /\ tables_of d stmts = ts.
Proof.
  intros d ts K F.
  assert (H : exists stmts l hs, spells d (flat_map (table_text d) ts) l /\ gens (statement d) l None stmts hs /\ safe stmts = true /\ tables_of d stmts = ts).
  { induction F as [|t ts T F (stmts & l & hs & A & B & C & D)]; [exists [], [], []; split; [constructor|]; split; [apply gens_nil|]; auto|].
    destruct (table_prints d t K T) as (a & l' & A' & B' & C' & D').
    exists (STable a :: stmts), (("CREATE" :: l') ++ l), ("CREATE" :: hs). split; [now apply spells_app|]. split; [now apply gens_cons|].
    split; [change (safe_table a && safe stmts = true); now rewrite D', C|].
    change (table_of d a :: tables_of d stmts = t :: ts). now rewrite C', D. }
  destruct H as (stmts & l & hs & A & B & C & D). exists stmts. split; auto. apply spells_tokens in A.
  assert (G : gen (script d) l None stmts).
  { dialects d K; cbn [script statement] in *; (eapply gen_whiles; exact B). }
  destruct G as [o G]. exists l, o. auto.
Qed.
Theorem print_parse : forall d ts, known d -> Forall (table_ok d) ts -> accepted (print d ts) d ts.
Proof. intros d ts K F. destruct (print_says d ts K F) as (stmts & A & B & <-). now apply says_tables. Qed.
