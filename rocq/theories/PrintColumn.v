(** Columns as they are printed. *)
From Coq Require Import String Ascii NArith ZArith List Bool Arith Lia.
From Verif Require Import GoStr GoNum Types Grammar GrammarFacts Ast Safe Spec Numbers NumbersFacts Utf8 Layout Parts Quoted Build
  Print PrintText PrintFloat PrintItems PrintTypes.
From Verif Require GSqlite GPostgres GMysql.
Import ListNotations.
Open Scope nat_scope.
Open Scope string_scope.
Open Scope list_scope.

Lemma unquote_name : forall d s, known d -> unquote d (in_quotes d s) = s.
Proof. intros d s K. dialects d K; unfold in_quotes, quote; now apply unquote_text. Qed.

(** ** DEFAULT *)

Lemma float_piece : forall d f, piece d (float_text f) [float_text f].
Proof.
  intros d [|neg|neg q e]; [words|destruct neg; words|]. unfold float_text.
  assert (C : forall n, forallb name_char (list_ascii_of_string (numeral_of n)) = true) by (intros; eapply digits_chars, numeral_decimal).
  assert (W : forall n, forallb wordy (list_ascii_of_string (numeral_of n)) = true).
  { intros n. eapply forallb_imp; [|apply C]. intros c X. now apply name_char_un. }
  assert (U : forall n, forallb uncomment (list_ascii_of_string (numeral_of n)) = true).
  { intros n. eapply forallb_imp; [|apply C]. intros c X. now apply name_char_un. }
  assert (N : forall n, exists c s, numeral_of n = String c s).
  { intros n. pose proof (decimal_cons _ _ (numeral_decimal n)). destruct (numeral_of n); [congruence|eauto]. }
  set (t := (if (e <? 0)%Z then _ else _)%string).
  assert (T : forallb wordy (list_ascii_of_string t) = true /\ no_pairs (map N_of_ascii (list_ascii_of_string t)) = true /\
              exists c s, t = String c s /\ uncomment c = true).
  { unfold t. destruct (e <? 0)%Z.
    - set (a := numeral_of (q * 5 ^ Z.to_N (- e))). set (b := numeral_of (Z.to_N (- e))). split; [|split].
      + rewrite !ErrorTextFacts.chars_app, !forallb_app. unfold a, b. now rewrite !W.
      + rewrite !ErrorTextFacts.chars_app, !map_app. apply pairs_app; [apply U|]. apply (pairs_app ["e"%char]); [reflexivity|].
        cbn [list_ascii_of_string map app no_pairs]. destruct (N (Z.to_N (- e))) as (c & s & E). pose proof (U (Z.to_N (- e))) as Ub. fold b in E, Ub.
        pose proof (pairs_none _ Ub) as Pb. rewrite E in *. cbn [list_ascii_of_string forallb map] in *. apply andb_true_iff in Ub as [Uc _]. rewrite Pb, andb_true_r.
        revert Uc. unfold uncomment, comment_char, one_of, comment_pair. cbn [existsb]. set (x := N_of_ascii c). clearbody x.
        change (45 =? slash)%N with false. change (45 =? aster)%N with false. change (45 =? dash)%N with true. cbn [andb orb]. destruct (x =? dash)%N; auto.
      + destruct (N (q * 5 ^ Z.to_N (- e))%N) as (c & s & E). fold a in E. exists c, (s ++ "e-" ++ b)%string. rewrite E. split; [reflexivity|].
        pose proof (U (q * 5 ^ Z.to_N (- e))%N) as Ua. fold a in Ua. rewrite E in Ua. cbn in Ua. now apply andb_true_iff in Ua.
    - split; [apply W|]. split; [apply pairs_none, U|]. destruct (N (q * 2 ^ Z.to_N e)%N) as (c & s & E). exists c, s. split; [exact E|].
      pose proof (U (q * 2 ^ Z.to_N e)%N) as Ua. rewrite E in Ua. cbn in Ua. now apply andb_true_iff in Ua. }
  clearbody t. destruct T as (T1 & T2 & c & s & -> & T3). apply word_piece.
  - destruct neg; discriminate.
  - rewrite ErrorTextFacts.chars_app, forallb_app, T1. now destruct neg.
  - destruct neg; [|exact T2]. cbn [append list_ascii_of_string map no_pairs] in *. rewrite T2, andb_true_r.
    revert T3. unfold uncomment, comment_char, one_of, comment_pair. cbn [existsb]. set (x := N_of_ascii c). clearbody x.
    change (45 =? slash)%N with false. change (45 =? aster)%N with false. change (45 =? dash)%N with true. cbn [andb orb]. destruct (x =? dash)%N; auto.
Qed.

Lemma spells_last : forall d p l, piece d p l -> spells d [p] l.
Proof. intros d p l P. rewrite <- (app_nil_r l). constructor; [exact P|constructor]. Qed.
Lemma default_slot : forall d v, known d -> default_ok d v -> v <> DNil -> exists rest x,
  spells d (default_text v) ("DEFAULT" :: rest) /\ item_gen d ("DEFAULT" :: rest) (IDefault x) /\ default_of d x = v /\ safe_item (IDefault x) = true.
Proof.
  intros d [|f|b|s] K D N; [congruence| | |].
  - exists [float_text f], (ALit (float_text f)). cbn [default_ok] in D. apply float_read in D as R.
    assert (M : is_numeric_token (float_text f) = true) by (unfold is_numeric_token; now rewrite R).
    split; [|split; [|split; [|reflexivity]]].
    + apply spells_one; [words|]. apply spells_one; [apply float_piece|constructor].
    + apply item_default_lit; auto. unfold literal. now rewrite M.
    + cbn. unfold literal_value. now rewrite M, R.
  - exists [if b then "TRUE" else "FALSE"], (ALit (if b then "TRUE" else "FALSE")). split; [|split; [|split; [|reflexivity]]].
    + apply spells_one; [words|]. apply spells_one; [destruct b; words|constructor].
    + apply item_default_lit; auto. dialects d K; destruct b; vm_compute; reflexivity.
    + dialects d K; destruct b; vm_compute; reflexivity.
  - cbn [default_ok default_text] in *. destruct (unmarked s).
    + exists [("'" ++ s ++ "'")%string], (ALit ("'" ++ s ++ "'")%string). split; [|split; [|split; [|reflexivity]]].
      * apply spells_one; [words|]. apply spells_one; [now apply string_piece|constructor].
      * apply item_default_lit; auto. unfold literal. replace (quoted (str_quotes d) ("'" ++ s ++ "'")%string) with true; [now rewrite orb_true_r|].
        dialects d K; reflexivity.
      * cbn [default_of]. apply literal_text. dialects d K; reflexivity.
    + apply expr_tokens in D as (body & P & B & T & C). exists ("(" :: body ++ [")"]), (AExpr ("(" :: body ++ [")"])). split; [|split; [|split]].
      * apply spells_one; [words|]. now apply spells_last.
      * now apply item_default_expr.
      * cbn [default_of]. now rewrite T.
      * cbn [safe_item]. now rewrite C.
Qed.

(** ** The constraints of a column *)

Record slot := mk_slot { s_on : bool; s_word : string; s_pieces : list string; s_rest : list string; s_item : a_item }.
Definition slot_ok (d : rdbms) (s : slot) : Prop := s_on s = true ->
  spells d (s_pieces s) (s_word s :: s_rest s) /\ item_gen d (s_word s :: s_rest s) (s_item s) /\ safe_item (s_item s) = true.
Definition on {A} (f : slot -> list A) (ss : list slot) : list A := flat_map (fun s => if s_on s then f s else []) ss.
Definition pieces_in := on s_pieces.
Definition tokens_in := on (fun s => s_word s :: s_rest s).
Definition items_in := on (fun s => [s_item s]).
Definition words_in := on (fun s => [s_word s]).

Lemma slots_head : forall ss x, In x follow -> Forall (fun s => In (s_word s) follow) ss -> exists y, In y follow /\ hdr (tokens_in ss) (Some x) = Some y.
Proof.
  intros ss x X F. induction F as [|s ss H F IH]; [now exists x|]. unfold tokens_in, on. cbn [flat_map]. destruct (s_on s); [|exact IH].
  exists (s_word s). auto.
Qed.
Lemma slots_gens : forall d s ss x, In x follow -> Forall (fun s => In (s_word s) follow) ss -> Forall (slot_ok d) (s :: ss) ->
  spells d (pieces_in (s :: ss)) (tokens_in (s :: ss)) /\
  gens (column_constraint d) (tokens_in (s :: ss)) (Some x) (items_in (s :: ss)) (words_in (s :: ss)) /\
  forallb safe_item (items_in (s :: ss)) = true.
Proof.
  intros d s ss x X F O. revert s O. induction F as [|s' ss H F IH]; intros s O; inversion_clear O as [|? ? O1 O2].
  - unfold pieces_in, tokens_in, items_in, words_in, on. cbn [flat_map]. rewrite !app_nil_r.
    destruct (s_on s) eqn:E; [|split; [constructor|split; [apply gens_nil|reflexivity]]].
    destruct (O1 E) as (A & B & C). split; auto. split; [|cbn; now rewrite C].
    rewrite <- (app_nil_r (_ :: _)). apply gens_cons; [now apply B|apply gens_nil].
  - destruct (IH s' O2) as (A & B & C). unfold pieces_in, tokens_in, items_in, words_in in *.
    change (on ?f (s :: s' :: ss)) with ((if s_on s then f s else []) ++ on f (s' :: ss)).
    destruct (s_on s) eqn:E; [|auto].
    destruct (O1 E) as (A' & B' & C'). split; [now apply spells_app|]. split.
    + change (([s_item s]) ++ on (fun s => [s_item s]) (s' :: ss)) with (s_item s :: on (fun s => [s_item s]) (s' :: ss)).
      change (([s_word s]) ++ on (fun s => [s_word s]) (s' :: ss)) with (s_word s :: on (fun s => [s_word s]) (s' :: ss)).
      destruct (slots_head (s' :: ss) x X) as (y & Y & Z); [now constructor|].
      apply gens_cons; auto. unfold tokens_in in Z. rewrite Z. now apply B'.
    + cbn [app forallb]. now rewrite C', C.
Qed.
Lemma words_nodup : forall (key : string -> string) ss, NoDup (map key (map s_word ss)) -> NoDup (map key (words_in ss)).
Proof.
  intros key. induction ss as [|s ss IH]; [constructor|]. cbn [map]. intros H. inversion_clear H as [|? ? A B]. unfold words_in, on. cbn [flat_map].
  destruct (s_on s); [|now apply IH]. cbn [app map]. constructor; [|now apply IH]. intros I. apply A.
  apply in_map_iff in I as (w & E & I). apply in_flat_map in I as (s' & I & J). destruct (s_on s'); [|destruct J]. destruct J as [<-|[]].
  rewrite <- E. apply in_map. now apply in_map.
Qed.

Definition auto_text (d : rdbms) (c : constraint) : bool := match d with MySQL => false | _ => c_auto c end.
Definition slots (d : rdbms) (c : constraint) (dr : list string) (dx : a_default) (ck : list string) : list slot :=
  [mk_slot (c_notnull c) "NOT" ["NOT"; "NULL"] ["NULL"] INotNull;
   mk_slot (c_pk c) "PRIMARY" (["PRIMARY"; "KEY"] ++ if auto_text d c then ["AUTOINCREMENT"] else []) ("KEY" :: if auto_text d c then ["AUTOINCREMENT"] else [])
     (IPrimary (auto_text d c));
   mk_slot (c_unique c) "UNIQUE" ["UNIQUE"] [] IUnique;
   mk_slot (match d with MySQL => c_auto c | _ => false end) "AUTO_INCREMENT" ["AUTO_INCREMENT"] [] IAuto;
   mk_slot (match c_default c with DNil => false | _ => true end) "DEFAULT" (default_text (c_default c)) dr (IDefault dx);
   mk_slot (negb (c_check c =? "")%string) "CHECK" ["CHECK"; c_check c] ck (ICheck ck);
   mk_slot (negb (c_collate c =? "")%string) "COLLATE" ["COLLATE"; match d with MySQL => in_quotes d (c_collate c) | _ => c_collate c end]
     [match d with MySQL => in_quotes d (c_collate c) | _ => c_collate c end]
     (ICollate (match d with MySQL => in_quotes d (c_collate c) | _ => c_collate c end));
   mk_slot (negb (no_reference (c_references c))) "REFERENCES" (reference_text d (c_references c)) (tl (reference_text d (c_references c)))
     (IReferences (mk_aref None (in_quotes d (ref_table (c_references c))) (ref_columns (c_references c))))].

Lemma slots_text : forall d c dr dx ck, constraint_text d c = cname_text d (c_name c) ++ pieces_in (slots d c dr dx ck).
Proof.
  intros d c dr dx ck. unfold constraint_text, pieces_in, on, slots. cbn [flat_map s_on s_pieces]. f_equal. f_equal.
  f_equal; [destruct (c_pk c); auto; f_equal; now destruct d|]. f_equal. f_equal; [now destruct d|].
  f_equal; [now destruct (c_default c)|]. f_equal; [now destruct (c_check c =? "")%string|]. f_equal; [now destruct (c_collate c =? "")%string|].
  rewrite app_nil_r. now destruct (no_reference (c_references c)).
Qed.

Lemma existsb_if : forall (f : a_item -> bool) (b : bool) i, existsb f (if b then [i] else []) = b && f i.
Proof. intros f [] i; cbn; [apply orb_false_r|reflexivity]. Qed.
Lemma first_of_app : forall A B (f : A -> option B) a b, first_of f (a ++ b) = match first_of f a with Some x => Some x | None => first_of f b end.
Proof. intros A B f a b. induction a as [|x a IH]; cbn; auto. destruct (f x); auto. Qed.
Lemma first_of_if : forall B (f : a_item -> option B) (b : bool) i, first_of f (if b then [i] else []) = if b then f i else None.
Proof. intros B f [] i; cbn; auto. now destruct (f i). Qed.
Lemma if_same : forall A (b : bool), (if b then None else None : option A) = None.
Proof. now intros A []. Qed.
Lemma if_some : forall A (o : option A), match o with Some x => Some x | None => None end = o.
Proof. now intros A []. Qed.

Lemma slots_meaning : forall d c dr dx ck cn, known d -> constraint_ok d c -> opt_name d cn = c_name c ->
  (c_default c <> DNil -> default_of d dx = c_default c) -> (c_check c <> "" -> text ck = c_check c) ->
  constraint_of d cn (items_in (slots d c dr dx ck)) = c.
Proof.
  intros d c dr dx ck cn K (_ & A & _ & _ & L & R & _) N D T. unfold items_in, on, slots, constraint_of. cbn [flat_map s_on s_item].
  rewrite !app_nil_r. rewrite !existsb_app, !first_of_app, !existsb_if, !first_of_if.
  rewrite !andb_false_r, !andb_true_r, !orb_false_r. cbn [orb]. rewrite N. rewrite !if_same, !if_some.
  assert (H1 : c_pk c && (if auto_text d c then true else false) || match d with MySQL => c_auto c | _ => false end = c_auto c).
  { dialects d K; cbn [auto_text]; destruct (c_auto c); rewrite ?andb_false_r, ?andb_true_r, ?orb_false_r; auto. }
  assert (H2 : or_else (if match c_default c with DNil => false | _ => true end then Some (default_of d dx) else None) DNil = c_default c).
  { destruct (c_default c); cbn; auto; apply D; discriminate. }
  assert (H3 : or_else (if negb (c_check c =? "")%string then Some (text ck) else None) "" = c_check c).
  { destruct (String.eqb_spec (c_check c) "") as [E|E]; cbn; auto. }
  assert (H4 : or_else (if negb (c_collate c =? "")%string then Some (unquote d match d with MySQL => in_quotes d (c_collate c) | _ => c_collate c end) else None) "" = c_collate c).
  { destruct (String.eqb_spec (c_collate c) "") as [E|E]; cbn; auto. dialects d K; cbn [collate_ok] in L; [|congruence|now apply unquote_name].
    destruct L as [L|L]; [congruence|]. apply matches_spec in L as (w & I & L). cbn in I.
    destruct I as [<-|[<-|[<-|[]]]]; destruct L as [-> | ->]; reflexivity. }
  assert (H5 : or_else (if negb (no_reference (c_references c)) then Some (reference_of d (mk_aref None (in_quotes d (ref_table (c_references c))) (ref_columns (c_references c)))) else None)
     zero_reference = c_references c).
  { unfold no_reference, reference_of. cbn [ar_table ar_columns]. rewrite unquote_name by auto. destruct (c_references c) as [t [cs|]]; cbn [ref_table ref_columns].
    - rewrite andb_false_r. reflexivity.
    - destruct (String.eqb_spec t "") as [->|E]; reflexivity. }
  rewrite H1, H2, H3, H4, H5. now destruct c.
Qed.

Ltac one_words := repeat (apply spells_one; [first [words|symbols]|]); try constructor.

Lemma names_one : forall d c, key_ok d c -> spells d (names_text [c]) ["("; c; ")"].
Proof. intros d c K. cbn. apply spells_one; [symbols|]. apply spells_one; [now apply key_piece|]. one_words. Qed.

Lemma slots_exist : forall d c, known d -> constraint_ok d c -> exists dr dx ck, Forall (slot_ok d) (slots d c dr dx ck) /\
  (c_default c <> DNil -> default_of d dx = c_default c) /\ (c_check c <> "" -> text ck = c_check c).
Proof.
  intros d c K (N & A & D & C & L & R & O).
  assert (DD : exists dr dx, c_default c <> DNil -> spells d (default_text (c_default c)) ("DEFAULT" :: dr) /\
    item_gen d ("DEFAULT" :: dr) (IDefault dx) /\ default_of d dx = c_default c /\ safe_item (IDefault dx) = true).
  { destruct (c_default c) eqn:E; [exists [], (ALit ""); congruence| | |];
      (destruct (default_slot d _ K D) as (dr & dx & H); [discriminate|exists dr, dx; auto]). }
  assert (CC : exists body, c_check c <> "" -> piece d (c_check c) ("(" :: body ++ [")"]) /\ balanced body /\
    text ("(" :: body ++ [")"]) = c_check c /\ double_comma ("(" :: body ++ [")"]) = false).
  { destruct C as [->|C]; [exists []; congruence|]. apply expr_tokens in C as (body & C). now exists body. }
  destruct DD as (dr & dx & DD). destruct CC as (body & CC). exists dr, dx, ("(" :: body ++ [")"]).
  split; [|split; [intros H; now apply DD|intros H; now apply CC]].
  unfold slots; repeat (apply Forall_cons || apply Forall_nil); unfold slot_ok; cbn [s_on s_word s_pieces s_rest s_item safe_item]; intros E.
  - split; [one_words|split; [apply item_notnull|reflexivity]].
  - split; [|split; [|reflexivity]].
    + destruct (auto_text d c); cbn [app]; one_words.
    + destruct (auto_text d c) eqn:U; [|apply item_primary]. dialects d K; cbn in U; try discriminate; [apply item_auto_primary|]. destruct (A U).
  - split; [one_words|split; [apply item_unique|reflexivity]].
  - split; [one_words|split; [|reflexivity]]. dialects d K; try discriminate. apply item_auto.
  - destruct (c_default c) eqn:Z; try discriminate; (destruct DD as (D1 & D2 & D3 & D4); [discriminate|]; auto).
  - apply negb_true_iff, String.eqb_neq in E. destruct (CC E) as (C1 & C2 & C3 & C4). split; [|split; [now apply item_check|now rewrite C4]].
    apply spells_one; [words|]. now apply spells_last.
  - apply negb_true_iff, String.eqb_neq in E. dialects d K; cbn [collate_ok] in L; [|congruence|].
    + destruct L as [L|L]; [congruence|]. split; [|split; [now apply item_collate_sqlite|reflexivity]].
      apply matches_spec in L as (w & I & L). cbn in I. apply spells_one; [words|]. apply spells_one; [|constructor].
      destruct I as [<-|[<-|[<-|[]]]]; destruct L as [-> | ->]; words.
    + split; [|split; [|reflexivity]].
      * apply spells_one; [words|]. apply spells_one; [now apply name_piece|constructor].
      * apply item_collate_mysql, name_legal.
  - destruct R as [R1 R2]. unfold reference_text. destruct (ref_columns (c_references c)) as [[|k [|k' ks]]|]; [destruct R2; congruence| |destruct O|].
    + destruct R2 as [_ R2]. inversion_clear R2 as [|? ? R3 _]. cbn [app tl]. split; [|split; [|reflexivity]].
      * apply spells_one; [words|]. apply spells_one; [now apply name_piece|]. now apply names_one.
      * apply item_ref_column; [auto|apply name_legal|now apply key_legal].
    + cbn [app tl]. split; [|split; [|reflexivity]].
      * apply spells_one; [words|]. apply spells_one; [now apply name_piece|constructor].
      * apply item_ref; [auto|apply name_legal].
Qed.

Definition column_constraints (d : rdbms) : gr (list a_item) :=
  match d with
  | PostgreSQL => GPostgres.column_constraints
  | MySQL => GMysql.column_constraints
  | _ => GSqlite.column_constraints
  end.
Lemma constraints_gen : forall d c, known d -> constraint_ok d c -> exists l is, spells d (constraint_text d c) (cname_text d (c_name c) ++ l) /\
  (forall x, In x [","; ")"] -> gen (column_constraints d) l (Some x) is) /\
  (forall cn, opt_name d cn = c_name c -> constraint_of d cn is = c) /\ forallb safe_item is = true.
Proof.
  intros d c K H. destruct (slots_exist d c K H) as (dr & dx & ck & S & D & T).
  assert (F : Forall (fun s => In (s_word s) follow) (tl (slots d c dr dx ck))).
  { cbn [slots tl]. repeat (apply Forall_cons || apply Forall_nil); cbn [s_word follow In]; tauto. }
  exists (tokens_in (slots d c dr dx ck)), (items_in (slots d c dr dx ck)).
  assert (G : forall x, In x follow -> spells d (pieces_in (slots d c dr dx ck)) (tokens_in (slots d c dr dx ck)) /\
    gens (column_constraint d) (tokens_in (slots d c dr dx ck)) (Some x) (items_in (slots d c dr dx ck)) (words_in (slots d c dr dx ck)) /\
    forallb safe_item (items_in (slots d c dr dx ck)) = true).
  { intros x X. apply (slots_gens d _ _ x X F S). }
  split; [|split; [|split]].
  - rewrite (slots_text d c dr dx ck). apply spells_app; [|apply (G ","); cbn; tauto]. unfold cname_text. apply spells_if. intros _.
    apply spells_one; [words|]. apply spells_one; [|constructor]. apply name_piece, H.
  - intros x X. destruct (G x) as (_ & G' & _); [cbn in *; tauto|].
    assert (ND : NoDup (map (kind d) (words_in (slots d c dr dx ck)))).
    { apply words_nodup. cbn [slots map s_word]. dialects d K; vm_compute; repeat apply NoDup_cons; try apply NoDup_nil; intros I; repeat destruct I as [I|I]; try discriminate; contradiction. }
    dialects d K; cbn [column_constraints]; eapply gen_whileu; [exact G'|exact ND|exact G'|exact ND|exact G'|exact ND].
  - intros cn N. now apply slots_meaning.
  - apply (G ","). cbn; tauto.
Qed.

Definition cname (d : rdbms) (n : string) : option string := if (n =? "")%string then None else Some (in_quotes d n).
Lemma cname_meaning : forall d n, known d -> opt_name d (cname d n) = n.
Proof. intros d n K. unfold cname. destruct (String.eqb_spec n "") as [->|E]; [reflexivity|]. now apply unquote_name. Qed.
Lemma cname_gen : forall d n nxt, known d -> gen (column_cname d) (cname_text d n) nxt (cname d n).
Proof.
  intros d n nxt K. unfold cname_text, cname. destruct (n =? "")%string; dialects d K; cbn [column_cname].
  1,2: apply gen_none. 1: apply gen_right; build.
  1,2: apply gen_some; eapply gen_map; [apply gen_tok; [tok|]; apply gen_one, name_legal|reflexivity].
  apply gen_left. eapply gen_map; [apply gen_tok; [tok|]; apply gen_right; eapply gen_map; [apply gen_one, name_legal|reflexivity]|reflexivity].
Qed.

(** ** Columns *)

(** the element is printed as these pieces *)
Definition prints (d : rdbms) (ps : list string) (e : a_element) : Prop :=
  exists l, spells d ps l /\ (forall x, In x [","; ")"] -> gen (element d) l (Some x) e) /\ safe_element e = true /\ silent e = false.

Theorem column_prints : forall d c, known d -> column_ok d c -> exists a, prints d (column_text d c) (EColumn a) /\ column_of d a = c.
Proof.
  intros d c K (N & T & C). destruct (constraints_gen d _ K C) as (l & is & S & G & M & Y).
  set (cn := cname d (c_name (col_constraint c))).
  exists (mk_acolumn (in_quotes d (col_name c)) (type_ast (col_type c)) cn is). split.
  - exists (in_quotes d (col_name c) :: type_text d (col_type c) ++ cname_text d (c_name (col_constraint c)) ++ l). split; [|split; [|split; [|reflexivity]]].
    + unfold column_text. apply spells_one; [now apply name_piece|]. apply spells_app; [now apply type_spells|exact S].
    + intros x X. specialize (G x X).
      assert (E : gen (One true (CName d) ** column_type d ** column_cname d ** column_constraints d)
        (in_quotes d (col_name c) :: type_text d (col_type c) ++ cname_text d (c_name (col_constraint c)) ++ l) (Some x)
        (in_quotes d (col_name c), (type_ast (col_type c), (cn, is)))).
      { apply gen_tok; [apply name_legal|]. apply gen_seq; [now apply type_gen|]. apply gen_seq; [now apply cname_gen|exact G]. }
      dialects d K; cbn [element]; apply gen_right; (eapply gen_map; [exact E|reflexivity]).
    + cbn [safe_element]. unfold safe_column. cbn [ac_cname ac_items]. rewrite Y, andb_true_r. unfold cn, cname.
      destruct (c_name (col_constraint c) =? "")%string; [reflexivity|]. dialects d K; reflexivity.
  - unfold column_of. cbn [ac_name ac_type ac_cname ac_items]. rewrite unquote_name by auto. rewrite (type_meaning d) by auto.
    rewrite M by now apply cname_meaning. now destruct c.
Qed.
