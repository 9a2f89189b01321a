(** Names are told apart neither by the lexical classes nor by the words of the grammars. *)
From Coq Require Import String Ascii List Bool Arith NArith ZArith Lia.
From Verif Require Import GoStr GoNum Types Lexer VBase Exec Grammar GrammarFacts Ast Spec Scan Pipe Names TypeNames Recase RecaseFacts Resp RespText Rename
  Numbers Floats GoFloats GoFloatsRead.
From Verif Require GSqlite GPostgres GMysql.
Import ListNotations.
Open Scope nat_scope.
Open Scope string_scope.

(** ** The first character *)
Definition name_head (d : rdbms) (c : ascii) : Prop := In c letters \/ In (String c "") (id_quotes d).
Lemma legal_head : forall d t, legal d t -> exists c s, t = String c s /\ name_head d c.
Proof.
  intros d t [(q & s & -> & I)|[(c & s & -> & I & _) _]]; [exists q, (s ++ String q "")|exists c, s]; split; auto; [now right|now left].
Qed.
Definition head_ok (p : ascii -> bool) (d : rdbms) : Prop := forall c, name_head d c -> p c = true.
Definition id_marks : list ascii := ["034"; "096"]%char.
Lemma head_cases : forall d c, name_head d c -> In c (id_marks ++ letters)%list.
Proof.
  intros d c [H|H]; apply in_or_app; [now right|left].
  destruct d; cbn [id_quotes In] in H; repeat (destruct H as [H|H]; [inversion H; subst; cbn; tauto|]); contradiction.
Qed.
Lemma head_all : forall p d, forallb p (id_marks ++ letters)%list = true -> head_ok p d.
Proof. intros p d H c C. apply head_cases in C. rewrite forallb_forall in H. auto. Qed.

Lemma legal_legal : forall d t, legal d t -> legal_name d t = true.
Proof.
  intros d t [(q & s & -> & I)|[(c & s & -> & I & F) N]]; unfold legal_name.
  - cbn [quoted]. apply contains_spec in I. now rewrite I.
  - apply orb_true_iff. right. apply andb_true_iff. split.
    + assert (L : forall x, In x letters -> name_start x = true).
      { apply forallb_forall. vm_compute. reflexivity. }
      assert (D : forall x, In x digits -> name_char x = true).
      { apply forallb_forall. vm_compute. reflexivity. }
      cbn [name_pattern]. rewrite (L _ I). cbn [andb]. clear - F L D. induction s as [|x s IH]; auto. cbn in F. inversion F as [|? ? H F']; subst.
      cbn [all_chars]. rewrite (IH F'), andb_true_r. destruct H; auto. unfold name_char. now rewrite L.
    + apply negb_true_iff. apply contains_false. exact N.
Qed.

(** ** Not a number *)
Lemma digit_of_table : forall c k, In (c, k) digit_table -> In c digits.
Proof. intros c k H. cbn in H. repeat (destruct H as [H|H]; [inversion H; subst; cbn; tauto|]); contradiction. Qed.
Lemma grouped_head : forall s ds, grouped digit_table s ds -> exists c r, s = String c r /\ In c digits.
Proof. intros s ds []; do 2 eexists; (split; [reflexivity|eapply digit_of_table; eauto]). Qed.
Definition number_heads : list ascii := (["+"; "-"; "."]%char ++ digits)%list.
Lemma mantissa_head : forall s ds n, mantissa digit_table s ds n -> exists c r, s = String c r /\ In c number_heads.
Proof.
  assert (D : forall c, In c digits -> In c number_heads) by (intros; apply in_or_app; auto).
  intros s ds n [s' ds' G|s' ds' G|s' ds' G|s' ds' s2 ds2 G G2].
  - apply grouped_head in G as (c & r & -> & I). exists c, r. auto.
  - apply grouped_head in G as (c & r & -> & I). cbn [append]. eexists c, _. split; [reflexivity|auto].
  - exists "."%char, s'. split; auto. cbn. tauto.
  - apply grouped_head in G as (c & r & -> & I). cbn [append]. eexists c, _. split; [reflexivity|auto].
Qed.
Lemma numeral_head : forall s neg hex m frac x, go_numeral s neg hex m frac x -> exists c r, s = String c r /\ In c number_heads.
Proof.
  assert (G : forall sg neg s, sign sg neg -> (exists c r, s = String c r /\ In c number_heads) ->
    exists c r, (sg ++ s)%string = String c r /\ In c number_heads).
  { intros sg neg s [] H; auto; do 2 eexists; (split; [reflexivity|cbn; tauto]). }
  intros s neg hex m frac x [sg ng s' ds fr m' A B C|sg ng s' ds fr m' ex x' A B C D|sg ng c s' ds fr m' ex x' A B C D E|sg ng c s' ds fr m' ex x' A B C D E F]; apply (G _ _ _ A).
  - eapply mantissa_head; eauto.
  - apply mantissa_head in B as (c & r & -> & I). cbn [append]. eexists c, _. split; [reflexivity|auto].
  - do 2 eexists. split; [reflexivity|cbn; tauto].
  - do 2 eexists. split; [reflexivity|cbn; tauto].
Qed.

(** ** Names *)
Definition marks : list string := ["("; ")"; ","; ";"; "."; "="; "0"; "1"].
Definition known_words (d : rdbms) (ws : list string) : Prop := forallb (fun w => contains (vocabulary d) w || contains marks w) ws = true.
Definition is_upper (w : string) : bool := to_upper w =? w.
Lemma vocabulary_upper : forall d, forallb is_upper (vocabulary d) = true.
Proof. intros []; vm_compute; reflexivity. Qed.
Definition mark_head (c : ascii) : bool := negb (existsb (fun m => match m with String x _ => Ascii.eqb x c | _ => false end) marks).

Section Names.
Variables (d : rdbms) (t : string).
Hypothesis N : name_token d t.

Lemma nt_matches : forall ws, known_words d ws -> matches ws t = false.
Proof.
  intros ws K. destruct (matches ws t) eqn:M; auto. exfalso. apply matches_spec in M as (w & I & E).
  unfold known_words in K. rewrite forallb_forall in K. apply K in I. clear K. destruct N as [L V]. apply orb_true_iff in I as [I|I]; apply contains_spec in I.
  - apply V. pose proof (vocabulary_upper d) as U. rewrite forallb_forall in U. pose proof (proj1 (String.eqb_eq _ _) (U _ I)) as X.
    destruct E as [-> | ->]; rewrite ?upper_lower, ?upper_upper, X; exact I.
  - destruct (legal_head _ _ L) as (c & s & E' & H).
    assert (P : mark_head c = true) by (apply (head_all mark_head d); [vm_compute; reflexivity|exact H]).
    assert (F : mark_head c = false); [|congruence].
    clear - E E' I. cbn in I. repeat (destruct I as [<-|I]; [destruct E as [E|E]; rewrite E in E'; inversion E'; subst; reflexivity|]). contradiction.
Qed.
Lemma nt_legal : legal_name d t = true.
Proof. apply legal_legal, N. Qed.
Lemma nt_not_numeral : parse_float t = None.
Proof.
  destruct (parse_float t) as [f|] eqn:P; auto. exfalso. destruct N as [L V]. destruct (legal_head _ _ L) as (c & s & -> & H).
  assert (Q : negb (existsb (Ascii.eqb c) number_heads) = true).
  { apply (head_all (fun c => negb (existsb (Ascii.eqb c) number_heads)) d); [vm_compute; reflexivity|exact H]. }
  assert (X : forall x, In x number_heads -> x <> c).
  { intros x I ->. apply negb_true_iff in Q. rewrite <- not_true_iff_false in Q. apply Q. apply existsb_exists. exists c. split; auto. apply Ascii.eqb_refl. }
  destruct (parse_only _ _ P) as [S|(neg & hex & m & fr & x & G)].
  - assert (W : forall w, to_lower (String c s) = w -> In (to_upper w) (vocabulary d) -> False).
    { intros w <- I. apply V. now rewrite upper_lower in I. }
    assert (Z : forall x w, to_lower (String c s) = String x w -> lower_ascii c = x) by (intros x w E; now inversion E).
    assert (Y : lower_ascii c <> "+"%char /\ lower_ascii c <> "-"%char).
    { assert (B : negb (existsb (Ascii.eqb (lower_ascii c)) ["+"; "-"]%char) = true).
      { apply (head_all (fun c => negb (existsb (Ascii.eqb (lower_ascii c)) ["+"; "-"]%char)) d); [vm_compute; reflexivity|exact H]. }
      split; intros E; rewrite E in B; discriminate. }
    unfold special_float in S.
    repeat match type of S with context [?a =? ?b] => destruct (String.eqb_spec a b) as [E|_]; cbn [orb] in S end;
      try discriminate; try (apply (W _ E); apply contains_spec; destruct d; vm_compute; reflexivity); apply Z in E; tauto.
  - apply numeral_head in G as (c' & r & E & I). inversion E; subst. now apply (X c').
Qed.
Lemma nt_numeric : is_numeric_token t = false.
Proof. unfold is_numeric_token. now rewrite nt_not_numeral. Qed.
Lemma nt_positive : is_positive_integer_token t = false.
Proof.
  destruct N as [L _]. destruct (legal_head _ _ L) as (c & s & -> & H). unfold is_positive_integer_token.
  assert (P : forallb (fun c => match atoi (String c s) with ISyntax => true | _ => false end) (id_marks ++ letters)%list = true).
  { unfold id_marks, letters. cbn [list_ascii_of_string app forallb]. cbn. reflexivity. }
  rewrite forallb_forall in P. specialize (P c (head_cases _ _ H)). cbn beta in P. destruct (atoi (String c s)); auto; discriminate.
Qed.
Lemma nt_quoted : forall d', quoted (str_quotes d') t = true -> d' <> MySQL \/ d = MySQL -> False.
Proof.
  intros d' Q D. destruct N as [L _]. destruct (legal_head _ _ L) as (c & s & -> & H). cbn [quoted] in Q. apply contains_spec in Q.
  destruct H as [H|H].
  - assert (P : negb (contains [""""; "'"] (String c "")) = true).
    { clear - H. revert c H. apply (forallb_forall (fun c => negb (contains [""""; "'"] (String c "")))). vm_compute. reflexivity. }
    apply negb_true_iff, contains_false in P. apply P. destruct d'; cbn in Q |- *; tauto.
  - destruct D as [D| ->]; [destruct d', d; try congruence|destruct d']; cbn in Q, H;
      repeat (destruct Q as [Q|Q]; [rewrite <- Q in H; repeat (destruct H as [H|H]; [discriminate|]); contradiction|]); contradiction.
Qed.
Lemma nt_nl : is_nl t = false.
Proof.
  destruct N as [L _]. destruct (legal_head _ _ L) as (c & s & -> & H). unfold is_nl.
  destruct (String.eqb_spec (String c s) NL) as [E|]; auto. exfalso. inversion E; subst.
  apply head_cases in H. vm_compute in H. repeat (destruct H as [H|H]; [discriminate|]). contradiction.
Qed.
End Names.
