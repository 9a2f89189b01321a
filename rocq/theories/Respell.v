(** Reserved words in another case: the validator's verdict stays the same. *)
From Coq Require Import String Ascii List Bool Arith NArith Lia.
From Verif Require Import GoStr GoNum Types Lexer VBase Exec Grammar GrammarFacts Ast Parse Fuel Scan Spec Pipe Meaning Names GoFloats GoFloatsRead DocWords DocFacts
  RenameTokens Recase RecaseFacts Resp RespText Cased.
From Verif Require GSqlite GPostgres GMysql.
Import ListNotations.
Open Scope nat_scope.
Open Scope string_scope.

(** ** Words *)

Lemma respelled_refl : forall t, respelled t t.
Proof. intros. now left. Qed.
Lemma respelled_sym : forall t t', respelled t t' -> respelled t' t.
Proof. intros t t' [->|(w & I & A & B)]; [now left|right; eauto]. Qed.
Lemma respelled_same : forall t t', respelled t t' -> same t t'.
Proof.
  intros t t' [->|(w & _ & A & B)]; [now left|right].
  assert (C : forall u, u = to_upper w \/ u = to_lower w -> cased u /\ to_upper u = to_upper w).
  { intros u [->| ->]; rewrite ?upper_upper, ?upper_lower; split; auto; [right; now rewrite upper_upper|left; now rewrite lower_lower]. }
  destruct (C _ A) as [C1 U1], (C _ B) as [C2 U2]. repeat split; auto. congruence.
Qed.
Lemma pattern_upper : forall t, name_pattern (to_upper t) = name_pattern t.
Proof.
  assert (A : forall c, name_start (upper_ascii c) = name_start c /\ name_char (upper_ascii c) = name_char c).
  { intros [[] [] [] [] [] [] [] []]; split; reflexivity. }
  assert (B : forall s, all_chars name_char (to_upper s) = all_chars name_char s).
  { induction s as [|c s IH]; auto. cbn [to_upper all_chars]. now rewrite IH, (proj2 (A c)). }
  intros [|c s]; auto. cbn [to_upper name_pattern]. now rewrite B, (proj1 (A c)).
Qed.
Lemma respelled_words : forall t t', respelled t t' -> t = t' \/ (word t /\ word t').
Proof.
  intros t t' [->|(w & I & A & B)]; [now left|right].
  assert (X : forall u, u = to_upper w \/ u = to_lower w -> word u).
  { intros u [->| ->]; apply pattern_word; [|rewrite <- pattern_upper, upper_lower]; rewrite pattern_upper; now apply word_pattern. }
  auto.
Qed.
Lemma word_head : forall (p : ascii -> bool) t, word t -> forallb p letters = true -> exists c s, t = String c s /\ p c = true.
Proof. intros p t (c & s & -> & I & _) P. exists c, s. split; auto. rewrite forallb_forall in P. auto. Qed.
Lemma word_atoi : forall t, word t -> atoi t = ISyntax.
Proof.
  intros t W. destruct W as (c & s & -> & I & _).
  assert (P : forallb (fun c => match atoi (String c s) with ISyntax => true | _ => false end) letters = true).
  { unfold letters. cbn [list_ascii_of_string forallb]. cbn. reflexivity. }
  rewrite forallb_forall in P. specialize (P c I). cbn beta in P. destruct (atoi (String c s)); auto; discriminate.
Qed.
Lemma respelled_atoi : forall t t', respelled t t' -> atoi t = atoi t'.
Proof. intros t t' [->|[P P']]%respelled_words; auto. now rewrite !word_atoi. Qed.
Lemma word_float : forall t, word t -> parse_float t = special_float t.
Proof.
  intros t W. destruct (parse_float t) as [f|] eqn:P.
  - destruct (parse_only _ _ P) as [S|(neg & hex & m & fr & x & G)]; auto. exfalso.
    apply numeral_head in G as (c' & r & E & I).
    destruct (word_head (fun c => negb (existsb (Ascii.eqb c) number_heads)) t W) as (c & s & -> & Q); [vm_compute; reflexivity|].
    inversion E; subst. apply negb_true_iff in Q. rewrite <- not_true_iff_false in Q. apply Q. apply existsb_exists. exists c'. split; auto. apply Ascii.eqb_refl.
  - unfold parse_float in P. destruct (special_float t); [discriminate|auto].
Qed.
Lemma respelled_float : forall t t', respelled t t' -> parse_float t = parse_float t'.
Proof.
  intros t t' H. pose proof (same_upper _ _ (respelled_same _ _ H)) as U. apply respelled_words in H as [->|[P P']]; auto.
  rewrite !word_float by auto. unfold special_float. now rewrite <- (lower_upper t), U, lower_upper.
Qed.
Lemma respelled_int : forall t t', respelled t t' -> is_positive_integer_token t = is_positive_integer_token t'.
Proof. intros t t' H. unfold is_positive_integer_token. now rewrite (respelled_atoi _ _ H). Qed.
Lemma respelled_num : forall t t', respelled t t' -> is_numeric_token t = is_numeric_token t'.
Proof. intros t t' H. unfold is_numeric_token. now rewrite (respelled_float _ _ H). Qed.
Lemma word_first : forall qs t, (forall c, contains qs c = true -> contains [""""; "'"; "`"] c = true) -> word t -> first_byte_in qs t = Ret false.
Proof.
  intros qs t Q W. unfold first_byte_in.
  destruct (word_head (fun c => negb (contains [""""; "'"; "`"] (String c ""))) t W) as (c & s & -> & P); [vm_compute; reflexivity|]. cbn [slice01].
  apply negb_true_iff in P. destruct (contains qs (String c "")) eqn:E; auto.
  apply Q in E. congruence.
Qed.
Lemma quotes_sub : forall d c, contains (id_quotes d) c = true \/ contains (str_quotes d) c = true -> contains [""""; "'"; "`"] c = true.
Proof. intros d c H. rewrite !contains_spec in *. destruct d; cbn in *; tauto. Qed.

Definition any_words (ws : list string) : Prop := True.
Notation fits_ := (fits respelled any_words).
Notation class_ := (class_fits respelled any_words).
Lemma fits_name : forall d, class_ (CName d).
Proof.
  intros d t t' H. pose proof (same_upper _ _ (respelled_same _ _ H)) as U.
  destruct (respelled_words _ _ H) as [->|[P P']]; auto.
  unfold valid_name. rewrite !word_first; auto; try (intros c C; apply (quotes_sub d); auto). cbn.
  now rewrite <- (pattern_upper t), <- (pattern_upper t'), U.
Qed.
Lemma fits_first : forall d t t', respelled t t' -> first_byte_in (str_quotes d) t = first_byte_in (str_quotes d) t'.
Proof.
  intros d t t' H. destruct (respelled_words _ _ H) as [->|[P P']]; auto.
  rewrite !word_first; auto; intros c' Q; apply (quotes_sub d); auto.
Qed.
Lemma fits_str : forall d c, c = CLit d \/ c = CStr d -> class_ c.
Proof.
  intros d c [-> | ->] t t' H; [|now apply fits_first]. split; [exact I|split; [now apply respelled_num|now apply fits_first]].
Qed.
Lemma fits_other : forall c, match c with CW _ | CPos => True | _ => False end -> class_ c.
Proof. intros [] H t t' E; try contradiction; first [exact I|eapply respelled_int; exact E]. Qed.

Ltac fit :=
  lazymatch goal with
  | |- fits _ _ ?g =>
    lazymatch g with
    | One _ (CName _) => apply fits_name
    | One _ (CLit ?d) => apply (fits_str d); now left
    | One _ (CStr ?d) => apply (fits_str d); now right
    | One _ _ => apply fits_other; exact I
    | Seq _ _ => apply fits_seq; fit
    | Map _ _ => apply fits_map; fit
    | Cond _ _ _ => apply fits_cond; [exact I|fit|fit]
    | While _ _ => apply fits_while; [exact I|fit]
    | WhileU _ _ _ => apply fits_whileu; [exact I|intros ? ? ?%respelled_same _; first [now apply keys_upper|now apply keys_postgres|now apply keys_mysql]|fit]
    | SepBy _ _ => apply fits_sepby; fit
    | Eps => exact I | Put _ => exact I | NotNext _ => exact I | IsNext _ => exact I | Brackets _ => exact I | Skip => exact I
    | _ => let g' := eval red in g in change g with g'; fit
    end
  end.

Lemma fits_script : forall d, fits_ (script d).
Proof. intros []; cbn [script]; fit. Qed.

Lemma respelled_verdict : forall d l l', Forall2 respelled l l' -> forall n,
  like respelled (exec (prog (script d) n) l) (exec (prog (script d) n) l').
Proof.
  intros d l l' F n. apply (resp_prog _ (respelled_refl) any_words); [|repeat split|apply fits_script|exact F].
  intros ws t t' _ H. apply same_matches, (respelled_same _ _ H).
Qed.

Lemma respelled_nl : forall t t', respelled t t' -> is_nl t = is_nl t'.
Proof.
  intros t t' [->|[P P']]%respelled_words; auto.
  assert (H : forall u, word u -> is_nl u = false).
  { intros u W. destruct (word_head (fun c => negb (Ascii.eqb c "010")) u W) as (c & s & -> & Q); [vm_compute; reflexivity|].
    unfold is_nl. destruct (String.eqb_spec (String c s) NL) as [E|]; auto. inversion E; subst. discriminate. }
  now rewrite (H t), (H t').
Qed.

Theorem respelled_rejected : forall d ddl ddl' toks toks' line near, lexes d ddl toks -> lexes d ddl' toks' ->
  Forall2 respelled toks toks' -> rejected ddl d line near -> exists near', rejected ddl' d line near' /\ respelled near near'.
Proof. intros d. apply resp_rejected; [apply respelled_refl|apply respelled_nl|apply respelled_verdict]. Qed.
Theorem respelled_scripts : forall d ddl ddl' toks toks', lexes d ddl toks -> lexes d ddl' toks' ->
  Forall2 respelled toks toks' ->
  ((exists stmts, says d ddl stmts) <-> (exists stmts, says d ddl' stmts)).
Proof. intros d. apply resp_scripts; [apply respelled_nl|apply respelled_verdict|apply respelled_sym]. Qed.
