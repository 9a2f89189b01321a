(** Other strings: the verdict of the validator stays the same. *)
From Coq Require Import String Ascii List Bool Arith NArith ZArith Lia.
From Verif Require Import GoStr GoNum Types Lexer VBase Exec Grammar GrammarFacts Ast Spec Scan Pipe Names Recase RecaseFacts Resp RespText Rename RenameTokens
  RenameVerdict GoFloats GoFloatsRead Literal.
From Verif Require GSqlite GPostgres GMysql.
Import ListNotations.
Open Scope nat_scope.
Open Scope string_scope.

Definition string_marks : list ascii := ["034"; "039"]%char.
Section Strings.
Variables (d : rdbms) (t : string).
Hypothesis N : string_token d t.

Lemma st_head : exists c s, t = String c s /\ In c string_marks /\ In (String c "") (str_quotes d).
Proof.
  destruct N as (q & s & -> & I). exists q, (s ++ String q ""). repeat split; auto.
  destruct d; cbn in I; repeat (destruct I as [I|I]; [inversion I; subst; cbn; tauto|]); contradiction.
Qed.
Lemma st_nonempty : t <> "".
Proof. destruct N as (q & s & -> & _). discriminate. Qed.
Lemma st_nl : is_nl t = false.
Proof.
  destruct st_head as (c & s & E & I & _). rewrite E. cbn in I. destruct I as [<-|[<-|[]]]; reflexivity.
Qed.
Definition no_string (w : string) : bool := match w with String c _ => negb (existsb (Ascii.eqb c) string_marks) | _ => true end.
Lemma known_no_string : forall ws, known_words d ws -> forallb (fun w => no_string (to_upper w) && no_string (to_lower w)) ws = true.
Proof.
  intros ws K. unfold known_words in K. rewrite forallb_forall in *. intros w I. specialize (K w I).
  assert (V : forallb (fun w => no_string (to_upper w) && no_string (to_lower w)) (vocabulary d) = true) by (destruct d; vm_compute; reflexivity).
  assert (M : forallb (fun w => no_string (to_upper w) && no_string (to_lower w)) marks = true) by (vm_compute; reflexivity).
  rewrite forallb_forall in V, M. apply orb_true_iff in K as [K|K]; apply contains_spec in K; auto.
Qed.
Lemma st_no_string : no_string t = false.
Proof. destruct st_head as (c & s & E & I & _). rewrite E. cbn in I. destruct I as [<-|[<-|[]]]; reflexivity. Qed.
Lemma st_matches : forall ws, known_words d ws -> matches ws t = false.
Proof.
  intros ws K%known_no_string. destruct (matches ws t) eqn:M; auto. exfalso. apply matches_spec in M as (w & I & E).
  rewrite forallb_forall in K. apply K in I. apply andb_true_iff in I as [A B]. pose proof st_no_string. destruct E as [E|E]; congruence.
Qed.
Lemma st_not_numeral : parse_float t = None.
Proof.
  destruct (parse_float t) as [f|] eqn:P; auto. exfalso. destruct st_head as (c & s & E & I & _). rewrite E in P.
  destruct (parse_only _ _ P) as [S|(neg & hex & m & fr & x & G)].
  - unfold special_float in S.
    assert (Z : forall x w, to_lower (String c s) = String x w -> lower_ascii c = x) by (intros x w Z; now inversion Z).
    repeat match type of S with context [?a =? ?b] => destruct (String.eqb_spec a b) as [X|_]; cbn [orb] in S end; try discriminate;
      apply Z in X; cbn in I; destruct I as [<-|[<-|[]]]; discriminate.
  - apply numeral_head in G as (c' & r & X & J). inversion X; subst. cbn in I.
    destruct I as [<-|[<-|[]]]; vm_compute in J; repeat (destruct J as [J|J]; [discriminate|]); contradiction.
Qed.
Lemma st_numeric : is_numeric_token t = false.
Proof. unfold is_numeric_token. now rewrite st_not_numeral. Qed.
Lemma st_atoi : atoi t = ISyntax.
Proof. destruct st_head as (c & s & E & I & _). rewrite E. cbn in I. destruct I as [<-|[<-|[]]]; reflexivity. Qed.
Lemma st_positive : is_positive_integer_token t = false.
Proof. unfold is_positive_integer_token. now rewrite st_atoi. Qed.
Lemma st_quoted : quoted (str_quotes d) t = true.
Proof. destruct st_head as (c & s & E & _ & I). rewrite E. cbn [quoted]. now apply contains_spec. Qed.
Lemma st_no_name : quoted (id_quotes d) t = false.
Proof.
  destruct st_head as (c & s & E & _ & I). rewrite E. cbn [quoted]. apply contains_false. intros J.
  destruct d; cbn in I, J; repeat (destruct I as [I|I]; [rewrite <- I in J; repeat (destruct J as [J|J]; [discriminate|]); contradiction|]); contradiction.
Qed.
Lemma st_illegal : legal_name d t = false.
Proof.
  unfold legal_name. rewrite st_no_name. cbn [orb]. apply andb_false_iff. left.
  destruct st_head as (c & s & E & I & _). rewrite E. cbn in I. destruct I as [<-|[<-|[]]]; reflexivity.
Qed.
End Strings.

Section Verdict.
Variables (d : rdbms) (R : string -> string -> Prop).
Notation S := (swapped d R).
Lemma swapped_refl : forall t, S t t.
Proof. intros. now left. Qed.
Lemma swapped_matches : forall ws t t', known_words d ws -> S t t' -> matches ws t = matches ws t'.
Proof. intros ws t t' K [->|(_ & N & N')]; auto. now rewrite (st_matches _ _ N _ K), (st_matches _ _ N' _ K). Qed.
Lemma swapped_nl : forall t t', S t t' -> is_nl t = is_nl t'.
Proof. intros t t' [->|(_ & N & N')]; auto. now rewrite (st_nl _ _ N), (st_nl _ _ N'). Qed.
Lemma str_base : str_quotes (base d) = str_quotes d.
Proof. destruct d; reflexivity. Qed.
Lemma sw_name : forall t t', S t t' -> valid_name (base d) t = valid_name (base d) t'.
Proof.
  intros t t' [->|(_ & N & N')]; auto. rewrite !valid_legal by (now apply (st_nonempty d)).
  now rewrite !legal_base, (st_illegal _ _ N), (st_illegal _ _ N').
Qed.
Lemma sw_first : forall t t', S t t' -> first_byte_in (str_quotes (base d)) t = first_byte_in (str_quotes (base d)) t'.
Proof.
  intros t t' [->|(_ & N & N')]; auto. rewrite !first_quoted by (now apply (st_nonempty d)).
  now rewrite str_base, (st_quoted _ _ N), (st_quoted _ _ N').
Qed.
Lemma sw_numeric : forall t t', S t t' -> is_numeric_token t = is_numeric_token t'.
Proof. intros t t' [->|(_ & N & N')]; auto. now rewrite (st_numeric _ _ N), (st_numeric _ _ N'). Qed.
Lemma sfit_name : class_fits S (known_words d) (CName (base d)).
Proof. exact sw_name. Qed.
Lemma sfit_str : class_fits S (known_words d) (CStr (base d)).
Proof. exact sw_first. Qed.
Lemma sfit_lit : class_fits S (known_words d) (CLit (base d)).
Proof. intros t t' H. split; [apply literal_known|split; [now apply sw_numeric|now apply sw_first]]. Qed.
Lemma sfit_pos : class_fits S (known_words d) CPos.
Proof. intros t t' [->|(_ & N & N')]; auto. now rewrite (st_positive _ _ N), (st_positive _ _ N'). Qed.
Lemma sfit_words : forall ws, known_words d ws -> class_fits S (known_words d) (CW ws).
Proof. intros ws H t t' _. exact H. Qed.
Lemma sfit_key : forall ws (key : string -> string), known_words d ws ->
  forall t t', S t t' -> la_mem (next_in ws) (Some t) = true -> key t = key t'.
Proof. intros ws key K t t' [->|(_ & N & _)] M; auto. cbn [la_mem next_in la_words la_neg] in M. now rewrite (st_matches _ _ N _ K) in M. Qed.
End Verdict.

Ltac sw_fit d R :=
  lazymatch goal with
  | |- fits _ _ ?g =>
    lazymatch g with
    | One _ (CName _) => exact (sfit_name d R)
    | One _ (CLit _) => exact (sfit_lit d R)
    | One _ (CStr _) => exact (sfit_str d R)
    | One _ CPos => exact (sfit_pos d R)
    | One _ (CW _) => apply (sfit_words d R); known
    | Seq _ _ => apply fits_seq; sw_fit d R
    | Map _ _ => apply fits_map; sw_fit d R
    | Cond _ _ _ => apply fits_cond; [known|sw_fit d R|sw_fit d R]
    | While _ _ => apply fits_while; [known|sw_fit d R]
    | WhileU _ _ _ => apply fits_whileu; [known|apply sfit_key; known|sw_fit d R]
    | SepBy _ _ => apply fits_sepby; sw_fit d R
    | Eps => exact I | Put _ => exact I | NotNext _ => cbn [fits]; known | IsNext _ => cbn [fits]; known | Brackets _ => exact I | Skip => exact I
    | _ => let g' := eval red in g in change g with g'; sw_fit d R
    end
  end.
Lemma sw_fits : forall d R, fits (swapped d R) (known_words d) (script d).
Proof.
  intros d R. destruct d as [| | |x]; cbn [script].
  - sw_fit SQLite R.
  - sw_fit PostgreSQL R.
  - sw_fit MySQL R.
  - sw_fit (Other x) R.
Qed.

Lemma swapped_verdict : forall d R l l', Forall2 (swapped d R) l l' -> forall n,
  like (swapped d R) (exec (prog (script d) n) l) (exec (prog (script d) n) l').
Proof.
  intros d R l l' F n. apply (resp_prog _ (swapped_refl d R) (known_words d)); [apply swapped_matches| |apply sw_fits|exact F].
  destruct d; repeat split; vm_compute; reflexivity.
Qed.
Theorem swapped_rejected : forall d R ddl ddl' toks toks' line near, lexes d ddl toks -> lexes d ddl' toks' ->
  Forall2 (swapped d R) toks toks' -> rejected ddl d line near -> exists near', rejected ddl' d line near' /\ swapped d R near near'.
Proof. intros d R. apply resp_rejected; [apply swapped_refl|apply swapped_nl|apply swapped_verdict]. Qed.
Lemma swapped_back : forall d R l l', Forall2 (swapped d R) l l' -> Forall2 (swapped d (fun a b => R b a)) l' l.
Proof. intros d R l l' F. induction F as [|t t' l l' H F IH]; constructor; auto. destruct H as [->|(A & B & C)]; [now left|right; auto]. Qed.
Theorem swapped_scripts : forall d R ddl ddl' toks toks', lexes d ddl toks -> lexes d ddl' toks' ->
  Forall2 (swapped d R) toks toks' ->
  ((exists stmts, says d ddl stmts) <-> (exists stmts, says d ddl' stmts)).
Proof.
  assert (X : forall d R ddl ddl' toks toks' stmts, lexes d ddl toks -> lexes d ddl' toks' ->
    Forall2 (swapped d R) toks toks' -> says d ddl stmts -> exists stmts', says d ddl' stmts').
  { intros d R. apply (resp_says d (swapped d R)); [apply swapped_nl|apply swapped_verdict]. }
  intros d R ddl ddl' toks toks' L L' F. split; intros [s SA].
  - eapply (X d R); [exact L|exact L'|exact F|exact SA].
  - eapply (X d (fun a b => R b a)); [exact L'|exact L|now apply swapped_back|exact SA].
Qed.
