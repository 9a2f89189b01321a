(** Other numbers: the verdict of the validator stays the same. *)
From Coq Require Import String Ascii List Bool Arith NArith ZArith Lia.
From Verif Require Import GoStr GoNum Types Lexer VBase Exec Grammar GrammarFacts Ast Spec Scan Pipe Names Recase RecaseFacts Resp RespText Rename RenameTokens
  RenameVerdict GoFloats GoFloatsRead Number.
From Verif Require GSqlite GPostgres GMysql.
Import ListNotations.
Open Scope nat_scope.
Open Scope string_scope.

Definition number_marks (d : rdbms) : list string :=
  ["("; ")"; ","; ";"; "."; "="] ++ match d with MySQL => ["0"; "1"] | _ => [] end.
Definition number_words (d : rdbms) (ws : list string) : Prop := forallb (fun w => contains (vocabulary d) w || contains (number_marks d) w) ws = true.
Definition headed (c : ascii) : bool := existsb (Ascii.eqb c) numeral_heads.
Section Numbers.
Variables (d : rdbms) (t : string).
Hypothesis N : number_token d t.

Lemma nb_head : exists c s, t = String c s /\ headed c = true.
Proof. destruct N as (_ & (c & s & E & I) & _). exists c, s. split; auto. apply existsb_exists. exists c. split; auto. apply Ascii.eqb_refl. Qed.
Lemma nb_nonempty : t <> "".
Proof. destruct nb_head as (c & s & -> & _). discriminate. Qed.
Lemma headed_cases : forall c, headed c = true -> In c numeral_heads.
Proof. intros c H. apply existsb_exists in H as (x & I & E). apply Ascii.eqb_eq in E. now subst. Qed.
Ltac each_head I := apply headed_cases in I; cbn in I; repeat (destruct I as [<-|I]; [|]); try contradiction.
Lemma nb_nl : is_nl t = false.
Proof. destruct nb_head as (c & s & E & I). rewrite E. each_head I; reflexivity. Qed.
Definition no_number (w : string) : bool := match w with String c _ => negb (headed c) | _ => true end.
Lemma nb_no_number : no_number t = false.
Proof. destruct nb_head as (c & s & -> & I). unfold no_number. now rewrite I. Qed.
Lemma nb_numeral : exists f, parse_float t = Some f.
Proof. apply N. Qed.
Lemma nb_matches : forall ws, number_words d ws -> matches ws t = false.
Proof.
  intros ws K. destruct (matches ws t) eqn:M; auto. exfalso. apply matches_spec in M as (w & I & E).
  unfold number_words in K. rewrite forallb_forall in K. apply K in I. clear K. apply orb_true_iff in I as [I|I]; apply contains_spec in I.
  - assert (V : forallb (fun w => no_number (to_upper w) && no_number (to_lower w)) (vocabulary d) = true) by (destruct d; vm_compute; reflexivity).
    rewrite forallb_forall in V. apply V in I. apply andb_true_iff in I as [A B]. pose proof nb_no_number. destruct E as [E|E]; congruence.
  - unfold number_marks in I. apply in_app_or in I as [I|I].
    + destruct nb_numeral as [f F]. clear - E I F. cbn in I.
      repeat (destruct I as [<-|I]; [destruct E as [E|E]; rewrite E in F; vm_compute in F; discriminate|]). contradiction.
    + destruct N as (_ & _ & Z). destruct d; try contradiction. destruct (Z eq_refl) as [Z0 Z1]. cbn in I.
      destruct I as [<-|[<-|[]]]; destruct E as [E|E]; rewrite E in *; cbn in Z0, Z1; congruence.
Qed.
Lemma nb_numeric : is_numeric_token t = true.
Proof. unfold is_numeric_token. destruct nb_numeral as [f ->]. reflexivity. Qed.
Lemma nb_unquoted : quoted (str_quotes d) t = false /\ quoted (id_quotes d) t = false.
Proof. destruct nb_head as (c & s & E & I). rewrite E. cbn [quoted]. each_head I; destruct d; split; reflexivity. Qed.
Lemma nb_illegal : legal_name d t = false.
Proof.
  unfold legal_name. destruct nb_unquoted as [_ ->]. cbn [orb]. apply andb_false_iff. left.
  destruct nb_head as (c & s & E & I). rewrite E. each_head I; reflexivity.
Qed.
End Numbers.
Lemma positive_spec : forall t, positive t <-> is_positive_integer_token t = true.
Proof.
  intros t. unfold positive, is_positive_integer_token. split.
  - intros (n & -> & H). now apply Z.ltb_lt.
  - destruct (atoi t) as [n| |n]; try discriminate. intros H. exists n. split; auto. now apply Z.ltb_lt.
Qed.
Lemma positive_same : forall t t', (positive t <-> positive t') -> is_positive_integer_token t = is_positive_integer_token t'.
Proof.
  intros t t' H. rewrite !positive_spec in H. destruct (is_positive_integer_token t), (is_positive_integer_token t'); auto; [symmetry|]; now apply H.
Qed.
Section Verdict.
Variables (d : rdbms) (R : string -> string -> Prop).
Notation S := (numbered d R).
Lemma numbered_refl : forall t, S t t.
Proof. intros. now left. Qed.
Lemma numbered_matches : forall ws t t', number_words d ws -> S t t' -> matches ws t = matches ws t'.
Proof. intros ws t t' K [->|(_ & N & N' & P)]; auto. now rewrite (nb_matches _ _ N _ K), (nb_matches _ _ N' _ K). Qed.
Lemma numbered_nl : forall t t', S t t' -> is_nl t = is_nl t'.
Proof. intros t t' [->|(_ & N & N' & P)]; auto. now rewrite (nb_nl _ _ N), (nb_nl _ _ N'). Qed.
Lemma str_base : str_quotes (base d) = str_quotes d.
Proof. destruct d; reflexivity. Qed.
Lemma nu_name : forall t t', S t t' -> valid_name (base d) t = valid_name (base d) t'.
Proof.
  intros t t' [->|(_ & N & N' & _)]; auto. rewrite !valid_legal by (now apply (nb_nonempty d)).
  now rewrite !legal_base, (nb_illegal _ _ N), (nb_illegal _ _ N').
Qed.
Lemma nu_first : forall t t', S t t' -> first_byte_in (str_quotes (base d)) t = first_byte_in (str_quotes (base d)) t'.
Proof.
  intros t t' [->|(_ & N & N' & _)]; auto. rewrite !first_quoted by (now apply (nb_nonempty d)).
  now rewrite str_base, (proj1 (nb_unquoted _ _ N)), (proj1 (nb_unquoted _ _ N')).
Qed.
Lemma nu_numeric : forall t t', S t t' -> is_numeric_token t = is_numeric_token t'.
Proof. intros t t' [->|(_ & N & N' & _)]; auto. now rewrite (nb_numeric _ _ N), (nb_numeric _ _ N'). Qed.
Lemma nfit_name : class_fits S (number_words d) (CName (base d)).
Proof. exact nu_name. Qed.
Lemma nfit_str : class_fits S (number_words d) (CStr (base d)).
Proof. exact nu_first. Qed.
Lemma nfit_lit : class_fits S (number_words d) (CLit (base d)).
Proof. intros t t' H. split; [destruct d; vm_compute; reflexivity|split; [now apply nu_numeric|now apply nu_first]]. Qed.
Lemma nfit_pos : class_fits S (number_words d) CPos.
Proof. intros t t' [->|(_ & N & N' & P)]; auto. now apply positive_same. Qed.
Lemma nfit_words : forall ws, number_words d ws -> class_fits S (number_words d) (CW ws).
Proof. intros ws H t t' _. exact H. Qed.
Lemma nfit_key : forall ws (key : string -> string), number_words d ws ->
  forall t t', S t t' -> la_mem (next_in ws) (Some t) = true -> key t = key t'.
Proof. intros ws key K t t' [->|(_ & N & _ & _)] M; auto. cbn [la_mem next_in la_words la_neg] in M. now rewrite (nb_matches _ _ N _ K) in M. Qed.
End Verdict.

Ltac nu_fit d R :=
  lazymatch goal with
  | |- fits _ _ ?g =>
    lazymatch g with
    | One _ (CName _) => exact (nfit_name d R)
    | One _ (CLit _) => exact (nfit_lit d R)
    | One _ (CStr _) => exact (nfit_str d R)
    | One _ CPos => exact (nfit_pos d R)
    | One _ (CW _) => apply (nfit_words d R); known
    | Seq _ _ => apply fits_seq; nu_fit d R
    | Map _ _ => apply fits_map; nu_fit d R
    | Cond _ _ _ => apply fits_cond; [known|nu_fit d R|nu_fit d R]
    | While _ _ => apply fits_while; [known|nu_fit d R]
    | WhileU _ _ _ => apply fits_whileu; [known|apply nfit_key; known|nu_fit d R]
    | SepBy _ _ => apply fits_sepby; nu_fit d R
    | Eps => exact I | Put _ => exact I | NotNext _ => cbn [fits]; known | IsNext _ => cbn [fits]; known | Brackets _ => exact I | Skip => exact I
    | _ => let g' := eval red in g in change g with g'; nu_fit d R
    end
  end.
Lemma nu_fits : forall d R, fits (numbered d R) (number_words d) (script d).
Proof.
  intros d R. destruct d as [| | |x]; cbn [script].
  - nu_fit SQLite R.
  - nu_fit PostgreSQL R.
  - nu_fit MySQL R.
  - nu_fit (Other x) R.
Qed.

Lemma numbered_verdict : forall d R l l', Forall2 (numbered d R) l l' -> forall n,
  like (numbered d R) (exec (prog (script d) n) l) (exec (prog (script d) n) l').
Proof.
  intros d R l l' F n. apply (resp_prog _ (numbered_refl d R) (number_words d)); [apply numbered_matches| |apply nu_fits|exact F].
  destruct d; repeat split; vm_compute; reflexivity.
Qed.
Theorem numbered_rejected : forall d R ddl ddl' toks toks' line near, lexes d ddl toks -> lexes d ddl' toks' ->
  Forall2 (numbered d R) toks toks' -> rejected ddl d line near -> exists near', rejected ddl' d line near' /\ numbered d R near near'.
Proof. intros d R. apply resp_rejected; [apply numbered_refl|apply numbered_nl|apply numbered_verdict]. Qed.
Lemma numbered_back : forall d R l l', Forall2 (numbered d R) l l' -> Forall2 (numbered d (fun a b => R b a)) l' l.
Proof. intros d R l l' F. induction F as [|t t' l l' H F IH]; constructor; auto. destruct H as [->|(A & B & C & E)]; [now left|right; tauto]. Qed.
Theorem numbered_scripts : forall d R ddl ddl' toks toks', lexes d ddl toks -> lexes d ddl' toks' ->
  Forall2 (numbered d R) toks toks' ->
  ((exists stmts, says d ddl stmts) <-> (exists stmts, says d ddl' stmts)).
Proof.
  assert (X : forall d R ddl ddl' toks toks' stmts, lexes d ddl toks -> lexes d ddl' toks' ->
    Forall2 (numbered d R) toks toks' -> says d ddl stmts -> exists stmts', says d ddl' stmts').
  { intros d R. apply (resp_says d (numbered d R)); [apply numbered_nl|apply numbered_verdict]. }
  intros d R ddl ddl' toks toks' L L' F. split; intros [s SA].
  - eapply (X d R); [exact L|exact L'|exact F|exact SA].
  - eapply (X d (fun a b => R b a)); [exact L'|exact L|now apply numbered_back|exact SA].
Qed.
