(** Renaming: the verdict of the validator stays the same. *)
From Coq Require Import String Ascii List Bool Arith NArith Lia.
From Verif Require Import GoStr GoNum Types Lexer VBase Exec Grammar GrammarFacts Ast Spec Scan Pipe Names Recase RecaseFacts Resp RespText Rename RenameTokens.
From Verif Require GSqlite GPostgres GMysql.
Import ListNotations.
Open Scope nat_scope.
Open Scope string_scope.

Section Verdict.
Variables (d : rdbms) (R : string -> string -> Prop).
Notation S := (renamed d R).
(** the dialect whose grammar is used *)
Definition base (d : rdbms) : rdbms := match d with Other _ => SQLite | _ => d end.

Lemma renamed_refl : forall t, S t t.
Proof. intros. now left. Qed.
Lemma renamed_matches : forall ws t t', known_words d ws -> S t t' -> matches ws t = matches ws t'.
Proof. intros ws t t' K [->|(_ & N & N')]; auto. now rewrite (nt_matches _ _ N _ K), (nt_matches _ _ N' _ K). Qed.
Lemma renamed_nl : forall t t', S t t' -> is_nl t = is_nl t'.
Proof. intros t t' [->|(_ & N & N')]; auto. now rewrite (nt_nl _ _ N), (nt_nl _ _ N'). Qed.
Lemma legal_base : forall t, legal_name (base d) t = legal_name d t.
Proof. intros t. destruct d; reflexivity. Qed.
Lemma renamed_name : forall t t', S t t' -> legal_name (base d) t = legal_name (base d) t'.
Proof. intros t t' [->|(_ & N & N')]; auto. now rewrite !legal_base, (nt_legal _ _ N), (nt_legal _ _ N'). Qed.
Lemma not_string : forall t, name_token d t -> quoted (str_quotes (base d)) t = false.
Proof.
  intros t N. destruct (quoted _ t) eqn:Q; auto. exfalso. apply (nt_quoted _ _ N _ Q). destruct d; cbn; auto; left; discriminate.
Qed.
Lemma renamed_quoted : forall t t', S t t' -> quoted (str_quotes (base d)) t = quoted (str_quotes (base d)) t'.
Proof. intros t t' [->|(_ & N & N')]; auto. now rewrite !not_string. Qed.
Lemma renamed_positive : forall t t', S t t' -> is_positive_integer_token t = is_positive_integer_token t'.
Proof. intros t t' [->|(_ & N & N')]; auto. now rewrite (nt_positive _ _ N), (nt_positive _ _ N'). Qed.
Lemma renamed_numeric : forall t t', S t t' -> is_numeric_token t = is_numeric_token t'.
Proof. intros t t' [->|(_ & N & N')]; auto. now rewrite (nt_numeric _ _ N), (nt_numeric _ _ N'). Qed.

Lemma first_quoted : forall qs t, t <> "" -> first_byte_in qs t = Ret (quoted qs t).
Proof. intros qs [|c t] H; [congruence|]. reflexivity. Qed.
Lemma nt_nonempty : forall t, name_token d t -> t <> "".
Proof. intros t [L _] ->. destruct (legal_head _ _ L) as (c & s & E & _). discriminate. Qed.
Lemma valid_legal : forall d' t, t <> "" -> valid_name d' t = Ret (legal_name d' t).
Proof. intros d' t H. unfold valid_name, legal_name. rewrite (first_quoted _ _ H). cbn. now destruct (quoted _ t). Qed.
Lemma fit_name : class_fits S (known_words d) (CName (base d)).
Proof.
  intros t t' H. pose proof (renamed_name _ _ H) as E. destruct H as [->|(_ & N & N')]; auto.
  rewrite !valid_legal by (now apply nt_nonempty). congruence.
Qed.
Lemma fit_first : forall t t', S t t' -> first_byte_in (str_quotes (base d)) t = first_byte_in (str_quotes (base d)) t'.
Proof.
  intros t t' H. pose proof (renamed_quoted _ _ H) as E. destruct H as [->|(_ & N & N')]; auto.
  rewrite !first_quoted by (now apply nt_nonempty). congruence.
Qed.
Lemma fit_str : class_fits S (known_words d) (CStr (base d)).
Proof. exact fit_first. Qed.
Lemma literal_known : known_words d literal_words.
Proof. destruct d; vm_compute; reflexivity. Qed.
Lemma fit_lit : class_fits S (known_words d) (CLit (base d)).
Proof. intros t t' H. split; [apply literal_known|split; [now apply renamed_numeric|now apply fit_first]]. Qed.
Lemma fit_pos : class_fits S (known_words d) CPos.
Proof. exact renamed_positive. Qed.
Lemma fit_words : forall ws, known_words d ws -> class_fits S (known_words d) (CW ws).
Proof. intros ws H t t' _. exact H. Qed.
Lemma fit_key : forall ws (key : string -> string), known_words d ws ->
  forall t t', S t t' -> la_mem (next_in ws) (Some t) = true -> key t = key t'.
Proof. intros ws key K t t' [->|(_ & N & _)] M; auto. cbn [la_mem next_in la_words la_neg] in M. now rewrite (nt_matches _ _ N _ K) in M. Qed.
End Verdict.

Ltac known := vm_compute; reflexivity.
Ltac ren_fit d R :=
  lazymatch goal with
  | |- fits _ _ ?g =>
    lazymatch g with
    | One _ (CName _) => exact (fit_name d R)
    | One _ (CLit _) => exact (fit_lit d R)
    | One _ (CStr _) => exact (fit_str d R)
    | One _ CPos => exact (fit_pos d R)
    | One _ (CW _) => apply (fit_words d R); known
    | Seq _ _ => apply fits_seq; ren_fit d R
    | Map _ _ => apply fits_map; ren_fit d R
    | Cond _ _ _ => apply fits_cond; [known|ren_fit d R|ren_fit d R]
    | While _ _ => apply fits_while; [known|ren_fit d R]
    | WhileU _ _ _ => apply fits_whileu; [known|apply fit_key; known|ren_fit d R]
    | SepBy _ _ => apply fits_sepby; ren_fit d R
    | Eps => exact I | Put _ => exact I | NotNext _ => cbn [fits]; known | IsNext _ => cbn [fits]; known | Brackets _ => exact I | Skip => exact I
    | _ => let g' := eval red in g in change g with g'; ren_fit d R
    end
  end.
Lemma ren_fits : forall d R, fits (renamed d R) (known_words d) (script d).
Proof.
  intros d R. destruct d as [| | |x]; cbn [script].
  - ren_fit SQLite R.
  - ren_fit PostgreSQL R.
  - ren_fit MySQL R.
  - ren_fit (Other x) R.
Qed.

Lemma renamed_verdict : forall d R l l', Forall2 (renamed d R) l l' -> forall n,
  like (renamed d R) (exec (prog (script d) n) l) (exec (prog (script d) n) l').
Proof.
  intros d R l l' F n. apply (resp_prog _ (renamed_refl d R) (known_words d)); [apply renamed_matches| |apply ren_fits|exact F].
  destruct d; repeat split; vm_compute; reflexivity.
Qed.
Theorem renamed_rejected : forall d R ddl ddl' toks toks' line near, lexes d ddl toks -> lexes d ddl' toks' ->
  Forall2 (renamed d R) toks toks' -> rejected ddl d line near -> exists near', rejected ddl' d line near' /\ renamed d R near near'.
Proof. intros d R. apply resp_rejected; [apply renamed_refl|apply renamed_nl|apply renamed_verdict]. Qed.
Theorem renamed_script : forall d R ddl ddl' toks toks' stmts, lexes d ddl toks -> lexes d ddl' toks' ->
  Forall2 (renamed d R) toks toks' -> says d ddl stmts -> exists stmts', says d ddl' stmts'.
Proof. intros d R. apply (resp_says d (renamed d R)); [apply renamed_nl|apply renamed_verdict]. Qed.
Theorem renamed_scripts : forall d R ddl ddl' toks toks', lexes d ddl toks -> lexes d ddl' toks' ->
  Forall2 (renamed d R) toks toks' ->
  ((exists stmts, says d ddl stmts) <-> (exists stmts, says d ddl' stmts)).
Proof.
  intros d R ddl ddl' toks toks' L L' F. split; intros [s SA].
  - eapply (renamed_script d R); [exact L|exact L'|exact F|exact SA].
  - eapply (renamed_script d (fun a b => R b a)); [exact L'|exact L| |exact SA].
    clear - F. induction F as [|t t' l l' H F IH]; constructor; auto. destruct H as [->|(A & B & C)]; [now left|right; auto].
Qed.
