(** The three stages of Parse without fuel. *)
From Coq Require Import String Ascii List Bool Arith NArith Lia.
From Verif Require Import GoStr GoNum Types Lexer VBase Exec Grammar GrammarFacts Ast Converter Parse Fuel Scan Spec.
From Verif Require VSqlite GSqlite ESqlite VPostgres GPostgres EPostgres VMysql GMysql EMysql.
Import ListNotations.
Open Scope nat_scope.
Open Scope string_scope.

(** ** The lexer needs no more fuel than characters, and more fuel does not matter *)

Definition lle {A} (r r' : lres A) : Prop := r = LOutOfFuel \/ r' = r.

Lemma skip_comment_mono : forall n st, lle (skip_comment_loop n st) (skip_comment_loop (S n) st).
Proof.
  induction n as [|n IH]; intros st; [now left|].
  cbn [skip_comment_loop]. cbn [skip_comment_loop] in IH.
  destruct (lchar st); [|now right]. destruct (_ =? c_nl)%N; [now right|apply IH].
Qed.
Lemma skip_ml_mono : forall n st, lle (skip_ml_loop n st) (skip_ml_loop (S n) st).
Proof.
  induction n as [|n IH]; intros st; [now left|].
  cbn [skip_ml_loop]. cbn [skip_ml_loop] in IH.
  destruct (lchar st); [|now right]. destruct (_ =? c_nl)%N; [apply IH|].
  destruct (_ =? c_star)%N.
  - destruct (char_is (lnext st) c_slash); [now right|apply IH].
  - destruct (_ =? c_slash)%N; [destruct (char_is (lnext st) c_star)|]; apply IH.
Qed.
Lemma lex_string_mono : forall n q s st, lle (lex_string_loop n q s st) (lex_string_loop (S n) q s st).
Proof.
  induction n as [|n IH]; intros q s st; [now left|].
  cbn [lex_string_loop]. cbn [lex_string_loop] in IH.
  destruct (lchar st) as [c|]; [|now right]. destruct (c =? c_nl)%N; [apply IH|].
  destruct (c =? q)%N; [now right|]. destruct (is_quote c); [|apply IH].
  destruct (IH c (utf8_rune c) (lnext st)) as [->| ->]; [now left|].
  destruct (lex_string_loop n c (utf8_rune c) (lnext st)); [apply IH|now right|now right].
Qed.
Lemma lex_quote_mono : forall n q tok st, lle (lex_quote n q tok st) (lex_quote (S n) q tok st).
Proof.
  intros. unfold lex_quote, lex_string. destruct (lex_string_mono n q (utf8_rune q) (lnext (append_token tok st))) as [->| ->];
    [now left|now right].
Qed.
Lemma phase1_mono : forall n tok st, lle (lex_phase1 n tok st) (lex_phase1 (S n) tok st).
Proof.
  intros. unfold lex_phase1. destruct (lchar st) as [c|]; [|now right].
  destruct (c =? c_minus)%N.
  { unfold lex_hyphen, skip_comment. destruct (char_is (lnext st) c_minus); [|now right].
    destruct (skip_comment_mono n (lnext (append_token tok (lnext st)))) as [->| ->]; [now left|now right]. }
  destruct (c =? c_slash)%N.
  { unfold lex_slash, skip_multi_line_comment. destruct (char_is (lnext st) c_star); [|now right].
    destruct (skip_ml_mono n (lnext (append_token tok (lnext st)))) as [->| ->]; [now left|now right]. }
  now right.
Qed.
Lemma phase2_mono : forall n d tok st, lle (lex_phase2 n d tok st) (lex_phase2 (S n) d tok st).
Proof.
  intros. unfold lex_phase2. destruct (lchar st) as [c|]; [|now right].
  destruct (c =? c_dquote)%N; [apply lex_quote_mono|].
  destruct (c =? c_squote)%N; [apply lex_quote_mono|].
  destruct (c =? c_bquote)%N.
  { unfold lex_back_quote. destruct d; try apply lex_quote_mono. now right. }
  destruct (c =? c_sharp)%N.
  { unfold lex_sharp, skip_comment. destruct d; try now right.
    destruct (skip_comment_mono n (lnext (append_token tok st))) as [->| ->]; [now left|now right]. }
  now right.
Qed.
Lemma lex_loop_mono : forall n d tok st, lle (lex_loop n d tok st) (lex_loop (S n) d tok st).
Proof.
  induction n as [|n IH]; intros d tok st; [now left|].
  cbn [lex_loop]. cbn [lex_loop] in IH.
  destruct (l_rest st) as [|c rest]; [now right|].
  destruct (phase1_mono n tok st) as [->| ->]; [now left|].
  destruct (lex_phase1 n tok st) as [tok1 st1|e|]; [|now right|now right].
  destruct (l_rest st1) as [|c1 rest1]; [now right|].
  destruct (phase2_mono n d tok1 st1) as [->| ->]; [now left|].
  destruct (lex_phase2 n d tok1 st1) as [tok2 st2|e|]; [|now right|now right]. apply IH.
Qed.
Lemma lex_runes_mono : forall n m d rs, n <= m ->
  lex_runes n d rs = LexOutOfFuel \/ lex_runes m d rs = lex_runes n d rs.
Proof.
  intros n m d rs H. induction H as [|m H IH]; [now right|].
  destruct IH as [E|E]; [now left|]. unfold lex_runes in *.
  destruct (lex_loop_mono m d "" (lex_init rs)) as [X|X].
  - rewrite X in E. left. now rewrite <- E.
  - right. now rewrite X.
Qed.

Definition enough (ddl : string) : nat := S (List.length (runes_of ddl)).

Theorem Lex_eq : forall fuel d ddl,
  Lex fuel d ddl = LexOutOfFuel \/ Lex fuel d ddl = lexed d (runes_of ddl).
Proof.
  intros. unfold Lex. set (rs := runes_of ddl).
  destruct (lex_runes_mono fuel (max fuel (S (List.length rs))) d rs) as [E|E]; [lia|now left|].
  right. rewrite <- E. apply lex_scan. lia.
Qed.
Theorem Lex_enough : forall fuel d ddl, enough ddl <= fuel -> Lex fuel d ddl = lexed d (runes_of ddl).
Proof. intros. unfold Lex. apply lex_scan. unfold enough in H. lia. Qed.

(** ** The validator *)

Theorem Validate_eq : forall fuel d l,
  Validate fuel d l = result_of l (exec (prog (script d) fuel) (strip l)).
Proof.
  intros. destruct d; cbn [Validate script].
  - unfold VSqlite.Validate. now rewrite validate_with_eq, (ESqlite.validate_prog fuel).
  - unfold VPostgres.Validate. now rewrite validate_with_eq, (EPostgres.validate_prog fuel).
  - unfold VMysql.Validate. now rewrite validate_with_eq, (EMysql.validate_prog fuel).
  - unfold VSqlite.Validate. now rewrite validate_with_eq, (ESqlite.validate_prog fuel).
Qed.

(** The validator's verdict on a token list without line breaks. *)
Definition verdict (d : rdbms) (l : list string) (e : eres unit) : Prop :=
  e <> EFuel /\ exists n, exec (prog (script d) n) l = e.

Lemma verdict_le : forall d l e, verdict d l e ->
  exists n0, forall n, n0 <= n -> exec (prog (script d) n) l = e.
Proof.
  intros d l e [N [n0 H]]. exists n0. intros n L.
  destruct (prog_mono_le _ (script d) n0 n L l) as [E|E]; congruence.
Qed.
Lemma verdict_det : forall d l e e', verdict d l e -> verdict d l e' -> e = e'.
Proof.
  intros d l e e' H H'. apply verdict_le in H as [n H]. apply verdict_le in H' as [n' H'].
  rewrite <- (H (max n n')) by lia. apply H'. lia.
Qed.

(** ** The converter *)
Definition converts (d : rdbms) (l : list string) (ts : list table) : Prop :=
  exists n rest, convert n d l = COk ts rest.

Lemma converts_le : forall d l ts, converts d l ts ->
  exists n0, forall n, n0 <= n -> Convert n d l = ConvertOk ts.
Proof.
  intros d l ts (n0 & rest & H). exists n0. intros n L. unfold Convert.
  destruct (convert_mono_le n0 n d L l) as [E|E]; [congruence|]. now rewrite E, H.
Qed.

(** ** Parse *)

Inductive stage (ddl : string) (d : rdbms) : list table -> option verror -> Prop :=
| st_lex e : lexed d (runes_of ddl) = LexErr e -> stage ddl d [] (Some e)
| st_validate toks rest : lexed d (runes_of ddl) = LexOk toks -> verdict d (strip toks) (EErr rest) ->
    stage ddl d [] (Some (mk_verror (line_of toks (List.length rest)) (tok (hd_error rest))))
| st_ok toks rest out ts : lexed d (runes_of ddl) = LexOk toks -> verdict d (strip toks) (EOk tt rest out) ->
    converts d out ts -> stage ddl d ts None.

Theorem returns_stage : forall ddl d ts err, returns ddl d ts err <-> stage ddl d ts err.
Proof.
  intros ddl d ts err. split.
  - intros [fuel H]. unfold Parse in H.
    destruct (Lex_eq fuel d ddl) as [E|E]; rewrite E in H; [discriminate|].
    destruct (lexed d (runes_of ddl)) as [toks|e|] eqn:L; try discriminate.
    + rewrite Validate_eq in H.
      destruct (exec (prog (script d) fuel) (strip toks)) as [u rest out|rest| |] eqn:X;
        cbn [result_of] in H; try discriminate.
      * unfold Convert in H. destruct (convert fuel d out) as [ts' rest'| |] eqn:Y; try discriminate.
        inversion H; subst. destruct u. econstructor 3; eauto; [|eexists; eauto].
        split; [discriminate|eauto].
      * inversion H; subst. econstructor 2; eauto. split; [discriminate|eauto].
    + inversion H; subst. now constructor.
  - intros H. inversion H as [e L|toks rest L V|toks rest out ts' L V K]; subst.
    + exists (enough ddl). unfold Parse. rewrite Lex_enough by lia. now rewrite L.
    + apply verdict_le in V as [n V]. exists (max n (enough ddl)). unfold Parse.
      rewrite Lex_enough, L, Validate_eq, V by lia. reflexivity.
    + apply verdict_le in V as [n V]. apply converts_le in K as [n' K].
      exists (max (max n n') (enough ddl)). unfold Parse.
      rewrite Lex_enough, L, Validate_eq, V by lia. cbn [result_of]. now rewrite K by lia.
Qed.

Lemma Parse_mono : forall n m ddl d, n <= m ->
  Parse n ddl d = NoFuel \/ Parse m ddl d = Parse n ddl d.
Proof.
  intros n m ddl d H. unfold Parse.
  destruct (lex_runes_mono n m d (runes_of ddl) H) as [E|E]; fold (Lex n d ddl) in E; fold (Lex m d ddl) in E.
  - left. now rewrite E.
  - rewrite E. destruct (Lex n d ddl) as [toks|e|]; [|now right|now left].
    rewrite !Validate_eq. destruct (prog_mono_le _ (script d) n m H (strip toks)) as [X|X]; rewrite X; [now left|].
    destruct (exec (prog (script d) n) (strip toks)) as [u rest out|rest| |]; cbn [result_of]; try now right.
    unfold Convert. destruct (convert_mono_le n m d H out) as [Y|Y]; rewrite Y; [now left|now right].
Qed.

(** One call has one outcome. *)
Theorem Parse_det : forall ddl d n m, Parse n ddl d <> NoFuel -> Parse m ddl d <> NoFuel ->
  Parse n ddl d = Parse m ddl d.
Proof.
  intros ddl d n m N M.
  destruct (Parse_mono n (max n m) ddl d ltac:(lia)); [contradiction|].
  destruct (Parse_mono m (max n m) ddl d ltac:(lia)); [contradiction|]. congruence.
Qed.
