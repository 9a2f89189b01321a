(** The lexer as an automaton that reads one character at a time.  (Proof device: the
    equivalence with the model of lexer.go is [lex_scan].) *)
From Coq Require Import String Ascii NArith List Bool Arith Lia.
From Verif Require Import GoStr Types Lexer.
Import ListNotations.
Open Scope nat_scope.
Open Scope string_scope.

(** Where the lexer is. *)
Inductive mode :=
| M0 (tok : string)          (* between characters; [tok]: the token read so far *)
| M2 (tok : string)          (* same, right after a comment: no comment can start here *)
| MHyphen (tok : string)     (* after "-" *)
| MSlash (tok : string)      (* after "/" *)
| MStar (tok : string)       (* after "*" *)
| MLine (m : mode)           (* in a line comment; [m] comes after *)
| MBlock                     (* in a block comment *)
| MBlockStar                 (* ... after "*" *)
| MBlockSkip                 (* ... after "/" *)
| MQuote (q : rune) (str : string) (stk : list (rune * string))
                             (* in quoted text, with the pending outer ones *)
| MQSkip (q : rune) (str : string) (stk : list (rune * string)).
                             (* after an inner quoted text *)

Inductive act :=
| Go (out : list string) (nl : bool) (m : mode)
| Stop (near : string).

Definition flush (t : string) : list string := if t =? "" then [] else [t].

Section Step.
Variable d : rdbms.
Open Scope N_scope.

Definition step2 (tok : string) (c : rune) : act :=
  if c =? c_dquote then Go (flush tok) false (MQuote c (utf8_rune c) [])
  else if c =? c_squote then Go (flush tok) false (MQuote c (utf8_rune c) [])
  else if c =? c_bquote then
    match d with
    | PostgreSQL => Stop (utf8_rune c)
    | _ => Go (flush tok) false (MQuote c (utf8_rune c) [])
    end
  else if c =? c_sharp then
    match d with
    | MySQL => Go (flush tok) false (MLine (M0 ""))
    | _ => Go [] false (M0 (tok ++ utf8_rune c))
    end
  else if (c =? c_space) || (c =? c_tab) then Go (flush tok) false (M0 "")
  else if c =? c_nl then Go (flush tok ++ [NL])%list true (M0 "")
  else if is_symbol c then Go (flush tok ++ [utf8_rune c])%list false (M0 "")
  else if c =? c_wide then Stop (utf8_rune c)
  else Go [] false (M0 (tok ++ utf8_rune c)).

(** The end of a quoted text [s]. *)
Definition close (s : string) (stk : list (rune * string)) : list string * mode :=
  match stk with
  | [] => ([s], M0 "")
  | (q, str) :: stk => ([], MQSkip q (str ++ s) stk)
  end.

Definition step (m : mode) (c : rune) : act :=
  match m with
  | M0 tok =>
    if c =? c_minus then Go [] false (MHyphen tok)
    else if c =? c_slash then Go [] false (MSlash tok)
    else if c =? c_star then Go [] false (MStar tok)
    else step2 tok c
  | M2 tok => step2 tok c
  | MHyphen tok =>
    if c =? c_minus then Go (flush tok) false (MLine (M2 ""))
    else step2 (tok ++ utf8_rune c_minus) c
  | MSlash tok =>
    if c =? c_star then Go (flush tok) false MBlock
    else step2 (tok ++ utf8_rune c_slash) c
  | MStar tok =>
    if c =? c_slash then Stop (utf8_rune c_star)
    else step2 (tok ++ utf8_rune c_star) c
  | MLine m => if c =? c_nl then Go [NL] true m else Go [] false (MLine m)
  | MBlock =>
    if c =? c_nl then Go [NL] true MBlock
    else if c =? c_star then Go [] false MBlockStar
    else if c =? c_slash then Go [] false MBlockSkip
    else Go [] false MBlock
  | MBlockStar => if c =? c_slash then Go [] false (M2 "") else Go [] false MBlock
  | MBlockSkip => Go [] false MBlock
  | MQuote q str stk =>
    if c =? c_nl then Go [NL] true (MQuote q str stk)
    else if c =? q then
      let '(out, m) := close (str ++ utf8_rune c) stk in Go out false m
    else if is_quote c then Go [] false (MQuote c (utf8_rune c) ((q, str) :: stk))
    else Go [] false (MQuote q (str ++ utf8_rune c) stk)
  | MQSkip q str stk => Go [] false (MQuote q str stk)
  end.
End Step.

(** Result: the tokens, or an error that many line breaks later. *)
Inductive lout := TOk (l : list string) | TErr (lines : nat) (near : string).

Definition pre (o : list string) (nl : bool) (r : lout) : lout :=
  match r with
  | TOk l => TOk (o ++ l)%list
  | TErr n near => TErr (if nl then S n else n) near
  end.

Fixpoint finish (m : mode) : lout :=
  match m with
  | M0 tok | M2 tok => TOk (flush tok)
  | MHyphen tok => TOk [tok ++ utf8_rune c_minus]
  | MSlash tok => TOk [tok ++ utf8_rune c_slash]
  | MStar tok => TOk [tok ++ utf8_rune c_star]
  | MLine m => finish m
  | _ => TErr 0 EOF
  end.

Fixpoint scan (d : rdbms) (m : mode) (rs : list rune) : lout :=
  match rs with
  | [] => finish m
  | c :: rs =>
    match step d m c with
    | Go out nl m => pre out nl (scan d m rs)
    | Stop near => TErr 0 near
    end
  end.

(** ** Equivalence *)

Definition emb (st : lstate) (r : lout) : lex_result :=
  match r with
  | TOk l => LexOk (l_result st ++ l)%list
  | TErr n near => LexErr (mk_verror (l_line st + n) near)
  end.

Definition fin (r : lres unit) : lex_result :=
  match r with
  | LOk _ st => LexOk (l_result st)
  | LErr e => LexErr e
  | LOutOfFuel => LexOutOfFuel
  end.

Lemma append_token_flush : forall t rest line res,
  append_token t (mk_lstate rest line res) = mk_lstate rest line (res ++ flush t).
Proof. intros. unfold append_token, flush. destruct (t =? "")%string; cbn; now rewrite ?app_nil_r. Qed.

Lemma emb_pre : forall rest rest' line res o r,
  emb (mk_lstate rest line res) (pre o false r) = emb (mk_lstate rest' line (res ++ o)) r.
Proof. intros. destruct r; cbn; now rewrite ?app_assoc. Qed.
Lemma emb_pre_nl : forall rest rest' line res o r,
  emb (mk_lstate rest line res) (pre o true r) = emb (mk_lstate rest' (S line) (res ++ o)) r.
Proof. intros. destruct r; cbn; rewrite ?app_assoc; auto. do 2 f_equal. lia. Qed.
Lemma emb_rest : forall rest rest' line res r,
  emb (mk_lstate rest line res) r = emb (mk_lstate rest' line res) r.
Proof. now intros; destruct r. Qed.

Lemma utf8_rune_nonempty : forall r, utf8_rune r <> "".
Proof.
  intros r. unfold utf8_rune. set (x := if is_scalar r then r else 65533%N).
  destruct (x <? 128)%N; [discriminate|]. destruct (x <? 2048)%N; [discriminate|].
  destruct (x <? 65536)%N; discriminate.
Qed.
Lemma append_nonempty : forall a b, b <> "" -> a ++ b <> "".
Proof. intros [|c a] b H; [exact H|discriminate]. Qed.
Lemma flush_nonempty : forall s, s <> "" -> flush s = [s].
Proof. intros s H. unfold flush. destruct (s =? "")%string eqn:E; auto. apply String.eqb_eq in E. contradiction. Qed.

(** [leads st m r st' m']: reading from [st] in mode [m] is the same as reading from [st'] in [m']. *)
Definition leads (d : rdbms) (st : lstate) (m : mode) (st' : lstate) (m' : mode) : Prop :=
  List.length (l_rest st') <= List.length (l_rest st) /\
  emb st (scan d m (l_rest st)) = emb st' (scan d m' (l_rest st')).

Lemma skip_comment_scan : forall d m fuel st, List.length (l_rest st) < fuel ->
  exists st', skip_comment_loop fuel st = LOk tt st' /\ leads d st (MLine m) st' m.
Proof.
  intros d m. induction fuel as [|fuel IH]; intros [rest line res] H; [lia|].
  destruct rest as [|c rest]; cbn [l_rest List.length] in H.
  - exists (mk_lstate [] line res). split; [reflexivity|]. split; cbn; auto.
  - cbn [skip_comment_loop lchar l_rest hd_error]. destruct (c =? c_nl)%N eqn:E.
    + eexists. split; [reflexivity|]. split; cbn [l_rest lnext add_line append_token l_line l_result tl]; [cbn; lia|].
      cbn [scan step]. rewrite E. rewrite (emb_pre_nl _ rest). reflexivity.
    + destruct (IH (lnext (mk_lstate (c :: rest) line res))) as (st' & E1 & L & E2); [cbn; lia|].
      exists st'. split; [exact E1|]. split; [cbn in *; lia|]. cbn [l_rest scan step]. rewrite E.
      rewrite (emb_pre _ rest), app_nil_r. exact E2.
Qed.

Lemma skip_ml_scan : forall d fuel st, List.length (l_rest st) < fuel ->
  match skip_ml_loop fuel st with
  | LOk _ st' => leads d st MBlock st' (M2 "")
  | LErr e => emb st (scan d MBlock (l_rest st)) = LexErr e
  | LOutOfFuel => False
  end.
Proof.
  intros d. induction fuel as [|fuel IH]; intros [rest line res] H; [lia|].
  destruct rest as [|c rest]; cbn [l_rest List.length] in H.
  - cbn. now rewrite Nat.add_0_r.
  - cbn [skip_ml_loop lchar l_rest hd_error]. destruct (c =? c_nl)%N eqn:E1.
    + specialize (IH (mk_lstate rest (S line) (res ++ [NL]))).
      replace (lnext (append_token NL (add_line (mk_lstate (c :: rest) line res))))
        with (mk_lstate rest (S line) (res ++ [NL])) by reflexivity.
      assert (X : emb (mk_lstate (c :: rest) line res) (scan d MBlock (c :: rest)) =
                  emb (mk_lstate rest (S line) (res ++ [NL])) (scan d MBlock rest)).
      { cbn [scan step]. rewrite E1. now rewrite (emb_pre_nl _ rest). }
      destruct (skip_ml_loop fuel _) as [u st'|e|].
      * destruct IH as [L IH]; [cbn; lia|]. split; [cbn in *; lia|]. cbn [l_rest] in *. congruence.
      * cbn [l_rest] in *. rewrite X. apply IH. lia.
      * apply IH. cbn. lia.
    + destruct (c =? c_star)%N eqn:E2.
      * assert (X0 : forall r', emb (mk_lstate (c :: rest) line res) (scan d MBlock (c :: rest)) =
                  emb (mk_lstate r' line res) (scan d MBlockStar rest)).
        { intros. cbn [scan step]. rewrite E1, E2. now rewrite (emb_pre _ r'), app_nil_r. }
        unfold char_is, lchar. cbn [lnext l_rest tl l_line l_result].
        destruct rest as [|c2 rest].
        -- cbn [hd_error tl]. specialize (IH (mk_lstate [] line res)). cbn [lnext l_rest tl] in *.
           destruct fuel; [cbn in H; lia|]. cbn [skip_ml_loop lchar l_rest hd_error].
           rewrite (X0 []). cbn. now rewrite Nat.add_0_r.
        -- cbn [hd_error tl]. destruct (c2 =? c_slash)%N eqn:E3.
           ++ split; [cbn; lia|]. cbn [l_rest]. rewrite (X0 rest). cbn [scan step]. rewrite E3.
              rewrite (emb_pre _ rest), app_nil_r. reflexivity.
           ++ specialize (IH (mk_lstate rest line res)).
              assert (X : emb (mk_lstate (c :: c2 :: rest) line res) (scan d MBlock (c :: c2 :: rest)) =
                  emb (mk_lstate rest line res) (scan d MBlock rest)).
              { rewrite (X0 rest). cbn [scan step]. rewrite E3. now rewrite (emb_pre _ rest), app_nil_r. }
              unfold lnext. cbn [tl l_rest l_line l_result]. destruct (skip_ml_loop fuel _) as [u st'|e|].
              ** destruct IH as [L IH]; [cbn in *; lia|]. split; [cbn in *; lia|]. cbn [l_rest] in *. congruence.
              ** cbn [l_rest] in *. rewrite X. apply IH. cbn in H. lia.
              ** apply IH. cbn in *. lia.
      * destruct (c =? c_slash)%N eqn:E3.
        -- unfold char_is, lchar. cbn [lnext l_rest tl l_line l_result].
           assert (X0 : forall r', emb (mk_lstate (c :: rest) line res) (scan d MBlock (c :: rest)) =
                  emb (mk_lstate r' line res) (scan d MBlockSkip rest)).
           { intros. cbn [scan step]. rewrite E1, E2, E3. now rewrite (emb_pre _ r'), app_nil_r. }
           destruct rest as [|c2 rest].
           ++ cbn [hd_error tl]. destruct fuel; [cbn in H; lia|]. cbn [skip_ml_loop lchar l_rest hd_error].
           rewrite (X0 []). cbn. now rewrite Nat.add_0_r.
           ++ cbn [hd_error tl]. specialize (IH (mk_lstate rest line res)).
              assert (X : emb (mk_lstate (c :: c2 :: rest) line res) (scan d MBlock (c :: c2 :: rest)) =
                  emb (mk_lstate rest line res) (scan d MBlock rest)).
              { rewrite (X0 rest). cbn [scan step]. now rewrite (emb_pre _ rest), app_nil_r. }
              unfold lnext. cbn [tl l_rest l_line l_result].
              replace (if (c2 =? c_star)%N then skip_ml_loop fuel (mk_lstate rest line res)
                       else skip_ml_loop fuel (mk_lstate rest line res))
                with (skip_ml_loop fuel (mk_lstate rest line res)) by (now destruct (c2 =? c_star)%N).
              destruct (skip_ml_loop fuel _) as [u st'|e|].
              ** destruct IH as [L IH]; [cbn in *; lia|]. split; [cbn in *; lia|]. cbn [l_rest] in *. congruence.
              ** cbn [l_rest] in *. rewrite X. apply IH. cbn in H. lia.
              ** apply IH. cbn in *. lia.
        -- specialize (IH (mk_lstate rest line res)).
           assert (X : emb (mk_lstate (c :: rest) line res) (scan d MBlock (c :: rest)) =
                  emb (mk_lstate rest line res) (scan d MBlock rest)).
           { cbn [scan step]. rewrite E1, E2, E3. now rewrite (emb_pre _ rest), app_nil_r. }
           unfold lnext. cbn [tl l_rest l_line l_result]. destruct (skip_ml_loop fuel _) as [u st'|e|].
           ++ destruct IH as [L IH]; [cbn; lia|]. split; [cbn in *; lia|]. cbn [l_rest] in *. congruence.
           ++ cbn [l_rest] in *. rewrite X. apply IH. lia.
           ++ apply IH. cbn. lia.
Qed.

Lemma lex_string_scan : forall d fuel q str st, List.length (l_rest st) < fuel ->
  match lex_string_loop fuel q str st with
  | LOk s st' => List.length (l_rest st') < List.length (l_rest st) /\ s <> "" /\
      forall stk, emb st (scan d (MQuote q str stk) (l_rest st)) =
        emb (mk_lstate (l_rest st') (l_line st') (l_result st' ++ fst (close s stk)))
            (scan d (snd (close s stk)) (l_rest st'))
  | LErr e => forall stk, emb st (scan d (MQuote q str stk) (l_rest st)) = LexErr e
  | LOutOfFuel => False
  end.
Proof.
  intros d. induction fuel as [|fuel IH]; intros q str [rest line res] H; [lia|].
  destruct rest as [|c rest]; cbn [l_rest List.length] in H.
  - cbn. intros. now rewrite Nat.add_0_r.
  - cbn [lex_string_loop lchar l_rest hd_error]. destruct (c =? c_nl)%N eqn:E1.
    + specialize (IH q str (mk_lstate rest (S line) (res ++ [NL]))).
      replace (lnext (append_token NL (add_line (mk_lstate (c :: rest) line res))))
        with (mk_lstate rest (S line) (res ++ [NL])) by reflexivity.
      assert (X : forall stk, emb (mk_lstate (c :: rest) line res) (scan d (MQuote q str stk) (c :: rest)) =
                  emb (mk_lstate rest (S line) (res ++ [NL])) (scan d (MQuote q str stk) rest)).
      { intros. cbn [scan step]. rewrite E1. now rewrite (emb_pre_nl _ rest). }
      destruct (lex_string_loop fuel q str _) as [s st'|e|].
      * destruct IH as (L & N & IH); [cbn; lia|]. split; [cbn in *; lia|]. split; [exact N|].
        intros. rewrite X. apply IH.
      * intros. rewrite X. apply IH. cbn. lia.
      * apply IH. cbn. lia.
    + destruct (c =? q)%N eqn:E2.
      * split; [cbn; lia|]. split; [apply append_nonempty, utf8_rune_nonempty|].
        intros stk. cbn [scan step]. rewrite E1, E2.
        cbn [lnext l_rest tl l_line l_result].
        destruct (close (str ++ utf8_rune c) stk) as [o m]. cbn [fst snd].
        now rewrite (emb_pre _ rest).
      * destruct (is_quote c) eqn:E3.
        -- specialize (IH c (utf8_rune c) (mk_lstate rest line res)) as IH1.
           unfold lnext at 1. cbn [tl l_rest l_line l_result].
           assert (X : forall stk, emb (mk_lstate (c :: rest) line res) (scan d (MQuote q str stk) (c :: rest)) =
             emb (mk_lstate rest line res) (scan d (MQuote c (utf8_rune c) ((q, str) :: stk)) rest)).
           { intros. cbn [scan step]. rewrite E1, E2, E3. now rewrite (emb_pre _ rest), app_nil_r. }
           destruct (lex_string_loop fuel c (utf8_rune c) _) as [s st1|e|]; [| |apply IH1; cbn; lia].
           ++ destruct IH1 as (L1 & N1 & IH1); [cbn; lia|]. destruct st1 as [rest1 line1 res1].
              cbn [l_rest] in L1. specialize (IH q (str ++ s) (lnext (mk_lstate rest1 line1 res1))).
              assert (Y : forall stk, emb (mk_lstate (c :: rest) line res) (scan d (MQuote q str stk) (c :: rest)) =
                 emb (lnext (mk_lstate rest1 line1 res1)) (scan d (MQuote q (str ++ s) stk) (l_rest (lnext (mk_lstate rest1 line1 res1))))).
              { intros. rewrite X. cbn [l_rest] in IH1. rewrite IH1. cbn [close fst snd l_rest l_line l_result].
                rewrite app_nil_r. unfold lnext. cbn [l_rest l_line l_result].
                destruct rest1 as [|c1 rest1]; cbn [tl]; [reflexivity|].
                cbn [scan step]. now rewrite (emb_pre _ rest1), app_nil_r. }
              assert (L2 : List.length (l_rest (lnext (mk_lstate rest1 line1 res1))) <= List.length rest1).
              { unfold lnext. cbn [l_rest]. destruct rest1; cbn; lia. }
              destruct (lex_string_loop fuel q (str ++ s) _) as [s' st2|e|].
              ** destruct IH as (L & N & IH); [lia|]. split; [cbn [l_rest List.length] in *; lia|]. split; [exact N|].
                 intros. rewrite Y. apply IH.
              ** intros. rewrite Y. apply IH. lia.
              ** apply IH. lia.
           ++ intros. rewrite X. apply IH1. cbn. lia.
        -- specialize (IH q (str ++ utf8_rune c) (mk_lstate rest line res)).
           unfold lnext. cbn [tl l_rest l_line l_result].
           assert (X : forall stk, emb (mk_lstate (c :: rest) line res) (scan d (MQuote q str stk) (c :: rest)) =
             emb (mk_lstate rest line res) (scan d (MQuote q (str ++ utf8_rune c) stk) rest)).
           { intros. cbn [scan step]. rewrite E1, E2, E3. now rewrite (emb_pre _ rest), app_nil_r. }
           destruct (lex_string_loop fuel q (str ++ utf8_rune c) _) as [s st'|e|].
           ++ destruct IH as (L & N & IH); [cbn; lia|]. split; [cbn in *; lia|]. split; [exact N|].
              intros. rewrite X. apply IH.
           ++ intros. rewrite X. apply IH. cbn. lia.
           ++ apply IH. cbn. lia.
Qed.

(** Phase 2 on a character [c]. *)
Lemma phase2_scan : forall d fuel tok c rest line res, List.length rest < fuel ->
  match lex_phase2 fuel d tok (mk_lstate (c :: rest) line res) with
  | LOk tok' st' => List.length (l_rest st') <= List.length rest /\
      emb (mk_lstate (c :: rest) line res) (scan d (M2 tok) (c :: rest)) =
      emb st' (scan d (M0 tok') (l_rest st'))
  | LErr e => emb (mk_lstate (c :: rest) line res) (scan d (M2 tok) (c :: rest)) = LexErr e
  | LOutOfFuel => False
  end.
Proof.
  intros d fuel tok c rest line res H.
  cbn [lex_phase2 lchar l_rest hd_error scan step]. unfold lex_phase2, step2. cbn [lchar l_rest hd_error].
  assert (Q : forall q, c = q ->
    match lex_quote fuel q tok (mk_lstate (c :: rest) line res) with
    | LOk tok' st' => List.length (l_rest st') <= List.length rest /\
        emb (mk_lstate (c :: rest) line res) (pre (flush tok) false (scan d (MQuote c (utf8_rune c) []) rest)) =
        emb st' (scan d (M0 tok') (l_rest st'))
    | LErr e => emb (mk_lstate (c :: rest) line res) (pre (flush tok) false (scan d (MQuote c (utf8_rune c) []) rest)) = LexErr e
    | LOutOfFuel => False
    end).
  { intros q <-. unfold lex_quote, lex_string. rewrite append_token_flush. unfold lnext. cbn [l_rest tl l_line l_result].
    pose proof (lex_string_scan d fuel c (utf8_rune c) (mk_lstate rest line (res ++ flush tok)) H) as X.
    destruct (lex_string_loop fuel c (utf8_rune c) _) as [s [rest' line' res']|e|].
    - destruct X as (L & N & X). rewrite append_token_flush. cbn [l_rest l_line l_result] in *. split; [lia|].
      rewrite (emb_pre _ rest), X. cbn [close fst snd]. rewrite flush_nonempty by exact N. reflexivity.
    - rewrite (emb_pre _ rest). apply X.
    - exact X. }
  destruct (c =? c_dquote)%N eqn:E1; [apply Q; now apply N.eqb_eq|].
  destruct (c =? c_squote)%N eqn:E2; [apply Q; now apply N.eqb_eq|].
  destruct (c =? c_bquote)%N eqn:E3.
  { unfold lex_back_quote. apply N.eqb_eq in E3. destruct d; try (now apply Q).
    cbn. now rewrite Nat.add_0_r. }
  destruct (c =? c_sharp)%N eqn:E4.
  { unfold lex_sharp. apply N.eqb_eq in E4. destruct d;
      try (split; [cbn; lia|]; unfold lnext; cbn [l_rest tl l_line l_result]; rewrite (emb_pre _ rest), app_nil_r, <- E4; reflexivity).
    rewrite append_token_flush. unfold skip_comment, lnext. cbn [l_rest tl l_line l_result].
    destruct (skip_comment_scan MySQL (M0 "") fuel (mk_lstate rest line (res ++ flush tok)) H)
      as (st' & -> & L & X). split; [exact L|]. rewrite (emb_pre _ rest). exact X. }
  destruct ((c =? c_space) || (c =? c_tab))%N eqn:E5.
  { unfold lex_space. rewrite append_token_flush. unfold lnext. cbn [l_rest tl l_line l_result].
    split; [lia|]. now rewrite (emb_pre _ rest). }
  destruct (c =? c_nl)%N eqn:E6.
  { unfold lex_eol, add_line. cbn [l_rest tl l_line l_result]. rewrite !append_token_flush.
    unfold lnext. cbn [l_rest tl l_line l_result]. split; [lia|].
    rewrite (emb_pre_nl _ rest), <- app_assoc. reflexivity. }
  destruct (is_symbol c) eqn:E7.
  { unfold lex_symbol. rewrite !append_token_flush.
    unfold lnext. cbn [l_rest tl l_line l_result]. split; [lia|].
    rewrite (flush_nonempty (utf8_rune c)) by apply utf8_rune_nonempty.
    rewrite (emb_pre _ rest), <- app_assoc. reflexivity. }
  destruct (c =? c_wide)%N eqn:E8.
  { cbn. now rewrite Nat.add_0_r. }
  unfold lnext. cbn [l_rest tl l_line l_result]. split; [lia|].
  now rewrite (emb_pre _ rest), app_nil_r.
Qed.

Lemma phase1_scan : forall d fuel tok c rest line res, List.length rest < fuel ->
  match lex_phase1 fuel tok (mk_lstate (c :: rest) line res) with
  | LOk tok' st' => List.length (l_rest st') <= S (List.length rest) /\
      emb (mk_lstate (c :: rest) line res) (scan d (M0 tok) (c :: rest)) =
      emb st' (scan d (M2 tok') (l_rest st'))
  | LErr e => emb (mk_lstate (c :: rest) line res) (scan d (M0 tok) (c :: rest)) = LexErr e
  | LOutOfFuel => False
  end.
Proof.
  intros d fuel tok c rest line res H.
  unfold lex_phase1. cbn [lchar l_rest hd_error scan step].
  assert (P : forall q, c = q -> flush (tok ++ utf8_rune q) = [tok ++ utf8_rune q]).
  { intros q <-. apply flush_nonempty, append_nonempty, utf8_rune_nonempty. }
  destruct (c =? c_minus)%N eqn:E1.
  { unfold lex_hyphen, char_is, lchar, lnext. cbn [l_rest tl l_line l_result].
    rewrite (emb_pre _ rest), app_nil_r. destruct rest as [|c2 rest]; cbn [hd_error].
    - split; [cbn; lia|]. cbn [l_rest scan finish]. rewrite flush_nonempty by apply append_nonempty, utf8_rune_nonempty.
      reflexivity.
    - cbn [List.length] in H. destruct (c2 =? c_minus)%N eqn:E2.
      + rewrite append_token_flush. unfold skip_comment, lnext. cbn [l_rest tl l_line l_result].
        destruct (skip_comment_scan d (M2 "") fuel (mk_lstate rest line (res ++ flush tok)))
          as (st' & -> & L & X); [cbn; lia|]. cbn [l_rest] in *. split; [cbn; lia|].
        cbn [scan step]. rewrite E2, (emb_pre _ rest). exact X.
      + split; [cbn; lia|]. cbn [scan step]. now rewrite E2. }
  destruct (c =? c_slash)%N eqn:E2.
  { unfold lex_slash, char_is, lchar, lnext. cbn [l_rest tl l_line l_result].
    rewrite (emb_pre _ rest), app_nil_r. destruct rest as [|c2 rest]; cbn [hd_error].
    - split; [cbn; lia|]. cbn [l_rest scan finish]. rewrite flush_nonempty by apply append_nonempty, utf8_rune_nonempty.
      reflexivity.
    - cbn [List.length] in H. destruct (c2 =? c_star)%N eqn:E3.
      + rewrite append_token_flush. unfold skip_multi_line_comment, lnext. cbn [l_rest tl l_line l_result].
        pose proof (skip_ml_scan d fuel (mk_lstate rest line (res ++ flush tok))) as X.
        destruct (skip_ml_loop fuel _) as [u st'|e|].
        * destruct X as [L X]; [cbn; lia|]. cbn [l_rest] in *. split; [cbn; lia|].
          cbn [scan step]. rewrite E3, (emb_pre _ rest). exact X.
        * cbn [scan step]. rewrite E3, (emb_pre _ rest). apply X. cbn. lia.
        * apply X. cbn. lia.
      + split; [cbn; lia|]. cbn [scan step]. now rewrite E3. }
  destruct (c =? c_star)%N eqn:E3.
  { unfold lex_asterisk, char_is, lchar, lnext. cbn [l_rest tl l_line l_result].
    rewrite (emb_pre _ rest), app_nil_r. destruct rest as [|c2 rest]; cbn [hd_error].
    - split; [cbn; lia|]. cbn [l_rest scan finish]. rewrite flush_nonempty by apply append_nonempty, utf8_rune_nonempty.
      reflexivity.
    - destruct (c2 =? c_slash)%N eqn:E4.
      + apply N.eqb_eq in E3. subst c. cbn [scan step]. rewrite E4. cbn. now rewrite Nat.add_0_r.
      + split; [cbn; lia|]. cbn [scan step]. now rewrite E4. }
  split; [cbn; lia|]. reflexivity.
Qed.

Lemma lex_loop_scan : forall d fuel tok st, List.length (l_rest st) < fuel ->
  fin (lex_loop fuel d tok st) = emb st (scan d (M0 tok) (l_rest st)).
Proof.
  intros d. induction fuel as [|fuel IH]; intros tok [rest line res] H; [lia|].
  cbn [lex_loop l_rest]. destruct rest as [|c rest].
  - rewrite append_token_flush. reflexivity.
  - cbn [l_rest List.length] in H.
    pose proof (phase1_scan d fuel tok c rest line res ltac:(lia)) as P1.
    destruct (lex_phase1 fuel tok _) as [tok1 [rest1 line1 res1]|e|]; [| |contradiction].
    + destruct P1 as [L1 P1]. cbn [l_rest] in *. rewrite P1. destruct rest1 as [|c1 rest1].
      * rewrite append_token_flush. reflexivity.
      * cbn [List.length] in L1. pose proof (phase2_scan d fuel tok1 c1 rest1 line1 res1 ltac:(lia)) as P2.
        destruct (lex_phase2 fuel d tok1 _) as [tok2 st2|e|]; [| |contradiction].
        -- destruct P2 as [L2 P2]. rewrite P2. apply IH. lia.
        -- rewrite P2. reflexivity.
    + rewrite P1. reflexivity.
Qed.

(** The result of the lexer. *)
Definition lexed (d : rdbms) (rs : list rune) : lex_result :=
  match scan d (M0 "") rs with
  | TOk l => LexOk l
  | TErr n near => LexErr (mk_verror (S n) near)
  end.

Theorem lex_scan : forall fuel d rs, List.length rs < fuel -> lex_runes fuel d rs = lexed d rs.
Proof.
  intros fuel d rs H. unfold lex_runes, lexed.
  pose proof (lex_loop_scan d fuel "" (lex_init rs) H) as X.
  unfold fin in X. rewrite X. unfold emb, lex_init. cbn [l_rest l_line l_result].
  destruct (scan d (M0 "") rs); reflexivity.
Qed.
