(** What is reported is valid UTF-8 and has a JSON text. *)
From Coq Require Import String Ascii NArith ZArith List Bool Arith Lia.
From Verif Require Import GoStr Unicode UnicodeFacts GoNum Types Lexer Grammar Ast Text Sources Floats Print Utf8 Spec Pipe Meaning Enclosed Origin JsonGrammar Json JsonFacts.
From Verif Require LexicalFacts SourcesFacts ValuesFacts GoFloatsRead PrintFloat NumbersFacts.
Import ListNotations.
Open Scope nat_scope.
Open Scope string_scope.

Lemma valid_app : forall a b, valid a -> valid b -> valid (a ++ b).
Proof. intros a b (r & S & ->) (r' & S' & ->). exists (r ++ r')%list. split; [now apply Forall_app|now rewrite utf8_app]. Qed.
Lemma valid_nil : valid "". Proof. exists []. auto. Qed.
Lemma taken_valid : forall rs t, Forall (fun r => is_scalar r = true) rs -> taken rs t -> valid t.
Proof.
  intros rs t S [(u & w & v & -> & ->)|(_ & w & H & ->)].
  - exists w. split; auto. apply Forall_app in S as [_ S]. now apply Forall_app in S as [S _].
  - exists w. split; auto. clear -S H. induction H as [|x a b H IH|x a b H IH]; [constructor|inversion S; subst; constructor; auto|inversion S; subst; auto].
Qed.
Lemma tokens_valid : forall d ddl l, tokens d ddl l -> Forall valid l.
Proof.
  intros d ddl l (t & L & ->)%tokens_lexed. pose proof (lexed_from d (runes_of ddl)) as F. rewrite L in F. destruct F as [F _].
  apply Forall_forall. intros x [I _]%filter_In. rewrite Forall_forall in F. eapply taken_valid; [apply LexicalFacts.runes_scalars|]. apply F, I.
Qed.
Lemma near_valid : forall ddl d ts e, returns ddl d ts (Some e) -> valid (err_near e).
Proof.
  intros ddl d ts e H. apply error_position in H as (_ & _ & [->|H]); [apply valid_ascii; reflexivity|].
  eapply taken_valid; [apply LexicalFacts.runes_scalars|exact H].
Qed.

(** the bytes of a character *)
Definition small (c : ascii) : bool := (N_of_ascii c <? 128)%N.
Fixpoint every (p : ascii -> bool) (s : string) : bool := match s with "" => true | String c s => p c && every p s end.
Lemma every_app : forall p a b, every p (a ++ b) = every p a && every p b.
Proof. intros p a b. induction a as [|c a IH]; cbn; auto. now rewrite IH, andb_assoc. Qed.
Lemma large_byte : forall n, (128 <= n < 256)%N -> small (byte n) = false.
Proof. intros n H. unfold small. rewrite N_of_byte by lia. apply N.ltb_ge. lia. Qed.
Lemma rune_bytes : forall r, is_scalar r = true -> (utf8_rune r = String (ascii_of_N r) "" /\ (r < 128)%N) \/ every (fun c => negb (small c)) (utf8_rune r) = true.
Proof.
  intros r S. unfold utf8_rune. rewrite S. destruct (N.ltb_spec r 128) as [L|L]; [left; auto|]. right.
  unfold is_scalar in S. rewrite orb_true_iff, andb_true_iff, !N.ltb_lt, N.leb_le in S.
  pose proof (N.mod_lt r 64). pose proof (N.mod_lt (r / 64) 64). pose proof (N.mod_lt (r / 4096) 64).
  destruct (N.ltb_spec r 2048); [|destruct (N.ltb_spec r 65536)]; cbn [every]; rewrite ?large_byte; try reflexivity.
  all: split; try lia.
Qed.

(** quoted text without its quotation marks *)
Lemma valid_tail : forall c s, small c = true -> valid (String c s) -> valid s.
Proof.
  intros c s C (rs & S & E). destruct rs as [|r rs]; [discriminate|]. inversion S; subst. cbn [utf8] in E.
  destruct (rune_bytes r H1) as [[U _]|U].
  - rewrite U in E. injection E as _ ->. exists rs. auto.
  - destruct (rune_head r) as (b & t & V). rewrite V in E, U. injection E as -> _. cbn in U. now rewrite C in U.
Qed.
Lemma app_snoc : forall a b c e, (a ++ String c "" = b ++ String e "")%string -> a = b /\ c = e.
Proof.
  induction a as [|x a IH]; intros [|y b] c e E; cbn in E; injection E; auto.
  - intros E1 _. destruct b; discriminate.
  - intros E1 _. destruct a; discriminate.
  - intros E1 ->. apply IH in E1 as [-> ->]. auto.
Qed.
Lemma last_byte : forall s, s <> "" -> exists t c, s = (t ++ String c "")%string.
Proof.
  induction s as [|c s IH]; intros N; [easy|]. destruct s as [|e s]; [now exists "", c|]. destruct IH as (t & b & ->); [discriminate|]. now exists (String c t), b.
Qed.
Lemma valid_front : forall c s, small c = true -> valid (s ++ String c "") -> valid s.
Proof.
  intros c s C (rs & S & E). destruct (exists_last (l := rs)) as (rs' & r & ->).
  { intros ->. destruct s; discriminate. }
  apply Forall_app in S as [S S1]. inversion S1; subst. rewrite utf8_app in E. cbn [utf8] in E. rewrite append_nil_r in E.
  destruct (rune_bytes r H1) as [[U _]|U].
  - rewrite U in E. apply app_snoc in E as [-> _]. exists rs'. auto.
  - destruct (last_byte (utf8_rune r)) as (t & b & V). { destruct (rune_head r) as (x & y & ->). discriminate. }
    rewrite V in U, E. rewrite every_app in U. rewrite <- append_assoc in E. apply app_snoc in E as [_ <-]. cbn in U. rewrite C in U. now rewrite andb_false_r in U.
Qed.
Lemma inner_valid : forall qs t, enclosed t -> valid t -> forallb (fun q => contains Emit.any_quote q) qs = true -> quoted qs t = true -> valid (inner t).
Proof.
  intros qs t E V Q H. destruct t as [|c t]; [discriminate|].
  assert (A : quoted Emit.any_quote (String c t) = true).
  { unfold quoted in *. apply GrammarFacts.contains_spec. apply GrammarFacts.contains_spec in H. rewrite forallb_forall in Q. specialize (Q _ H). now apply GrammarFacts.contains_spec in Q. }
  assert (C : small c = true).
  { unfold quoted in A. apply GrammarFacts.contains_spec in A. cbn in A. destruct A as [A|[A|[A|[]]]]; injection A as <-; reflexivity. }
  destruct (E A) as (q & s & X). injection X as <- ->. rewrite ValuesFacts.enclosed_inner. apply valid_tail in V; auto. now apply valid_front in V.
Qed.
Lemma name_quotes_any : forall d, forallb (fun q => contains Emit.any_quote q) (name_quotes d) = true. Proof. intros []; reflexivity. Qed.
Lemma string_quotes_any : forall d, forallb (fun q => contains Emit.any_quote q) (string_quotes d) = true. Proof. intros []; reflexivity. Qed.
Lemma unquote_valid : forall d t, enclosed t -> valid t -> valid (unquote d t).
Proof. intros d t E V. unfold unquote. destruct (quoted (name_quotes d) t) eqn:Q; auto. eapply inner_valid; eauto. apply name_quotes_any. Qed.
Lemma text_valid : forall l, Forall valid l -> valid (text l).
Proof. intros l F. induction F; [apply valid_nil|]. cbn. now apply valid_app. Qed.
Lemma squeeze_incl : forall l t, In t (squeeze l) -> In t l.
Proof.
  induction l as [|x l IH]; intros t H; [exact H|]. cbn [squeeze] in H. destruct (_ && _); [right; auto|]. destruct H as [->|H]; [now left|right; auto].
Qed.
Lemma upper_large : forall c, small c = false -> upper_ascii c = c.
Proof. intros [[] [] [] [] [] [] [] []] H; vm_compute in H; try discriminate H; reflexivity. Qed.
Lemma upper_small : forall c, small c = true -> small (upper_ascii c) = true.
Proof. intros [[] [] [] [] [] [] [] []] H; vm_compute in H; try discriminate H; reflexivity. Qed.
Lemma upper_app : forall a b, to_upper (a ++ b) = (to_upper a ++ to_upper b)%string.
Proof. induction a as [|c a IH]; intros b; cbn; auto. now rewrite IH. Qed.
Lemma upper_valid : forall s, valid s -> valid (to_upper s).
Proof.
  intros s (rs & S & ->). induction S as [|r rs R S IH]; [apply valid_nil|]. cbn [utf8]. rewrite upper_app. apply valid_app; auto.
  destruct (rune_bytes r R) as [[-> L]|U].
  - apply valid_ascii. cbn. rewrite andb_true_r. apply upper_small. unfold small. rewrite N_ascii_embedding by lia. now apply N.ltb_lt.
  - replace (to_upper (utf8_rune r)) with (utf8_rune r); [exists [r]; split; [auto|cbn; now rewrite append_nil_r]|].
    revert U. generalize (utf8_rune r). induction s as [|c s IHs]; cbn; auto. intros U. apply andb_true_iff in U as [U1 U2].
    rewrite upper_large by (now apply negb_true_iff). f_equal. auto.
Qed.

Lemma go_upper_valid : forall s, valid s -> valid (go_upper s).
Proof.
  intros s V. unfold go_upper. destruct (is_ascii s); [now apply upper_valid|]. apply valid_runes in V as [V _].
  exists (map upper_rune (runes_of s)). split; [|reflexivity]. apply Forall_map. eapply Forall_impl; [|exact V]. intros r. apply upper_scalar.
Qed.
Section Out.
Variables (d : rdbms) (L : list string).
Hypotheses (V : Forall valid L) (E : Forall enclosed L).
Lemma in_valid : forall t, In t L -> valid t. Proof. apply Forall_forall, V. Qed.
Lemma incl_valid : forall cs, incl cs L -> Forall valid cs. Proof. intros cs I. apply Forall_forall. intros t H. apply in_valid, I, H. Qed.
Lemma name_valid : forall x, name_from d L x -> valid x.
Proof. intros x (t & I & ->). apply unquote_valid; [eapply Forall_forall in E; eauto|now apply in_valid]. Qed.
Lemma opt_valid : forall x, opt_name_from d L x -> valid x. Proof. intros x [->|H]; [apply valid_nil|now apply name_valid]. Qed.
Lemma run_valid : forall x, run_from L x -> valid x.
Proof.
  intros x (u & e & w & H & ->). apply text_valid. apply Forall_forall. intros t I. apply in_valid. rewrite H. apply in_or_app. right. apply in_or_app. left.
  now apply squeeze_incl.
Qed.
Lemma reference_valid : forall r, reference_from d L r -> valid_reference r.
Proof. intros r [A B]. split; [now apply opt_valid|]. destruct (ref_columns r); auto. now apply incl_valid. Qed.
Lemma type_valid : forall t, type_from L t -> valid (dt_name t).
Proof.
  intros t (w & I & [H|(v & J & K & H)] & _); rewrite H.
  - now apply go_upper_valid, in_valid.
  - destruct (_ =? _); [apply valid_ascii; reflexivity|]. destruct (_ =? _); [apply valid_ascii; reflexivity|].
    apply valid_app; [now apply go_upper_valid, in_valid|apply valid_ascii; reflexivity].
Qed.
Lemma constraint_valid : forall c, constraint_from d L c -> valid_constraint c.
Proof.
  intros c (A & B & C & D & F). split; [now apply opt_valid|]. split.
  - destruct (c_default c) as [| | |s]; auto. destruct B as [B|[(t & I & Q & ->)|B]]; [now apply in_valid| |now apply run_valid].
    eapply inner_valid; eauto; [eapply Forall_forall in E; eauto|now apply in_valid|apply string_quotes_any].
  - split; [destruct C as [->|C]; [apply valid_nil|now apply run_valid]|]. split; [now apply opt_valid|now apply reference_valid].
Qed.
Lemma table_valid : forall t, table_from d L t -> valid_table t.
Proof.
  intros t (A & B & C & D1 & D2 & D3 & D4). split; [now apply opt_valid|]. split; [now apply name_valid|]. split.
  - eapply Forall_impl; [|exact C]. intros c (F & G & H). split; [now apply name_valid|]. split; [now apply type_valid|now apply constraint_valid].
  - repeat split; (eapply Forall_impl; [|eassumption]); cbn beta.
    + intros k [F G]. split; [now apply opt_valid|now apply incl_valid].
    + intros k [F G]. split; [now apply opt_valid|now apply incl_valid].
    + intros k [F G]. split; [now apply opt_valid|now apply run_valid].
    + intros k (F & G & H). split; [now apply opt_valid|]. split; [now apply incl_valid|now apply reference_valid].
Qed.
End Out.
Lemma weave_all : forall (P : string -> Prop) ws l o, weave ws l o -> Forall P ws -> Forall P l -> Forall P o.
Proof.
  intros P ws l o W. induction W; intros F G; auto; try (inversion G; subst; auto; fail). constructor; auto. eapply Forall_forall in F; eauto.
Qed.
Theorem result_valid : forall ddl d ts, accepted ddl d ts -> Forall valid_table ts.
Proof.
  intros ddl d ts A. destruct (SourcesFacts.sources d ddl ts A) as (l & out & T & W & F & _). eapply Forall_impl; [|exact F]. intros t. apply table_valid.
  - eapply weave_all; [exact W| |eapply tokens_valid; eauto]. destruct d; repeat constructor; apply valid_ascii; reflexivity.
  - eapply weave_all; [exact W| |eapply tokens_enclosed; eauto]. destruct d; repeat constructor; intros Q; discriminate Q.
Qed.

(** ** Numbers *)
Lemma float_value_ok : forall neg hex m frac x f, float_value neg hex m frac x = Some f -> float_ok f.
Proof.
  intros neg hex m frac x f H. pose proof (GoFloatsRead.value_spec neg hex m (N.to_nat frac) x) as S. rewrite N2Nat.id, H in S.
  destruct S as (_ & q & e & -> & D & N & _). split; assumption.
Qed.
Lemma parse_float_ok : forall s f, parse_float s = Some f -> special_float s = Some f \/ special_float s = None /\ float_ok f /\ exists neg q e, f = FFin neg q e.
Proof.
  assert (K : forall neg hex m frac x f, float_value neg hex m frac x = Some f -> float_ok f /\ exists neg q e, f = FFin neg q e).
  { intros neg hex m frac x f H. split; [eapply float_value_ok; eauto|]. unfold float_value in H.
    match type of H with match ?r with _ => _ end = _ => destruct r as [[q e]|]; inversion H; eauto end. }
  intros s f H. unfold parse_float in H. destruct (special_float s) as [g|]; [left; exact H|right; split; [reflexivity|]].
  repeat match type of H with
  | (let '(_, _) := ?x in _) = _ => destruct x
  | match ?x with _ => _ end = _ => destruct x eqn:?
  end; try discriminate H; eauto.
Qed.
Lemma float_text_json : forall neg q e, json_number (float_text (FFin neg q e)).
Proof.
  intros neg q e. unfold float_text. destruct (e <? 0)%Z.
  - exists (if neg then "-" else ""), (numeral_of (q * 5 ^ Z.to_N (- e))), "", ("e-" ++ numeral_of (Z.to_N (- e)))%string.
    split; [reflexivity|]. split; [destruct neg; cbn; auto|]. split; [apply numeral_int|]. split; [left; reflexivity|]. right.
    exists "e"%char, "-", (numeral_of (Z.to_N (- e))). split; [reflexivity|]. split; [now left|]. split; [cbn; auto|].
    destruct (numeral_int (Z.to_N (- e))) as (_ & D & N). auto.
  - exists (if neg then "-" else ""), (numeral_of (q * 2 ^ Z.to_N e)), "", "". split; [now rewrite !append_nil_r|].
    split; [destruct neg; cbn; auto|]. split; [apply numeral_int|]. split; left; reflexivity.
Qed.
Lemma default_has_json : forall d L v, default_from d L v -> ~ no_json v -> exists j, default_json v j.
Proof.
  intros d L v D N. destruct v as [|f|b|s]; try (eexists; constructor; fail). destruct D as (t & _ & P).
  destruct (parse_float_ok t f P) as [S|(_ & O & neg & q & e & ->)].
  - exfalso. apply N. apply GoFloatsRead.special_words in S. cbn. destruct S as [[_ ->]|[[_ ->]|[_ ->]]]; exact I.
  - exists (JNumber (float_text (FFin neg q e))). constructor. split; [apply float_text_json|]. now apply PrintFloat.float_read.
Qed.

(** the default values of tables *)
Definition defaults (ts : list table) : list default_value := flat_map (fun t => map (fun c => c_default (col_constraint c)) (t_columns t)) ts.
Lemma forall2_exists : forall A (R : A -> json -> Prop) l, Forall (fun a => exists j, R a j) l -> exists js, Forall2 R l js.
Proof. intros A R l F. induction F as [|a l [j H] F [js IH]]; [exists []; constructor|exists (j :: js); constructor; auto]. Qed.
Lemma tables_have_json : forall d L ts, Forall (table_from d L) ts -> Forall (fun v => ~ no_json v) (defaults ts) -> exists s, marshals ts s.
Proof.
  intros d L ts F N. assert (G : exists js, Forall2 table_json ts js).
  - apply forall2_exists. apply Forall_forall. intros t I. rewrite Forall_forall in F. specialize (F t I).
    assert (C : exists cs, Forall2 column_json (t_columns t) cs).
    { apply forall2_exists. apply Forall_forall. intros c J. destruct F as (_ & _ & F & _). rewrite Forall_forall in F. destruct (F c J) as (_ & _ & _ & D & _).
      destruct (default_has_json d L _ D) as [j H].
      - rewrite Forall_forall in N. apply N. apply in_flat_map. exists t. split; auto. apply in_map_iff. eauto.
      - eexists. constructor. exact H. }
    destruct C as [cs C]. eexists. constructor. exact C.
  - destruct G as [js G]. exists (write (JArray js)). exists js. auto.
Qed.
Theorem has_json : forall ddl d ts, accepted ddl d ts -> Forall (fun v => ~ no_json v) (defaults ts) -> exists s, marshals ts s.
Proof. intros ddl d ts A N. destruct (SourcesFacts.sources d ddl ts A) as (l & out & T & W & F & _). eapply tables_have_json; eauto. Qed.
Theorem json_only : forall ts s, marshals ts s -> Forall (fun v => ~ no_json v) (defaults ts).
Proof.
  intros ts s (js & F & _). apply Forall_forall. intros v I N. apply in_flat_map in I as (t & I & J). apply in_map_iff in J as (c & <- & J).
  assert (H : exists j, table_json t j). { clear -F I. induction F; [easy|]. destruct I as [->|I]; eauto. }
  destruct H as [j H]. destruct H as [t cs C]. assert (H : exists j, column_json c j). { clear -C J. induction C; [easy|]. destruct J as [->|J]; eauto. }
  destruct H as [j H]. destruct H as [c x D]. destruct D as [|f s' D| |]; try exact N. destruct f; cbn in *; tauto.
Qed.
(** the words from which such values come *)
Theorem no_json_from : forall ddl d ts, accepted ddl d ts -> ~ Forall (fun v => ~ no_json v) (defaults ts) ->
  exists l t, tokens d ddl l /\ In t l /\ special_float t <> None.
Proof.
  intros ddl d ts A H. destruct (SourcesFacts.sources d ddl ts A) as (l & out & T & W & F & _).
  assert (X : exists v, In v (defaults ts) /\ no_json v).
  { clear -H. induction (defaults ts) as [|v vs IH]; [elim H; constructor|]. destruct v as [|[]| |].
    all: try (eexists; split; [left; reflexivity|exact I]).
    all: destruct IH as (w & J & N); [|exists w; split; [right; exact J|exact N]]; intros G; apply H; constructor; auto. }
  destruct X as (v & I & N). apply in_flat_map in I as (t & I & J). apply in_map_iff in J as (c & <- & J).
  rewrite Forall_forall in F. destruct (F t I) as (_ & _ & C & _). rewrite Forall_forall in C. destruct (C c J) as (_ & _ & _ & D & _).
  destruct (c_default (col_constraint c)) as [|f| |]; try contradiction. destruct D as (w & K & P). exists l, w. split; auto.
  assert (S : special_float w = Some f). { destruct (parse_float_ok w f P) as [S|(_ & _ & neg & q & e & ->)]; [exact S|contradiction]. }
  split; [|congruence].
  assert (Z : In w l \/ In w (put_in d)).
  { clear -W K. induction W; cbn in *; [tauto| | |]; intuition; subst; auto. }
  destruct Z as [Z|Z]; auto. exfalso. destruct d; cbn in Z; repeat (destruct Z as [<-|Z]; [discriminate S|]); contradiction.
Qed.
Lemma defaults_in : forall ts, Forall (fun v => ~ no_json v) (defaults ts) <-> forall t c, In t ts -> In c (t_columns t) -> ~ no_json (c_default (col_constraint c)).
Proof.
  intros ts. rewrite Forall_forall. split.
  - intros H t c I J. apply H. apply in_flat_map. exists t. split; auto. apply in_map_iff. eauto.
  - intros H v I. apply in_flat_map in I as (t & I & J). apply in_map_iff in J as (c & <- & J). eauto.
Qed.
Theorem json_iff : forall ddl d ts, accepted ddl d ts ->
  ((exists s, marshals ts s) <-> forall t c, In t ts -> In c (t_columns t) -> ~ no_json (c_default (col_constraint c))).
Proof.
  intros ddl d ts A. rewrite <- defaults_in. split; [intros [s M]; eapply json_only; eauto|eapply has_json; eauto].
Qed.
Lemma json_dec : forall v, {~ no_json v} + {~ ~ no_json v}.
Proof. intros [|[]| |]; cbn; tauto. Qed.
Theorem json_words : forall ddl d ts l, accepted ddl d ts -> tokens d ddl l ->
  (forall t, In t l -> ~ In (GoFloats.lower_letters t) ["inf"; "+inf"; "infinity"; "+infinity"; "-inf"; "-infinity"; "nan"]) -> exists s, marshals ts s.
Proof.
  intros ddl d ts l A T H. apply (has_json ddl d); auto.
  destruct (Forall_dec (fun v => ~ no_json v) json_dec (defaults ts)) as [F|F]; auto.
  destruct (no_json_from ddl d ts A F) as (l' & t & T' & I & S). rewrite (tokens_det _ _ _ _ T T') in H. elim (H t I).
  destruct (special_float t) as [f|] eqn:X; [|easy]. apply GoFloatsRead.special_words in X. clear -X. cbn in *. intuition.
Qed.
