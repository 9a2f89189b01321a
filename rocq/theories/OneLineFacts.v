(** Neither the reported strings nor the messages of errors have line breaks. *)
From Coq Require Import String Ascii NArith ZArith List Bool Arith Lia.
From Verif Require Import GoStr Unicode UnicodeFacts GoNum Types Lexer Grammar Ast Text Sources Utf8 Spec Pipe Meaning Fuel Layout Lexical LexicalFacts ErrorAt
  Json JsonResult OneLine ErrorText Numbers Lines LineFacts.
From Verif Require Import JsonFacts Enclosed Inside.
From Verif Require SourcesFacts ErrorTextFacts ValuesFacts GrammarFacts Emit.
Import ListNotations.
Open Scope nat_scope.
Open Scope string_scope.
Open Scope list_scope.

Definition flat (s : string) : Prop := line_feeds s = 0.
Lemma feeds_app : forall a b, line_feeds (a ++ b)%string = line_feeds a + line_feeds b.
Proof. induction a as [|c a IH]; intros b; cbn [append line_feeds]; auto. rewrite IH. lia. Qed.
Lemma flat_app : forall a b, flat a -> flat b -> flat (a ++ b)%string.
Proof. unfold flat. intros a b A B. rewrite feeds_app. lia. Qed.
Lemma flat_nil : flat "". Proof. reflexivity. Qed.
Lemma every_flat : forall p s, every p s = true -> p "010"%char = false -> flat s.
Proof.
  intros p s. induction s as [|c s IH]; intros E P; [reflexivity|]. cbn [every] in E. apply andb_true_iff in E as [C E]. unfold flat in *. cbn [line_feeds].
  destruct (Ascii.eqb_spec c "010"%char) as [->|N]; [congruence|]. now apply IH.
Qed.
Lemma rune_flat : forall r, is_scalar r = true -> r <> 10%N -> flat (utf8_rune r).
Proof.
  intros r S N. destruct (rune_bytes r S) as [[-> L]|E].
  - unfold flat. cbn [line_feeds]. destruct (Ascii.eqb_spec (ascii_of_N r) "010"%char) as [X|X]; [|reflexivity]. exfalso. apply N.
    apply (f_equal N_of_ascii) in X. rewrite N_ascii_embedding in X by lia. exact X.
  - eapply every_flat; [exact E|reflexivity].
Qed.
Lemma text_flat : forall rs, Forall (fun r => is_scalar r = true) rs -> ~ In 10%N rs -> flat (utf8 rs).
Proof.
  intros rs S. induction S as [|r rs R S IH]; intros N; [reflexivity|]. cbn [utf8]. apply flat_app; [apply rune_flat; auto|apply IH]; intros X; apply N; [left; auto|right; auto].
Qed.
Lemma flat_text : forall rs, Forall (fun r => is_scalar r = true) rs -> flat (utf8 rs) -> ~ In 10%N rs.
Proof.
  intros rs S. induction S as [|r rs R S IH]; intros F; [auto|]. cbn [utf8] in F. unfold flat in F. rewrite feeds_app in F. intros [->|I].
  - change (line_feeds (utf8_rune 10%N)) with 1 in F. lia.
  - apply IH in I; auto. unfold flat. lia.
Qed.

(** ** Tokens *)
Definition not_feed (c : rune) : Prop := c <> 10%N.
Lemma breaks_in : forall rs, line_breaks rs = 0 <-> ~ In 10%N rs.
Proof. intros rs. unfold line_breaks. change nl with 10%N. symmetry. apply count_occ_not_In. Qed.
Lemma quotation_flat : forall q body n s, quotation q body n s -> quote_mark q = true -> ~ In 10%N s.
Proof.
  intros q body n s H. induction H as [q|q body n s H IH|q c body n s C Q H IH|q c body n s x body' n' s' C Q H IH H' IH']; intros M I.
  - destruct I as [->|[]]. discriminate.
  - now apply IH.
  - destruct I as [->|I]; [now apply C|now apply IH].
  - destruct I as [->|I]; [discriminate|]. apply in_app_or in I as [I|I]; [now apply IH|now apply IH'].
Qed.
Lemma quotation_part : forall q body n s, quotation q body n s -> forall c, In c s -> In c body.
Proof.
  intros q body n s H. induction H as [q|q body n s H IH|q c body n s C Q H IH|q c body n s x body' n' s' C Q H IH H' IH']; intros a I; auto.
  - right. auto.
  - destruct I as [->|I]; [now left|right; auto].
  - destruct I as [->|I]; [now left|]. right. apply in_or_app. apply in_app_or in I as [I|I]; [left; auto|right; right; auto].
Qed.
Definition flat_read (r : reading) : Prop :=
  match r with Tokens l => Forall (fun t => t = line_break \/ flat t) l | Bad _ near => flat near end.
Lemma flat_then : forall l r, Forall (fun t => t = line_break \/ flat t) l -> flat_read r -> flat_read (and_then l r).
Proof. intros l [l'|n near] F H; cbn in *; auto. apply Forall_app. auto. Qed.
Lemma repeat_breaks : forall n, Forall (fun t => t = line_break \/ flat t) (repeat line_break n).
Proof. induction n; constructor; auto. Qed.
Lemma app_scalars : forall a b, scalars (a ++ b) -> scalars a /\ scalars b.
Proof. intros a b. apply Forall_app. Qed.
Lemma reads_flat : forall d fresh rs r, reads d fresh rs r -> scalars rs -> flat_read r.
Proof.
  intros d fresh rs r H. induction H as [fresh|fresh c rest r B H IH|fresh rest r H IH|fresh c rest r B H IH|fresh w rest r N W H IH|fresh q body n s rest r B Q H IH
    |body rest r B H IH|body B|fresh body rest r D B H IH|fresh body D B|body rest r B H IH| |fresh q rest Q M|rest|fresh q body n B U|body B]; intros S.
  - constructor.
  - apply IH. now inversion S.
  - apply flat_then; [repeat constructor|]. apply IH. now inversion S.
  - inversion S; subst. apply flat_then; [|now apply IH]. constructor; [|constructor]. right. apply text_flat; [repeat constructor; auto|]. intros [->|[]]. discriminate B.
  - apply app_scalars in S as [S1 S2]. apply flat_then; [|now apply IH]. constructor; [|constructor]. right. apply text_flat; [exact S1|]. apply breaks_in. now apply word_no_break in W.
  - assert (M : quote_mark q = true) by (unfold quote_of in B; now apply andb_true_iff in B as [B _]).
    inversion S as [|? ? S0 S3]; subst. apply app_scalars in S3 as [S1 S2]. apply flat_then; [|now apply IH]. apply Forall_app. split; [apply repeat_breaks|].
    constructor; [|constructor]. right. apply text_flat.
    + constructor; auto. apply Forall_forall. intros c I. eapply Forall_forall in S1; [exact S1|]. eapply quotation_part; eauto.
    + intros [->|I]; [discriminate M|]. eapply quotation_flat; eauto.
  - apply flat_then; [repeat constructor|]. apply IH. inversion S as [|? ? _ S1]; subst. inversion S1 as [|? ? _ S2]; subst. apply app_scalars in S2 as [_ S2]. now inversion S2.
  - constructor.
  - apply flat_then; [repeat constructor|]. apply IH. inversion S as [|? ? _ S1]; subst. apply app_scalars in S1 as [_ S2]. now inversion S2.
  - constructor.
  - apply flat_then; [apply repeat_breaks|]. apply IH. inversion S as [|? ? _ S1]; subst. inversion S1 as [|? ? _ S2]; subst. apply app_scalars in S2 as [_ S2].
    inversion S2 as [|? ? _ S3]; subst. now inversion S3.
  - reflexivity.
  - cbn [flat_read]. inversion S; subst. apply text_flat; [repeat constructor; auto|]. intros [->|[]]. discriminate Q.
  - reflexivity.
  - reflexivity.
  - reflexivity.
Qed.
Lemma lexes_flat : forall d ddl toks, lexes d ddl toks -> Forall (fun t => t = line_break \/ flat t) toks.
Proof. intros d ddl toks H. apply lexes_reads in H. exact (reads_flat _ _ _ _ H (runes_scalars _)). Qed.
Lemma tokens_flat : forall d ddl l, tokens d ddl l -> Forall flat l.
Proof.
  intros d ddl l (f & toks & H & ->). assert (X : lexes d ddl toks) by (now exists f). apply lexes_flat in X. apply Forall_forall. intros t I.
  apply filter_In in I as [I N]. eapply Forall_forall in X; [|exact I]. destruct X as [->|X]; [discriminate N|exact X].
Qed.
Theorem near_flat : forall ddl d line near, rejected ddl d line near -> line_feeds near = 0.
Proof.
  intros ddl d line near H. destruct (rejected_reads _ _ _ _ H) as [(n & -> & R)|[toks R]].
  - exact (reads_flat _ _ _ _ R (runes_scalars _)).
  - pose proof (reads_flat _ _ _ _ R (runes_scalars _)) as F. cbn [flat_read] in F. apply lexes_reads in R.
    destruct (first_bad _ _ _ _ _ H R) as [(-> & _)|(p & q & -> & N & _)]; [reflexivity|]. apply Forall_app in F as [_ F]. inversion F as [|? ? [->|X] _]; [contradiction N; reflexivity|exact X].
Qed.
Lemma decimal_flat : forall s n, decimal s n -> flat s.
Proof.
  assert (D : forall c k, In (c, k) digit_table -> flat (String c "")).
  { intros c k I. cbn in I. repeat (destruct I as [I|I]; [injection I as <- <-; reflexivity|]). contradiction. }
  intros s n H. induction H; [eauto|]. apply flat_app; eauto.
Qed.
Theorem message_flat : forall ddl d ts e, returns ddl d ts (Some e) -> line_feeds (Error e) = 0.
Proof.
  intros ddl d ts [line near] H. destruct (ErrorTextFacts.error_text line near) as (ds & D & ->). apply decimal_flat in D.
  assert (N : flat near).
  { apply (near_flat ddl d line). unfold rejected. apply returns_stage in H as K. inversion K; subst; exact H. }
  unfold flat in *. rewrite !feeds_app, N, D. reflexivity.
Qed.

(** ** Tables *)
Lemma flat_tail : forall c s, flat (String c s) -> flat s.
Proof. unfold flat. intros c s H. cbn [line_feeds] in H. lia. Qed.
Lemma flat_front : forall c s, flat (s ++ String c "")%string -> flat s.
Proof. unfold flat. intros c s H. rewrite feeds_app in H. lia. Qed.
Lemma inner_flat : forall qs t, Enclosed.enclosed t -> flat t -> forallb (fun q => contains Emit.any_quote q) qs = true -> quoted qs t = true -> flat (inner t).
Proof.
  intros qs t E F Q H. destruct t as [|c t]; [discriminate|]. assert (A : quoted Emit.any_quote (String c t) = true).
  { unfold quoted in *. apply GrammarFacts.contains_spec. apply GrammarFacts.contains_spec in H. rewrite forallb_forall in Q. specialize (Q _ H). now apply GrammarFacts.contains_spec in Q. }
  destruct (E A) as (q & s & X). rewrite X in *. rewrite ValuesFacts.enclosed_inner. apply flat_tail in F. now apply flat_front in F.
Qed.
Lemma unquote_flat : forall d t, Enclosed.enclosed t -> flat t -> flat (unquote d t).
Proof. intros d t E V. unfold unquote. destruct (quoted (name_quotes d) t) eqn:Q; auto. eapply inner_flat; eauto. apply name_quotes_any. Qed.
Lemma run_text_flat : forall l, Forall flat l -> flat (text l).
Proof. intros l F. induction F; [reflexivity|]. cbn. now apply flat_app. Qed.
Lemma upper_ascii_feed : forall c, upper_ascii c = "010"%char -> c = "010"%char.
Proof. intros [[] [] [] [] [] [] [] []] H; vm_compute in H; try discriminate H; reflexivity. Qed.
Lemma upper_flat : forall s, flat s -> flat (to_upper s).
Proof.
  unfold flat. induction s as [|c s IH]; auto. cbn [to_upper line_feeds]. intros H. rewrite IH by lia.
  destruct (Ascii.eqb_spec (upper_ascii c) "010"%char) as [E|E]; [|reflexivity]. apply upper_ascii_feed in E as ->. cbn in H. lia.
Qed.
Lemma upper_targets : forallb (fun x : rune * rune * N * rune => let '(_, _, _, u) := x in (32 <=? u)%N) upper_ranges = true.
Proof. vm_compute. reflexivity. Qed.
Lemma upper_feed : forall r, upper_rune r = 10%N -> r = 10%N.
Proof.
  intros r H. unfold upper_rune in H. destruct (find (in_range_of r) upper_ranges) as [[[[lo hi] st] u]|] eqn:F.
  - apply find_some in F as [F _]. pose proof upper_targets as T. rewrite forallb_forall in T. specialize (T _ F). cbn beta iota in T. apply N.leb_le in T.
    unfold rune in *. destruct (N.ltb_spec r 128) as [L|L]; [|lia]. destruct (N.leb_spec 97 r), (N.leb_spec r 122); cbv beta iota delta [andb] in H; lia.
  - unfold rune in *. destruct (N.ltb_spec r 128) as [L|L]; [|exact H]. destruct (N.leb_spec 97 r), (N.leb_spec r 122); cbv beta iota delta [andb] in H; lia.
Qed.
Lemma go_upper_flat : forall s, valid s -> flat s -> flat (go_upper s).
Proof.
  intros s V F. unfold go_upper. destruct (is_ascii s); [now apply upper_flat|]. destruct V as (rs & S & ->).
  rewrite runes_of_utf8 by exact S. apply flat_text in F; auto. apply text_flat.
  - apply Forall_map. eapply Forall_impl; [|exact S]. intros r. apply upper_scalar.
  - intros I. apply in_map_iff in I as (r & E & I). apply upper_feed in E as ->. auto.
Qed.
Section Out.
Variables (d : rdbms) (L : list string).
Hypotheses (W : Forall valid L) (V : Forall flat L) (E : Forall Enclosed.enclosed L).
Lemma in_flat : forall t, In t L -> flat t. Proof. apply Forall_forall, V. Qed.
Lemma incl_flat : forall cs, incl cs L -> Forall flat cs. Proof. intros cs I. apply Forall_forall. intros t H. apply in_flat, I, H. Qed.
Lemma name_flat : forall x, name_from d L x -> flat x.
Proof. intros x (t & I & ->). apply unquote_flat; [eapply Forall_forall in E; eauto|now apply in_flat]. Qed.
Lemma opt_flat : forall x, opt_name_from d L x -> flat x. Proof. intros x [->|H]; [reflexivity|now apply name_flat]. Qed.
Lemma run_flat : forall x, run_from L x -> flat x.
Proof.
  intros x (u & e & w & H & ->). apply run_text_flat. apply Forall_forall. intros t I. apply in_flat. rewrite H. apply in_or_app. right. apply in_or_app. left.
  now apply squeeze_incl.
Qed.
Lemma reference_flat : forall r, reference_from d L r -> Forall flat (reference_strings r).
Proof. intros r [A B]. constructor; [now apply opt_flat|]. destruct (ref_columns r); [now apply incl_flat|constructor]. Qed.
Lemma type_flat : forall t, type_from L t -> flat (dt_name t).
Proof.
  intros t (w & I & K & _). assert (U : flat (go_upper w)) by (apply go_upper_flat; [eapply Forall_forall in W; eauto|now apply in_flat]).
  destruct K as [H|(v & J & K & H)]; rewrite H; [exact U|]. destruct (_ =? _); [reflexivity|]. destruct (_ =? _); [reflexivity|]. now apply flat_app.
Qed.
Lemma column_flat : forall c, column_from d L c -> Forall flat (column_strings c).
Proof.
  intros c (A & B & C & D & F & G & H). unfold column_strings. apply Forall_app. split; [|apply Forall_app; split].
  - repeat apply Forall_cons; [now apply name_flat|now apply type_flat|now apply opt_flat|destruct F as [->|F]; [reflexivity|now apply run_flat]|now apply opt_flat|constructor].
  - destruct (c_default (col_constraint c)) as [| | |s]; cbn [default_strings]; constructor; [|constructor].
    destruct D as [D|[(t & I & Q & ->)|D]]; [now apply in_flat| |now apply run_flat].
    eapply inner_flat; eauto; [eapply Forall_forall in E; eauto|now apply in_flat|apply string_quotes_any].
  - now apply reference_flat.
Qed.
Lemma flat_map_all : forall A (f : A -> list string) l, Forall (fun x => Forall flat (f x)) l -> Forall flat (flat_map f l).
Proof. intros A f l F. induction F; cbn; [constructor|]. now apply Forall_app. Qed.
Lemma table_flat : forall t, table_from d L t -> Forall flat (table_strings t).
Proof.
  intros t (A & B & C & D1 & D2 & D3 & D4). unfold table_strings. apply Forall_app. split; [repeat constructor; [now apply opt_flat|now apply name_flat]|].
  repeat (apply Forall_app; split); apply flat_map_all; (eapply Forall_impl; [|eassumption]); cbn beta.
  - intros c. apply column_flat.
  - intros k [F G]. constructor; [now apply opt_flat|now apply incl_flat].
  - intros k [F G]. constructor; [now apply opt_flat|now apply incl_flat].
  - intros k [F G]. repeat constructor; [now apply opt_flat|now apply run_flat].
  - intros k (F & G & H). constructor; [now apply opt_flat|]. apply Forall_app. split; [now apply incl_flat|now apply reference_flat].
Qed.
End Out.
Theorem result_flat : forall ddl d ts, accepted ddl d ts -> forall t s, In t ts -> In s (table_strings t) -> line_feeds s = 0.
Proof.
  intros ddl d ts A t s I J. destruct (SourcesFacts.sources d ddl ts A) as (l & out & T & X & F & _). eapply Forall_forall in F; [|exact I].
  apply (table_flat d out) in F; [eapply Forall_forall in F; [exact F|exact J]| | |].
  - eapply weave_all; [exact X| |eapply tokens_valid; eauto]. destruct d; repeat constructor; apply valid_ascii; reflexivity.
  - eapply weave_all; [exact X| |eapply tokens_flat; eauto]. destruct d; repeat constructor.
  - eapply weave_all; [exact X| |eapply tokens_enclosed; eauto]. destruct d; repeat constructor; intros Q; discriminate Q.
Qed.
