From Coq Require Import String Ascii NArith ZArith List Bool Lia.
From Verif Require Import GoStr Unicode UnicodeFacts GoNum Types Grammar GrammarFacts Ast Emit Converter Parse Spec Pipe Meaning Safe Seen Enclosed Sources SourcesFacts Numbers NumbersFacts Floats FloatsFacts GoFloats GoFloatsFacts GoFloatsRead Values.
Import ListNotations.
Open Scope string_scope.

Lemma columns_result : forall d stmts, result_columns (tables_of d stmts) = map (column_of d) (columns_in stmts).
Proof.
  intros d. unfold result_columns, tables_of, columns_in. induction stmts as [|s stmts IH]; cbn [flat_map]; auto.
  rewrite flat_map_app, map_app, IH. f_equal. destruct s as [t|]; cbn [flat_map t_columns table_of]; auto. rewrite app_nil_r.
  unfold columns_of. induction (at_elements t) as [|e l IHl]; cbn [flat_map map]; auto. rewrite map_app, IHl. now destruct e.
Qed.
Lemma columns_em : forall d stmts out, em_script d stmts out -> Forall (fun c => exists o, em_column d c o /\ incl o out) (columns_in stmts).
Proof.
  assert (I : forall (P : list string -> a_column -> Prop) out out' l, incl out out' -> Forall (fun c => exists o, P o c /\ incl o out) l -> Forall (fun c => exists o, P o c /\ incl o out') l).
  { intros P out out' l I. apply Forall_impl. intros c (o & H & J). exists o. split; auto. eapply incl_tran; eauto. }
  intros d stmts out H. unfold columns_in. induction H as [|t ss o os H1 H2 IH|ss os H IH]; cbn [flat_map]; auto.
  apply Forall_app. split; [|eapply (I (fun o c => em_column d c o)); [|exact IH]; apply incl_appr, incl_refl].
  eapply (I (fun o c => em_column d c o)); [apply incl_appl, incl_refl|].
  inversion H1 as [i s t' es c k oi os' oe _ _ _ _ _ E]; subst. cbn [at_elements].
  eapply (I (fun o c => em_column d c o) oe); [intros x X; right; right; rewrite !in_app_iff; cbn [In]; rewrite in_app_iff; tauto|]. clear - E I.
  induction E as [e o E|e es o os E Es IH]; cbn [flat_map]; apply Forall_app; split.
  - inversion E; subst; repeat constructor. eexists. split; [eassumption|apply incl_refl].
  - constructor.
  - inversion E; subst; repeat constructor. eexists. split; [eassumption|]. apply incl_appl, incl_refl.
  - eapply (I (fun o c => em_column d c o)); [|exact IH]. apply incl_appr, incl_tl, incl_refl.
Qed.
Lemma Forall2_map_r : forall A B (R : A -> B -> Prop) (f : A -> B) l, Forall (fun a => R a (f a)) l -> Forall2 R l (map f l).
Proof. intros A B R f l H. induction H; constructor; auto. Qed.

Lemma out_enclosed : forall d ddl stmts l out, tokens d ddl l -> lang (script d) l None out stmts -> Forall enclosed out.
Proof.
  intros d ddl stmts l out T L. apply Forall_forall. intros t I.
  destruct (weave_in _ _ _ _ (lang_weave _ _ _ (script_put_in d) _ _ _ _ L) I) as [J|J].
  - pose proof (tokens_enclosed _ _ _ T) as F. rewrite Forall_forall in F. auto.
  - assert (Q : quoted any_quote t = false); [|intros Q'; congruence]. destruct d; cbn in J; repeat (destruct J as [<-|J]; [reflexivity|]); contradiction.
Qed.

Lemma columns_seen : forall stmts, columns_in (seen stmts) = map seen_column (columns_in stmts).
Proof.
  intros stmts. unfold columns_in, seen. induction stmts as [|s stmts IH]; cbn [map flat_map]; auto. rewrite map_app, <- IH. f_equal.
  destruct s as [t|]; auto. cbn. induction (at_elements t) as [|e l IHl]; auto. destruct e; cbn; rewrite IHl; auto.
Qed.
(** What the converter sees of a column's constraints, apart from AUTO_INCREMENT *)
Lemma first_of_app : forall A B (f : A -> option B) a b, first_of f (a ++ b)%list = match first_of f a with Some x => Some x | None => first_of f b end.
Proof. intros A B f a b. induction a as [|x a IH]; cbn; auto. destruct (f x); auto. Qed.
Lemma items_seen : forall B (f : a_item -> option B) c, f IAuto = None ->
  first_of f (ac_items (seen_column c)) = first_of f (map seen_item (ac_items c)).
Proof.
  intros B f [n t cn is] H. unfold seen_column. cbn [ac_cname ac_items]. destruct cn as [x|]; auto. destruct (matches not_names x); auto.
  cbn [ac_items first_of]. now rewrite H.
Qed.
Lemma first_of_seen : forall B (f g : a_item -> option B) is, (forall i, f (seen_item i) = g i) -> first_of f (map seen_item is) = first_of g is.
Proof. intros B f g is H. induction is as [|i is IH]; cbn; auto. now rewrite H, IH. Qed.

(** every column of a script that is read correctly, with what is known about it *)
Theorem columns_reported : forall (R : a_column -> column -> Prop) d ddl stmts,
  (forall c o, em_column d c o -> Forall enclosed o -> R c (column_of d (seen_column c))) -> says d ddl stmts -> readable stmts = true ->
  exists ts, accepted ddl d ts /\ Forall2 R (columns_in stmts) (result_columns ts).
Proof.
  intros R d ddl stmts H S F. exists (tables_of d (seen stmts)). split; [now apply says_seen|].
  rewrite columns_result, columns_seen, map_map. apply (Forall2_map_r _ _ _ (fun c => column_of d (seen_column c))).
  destruct S as (l & out & T & L). pose proof (out_enclosed _ _ _ _ _ T L) as En.
  pose proof (lang_em _ _ _ _ (tokens_good _ _ _ T) L) as E. apply columns_em in E.
  eapply Forall_impl; [|exact E]. intros c (o & X & I). eapply H; [exact X|]. eapply incl_Forall; eauto.
Qed.

(** C23 *)
Theorem digits_reported : forall d ddl stmts, says d ddl stmts -> readable stmts = true -> exists ts, accepted ddl d ts /\
  Forall2 (fun c r => digits_as_written (at_digits (ac_type c)) (dt_n (col_type r)) (dt_m (col_type r))) (columns_in stmts) (result_columns ts).
Proof.
  intros d ddl stmts. apply columns_reported. intros c o E _. inversion E as [n ty cn is ot oc oi hs key _ T _ _ _ _]; subst.
  assert (Q : ac_type (seen_column (mk_acolumn n ty cn is)) = ty) by (unfold seen_column; cbn [ac_cname]; destruct cn as [x|]; auto; now destruct (matches not_names x)).
  cbn [column_of col_type]. rewrite Q. cbn [ac_type]. clear - T.
  assert (X : em_digits (at_digits ty) (match at_digits ty with None => [] | Some (n, None) => ["("; n; ")"] | Some (n, Some m) => ["("; n; ","; m; ")"] end)).
  { inversion T as [w dg o' _ D|w v dg o' _ _ D]; subst; cbn [at_digits]; inversion D; subst; auto. }
  unfold type_of, digits_as_written. destruct (at_digits ty) as [[n [m|]]|]; cbn [dt_n dt_m]; auto.
  - inversion X; subst. split; now apply positive_spec.
  - inversion X; subst. split; auto. now apply positive_spec.
Qed.

(** C22 *)
Lemma numeric_head : forall t, is_numeric_token t = true -> quoted any_quote t = false.
Proof.
  intros [|c t] H; [discriminate|]. destruct (quoted any_quote (String c t)) eqn:Q; auto.
  unfold quoted in Q. apply contains_spec in Q. exfalso.
  assert (X : is_numeric_token (String c t) = false); [|congruence].
  cbn in Q. repeat (destruct Q as [Q|Q]; [inversion Q; subst; reflexivity|]). contradiction.
Qed.
Lemma length_app_s : forall a b : string, String.length (a ++ b) = (String.length a + String.length b)%nat.
Proof. induction a as [|c a IH]; intros b; cbn; auto. Qed.
Lemma enclosed_inner : forall c s, inner (String c (s ++ String c "")) = s.
Proof.
  intros c s. unfold inner. cbn [String.length substring]. rewrite length_app_s. cbn [String.length]. replace (S (String.length s + 1) - 2)%nat with (String.length s) by lia.
  induction s as [|x s IH]; cbn; auto. now rewrite IH.
Qed.
Lemma str_any : forall d t, quoted (str_quotes d) t = true -> quoted any_quote t = true.
Proof. intros d [|c t] H; [discriminate|]. unfold quoted in *. apply contains_spec in H. apply contains_spec. destruct d; cbn in H |- *; tauto. Qed.
Lemma words_in : forall ws t, matches ws t = true -> In t (flat_map (fun w => [to_upper w; to_lower w]) ws).
Proof. intros ws t H. apply matches_spec in H as (w & I & E). apply in_flat_map. exists w. split; auto. cbn. destruct E; subst; auto. Qed.

Lemma grouped_head : forall b w ds, grouped (table b) w ds -> exists c s, w = String c s /\ dig b c = true.
Proof. intros b w ds H. inversion H as [c k I|c k s ds' I _|c k s ds' I _]; subst; apply table_only in I as [I _]; eauto. Qed.
Lemma mantissa_head : forall w ds frac, mantissa digit_table w ds frac -> exists c s, w = String c s /\ (is_digit c = true \/ c = "."%char).
Proof.
  assert (D : forall c, dig false c = true -> is_digit c = true) by (intros c H; unfold dig in H; now rewrite orb_false_r in H).
  intros w ds frac H. inversion H as [s ds' G|s ds' G|s ds' G|s ds' s' ds'' G G']; subst; try (apply (grouped_head false) in G as (c & r & -> & I)); cbn [append]; eauto 6.
Qed.
Lemma numeral_head : forall t neg hex m frac x, go_numeral t neg hex m frac x ->
  exists c s, t = String c s /\ (is_digit c = true \/ c = "."%char \/ c = "+"%char \/ c = "-"%char).
Proof.
  intros t neg hex m frac x H. destruct H as [sg neg s ds frac m Sg M D|sg neg s ds frac m ex x Sg M D E|sg neg c s ds frac m ex x Sg C M D E|sg neg c s ds frac m ex x Sg C M N D E].
  - apply mantissa_head in M as (c & r & -> & I). inversion Sg; subst; cbn [append]; do 2 eexists; (split; [reflexivity|tauto]).
  - apply mantissa_head in M as (c & r & -> & I). inversion Sg; subst; cbn [append]; do 2 eexists; (split; [reflexivity|tauto]).
  - inversion Sg; subst; cbn [append]; do 2 eexists; (split; [reflexivity|auto]).
  - inversion Sg; subst; cbn [append]; do 2 eexists; (split; [reflexivity|auto]).
Qed.
Lemma numeral_only : forall d t neg hex m frac x, go_numeral t neg hex m frac x -> quoted (str_quotes d) t = false /\ matches literal_words t = false.
Proof.
  intros d t neg hex m frac x N. destruct (numeral_head _ _ _ _ _ _ N) as (c & s & -> & H). split.
  - destruct (quoted (str_quotes d) (String c s)) eqn:Q; auto. apply str_any in Q. unfold quoted in Q. apply contains_spec in Q. exfalso.
    cbn in Q. repeat (destruct Q as [Q|Q]; [inversion Q; subst; destruct H as [H|[H|[H|H]]]; discriminate|]). contradiction.
  - destruct (matches literal_words (String c s)) eqn:M; auto. apply words_in in M. exfalso.
    cbn in M. repeat (destruct M as [M|M]; [inversion M; subst; destruct H as [H|[H|[H|H]]]; discriminate|]). contradiction.
Qed.
Lemma literal_numeral : forall d t neg hex m frac x, go_numeral t neg hex m frac x -> literal d t = is_numeric_token t.
Proof. intros d t neg hex m frac x N. unfold literal. destruct (numeral_only d _ _ _ _ _ _ N) as [-> ->]. now rewrite !orb_false_r. Qed.

Theorem literal_kinds : forall d t, literal d t = true -> enclosed t -> literal_kind d t.
Proof.
  intros d t L E. unfold literal in L. apply orb_true_iff in L as [L|L]; [apply orb_true_iff in L as [L|L]|].
  - unfold is_numeric_token in L. destruct (parse_float t) as [f|] eqn:F; [|discriminate]. apply parse_only in F as [F|F]; [right; left|now left].
    apply special_words in F. rewrite !in_app_iff. cbn [In]. destruct F as [[F _]|[[F _]|[F _]]]; auto.
  - right. right. left. destruct (E (str_any _ _ L)) as (q & s & ->). exists q, s. split; auto. unfold quoted in L. now apply contains_spec.
  - right. right. right. apply words_in in L. exact L.
Qed.
Lemma special_value : forall d t f, special_float t = Some f -> literal_value d t = DFloat f.
Proof. intros d t f H. unfold literal_value, is_numeric_token, parse_float. now rewrite H. Qed.
Lemma literal_reported : forall d t, lit_tok d t -> enclosed t -> literal_kind d t /\ literal_as d t (literal_value d t).
Proof.
  intros d t [L G] E. split; [now apply literal_kinds|].
  unfold literal_as. split; [|split; [|split; [|split; [|split; [|split; [|split; [|split]]]]]]].
    + intros neg hex m frac x N B. pose proof (go_float_spec _ _ _ _ _ _ N B) as F. rewrite (literal_numeral _ _ _ _ _ _ _ N) in L. unfold literal_value. rewrite L.
      unfold is_numeric_token in L. destruct (parse_float t) as [f|]; [|discriminate]. destruct F as (_ & q & e & -> & Q). eauto.
    + intros I. apply special_value, special_words. auto.
    + intros I. apply special_value, special_words. auto.
    + intros I. apply special_value, special_words. auto.
    + intros c s -> I. assert (Q : quoted (str_quotes d) (String c (s ++ String c "")) = true) by (unfold quoted; now apply contains_spec).
      pose proof (str_any _ _ Q) as Q'. unfold literal_value. destruct (is_numeric_token (String c (s ++ String c ""))) eqn:N; [apply numeric_head in N; congruence|].
      destruct d; cbn [string_quotes]; try (rewrite Q; now rewrite enclosed_inner).
      cbn [quoted contains]. assert (W : forall w, w <> "" -> quoted any_quote w = false -> (go_upper (String c (s ++ String c "")) =? w) = false).
      { intros w _ Qw. apply not_true_is_false. intros X. apply String.eqb_eq in X. rewrite <- X in Qw. clear - Q' Qw.
        unfold quoted in Q'. apply contains_spec in Q'. cbn in Q'. revert Qw.
        repeat (destruct Q' as [Q'|Q']; [injection Q' as <-; match goal with |- context [go_upper (String ?q ?r)] => destruct (upper_first q r) as [u ->]; [reflexivity|discriminate] end|]). contradiction. }
      now rewrite !W.
    + intros I. cbn in I. repeat (destruct I as [<-|I]; [destruct d; reflexivity|]). contradiction.
    + intros I. cbn in I. repeat (destruct I as [<-|I]; [destruct d; reflexivity|]). contradiction.
    + intros I. cbn in I. repeat (destruct I as [<-|I]; [destruct d; reflexivity|]). contradiction.
    + intros I. cbn in I. repeat (destruct I as [<-|I]; [destruct d; reflexivity|]). contradiction.
Qed.

Definition seen_default (x : a_default) : a_default := match x with AExpr e => AExpr (squeeze e) | _ => x end.
Lemma items_default : forall d is hs o, em_items d is hs o -> Forall enclosed o ->
  default_as d (default_in is) (or_else (first_of (fun i => match i with IDefault x => Some (default_of d (seen_default x)) | _ => None end) is) DNil).
Proof.
  intros d is hs o H. unfold default_in. induction H as [|i is h hs o os H1 H2 IH]; intros E; [reflexivity|].
  apply Forall_app in E as [E1 E2]. specialize (IH E2).
  destruct H1; cbn [flat_map app first_of default_of seen_default]; try exact IH; cbn [hd_error or_else default_as]; auto.
  apply literal_reported; auto. now apply Forall_inv_tail, Forall_inv in E1.
Qed.
Theorem default_reported : forall d ddl stmts, says d ddl stmts -> readable stmts = true -> exists ts, accepted ddl d ts /\
  Forall2 (fun c r => default_as d (default_in (ac_items c)) (c_default (col_constraint r))) (columns_in stmts) (result_columns ts).
Proof.
  intros d ddl stmts. apply columns_reported. intros c o E F. inversion E as [n ty cn is ot oc oi hs key _ T _ I _ _]; subst.
  cbn [column_of col_constraint constraint_of c_default]. rewrite items_seen by reflexivity.
  erewrite first_of_seen with (g := fun i => match i with IDefault x => Some (default_of d (seen_default x)) | _ => None end) by now intros [| | | |[]| | | |].
  cbn [ac_items]. eapply items_default; [exact I|].
  inversion F as [|? ? _ F']; subst. now apply Forall_app in F' as [_ F'%Forall_app].
Qed.
Theorem number_literal : forall d t neg hex m frac x, go_numeral t neg hex m frac x -> moderate t x ->
  (literal d t = true <-> QArith_base.Qlt (go_value hex m frac x) too_large).
Proof.
  intros d t neg hex m frac x N B. rewrite (literal_numeral _ _ _ _ _ _ _ N). pose proof (go_float_spec _ _ _ _ _ _ N B) as F. unfold is_numeric_token.
  destruct (parse_float t) as [f|]; [tauto|]. split; [discriminate|]. intros L. exfalso. revert F. now apply QArith_base.Qlt_not_le.
Qed.
Theorem token_kinds : forall d ddl l t, tokens d ddl l -> In t l -> literal d t = true -> literal_kind d t.
Proof. intros d ddl l t T I L. apply literal_kinds; auto. pose proof (tokens_enclosed _ _ _ T) as F. rewrite Forall_forall in F. auto. Qed.
