(** The converter on the tokens emitted for a script (Emit.v). *)
From Coq Require Import String Ascii List Bool Arith ZArith Lia.
From Verif Require Import GoStr Unicode UnicodeFacts GoNum Types Grammar GrammarFacts Ast Safe Seen Emit Converter.
Import ListNotations.
Open Scope nat_scope.
Open Scope string_scope.
Open Scope c_scope.

(** ** Words *)

Definition kills (d : rdbms) (w : string) : bool :=
  negb (legal_name d (to_lower w)) && negb (legal_name d (to_upper w)).

Lemma legal_not_word : forall d ws t, forallb (kills d) ws = true -> legal_name d t = true ->
  matches ws t = false.
Proof.
  intros d ws t H L. destruct (matches ws t) eqn:M; auto.
  apply matches_In in M as (w & I & M). rewrite forallb_forall in H. specialize (H w I).
  unfold kills in H. apply andb_true_iff in H as [H1 H2]. apply matches_one in M as [->| ->].
  - rewrite L in H1. discriminate.
  - rewrite L in H2. discriminate.
Qed.

Lemma kwd_not : forall w t ws, kwd w t -> matches ws (to_lower w) = false -> matches ws (to_upper w) = false ->
  matches ws t = false.
Proof. intros w t ws K A B. apply matches_one in K as [->| ->]; auto. Qed.
Lemma kwd_is : forall w t ws, kwd w t -> In w ws -> matches ws t = true.
Proof. intros. eapply matches_from; eauto. Qed.

Lemma lit_not_word : forall d ws t,
  forallb (fun w => negb (literal d (to_lower w)) && negb (literal d (to_upper w))) ws = true ->
  literal d t = true -> matches ws t = false.
Proof.
  intros d ws t H L. destruct (matches ws t) eqn:M; auto.
  apply matches_In in M as (w & I & M). rewrite forallb_forall in H. specialize (H w I).
  apply andb_true_iff in H as [H1 H2]. apply matches_one in M as [->| ->].
  - rewrite L in H1. discriminate.
  - rewrite L in H2. discriminate.
Qed.

(** Words that are no names in any dialect. *)
Definition no_names : list string :=
  [","; ")"; "("; "."; ";"; "CONSTRAINT"; "PRIMARY"; "UNIQUE"; "CHECK"; "FOREIGN"].
Lemma legal_no_names : forall d t, legal_name d t = true -> matches no_names t = false.
Proof. intros d t. apply legal_not_word. destruct d; vm_compute; reflexivity. Qed.
Lemma sub_words : forall a b t, forallb (fun w => contains b w) a = true -> matches b t = false -> matches a t = false.
Proof.
  intros a b t H K. destruct (matches a t) eqn:M; auto. apply matches_In in M as (w & I & M).
  rewrite forallb_forall in H. apply H, contains_spec in I. rewrite (matches_from b w t I M) in K. discriminate.
Qed.
Lemma name_not : forall d t ws, name_tok d t -> forallb (fun w => contains no_names w) ws = true -> matches ws t = false.
Proof. intros d t ws [L _] H. eapply sub_words; eauto using legal_no_names. Qed.
Lemma name_not_sym : forall d t w, name_tok d t -> contains [","; ")"; "("; "."; ";"] w = true -> t <> w.
Proof.
  intros d t w [L _] H ->. apply legal_no_names in L. apply contains_spec in H. cbn in H.
  repeat (destruct H as [<-|H]; [discriminate|]). contradiction.
Qed.

(** ** Elementary steps *)

Lemma cnext_tok : forall t l, t <> "," -> cnext (t :: l) = COk t l.
Proof. intros t l H. cbn [cnext]. apply String.eqb_neq in H. now rewrite H. Qed.
Lemma cnext_comma : forall t l, t <> "," -> cnext ("," :: t :: l) = COk "," (t :: l).
Proof. intros t l H. cbn [cnext]. apply String.eqb_neq in H. now rewrite H. Qed.
Lemma cnext_last : cnext [","] = COk "," [].
Proof. reflexivity. Qed.

Definition ev (P : nat -> Prop) : Prop := exists n0, forall n, n0 <= n -> P n.
Lemma ev_all : forall P : nat -> Prop, (forall n, P n) -> ev P.
Proof. intros P H. exists 0. auto. Qed.
Lemma ev_S : forall P : nat -> Prop, ev (fun n => P (S n)) -> ev P.
Proof. intros P [n0 H]. exists (S n0). intros [|n] L; [lia|]. apply H. lia. Qed.
Lemma ev_2 : forall P Q R : nat -> Prop, ev P -> ev Q -> (forall n, P n -> Q n -> R n) -> ev R.
Proof. intros P Q R [n H] [m K] X. exists (max n m). intros k L. apply X; [apply H|apply K]; lia. Qed.
Lemma ev_1 : forall P R : nat -> Prop, ev P -> (forall n, P n -> R n) -> ev R.
Proof. intros P R [n H] X. exists n. auto. Qed.

(** [steps f l a r]: with enough fuel [f] turns [l] into the value [a] and the rest [r]. *)
Definition steps {A} (f : nat -> C A) (l : list string) (a : A) (r : list string) : Prop :=
  ev (fun n => f n l = COk a r).

Lemma steps_bind : forall A B (f : nat -> C A) (g : nat -> A -> C B) l a r b r',
  steps f l a r -> steps (fun n => g n a) r b r' -> steps (fun n => cbind (f n) (g n)) l b r'.
Proof.
  intros A B f g l a r b r' H K. eapply ev_2; [exact H|exact K|]. cbn. intros n E E'.
  unfold cbind. now rewrite E.
Qed.
Lemma steps_ret : forall A (a : A) l, steps (fun _ => cret a) l a l.
Proof. intros. apply ev_all. reflexivity. Qed.
Lemma steps_const : forall A (m : C A) l a r, m l = COk a r -> steps (fun _ => m) l a r.
Proof. intros. now apply ev_all. Qed.
Lemma steps_match : forall A ws (g : nat -> bool -> C A) t l b a r, matches ws t = b ->
  steps (fun n => g n b) (t :: l) a r -> steps (fun n => cbind (cmatch ws) (g n)) (t :: l) a r.
Proof.
  intros A ws g t l b a r M H. eapply steps_bind; [|exact H]. apply steps_const. unfold cmatch. now rewrite M.
Qed.
Lemma steps_next : forall A (g : nat -> string -> C A) t l a r, t <> "," ->
  steps (fun n => g n t) l a r -> steps (fun n => cbind cnext (g n)) (t :: l) a r.
Proof. intros. eapply steps_bind; [|eassumption]. apply steps_const. now apply cnext_tok. Qed.
Lemma steps_S : forall A (f : nat -> C A) l a r, steps (fun n => f (S n)) l a r -> steps f l a r.
Proof. intros. now apply ev_S. Qed.

(** ** Names *)

Lemma good_inner : forall qs t, good t -> forallb (fun q => contains any_quote q) qs = true ->
  quoted qs t = true -> slice_inner t = Some (inner t).
Proof.
  intros qs t [_ G] S Q. unfold slice_inner, inner.
  assert (L : 2 <= String.length t).
  { apply G. destruct t as [|c t]; [discriminate|]. cbn [quoted] in *. apply contains_spec in Q.
    rewrite forallb_forall in S. now apply S in Q. }
  destruct (String.length t) as [|[|n]]; [lia|lia|]. do 2 f_equal. lia.
Qed.

Lemma isIdentifier_eq : forall d t l, t <> "" -> isIdentifier d t l = COk (quoted (name_quotes d) t) l.
Proof.
  intros d [|c t] l H; [congruence|]. unfold isIdentifier, cbind, c_slice01. cbn [slice01 quoted].
  unfold cret. f_equal. unfold contains, name_quotes, id_quotes. destruct d; cbn [existsb]; rewrite ?orb_false_r; auto;
  rewrite !(String.eqb_sym (String c "")); auto.
Qed.
Lemma isStringValue_eq : forall d t l, t <> "" -> isStringValue d t l = COk (quoted (string_quotes d) t) l.
Proof.
  intros d [|c t] l H; [congruence|]. unfold isStringValue, cbind, c_slice01. cbn [slice01 quoted].
  unfold cret. f_equal. unfold contains, string_quotes, str_quotes. destruct d; cbn [existsb]; rewrite ?orb_false_r; auto;
  rewrite !(String.eqb_sym (String c "")); auto.
Qed.

Lemma convertName_ok : forall d t l, t <> "," -> good t -> convertName d (t :: l) = COk (unquote d t) l.
Proof.
  intros d t l N G. unfold convertName, cbind. rewrite cnext_tok by auto.
  rewrite isIdentifier_eq by apply G. unfold unquote. destruct (quoted (name_quotes d) t) eqn:Q; auto.
  unfold c_slice_inner. erewrite good_inner; eauto. destruct d; reflexivity.
Qed.

Fixpoint drop_commas (l : list string) : list string :=
  match l with
  | t :: l' => if t =? "," then drop_commas l' else l
  | [] => []
  end.
Lemma cnext_drop : forall l t rest, t <> "," ->
  cnext ("," :: l ++ t :: rest) = COk "," (drop_commas l ++ t :: rest).
Proof.
  induction l as [|t' l IH]; intros t rest H; cbn [app drop_commas].
  - now apply cnext_comma.
  - destruct (t' =? ",") eqn:E.
    + apply String.eqb_eq in E. subst. rewrite <- (IH t rest H). reflexivity.
    + apply cnext_comma. now apply String.eqb_neq.
Qed.
Lemma drop_commas_length : forall l, List.length (drop_commas l) <= List.length l.
Proof. induction l as [|t l IH]; cbn; auto. destruct (t =? ","); cbn; lia. Qed.
Lemma drop_commas_Forall : forall P l, Forall P l -> Forall P (drop_commas l).
Proof. induction 1; cbn; auto. destruct (x =? ","); auto. Qed.
Lemma drop_commas_filter : forall l,
  filter (fun t => negb (t =? ",")) (drop_commas l) = filter (fun t => negb (t =? ",")) l.
Proof. induction l as [|t l IH]; cbn; auto. destruct (t =? ",") eqn:E; cbn; auto. now rewrite E. Qed.

Lemma names_loop_ok : forall k l ls rest, List.length l <= k -> Forall (fun t => t <> ")") l ->
  steps (fun n => column_names_loop n ls) (l ++ ")" :: rest) (rev ls ++ filter (fun t => negb (t =? ",")) l)%list (")" :: rest).
Proof.
  assert (N : forall ls rest, steps (fun n => column_names_loop n ls) (")" :: rest) (rev ls ++ [])%list (")" :: rest)).
  { intros. apply steps_S. cbn [column_names_loop]. rewrite app_nil_r.
    eapply steps_match; [reflexivity|]. apply steps_ret. }
  induction k as [|k IH]; intros l ls rest L F; (destruct l as [|t l]; [apply N|]); cbn [List.length] in L; [lia|].
  inversion F; subst. apply steps_S. cbn [column_names_loop app].
  eapply steps_match; [apply sym_false; auto|]. destruct (t =? ",") eqn:E.
  - apply String.eqb_eq in E. subst t. eapply steps_match; [reflexivity|].
    eapply steps_bind; [apply steps_const, cnext_drop; discriminate|].
    cbn [filter String.eqb Ascii.eqb Bool.eqb negb]. rewrite <- drop_commas_filter.
    apply IH; [pose proof (drop_commas_length l); lia|]. now apply drop_commas_Forall.
  - assert (T : t <> ",") by now apply String.eqb_neq.
    eapply steps_match; [apply sym_false; auto|].
    eapply steps_bind; [apply steps_const; reflexivity|].
    eapply steps_next; [exact T|]. cbn [filter]. rewrite E. cbn [negb].
    pose proof (IH l (t :: ls) rest ltac:(lia) H2) as X. cbn [rev] in X. rewrite <- app_assoc in X. exact X.
Qed.

Lemma names_ok : forall d cols o rest, em_names d cols o ->
  steps convertCommaSeparatedColumnNames (o ++ rest) cols rest.
Proof.
  intros d cols o rest (l & -> & F & ->). unfold convertCommaSeparatedColumnNames.
  rewrite <- app_comm_cons. eapply steps_next; [discriminate|]. rewrite <- app_assoc. cbn [app].
  eapply steps_bind.
  - eapply (names_loop_ok _ l []); [apply le_n|]. eapply Forall_impl; [|exact F].
    intros t [->|N] E; [discriminate|]. eapply name_not_sym; [exact N| |exact E]. reflexivity.
  - cbn [rev app]. eapply steps_next; [discriminate|]. apply steps_ret.
Qed.

(** ** Expressions *)

Lemma squeeze_app : forall a t b, t <> "," -> squeeze (a ++ t :: b) = (squeeze a ++ squeeze (t :: b))%list.
Proof.
  intros a t b N. induction a as [|x a IH]; [reflexivity|]. cbn [app squeeze].
  replace (comma_next (a ++ t :: b)) with (comma_next a).
  - destruct ((x =? ",") && comma_next a); rewrite IH; reflexivity.
  - destruct a; [cbn; symmetry; now apply String.eqb_neq|reflexivity].
Qed.
Lemma squeeze_tok : forall t l, t <> "," -> squeeze (t :: l) = t :: squeeze l.
Proof. intros t l N. apply String.eqb_neq in N. cbn [squeeze]. now rewrite N. Qed.
Lemma cnext_last_comma : forall t l, (t =? ",") && comma_next l = false -> cnext (t :: l) = COk t l.
Proof.
  intros t l H. cbn [cnext]. destruct l as [|t' l]; cbn [comma_next] in H; [|now rewrite H].
  now rewrite andb_false_r.
Qed.
Lemma comma_next_app : forall l t r, t <> "," -> comma_next (l ++ t :: r) = comma_next l.
Proof. intros [|x l] t r N; cbn; [now apply String.eqb_neq|reflexivity]. Qed.
Lemma expr_commas : forall n l, convertExprAux n ("," :: "," :: l) = convertExprAux n ("," :: l).
Proof. intros [|n] l; reflexivity. Qed.

Lemma append_assoc : forall a b c : string, (a ++ b) ++ c = a ++ (b ++ c).
Proof. induction a; intros; cbn; [reflexivity|now rewrite IHa]. Qed.
Lemma append_nil_r : forall a : string, a ++ "" = a.
Proof. induction a; cbn; [reflexivity|now rewrite IHa]. Qed.
Lemma text_app : forall a b, text (a ++ b) = text a ++ text b.
Proof. induction a as [|t a IH]; intros; cbn; auto. fold (text (a ++ b)) (text a). now rewrite IH, append_assoc. Qed.

Lemma expr_aux_ok : forall b, balanced b -> forall rest,
  steps convertExprAux (b ++ ")" :: rest) (text (squeeze b)) (")" :: rest).
Proof.
  induction 1 as [|t l N1 N2 B IH|l1 l2 B1 IH1 B2 IH2]; intros rest.
  - apply steps_S; cbn [convertExprAux app]. eapply steps_match; [reflexivity|]. apply steps_ret.
  - cbn [squeeze]. destruct ((t =? ",") && comma_next l) eqn:C.
    + apply andb_true_iff in C as [C1 C2]. apply String.eqb_eq in C1. subst t. destruct l as [|t l]; [discriminate|].
      cbn [comma_next] in C2. apply String.eqb_eq in C2. subst t. specialize (IH rest). cbn [app] in *.
      eapply ev_1; [exact IH|]. cbn. intros n E. now rewrite expr_commas.
    + apply steps_S; cbn [convertExprAux app].
      eapply steps_match; [apply sym_false; auto|]. eapply steps_match; [apply sym_false; auto|].
      eapply steps_bind; [apply steps_const, cnext_last_comma; rewrite comma_next_app by discriminate; exact C|].
      eapply steps_bind; [apply IH|]. apply steps_ret.
  - rewrite squeeze_tok, squeeze_app, squeeze_tok by discriminate.
    apply steps_S; cbn [convertExprAux app].
    eapply steps_match; [reflexivity|]. eapply steps_match; [reflexivity|].
    eapply steps_next; [discriminate|]. rewrite <- app_assoc. cbn [app].
    eapply steps_bind; [apply IH1|].
    eapply steps_next; [discriminate|]. eapply steps_bind; [apply IH2|].
    set (a := squeeze l1). set (b := squeeze l2).
    replace (text ("(" :: a ++ ")" :: b)) with (("(" ++ text a ++ ")") ++ text b); [apply steps_ret|].
    change (text ("(" :: a ++ ")" :: b)) with ("(" ++ text (a ++ ")" :: b)). rewrite text_app.
    change (text (")" :: b)) with (")" ++ text b). now rewrite !append_assoc.
Qed.

Lemma expr_ok : forall e rest, em_expr e -> steps convertExpr (e ++ rest) (text (squeeze e)) rest.
Proof.
  intros e rest (b & B & ->).
  unfold convertExpr. rewrite <- app_comm_cons. eapply steps_next; [discriminate|]. rewrite <- app_assoc. cbn [app].
  eapply steps_bind; [apply expr_aux_ok; auto|]. eapply steps_next; [discriminate|].
  rewrite squeeze_tok, squeeze_app by discriminate. change (squeeze [")"]) with [")"].
  set (a := squeeze b).
  replace (text ("(" :: a ++ [")"])) with ("(" ++ text a ++ ")"); [apply steps_ret|].
  change (text ("(" :: a ++ [")"])) with ("(" ++ text (a ++ [")"])). rewrite text_app. reflexivity.
Qed.

(** ** Column constraints *)

Lemma literal_ok : forall d t rest, lit_tok d t -> steps (fun _ => convertLiteralValue d) (t :: rest) (literal_value d t) rest.
Proof.
  intros d t rest [L G]. unfold convertLiteralValue. eapply steps_next.
  { intros ->. destruct d; discriminate. }
  unfold literal_value, is_numeric_token. destruct (parse_float t) as [f|] eqn:F; [apply steps_ret|].
  eapply steps_bind; [apply steps_const, isStringValue_eq, G|].
  destruct (quoted (string_quotes d) t) eqn:Q.
  - eapply steps_bind; [apply steps_const; unfold c_slice_inner; erewrite good_inner; eauto; destruct d; reflexivity|].
    apply steps_ret.
  - destruct (go_upper t =? "NULL"); [apply steps_ret|]. destruct (go_upper t =? "TRUE"); [apply steps_ret|].
    destruct (go_upper t =? "FALSE"); apply steps_ret.
Qed.

Definition seen_default (x : a_default) : a_default :=
  match x with AExpr e => AExpr (squeeze e) | ALit t => ALit t end.
Lemma default_ok : forall d x o rest,
  match x with ALit t => o = [t] /\ lit_tok d t | AExpr e => o = e /\ em_expr e end ->
  steps (fun n => convertDefaultValue n d) (o ++ rest) (default_of d (seen_default x)) rest.
Proof.
  intros d [t|e] o rest [-> H]; unfold convertDefaultValue; cbn [seen_default default_of].
  - cbn [app]. eapply steps_match.
    + eapply lit_not_word; [|apply H]. destruct d; vm_compute; reflexivity.
    + now apply literal_ok.
  - pose proof (expr_ok e rest H) as X.
    destruct H as (b & B & ->). cbn [app] in *.
    eapply steps_match; [reflexivity|]. eapply steps_bind; [exact X|apply steps_ret].
Qed.

(** what can follow a reference *)
Definition no_lpar (l : list string) : Prop := match l with t :: _ => t <> "(" | [] => False end.

Lemma reference_ok : forall d r o rest, em_ref d r o -> safe_ref r = true -> no_lpar rest ->
  steps (fun n => convertReference n d) (o ++ rest) (reference_of d r) rest.
Proof.
  intros d r o rest H S N. inversion H as [k t K T|k t cols o' K T E| |]; subst; [| |discriminate|discriminate];
    unfold convertReference; cbn [app].
  - eapply steps_next; [intros ->; discriminate|].
    eapply steps_bind; [apply steps_const, convertName_ok; [eapply name_not_sym; eauto|apply T]|].
    destruct rest as [|t' rest]; [contradiction|]. eapply steps_match; [apply sym_false; auto|]. apply steps_ret.
  - eapply steps_next; [intros ->; discriminate|].
    eapply steps_bind; [apply steps_const, convertName_ok; [eapply name_not_sym; eauto|apply T]|].
    pose proof (names_ok d cols o' rest E) as X. destruct E as (l & -> & _). cbn [app] in *.
    eapply steps_match; [reflexivity|]. eapply steps_bind; [exact X|apply steps_ret].
Qed.

Definition apply_item (d : rdbms) (c : constraint) (i : a_item) : constraint :=
  match i with
  | IPrimary true => set_auto (set_pk c)
  | IPrimary false => set_pk c
  | IAuto => set_auto c
  | INotNull => set_notnull c
  | IUnique => set_unique c
  | IDefault x => set_default (default_of d x) c
  | ICheck e => set_check (text e) c
  | ICollate t => set_collate (unquote d t) c
  | IReferences r => set_references (reference_of d r) c
  | INone => c
  end.

(** end of a column *)
Definition stop (l : list string) : Prop := match l with t :: _ => t = "," \/ t = ")" | [] => False end.

Lemma kwd_not_sym : forall w t s, kwd w t -> to_lower s = s -> to_upper s = s ->
  to_lower w <> s -> to_upper w <> s -> t <> s.
Proof. intros w t s K _ _ A B E. apply matches_one in K as [H|H]; congruence. Qed.

Ltac kfalse := first [ eapply kwd_not; [eassumption|reflexivity|reflexivity] | reflexivity ].
Ltac ktrue := first [ eapply kwd_is; [eassumption|cbn; tauto] | eassumption | reflexivity ].
Ltac kneq := first [ assumption | discriminate | intros ->; discriminate ].

Lemma item_step : forall d i h o l, em_item d i h o -> readable_item i = true -> no_lpar l ->
  no_lpar (o ++ l) /\
  forall c a r, steps (fun n => convertConstraintAux n d (apply_item d c (seen_item i))) l a r ->
    steps (fun n => convertConstraintAux n d c) (o ++ l) a r.
Proof.
  intros d i h o l E S N. inversion E; subst; cbn [app no_lpar]; cbn [readable_item] in S.
  + (* primary *) split; [kneq|]. intros c x y P. apply steps_S. cbn [convertConstraintAux].
    eapply steps_match; [kfalse|]. eapply steps_match; [ktrue|].
    eapply steps_next; [kneq|]. eapply steps_next; [kneq|]. exact P.
  + split; [kneq|]. intros c x y P. apply steps_S. cbn [convertConstraintAux].
    eapply steps_match; [kfalse|]. eapply steps_match; [ktrue|].
    eapply steps_next; [kneq|]. eapply steps_next; [kneq|].
    apply steps_S. cbn [convertConstraintAux].
    assert (A : matches [","; ")"] a = false /\ matches ["PRIMARY"] a = false).
    { apply matches_In in H2 as (w & I & M). cbn in I.
      destruct I as [<-|[<-|[]]]; split; eapply kwd_not; try exact M; reflexivity. }
    eapply steps_match; [apply A|]. eapply steps_match; [apply A|]. eapply steps_match; [ktrue|].
    eapply steps_next; [intros ->; discriminate|]. exact P.
  + split; [intros ->; discriminate|]. intros c x y P. apply steps_S. cbn [convertConstraintAux].
    assert (A : matches [","; ")"] h = false /\ matches ["PRIMARY"] h = false).
    { apply matches_In in H as (w & I & M). cbn in I.
      destruct I as [<-|[<-|[]]]; split; eapply kwd_not; try exact M; reflexivity. }
    eapply steps_match; [apply A|]. eapply steps_match; [apply A|]. eapply steps_match; [ktrue|].
    eapply steps_next; [intros ->; discriminate|]. exact P.
  + split; [kneq|]. intros c x y P. apply steps_S. cbn [convertConstraintAux].
    do 3 (eapply steps_match; [kfalse|]). eapply steps_match; [ktrue|].
    eapply steps_next; [kneq|]. eapply steps_next; [kneq|]. exact P.
  + split; [kneq|]. intros c x y P. apply steps_S. cbn [convertConstraintAux].
    do 4 (eapply steps_match; [kfalse|]). eapply steps_match; [ktrue|].
    eapply steps_next; [kneq|]. exact P.
  + split; [kneq|]. intros c x y P. apply steps_S. cbn [convertConstraintAux].
    do 5 (eapply steps_match; [kfalse|]). eapply steps_match; [ktrue|].
    eapply steps_next; [kneq|].
    eapply steps_bind; [apply (default_ok d (ALit t) [t] l); auto|]. exact P.
  + split; [kneq|]. intros c x y P. apply steps_S. cbn [convertConstraintAux].
    do 5 (eapply steps_match; [kfalse|]). eapply steps_match; [ktrue|].
    eapply steps_next; [kneq|].
    eapply steps_bind; [apply (default_ok d (AExpr e) e l); auto|]. exact P.
  + split; [kneq|]. intros c x y P. apply steps_S. cbn [convertConstraintAux].
    do 6 (eapply steps_match; [kfalse|]). eapply steps_match; [ktrue|].
    eapply steps_next; [kneq|].
    eapply steps_bind; [apply (expr_ok e l); auto|]. exact P.
  + split; [kneq|]. intros c x y P. apply steps_S. cbn [convertConstraintAux].
    do 7 (eapply steps_match; [kfalse|]). eapply steps_match; [ktrue|].
    eapply steps_next; [kneq|].
    eapply steps_bind; [apply steps_const, convertName_ok; auto|]. exact P.
  + pose proof (reference_ok d r o l H0 S N) as X.
    assert (Y : exists k o', o = k :: o' /\ kwd "REFERENCES" k).
    { inversion H0; subst; eauto. }
    destruct Y as (k & o' & -> & K). cbn [app no_lpar] in *.
    split; [kneq|]. intros c x y P. apply steps_S. cbn [convertConstraintAux].
    do 8 (eapply steps_match; [kfalse|]). eapply steps_match; [ktrue|].
    eapply steps_bind; [exact X|]. exact P.
  + split; [exact N|]. intros c x y P. exact P.
Qed.

Lemma items_ok : forall d is hs os, em_items d is hs os -> forallb readable_item is = true ->
  forall rest, stop rest -> no_lpar (os ++ rest) /\
  forall c, steps (fun n => convertConstraintAux n d c) (os ++ rest) (fold_left (apply_item d) (map seen_item is) c) rest.
Proof.
  induction 1 as [|i is h hs o os E Es IH]; intros S rest R.
  - cbn [app map fold_left]. destruct rest as [|t rest]; [contradiction|]. cbn [stop] in R. split.
    + cbn [no_lpar]. destruct R as [->| ->]; discriminate.
    + intros c. apply steps_S. cbn [convertConstraintAux]. eapply steps_match with (b := true).
      * destruct R as [->| ->]; reflexivity.
      * apply steps_ret.
  - cbn [forallb] in S. apply andb_true_iff in S as [S Ss]. destruct (IH Ss rest R) as [N P]. clear IH.
    rewrite <- app_assoc. cbn [map fold_left]. destruct (item_step d i h o (os ++ rest) E S N) as [N' P']. split; auto.
Qed.

(** ** The constraint of a column as a record *)

Definition is_default i := match i with IDefault _ => true | _ => false end.
Definition is_check i := match i with ICheck _ => true | _ => false end.
Definition is_collate i := match i with ICollate _ => true | _ => false end.
Definition is_references i := match i with IReferences _ => true | _ => false end.
Definition once (p : a_item -> bool) (l : list a_item) : Prop := List.length (filter p l) <= 1.

Lemma first_of_none : forall B (f : a_item -> option B) p l, (forall i, p i = false -> f i = None) ->
  filter p l = [] -> first_of f l = None.
Proof.
  induction l as [|i l IH]; intros H F; auto. cbn in *. destruct (p i) eqn:E; [discriminate|].
  rewrite H; auto.
Qed.

Lemma or_else_first : forall B (f : a_item -> option B) p i l b x, (forall i, p i = false -> f i = None) ->
  once p (i :: l) -> p i = true -> f i = Some b -> or_else (first_of f l) b = or_else (first_of f (i :: l)) x.
Proof.
  intros B f p i l b x H O P F. cbn [first_of]. rewrite F. unfold once in O. cbn [filter] in O. rewrite P in O.
  cbn [List.length] in O. rewrite (first_of_none B f p l H); [reflexivity|]. destruct (filter p l); auto. cbn in O. lia.
Qed.

Lemma once_tail : forall p i l, once p (i :: l) -> once p l.
Proof. intros p i l. unfold once. cbn [filter]. destruct (p i); cbn; lia. Qed.

Definition constraint_from (d : rdbms) (c : constraint) (l : list a_item) : constraint :=
  mk_constraint
    (Types.c_name c)
    (c_pk c || existsb (fun i => match i with IPrimary _ => true | _ => false end) l)
    (c_unique c || existsb (fun i => match i with IUnique => true | _ => false end) l)
    (c_notnull c || existsb (fun i => match i with INotNull => true | _ => false end) l)
    (c_auto c || existsb (fun i => match i with IPrimary true => true | IAuto => true | _ => false end) l)
    (or_else (first_of (fun i => match i with IDefault x => Some (default_of d x) | _ => None end) l) (c_default c))
    (or_else (first_of (fun i => match i with ICheck e => Some (text e) | _ => None end) l) (c_check c))
    (or_else (first_of (fun i => match i with ICollate t => Some (unquote d t) | _ => None end) l) (c_collate c))
    (or_else (first_of (fun i => match i with IReferences r => Some (reference_of d r) | _ => None end) l)
       (c_references c)).

Lemma fold_items : forall d is c, once is_default is -> once is_check is -> once is_collate is -> once is_references is ->
  fold_left (apply_item d) is c = constraint_from d c is.
Proof.
  intros d. induction is as [|i is IH]; intros c O1 O2 O3 O4.
  - cbn. unfold constraint_from. cbn. rewrite !orb_false_r. now destruct c.
  - cbn [fold_left]. rewrite IH by eauto using once_tail. unfold constraint_from. destruct c as [x1 x2 x3 x4 x5 x6 x7 x8 x9].
    destruct i as [[|]| | | |x|e|t|r|]; cbn [apply_item existsb first_of set_pk set_auto set_notnull set_unique
      set_default set_check set_collate set_references Types.c_name c_pk c_unique c_notnull c_auto c_default c_check
      c_collate c_references]; rewrite ?orb_true_r, ?orb_false_l; f_equal; rewrite ?orb_true_l, ?orb_true_r; auto.
    + eapply or_else_first with (p := is_default) (i := IDefault x); auto. now intros [].
    + eapply or_else_first with (p := is_check) (i := ICheck e); auto. now intros [].
    + eapply or_else_first with (p := is_collate) (i := ICollate t); auto. now intros [].
    + eapply or_else_first with (p := is_references) (i := IReferences r); auto. now intros [].
Qed.

Lemma items_once : forall d key is hs os, key_ok key -> em_items d is hs os -> NoDup (map key hs) ->
  once is_default is /\ once is_check is /\ once is_collate is /\ once is_references is.
Proof.
  intros d key is hs os K E. 
  assert (X : forall p w, In w ["CHECK"; "DEFAULT"; "COLLATE"; "REFERENCES"] ->
    (forall i h o, em_item d i h o -> p i = true -> kwd w h) -> NoDup (map key hs) -> once p is).
  { intros p w I H.
    induction E as [|i is h hs o os E1 E2 IH]; intros N; unfold once; cbn [filter]; [cbn; lia|].
    cbn [map] in N. inversion N; subst. specialize (IH H3). unfold once in IH.
    destruct (p i) eqn:P; [|exact IH]. cbn [List.length].
    assert (Z : filter p is = []); [|rewrite Z; cbn; lia].
    destruct (filter p is) as [|j js] eqn:F; auto. exfalso. apply H2.
    rewrite (K w h I (H _ _ _ E1 P)).
    assert (J : In j is /\ p j = true) by (apply filter_In; rewrite F; now left).
    destruct J as [J1 J2]. clear - E2 J1 J2 H K I. induction E2 as [|i is h hs o os E1 E2 IH]; [contradiction|].
    cbn [map]. destruct J1 as [->|J1]; [left|right; auto]. apply K; auto. eapply H; eauto. }
  intros N. split; [|split; [|split]].
  - apply (X is_default "DEFAULT"); auto; [cbn; tauto|]. intros i h o E'. inversion E'; subst; auto; discriminate.
  - apply (X is_check "CHECK"); auto; [cbn; tauto|]. intros i h o E'. inversion E'; subst; auto; discriminate.
  - apply (X is_collate "COLLATE"); auto; [cbn; tauto|]. intros i h o E'. inversion E'; subst; auto; discriminate.
  - apply (X is_references "REFERENCES"); auto; [cbn; tauto|]. intros i h o E'. inversion E'; subst; auto; discriminate.
Qed.

(** ** Columns *)

(** what follows a type *)
Definition after_type (l : list string) : Prop :=
  match l with t :: _ => matches ["("; "VARYING"] t = false | [] => False end.

Lemma digits_ok : forall dg o rest, em_digits dg o -> after_type rest ->
  steps (fun _ => convertTypeDigit) (o ++ rest)
    (match dg with None => (0, 0) | Some (n, None) => (atoi_value n, 0) | Some (n, Some m) => (atoi_value n, atoi_value m) end)%Z rest.
Proof.
  intros dg o rest E A. unfold convertTypeDigit. inversion E; subst; cbn [app].
  - destruct rest as [|t rest]; [contradiction|]. eapply steps_match with (b := false); [|apply steps_ret].
    eapply sub_words; [|exact A]. reflexivity.
  - eapply steps_match; [reflexivity|]. eapply steps_next; [discriminate|]. eapply steps_next; [assumption|].
    eapply steps_match; [reflexivity|]. eapply steps_bind; [apply steps_ret|].
    eapply steps_next; [discriminate|]. apply steps_ret.
  - eapply steps_match; [reflexivity|]. eapply steps_next; [discriminate|]. eapply steps_next; [assumption|].
    eapply steps_match; [reflexivity|]. eapply steps_bind.
    + eapply steps_bind; [apply steps_const, cnext_comma; assumption|].
      eapply steps_next; [assumption|]. apply steps_ret.
    + eapply steps_next; [discriminate|]. apply steps_ret.
Qed.

Lemma upper_varying : forall v, kwd "VARYING" v -> go_upper v = "VARYING".
Proof. intros v K. apply matches_one in K as [->| ->]; reflexivity. Qed.

Lemma type_ok : forall ty o rest, em_type ty o -> after_type rest ->
  steps (fun _ => convertDateType) (o ++ rest) (type_of ty) rest.
Proof.
  intros ty o rest E A. unfold convertDateType. inversion E as [w dg o' W D|w v dg o' W V D]; subst; cbn [app].
  - eapply steps_next; [intros ->; discriminate|].
    assert (X : exists t l, (o' ++ rest)%list = t :: l /\ matches ["VARYING"] t = false).
    { inversion D; subst; cbn [app]; try (do 2 eexists; split; reflexivity).
      destruct rest as [|t rest]; [contradiction|]. exists t, rest. split; auto. eapply sub_words; [|exact A]. reflexivity. }
    destruct X as (t & l & Y & M). pose proof (digits_ok dg o' rest D A) as X. rewrite Y in *.
    eapply steps_match; [exact M|]. eapply steps_bind; [apply steps_ret|]. eapply steps_bind; [exact X|].
    unfold type_of. cbn [at_word at_varying at_digits]. destruct dg as [[n [m|]]|]; apply steps_ret.
  - eapply steps_next; [intros ->; discriminate|].
    pose proof (digits_ok dg o' rest D A) as X.
    eapply steps_match; [exact V|]. eapply steps_bind.
    { eapply steps_bind; [apply steps_const; reflexivity|]. eapply steps_next; [kneq|]. apply steps_ret. }
    rewrite (upper_varying v V). eapply steps_bind; [exact X|].
    unfold type_of. cbn [at_word at_varying at_digits]. destruct dg as [[n [m|]]|]; apply steps_ret.
Qed.

Lemma items_after_type : forall d is hs os rest, em_items d is hs os -> stop rest ->
  after_type (os ++ rest).
Proof.
  induction 1 as [|i is h hs o os E Es IH]; intros R.
  - destruct rest as [|t rest]; [contradiction|]. destruct R as [->| ->]; reflexivity.
  - specialize (IH R). rewrite <- app_assoc.
    inversion E; subst; cbn [app after_type]; auto; try kfalse.
    + eapply sub_words with (b := ["("; "VARYING"]); [reflexivity|].
      apply matches_In in H as (w & I & M). cbn in I. destruct I as [<-|[<-|[]]]; eapply kwd_not; try exact M; reflexivity.
    + inversion H0; subst; cbn [app after_type]; try kfalse.
Qed.

Lemma constraint_word : forall d is hs os rest, em_items d is hs os -> stop rest ->
  match (os ++ rest)%list with t :: _ => matches ["CONSTRAINT"] t = false | [] => False end.
Proof.
  induction 1 as [|i is h hs o os E Es IH]; intros R.
  - destruct rest as [|t rest]; [contradiction|]. destruct R as [->| ->]; reflexivity.
  - specialize (IH R). rewrite <- app_assoc.
    inversion E; subst; cbn [app after_type]; auto; try kfalse.
    + apply matches_In in H as (w & I & M). cbn in I. destruct I as [<-|[<-|[]]]; eapply kwd_not; try exact M; reflexivity.
    + inversion H0; subst; cbn [app after_type]; try kfalse.
Qed.

Lemma seen_once : forall p is, (forall i, p (seen_item i) = p i) -> once p is -> once p (map seen_item is).
Proof.
  intros p is H. unfold once. replace (List.length (filter p (map seen_item is))) with (List.length (filter p is)); auto.
  induction is as [|i is IH]; auto. cbn [map filter]. rewrite H. destruct (p i); cbn; now rewrite IH.
Qed.
Lemma fold_seen : forall d is hs os key c, key_ok key -> em_items d is hs os -> NoDup (map key hs) ->
  fold_left (apply_item d) (map seen_item is) c = constraint_from d c (map seen_item is).
Proof.
  intros d is hs os key c K E N. destruct (items_once d key is hs os K E N) as (O1 & O2 & O3 & O4).
  apply fold_items; (apply seen_once; [|assumption]); intros []; auto; destruct x; auto.
Qed.

(** the names that are taken for a constraint *)
Lemma auto_names : forall d t, name_tok d t -> matches not_names t = true ->
  matches ["AUTOINCREMENT"; "AUTO_INCREMENT"] t = true.
Proof.
  intros d t [L _] M. apply matches_In in M as (w & I & M). cbn in I.
  destruct (matches ["AUTOINCREMENT"; "AUTO_INCREMENT"] t) eqn:A; auto. exfalso.
  assert (X : matches ["PRIMARY"; "UNIQUE"; "NOT"; "DEFAULT"; "CHECK"; "REFERENCES"; "COLLATE"] t = false).
  { eapply legal_not_word; [|exact L]. destruct d; vm_compute; reflexivity. }
  assert (Y : matches (["PRIMARY"; "UNIQUE"; "NOT"; "DEFAULT"; "CHECK"; "REFERENCES"; "COLLATE"] ++
                       ["AUTOINCREMENT"; "AUTO_INCREMENT"]) t = true).
  { eapply matches_from; [|exact M]. cbn. tauto. }
  apply matches_In in Y as (w' & I' & M'). apply in_app_or in I' as [I'|I'].
  - rewrite (matches_from _ w' t I' M') in X. discriminate.
  - rewrite (matches_from _ w' t I' M') in A. discriminate.
Qed.

Lemma constraint_ok : forall d nm ty n is hs os oc key rest, em_cname d ["CHECK"] os n oc -> em_items d is hs os ->
  forallb readable_item is = true -> key_ok key -> NoDup (map key hs) -> stop rest ->
  steps (fun m => convertConstraint m d) (oc ++ os ++ rest)
    (Types.col_constraint (column_of d (seen_column (mk_acolumn nm ty n is)))) rest /\
  after_type (oc ++ os ++ rest).
Proof.
  intros d nm ty n is hs os oc key rest E Es S2 K ND R.
  destruct (items_ok d is hs os Es S2 rest R) as [_ P].
  assert (F : forall c, fold_left (apply_item d) (map seen_item is) c = constraint_from d c (map seen_item is))
    by (intros; eapply fold_seen; eauto).
  unfold convertConstraint. inversion E as [|k t l' KK -> M|k t KK T]; subst; cbn [app]; unfold seen_column; cbn [ac_cname].
  - split; [|eapply items_after_type; eauto].
    pose proof (constraint_word d is hs os rest Es R) as X. specialize (P zero_constraint). rewrite F in P.
    destruct (os ++ rest)%list as [|t l]; [contradiction|].
    eapply steps_match; [exact X|]. eapply steps_bind; [apply steps_ret|]. exact P.
  - split; [|cbn [after_type]; kfalse]. specialize (P zero_constraint). rewrite F in P.
    eapply steps_match; [exact KK|]. cbn [app] in *. eapply steps_bind.
    { eapply steps_next; [kneq|]. eapply steps_match with (b := true).
      - apply matches_In in M as (w & I & M). cbn in I. destruct I as [<-|[]]. eapply kwd_is; [exact M|]. cbn; tauto.
      - apply steps_ret. }
    exact P.
  - split; [|cbn [after_type]; kfalse]. destruct (matches not_names t) eqn:Q.
    + pose proof (auto_names d t T Q) as A. specialize (P (set_auto zero_constraint)). rewrite F in P.
      eapply steps_match; [exact KK|]. eapply steps_bind.
      { eapply steps_next; [kneq|]. eapply steps_match with (b := true); [exact Q|]. apply steps_ret. }
      apply steps_S. cbn [convertConstraintAux].
      assert (B : matches [","; ")"] t = false /\ matches ["PRIMARY"] t = false).
      { apply matches_In in A as (w & I & M). cbn in I.
        destruct I as [<-|[<-|[]]]; split; eapply kwd_not; try exact M; reflexivity. }
      eapply steps_match; [apply B|]. eapply steps_match; [apply B|]. eapply steps_match; [exact A|].
      eapply steps_next; [eapply name_not_sym; eauto|]. exact P.
    + specialize (P (set_name (unquote d t) zero_constraint)). rewrite F in P.
      eapply steps_match; [exact KK|]. eapply steps_bind.
      { eapply steps_next; [kneq|]. eapply steps_match with (b := false).
        - exact Q.
        - eapply steps_bind; [apply steps_const, convertName_ok; [eapply name_not_sym; eauto|apply T]|]. apply steps_ret. }
      exact P.
Qed.

Lemma seen_name : forall d c, col_name (column_of d (seen_column c)) = unquote d (ac_name c).
Proof. intros d c. unfold seen_column. destruct (ac_cname c) as [t|]; [destruct (matches not_names t)|]; reflexivity. Qed.
Lemma seen_type : forall d c, col_type (column_of d (seen_column c)) = type_of (ac_type c).
Proof. intros d c. unfold seen_column. destruct (ac_cname c) as [t|]; [destruct (matches not_names t)|]; reflexivity. Qed.

Lemma column_ok : forall d c o rest, em_column d c o -> readable_element (EColumn c) = true -> stop rest ->
  steps (fun n => convertColumnDefinition n d) (o ++ rest) (column_of d (seen_column c)) rest.
Proof.
  intros d c o rest E S R. inversion E as [n ty cn is ot oc oi hs key N T CN IS K ND]; subst.
  cbn [readable_element ac_items] in S.
  destruct (constraint_ok d n ty cn is hs oi oc key rest CN IS S K ND R) as [P A].
  unfold convertColumnDefinition. cbn [app]. rewrite <- !app_assoc.
  eapply steps_bind; [apply steps_const, convertName_ok; [eapply name_not_sym; eauto|apply N]|].
  eapply steps_bind; [apply type_ok; eauto|]. eapply steps_bind; [exact P|].
  set (c := mk_acolumn n ty cn is).
  replace (column_of d (seen_column c)) with
    (mk_column (unquote d n) (type_of ty) (Types.col_constraint (column_of d (seen_column c)))); [apply steps_ret|].
  change (unquote d n) with (unquote d (ac_name c)). change (type_of ty) with (type_of (ac_type c)).
  rewrite <- (seen_name d c), <- (seen_type d c). now destruct (column_of d (seen_column c)).
Qed.

(** ** Table constraints *)

Definition add_body (d : rdbms) (n : option string) (b : a_body) (tc : Types.table_constraint) : Types.table_constraint :=
  let name := opt_name d n in
  match b with
  | BPrimary cols => mk_tc (tc_pk tc ++ [mk_pk name cols]) (tc_unique tc) (tc_check tc) (tc_fk tc)
  | BUnique cols => mk_tc (tc_pk tc) (tc_unique tc ++ [mk_unique name cols]) (tc_check tc) (tc_fk tc)
  | BCheck e => mk_tc (tc_pk tc) (tc_unique tc) (tc_check tc ++ [mk_check name (text e)]) (tc_fk tc)
  | BForeign cols r => mk_tc (tc_pk tc) (tc_unique tc) (tc_check tc) (tc_fk tc ++ [mk_fk name cols (reference_of d r)])
  | BNone | BIndex => tc
  end%list.

(** The part of [convertTableConstraint] after the name. *)
Definition tc_rest (fuel : nat) (d : rdbms) (tc : Types.table_constraint) (name : string) : C Types.table_constraint :=
  b <- cmatch ["PRIMARY"] ;;
  if b then
    cnext ;; cnext ;;
    ls <- convertCommaSeparatedColumnNames fuel ;;
    cret (mk_tc (tc_pk tc ++ [mk_pk name ls])%list (tc_unique tc) (tc_check tc) (tc_fk tc)) else
  b <- cmatch ["UNIQUE"] ;;
  if b then
    cnext ;;
    ls <- convertCommaSeparatedColumnNames fuel ;;
    cret (mk_tc (tc_pk tc) (tc_unique tc ++ [mk_unique name ls])%list (tc_check tc) (tc_fk tc)) else
  b <- cmatch ["CHECK"] ;;
  if b then
    cnext ;;
    e <- convertExpr fuel ;;
    cret (mk_tc (tc_pk tc) (tc_unique tc) (tc_check tc ++ [mk_check name e])%list (tc_fk tc)) else
  b <- cmatch ["FOREIGN"] ;;
  if b then
    cnext ;; cnext ;;
    ls <- convertCommaSeparatedColumnNames fuel ;;
    r <- convertReference fuel d ;;
    cret (mk_tc (tc_pk tc) (tc_unique tc) (tc_check tc) (tc_fk tc ++ [mk_fk name ls r])%list)
  else cret tc.

Lemma body_ok : forall d b o rest n tc, em_body d b o -> readable_body b = true -> stop rest ->
  steps (fun m => tc_rest m d tc (opt_name d n)) (o ++ rest) (add_body d n (seen_body b) tc) rest.
Proof.
  intros d b o rest n tc E S R. unfold tc_rest.
  inversion E as [p k cols o' P K N|k cols o' K N|k e K X|f k cols o1 r o2 F K N RF| |]; subst;
    cbn [app seen_body add_body readable_body] in *; [| | | | |discriminate].
  - eapply steps_match; [ktrue|]. eapply steps_next; [kneq|]. eapply steps_next; [kneq|].
    eapply steps_bind; [eapply names_ok; eauto|apply steps_ret].
  - eapply steps_match; [kfalse|]. eapply steps_match; [ktrue|]. eapply steps_next; [kneq|].
    eapply steps_bind; [eapply names_ok; eauto|apply steps_ret].
  - do 2 (eapply steps_match; [kfalse|]). eapply steps_match; [ktrue|]. eapply steps_next; [kneq|].
    eapply steps_bind; [apply expr_ok; auto|apply steps_ret].
  - do 3 (eapply steps_match; [kfalse|]). eapply steps_match; [ktrue|]. eapply steps_next; [kneq|].
    eapply steps_next; [kneq|]. rewrite <- app_assoc.
    eapply steps_bind; [eapply names_ok; eauto|]. eapply steps_bind; [|apply steps_ret].
    apply reference_ok; auto. destruct rest as [|t rest]; [contradiction|]. destruct R as [->| ->]; discriminate.
  - destruct rest as [|t rest]; [contradiction|].
    eapply steps_match with (b := false); [destruct R as [->| ->]; reflexivity|].
    eapply steps_match with (b := false); [destruct R as [->| ->]; reflexivity|].
    eapply steps_match with (b := false); [destruct R as [->| ->]; reflexivity|].
    eapply steps_match with (b := false); [destruct R as [->| ->]; reflexivity|].
    apply steps_ret.
Qed.

Definition table_words := ["CONSTRAINT"; "PRIMARY"; "UNIQUE"; "CHECK"; "FOREIGN"].

Lemma body_head : forall d b o rest, em_body d b o -> readable_body b = true -> o <> [] ->
  exists t l, (o ++ rest)%list = t :: l /\ matches table_words t = true /\ matches ["CONSTRAINT"] t = false.
Proof.
  intros d b o rest E S N. inversion E; subst; cbn [app]; try congruence; try discriminate;
    do 2 eexists; (split; [reflexivity|split; [ktrue|kfalse]]).
Qed.

Lemma tconstraint_ok : forall d n b oc ob rest tc,
  em_cname d ["PRIMARY"; "UNIQUE"; "CHECK"; "FOREIGN"] ob n oc -> em_body d b ob ->
  readable_body b = true -> silent (EConstraint n b) = false -> stop rest ->
  steps (fun m => convertTableConstraint m d tc) ((oc ++ ob) ++ rest) (add_body d n (seen_body b) tc) rest /\
  exists t l, ((oc ++ ob) ++ rest)%list = t :: l /\ matches table_words t = true.
Proof.
  intros d n b oc ob rest tc E EB S SI R. pose proof (body_ok d b ob rest n tc EB S R) as X.
  assert (Y : steps (fun m => convertTableConstraint m d tc) ((oc ++ ob) ++ rest) (add_body d n (seen_body b) tc) rest <->
    steps (fun m => cbind (cbind (cmatch ["CONSTRAINT"]) (fun b => if b then
             cnext ;;
             b <- cmatch ["PRIMARY"; "UNIQUE"; "CHECK"; "FOREIGN"] ;;
             if b then cret "" else convertName d
           else cret "")) (tc_rest m d tc)) ((oc ++ ob) ++ rest) (add_body d n (seen_body b) tc) rest).
  { assert (Z : forall m l, convertTableConstraint m d tc l = cbind (cbind (cmatch ["CONSTRAINT"]) (fun b => if b then
             cnext ;;
             b <- cmatch ["PRIMARY"; "UNIQUE"; "CHECK"; "FOREIGN"] ;;
             if b then cret "" else convertName d
           else cret "")) (tc_rest m d tc) l).
    { intros m l. unfold convertTableConstraint. unfold cbind at 1 3. unfold cbind at 3. unfold cmatch. reflexivity. }
    unfold steps, ev. setoid_rewrite Z. tauto. }
  rewrite Y. clear Y. rewrite <- app_assoc.
  inversion E as [|k t l' KK -> M|k t KK T]; subst; cbn [app].
  - assert (N : ob <> []).
    { intros ->. cbn [silent] in SI. inversion EB; subst; discriminate. }
    destruct (body_head d b ob rest EB S N) as (t & l & Q & M & NC). rewrite Q in *. split; [|eauto].
    eapply steps_bind; [|exact X]. eapply steps_match; [exact NC|]. apply steps_ret.
  - split; [|do 2 eexists; split; [reflexivity|ktrue]]. eapply steps_bind; [|exact X].
    eapply steps_match; [exact KK|]. eapply steps_next; [kneq|]. cbn [app].
    eapply steps_match; [exact M|]. apply steps_ret.
  - split; [|do 2 eexists; split; [reflexivity|ktrue]]. eapply steps_bind; [|exact X].
    eapply steps_match; [exact KK|]. eapply steps_next; [kneq|].
    eapply steps_match; [eapply name_not; eauto|]. apply steps_const. apply convertName_ok; [eapply name_not_sym; eauto|apply T].
Qed.

(** ** Tables *)

Definition plus_tc (a b : Types.table_constraint) : Types.table_constraint :=
  mk_tc (tc_pk a ++ tc_pk b) (tc_unique a ++ tc_unique b) (tc_check a ++ tc_check b) (tc_fk a ++ tc_fk b)%list.

Lemma plus_body : forall d n b es tc, plus_tc (add_body d n b tc) (constraints_of d es) =
  plus_tc tc (constraints_of d (EConstraint n b :: es)).
Proof.
  intros d n b es [p u c f]. unfold plus_tc, constraints_of, add_body.
  destruct b; cbn [flat_map tc_pk tc_unique tc_check tc_fk]; rewrite <- ?app_assoc; reflexivity.
Qed.
Lemma plus_column : forall d c es tc, plus_tc tc (constraints_of d es) = plus_tc tc (constraints_of d (EColumn c :: es)).
Proof. reflexivity. Qed.
Lemma plus_nil : forall d tc, plus_tc tc (constraints_of d []) = tc.
Proof. intros d [p u c f]. unfold plus_tc, constraints_of. cbn [flat_map tc_pk tc_unique tc_check tc_fk]. now rewrite !app_nil_r. Qed.

(** What one element does to the columns and constraints collected so far. *)
Definition add_element (d : rdbms) (e : a_element) (x : list column * Types.table_constraint) : list column * Types.table_constraint :=
  match e with
  | EColumn c => (fst x ++ [column_of d c], snd x)%list
  | EConstraint n b => (fst x, add_body d n b (snd x))
  end.
Definition collected (d : rdbms) (es : list a_element) (x : list column * Types.table_constraint) :=
  (fst x ++ columns_of d es, plus_tc (snd x) (constraints_of d es))%list.

Lemma collected_cons : forall d e es x, collected d es (add_element d e x) = collected d (e :: es) x.
Proof.
  intros d [c|n b] es [cols tc]; unfold collected, add_element; cbn [fst snd].
  - rewrite plus_column with (c := c). unfold columns_of. cbn [flat_map]. now rewrite <- app_assoc.
  - rewrite plus_body. reflexivity.
Qed.
Lemma collected_nil : forall d x, collected d [] x = x.
Proof. intros d [cols tc]. unfold collected, columns_of. cbn [fst snd flat_map]. now rewrite plus_nil, app_nil_r. Qed.

(** One round of the loop. *)
Definition round (n : nat) (d : rdbms) (x : list column * Types.table_constraint) : C (list column * Types.table_constraint) :=
  b <- cmatch ["CONSTRAINT"; "PRIMARY"; "UNIQUE"; "CHECK"; "FOREIGN"] ;;
  (if b then tc <- convertTableConstraint n d (snd x) ;; cret (fst x, tc)
   else c <- convertColumnDefinition n d ;; cret (fst x ++ [c], snd x)%list).

Definition loop1 (n : nat) (d : rdbms) (x : list column * Types.table_constraint) :=
  b <- cmatch [")"] ;;
  if b then cret x
  else
    y <- round n d x ;;
    b <- cmatch [")"] ;;
    if b then cret y
    else cnext ;; table_definition_loop n d (fst y) (snd y).
Lemma loop_round : forall n d x l, table_definition_loop (S n) d (fst x) (snd x) l = loop1 n d x l.
Proof.
  intros n d [cols tc] l. cbn [table_definition_loop fst snd]. unfold loop1, round. cbn [fst snd].
  unfold cbind, cmatch. destruct (matches [")"] _); auto.
  destruct (matches ["CONSTRAINT"; "PRIMARY"; "UNIQUE"; "CHECK"; "FOREIGN"] _).
  - destruct (convertTableConstraint n d tc l); auto.
  - destruct (convertColumnDefinition n d l); auto.
Qed.

Lemma steps_ext : forall A (f g : nat -> C A) l a r, (forall n, f n l = g n l) -> steps g l a r -> steps f l a r.
Proof. intros A f g l a r E [n0 H]. exists n0. intros n L. rewrite E. now apply H. Qed.

Lemma element_ok : forall d e o rest x, em_element d e o -> readable_element e = true -> silent e = false -> stop rest ->
  steps (fun n => round n d x) (o ++ rest) (add_element d (seen_element e) x) rest /\
  exists t l, o = t :: l /\ t <> "," /\ t <> ")".
Proof.
  intros d e o rest x E S SI R. inversion E as [c o' EC|n b oc ob CN EB]; subst; cbn [add_element].
  - pose proof (column_ok d c o rest EC S R) as X. inversion EC; subst. cbn [app] in *. split.
    + unfold round. eapply steps_match; [eapply name_not; [eassumption|reflexivity]|].
      eapply steps_bind; [exact X|]. apply steps_ret.
    + do 2 eexists. split; [reflexivity|]. split; eapply name_not_sym; eauto.
  - cbn [readable_element] in S. destruct (tconstraint_ok d n b oc ob rest (snd x) CN EB S SI R) as [X (t & l & Q & M)].
    rewrite Q in *. split.
    + unfold round. eapply steps_match; [exact M|]. eapply steps_bind; [exact X|]. apply steps_ret.
    + destruct (oc ++ ob)%list as [|t' l'].
      * cbn [app] in Q. subst rest. destruct R as [->| ->]; discriminate.
      * inversion Q; subst. do 2 eexists. split; [reflexivity|]. split; intros ->; discriminate.
Qed.

Lemma silent_out : forall d e o, em_element d e o -> silent e = true -> o = [].
Proof.
  intros d e o E S. destruct e as [c|[n|] []]; try discriminate. inversion E as [|n b oc ob CN EB]; subst.
  inversion EB; subst. inversion CN; subst; auto. discriminate.
Qed.

Lemma silent_add : forall d e x, silent e = true -> add_element d (seen_element e) x = x.
Proof. intros d [c|[n|] b] [cs tc] H; try discriminate. destruct b; try discriminate. reflexivity. Qed.

Lemma drop_head : forall t l, t <> "," -> drop_commas (t :: l) = t :: l.
Proof. intros t l H. cbn [drop_commas]. apply String.eqb_neq in H. now rewrite H. Qed.

Lemma elements_ok : forall d es os, em_elements d es os -> forallb readable_element es = true ->
  forall rest x, steps (fun n => table_definition_loop n d (fst x) (snd x)) (drop_commas os ++ ")" :: rest)
    (collected d (map seen_element es) x) (")" :: rest).
Proof.
  intros d es os H.
  assert (Z : forall rest x, steps (fun n => table_definition_loop n d (fst x) (snd x)) (")" :: rest) x (")" :: rest)).
  { intros rest x. apply steps_S. eapply steps_ext with (g := fun n => loop1 n d x); [intros; apply loop_round|]. unfold loop1.
    eapply steps_match; [reflexivity|]. apply steps_ret. }
  induction H as [e o E|e es o os E Es IH]; intros S rest x; cbn [forallb map] in *; apply andb_true_iff in S as [S1 S2].
  - rewrite <- collected_cons, collected_nil. destruct (silent e) eqn:SI.
    + rewrite (silent_out d e o E SI), silent_add by auto. cbn [drop_commas app]. apply Z.
    + destruct (element_ok d e o (")" :: rest) x E S1 SI) as [X (t & l & -> & N1 & N2)]; [right; reflexivity|].
      rewrite drop_head by auto. apply steps_S. eapply steps_ext with (g := fun n => loop1 n d x); [intros; apply loop_round|]. unfold loop1. cbn [app] in *.
      eapply steps_match; [apply sym_false; auto|]. eapply steps_bind; [exact X|].
      eapply steps_match; [reflexivity|]. apply steps_ret.
  - rewrite <- collected_cons. destruct (silent e) eqn:SI.
    + rewrite (silent_out d e o E SI), silent_add by auto. cbn [drop_commas app String.eqb Ascii.eqb Bool.eqb].
      now apply IH.
    + destruct (element_ok d e o ("," :: os ++ ")" :: rest) x E S1 SI) as [X (t & l & -> & N1 & N2)]; [left; reflexivity|].
      rewrite <- app_comm_cons, drop_head by auto. apply steps_S. eapply steps_ext with (g := fun n => loop1 n d x); [intros; apply loop_round|]. unfold loop1.
      replace (((t :: l) ++ "," :: os) ++ ")" :: rest)%list with ((t :: l) ++ "," :: os ++ ")" :: rest)%list
        by now rewrite <- app_assoc.
      replace ((t :: l ++ "," :: os) ++ ")" :: rest)%list with ((t :: l) ++ "," :: os ++ ")" :: rest)%list
        by (cbn [app]; now rewrite <- app_assoc).
      cbn [app] in *.
      eapply steps_match; [apply sym_false; auto|]. eapply steps_bind; [exact X|].
      eapply steps_match; [reflexivity|].
      eapply steps_bind; [apply steps_const, cnext_drop; discriminate|]. now apply IH.
Qed.

(** no comma comes first, if the first element is not silent or is the only one *)
Lemma elements_head : forall d es os, em_elements d es os -> forallb readable_element es = true ->
  first_ok es = true -> drop_commas os = os.
Proof.
  intros d es os H S F. inversion H as [e o E|e es' o os' E Es]; subst; cbn [forallb] in S;
    apply andb_true_iff in S as [S1 S2].
  - destruct (silent e) eqn:SI; [now rewrite (silent_out d e os E SI)|].
    destruct (element_ok d e os [","] ([], zero_tc) E S1 SI) as [_ (t & l & -> & N1 & N2)]; [left; reflexivity|].
    now apply drop_head.
  - destruct es' as [|e' es']; [inversion Es|]. apply negb_true_iff in F.
    destruct (element_ok d e o [","] ([], zero_tc) E S1 F) as [_ (t & l & -> & N1 & N2)]; [left; reflexivity|].
    now apply drop_head.
Qed.

Lemma definition_ok : forall d es os rest, em_elements d es os -> forallb readable_element es = true ->
  first_ok es = true ->
  steps (fun n => convertTableDefinition n d) ("(" :: os ++ ")" :: rest) (columns_of d (map seen_element es), constraints_of d (map seen_element es)) rest.
Proof.
  intros d es os rest H S F. unfold convertTableDefinition. eapply steps_next; [discriminate|].
  rewrite <- (elements_head d es os H S F).
  eapply steps_bind; [apply (elements_ok d es os H S rest ([], zero_tc))|].
  eapply steps_next; [discriminate|].
  set (es' := map seen_element es).
  replace (columns_of d es', constraints_of d es') with (collected d es' ([], zero_tc)); [apply steps_ret|].
  unfold collected, plus_tc. cbn [fst snd app tc_pk tc_unique tc_check tc_fk zero_tc]. now destruct (constraints_of d es').
Qed.

Lemma table_ok : forall d t o rest, em_table d t o -> readable_table t = true ->
  steps (fun n => convertTable n d) (o ++ rest) (table_of d (seen_table t)) rest.
Proof.
  intros d t o rest E S. inversion E as [i s n es c k oi os oe C K I SN N ES]; subst.
  unfold readable_table in S. cbn [at_elements] in S. apply andb_true_iff in S as [S1 S2].
  pose proof (definition_ok d es oe (";" :: rest) ES S1 S2) as X.
  unfold convertTable. cbn [app]. eapply steps_next; [kneq|]. eapply steps_next; [kneq|].
  rewrite <- !app_assoc. cbn [app]. rewrite <- app_assoc. cbn [app].
  assert (Y : steps (fun n => '(schemaName, tableName) <- convertTableName d ;;
      '(columns, constraints) <- convertTableDefinition n d ;;
      b <- cmatch [";"] ;;
      (if b then cnext ;; cret tt else cret tt) ;;
      cret (mk_table schemaName tableName i columns constraints)) (os ++ "(" :: oe ++ ")" :: ";" :: rest)
      (table_of d (seen_table (mk_atable i s n es))) rest).
  { eapply steps_bind with (r := ("(" :: oe ++ ")" :: ";" :: rest)%list) (a := (opt_name d s, unquote d n)).
    - unfold convertTableName. destruct s as [s|].
      + destruct SN as (-> & SN & _). cbn [app].
        eapply steps_bind; [apply steps_const, convertName_ok; [eapply name_not_sym; eauto|apply SN]|].
        eapply steps_match; [reflexivity|]. eapply steps_next; [discriminate|].
        eapply steps_bind; [apply steps_const, convertName_ok; [eapply name_not_sym; eauto|apply N]|]. apply steps_ret.
      + destruct SN as (-> & _). cbn [app].
        eapply steps_bind; [apply steps_const, convertName_ok; [eapply name_not_sym; eauto|apply N]|].
        eapply steps_match; [reflexivity|]. apply steps_ret.
    - eapply steps_bind; [exact X|]. eapply steps_match; [reflexivity|].
      eapply steps_bind; [eapply steps_next; [discriminate|apply steps_ret]|]. apply steps_ret. }
  destruct i.
  - destruct I as (i1 & i2 & i3 & -> & K1 & K2 & K3). cbn [app].
    eapply steps_match; [exact K1|]. eapply steps_bind; [|exact Y].
    eapply steps_next; [kneq|]. eapply steps_next; [kneq|]. eapply steps_next; [kneq|]. apply steps_ret.
  - subst oi. cbn [app].
    assert (Z : exists t l, (os ++ "(" :: oe ++ ")" :: ";" :: rest)%list = t :: l /\ matches ["IF"] t = false).
    { destruct s as [s|]; [destruct SN as (-> & _ & M)|destruct SN as (-> & M)]; cbn [app]; eauto 6. }
    destruct Z as (t & l & Q & M). rewrite Q in *. eapply steps_match; [exact M|].
    eapply steps_bind; [apply steps_ret|exact Y].
Qed.

Theorem script_seen : forall d ss o, em_script d ss o -> readable ss = true ->
  steps (fun n => convert n d) o (tables_of d (seen ss)) [].
Proof.
  induction 1 as [|t ss o os E Es IH|ss os Es IH]; intros S; unfold readable in S; cbn [forallb readable_stmt] in S.
  - apply steps_S. cbn [convert]. apply ev_all. reflexivity.
  - apply andb_true_iff in S as [S1 S2]. apply steps_S. 
    pose proof (table_ok d t o os E S1) as X. specialize (IH S2).
    eapply steps_ext with (g := fun n => t <- convertTable n d ;; ts <- convert n d ;; cret (t :: ts)).
    + intros n. inversion E; subst. reflexivity.
    + unfold tables_of, seen. cbn [map seen_stmt flat_map app]. eapply steps_bind; [exact X|].
      eapply steps_bind; [exact IH|]. apply steps_ret.
  - apply IH. exact S.
Qed.

(** ** Safe statements are seen as they are *)

Lemma squeeze_same : forall l, double_comma l = false -> squeeze l = l.
Proof.
  induction l as [|t l IH]; intros H; auto. cbn [double_comma] in H. apply orb_false_iff in H as [H1 H2].
  cbn [squeeze]. fold (comma_next l) in H1. rewrite H1. now rewrite IH.
Qed.
Lemma seen_item_same : forall i, safe_item i = true -> seen_item i = i.
Proof.
  intros [| | | |[t|e]|e|t|r|] H; auto; cbn [seen_item safe_item] in *; apply negb_true_iff in H;
    now rewrite squeeze_same.
Qed.
Lemma map_same : forall A (f : A -> A) p l, (forall a, p a = true -> f a = a) -> forallb p l = true -> map f l = l.
Proof.
  intros A f p l H. induction l as [|a l IH]; auto. cbn [forallb map]. intros S. apply andb_true_iff in S as [S1 S2].
  now rewrite H, IH.
Qed.
Lemma seen_element_same : forall e, safe_element e = true -> seen_element e = e.
Proof.
  intros [[n ty cn is]|n b] H; cbn [seen_element safe_element] in *.
  - unfold safe_column in H. unfold seen_column. cbn [ac_name ac_type ac_cname ac_items] in *.
    apply andb_true_iff in H as [H1 H2]. rewrite (map_same _ _ safe_item) by eauto using seen_item_same.
    destruct cn as [t|]; auto. apply negb_true_iff in H1. now rewrite H1.
  - destruct b; auto. cbn [seen_body safe_body] in *. apply negb_true_iff in H. now rewrite squeeze_same.
Qed.
Lemma seen_same : forall ss, safe ss = true -> seen ss = ss.
Proof.
  intros ss H. unfold seen. apply (map_same _ _ safe_stmt); auto. intros [[i s n es]|] S; auto.
  cbn [safe_stmt seen_stmt] in *. unfold safe_table in S. cbn [at_elements] in S. apply andb_true_iff in S as [S _].
  unfold seen_table. cbn [at_ine at_schema at_name at_elements].
  rewrite (map_same _ _ safe_element); auto using seen_element_same.
Qed.
Lemma safe_readable_element : forall e, safe_element e = true -> readable_element e = true.
Proof.
  intros [c|n b] H; cbn [readable_element safe_element] in *.
  - unfold safe_column in H. apply andb_true_iff in H as [_ H]. rewrite forallb_forall in *. intros i I. specialize (H i I).
    destruct i; auto.
  - destruct b; auto.
Qed.
Lemma safe_readable : forall ss, safe ss = true -> readable ss = true.
Proof.
  intros ss H. unfold safe, readable in *. rewrite forallb_forall in *. intros s I. specialize (H s I).
  destruct s as [t|]; auto. cbn [safe_stmt readable_stmt] in *. unfold safe_table, readable_table in *.
  apply andb_true_iff in H as [H1 H2]. apply andb_true_iff. split; auto.
  rewrite forallb_forall in *. auto using safe_readable_element.
Qed.

Theorem script_ok : forall d ss o, em_script d ss o -> safe ss = true ->
  steps (fun n => convert n d) o (tables_of d ss) [].
Proof.
  intros d ss o E S. rewrite <- (seen_same ss S) at 1. apply script_seen; auto. now apply safe_readable.
Qed.
