(** The JSON text determines the JSON value, and the JSON value the tables. *)
From Coq Require Import String Ascii NArith ZArith List Bool Arith Lia.
From Verif Require Import GoStr GoNum Types Numbers Print Utf8 JsonGrammar Json.
From Verif Require PrintText ErrorTextFacts.
Import ListNotations.
Open Scope nat_scope.
Open Scope string_scope.

(** ** Strings *)
Lemma app_cancel : forall a x y : string, (a ++ x = a ++ y)%string -> x = y.
Proof. induction a as [|c a IH]; intros x y E; [exact E|]. injection E. apply IH. Qed.

(** [p] is the beginning of [s] *)
Fixpoint begins (p s : string) : bool :=
  match p, s with
  | EmptyString, _ => true
  | String c p, String e s => Ascii.eqb c e && begins p s
  | _, _ => false
  end.
Lemma begins_either : forall p q x y, (p ++ x = q ++ y)%string -> begins p q = true \/ begins q p = true.
Proof.
  induction p as [|c p IH]; intros q x y E; [now left|]. destruct q as [|e q]; [now right|].
  cbn in E. injection E as -> E. cbn. rewrite Ascii.eqb_refl. apply (IH q x y E).
Qed.
Definition escapes_apart : bool :=
  forallb (fun x => forallb (fun y => (fst x =? fst y)%N || negb (begins (snd x) (snd y))) escapes) escapes.
Lemma escapes_apart_true : escapes_apart = true. Proof. vm_compute. reflexivity. Qed.
Lemma escape_cases : forall r, (exists e, In (r, e) escapes /\ escape r = e) \/ (escape r = utf8_rune r /\ forall e, ~ In (r, e) escapes).
Proof.
  intros r. unfold escape. destruct (find (fun x => (fst x =? r)%N) escapes) as [[s e]|] eqn:F.
  - left. apply find_some in F as [I E]. apply N.eqb_eq in E. cbn in E. subst s. eauto.
  - right. split; auto. intros e I. pose proof (find_none _ _ F _ I) as N. cbn in N. now rewrite N.eqb_refl in N.
Qed.
(** escaped characters begin with a backslash, others with neither that nor a quotation mark *)
Lemma escapes_first : forall r e, In (r, e) escapes -> exists s, e = String "\" s.
Proof.
  intros r e I. assert (X : forallb (fun x => match snd x with String c _ => Ascii.eqb c "\" | _ => false end) escapes = true) by (vm_compute; reflexivity).
  rewrite forallb_forall in X. specialize (X _ I). cbn in X. destruct e as [|c e]; [discriminate|]. apply Ascii.eqb_eq in X. subst. eauto.
Qed.
Lemma rune_byte : forall r b s, is_scalar r = true -> utf8_rune r = String b s -> (N_of_ascii b < 128)%N -> r = N_of_ascii b.
Proof.
  intros r b s S E L. pose proof (runes_of_utf8_rune r "" S) as R. rewrite append_nil_r, E in R. rewrite runes_1 in R by exact L. now injection R.
Qed.
Lemma rune_head : forall r, exists b s, utf8_rune r = String b s.
Proof. intros r. unfold utf8_rune. destruct (_ <? 128)%N; [eauto|]. destruct (_ <? 2048)%N; [eauto|]. destruct (_ <? 65536)%N; eauto. Qed.
Lemma plain_first : forall r b s, is_scalar r = true -> (forall e, ~ In (r, e) escapes) -> utf8_rune r = String b s -> b <> "\"%char /\ b <> """"%char.
Proof.
  intros r b s S N E. split; intros ->; apply (rune_byte r _ _ S) in E; try reflexivity; subst r; eapply N; vm_compute; eauto.
Qed.
Lemma escape_first : forall r, is_scalar r = true -> exists b s, escape r = String b s /\ b <> """"%char.
Proof.
  intros r S. destruct (escape_cases r) as [(e & I & ->)|[-> N]].
  - destruct (escapes_first _ _ I) as (s & ->). exists "\"%char, s. split; auto. discriminate.
  - destruct (rune_head r) as (b & s & E). exists b, s. split; auto. eapply plain_first; eauto.
Qed.
Lemma escape_inj : forall r r' x y, is_scalar r = true -> is_scalar r' = true -> (escape r ++ x = escape r' ++ y)%string -> r = r' /\ x = y.
Proof.
  intros r r' x y S S' E. assert (R : r = r').
  - destruct (escape_cases r) as [(e & I & H)|[H N]]; destruct (escape_cases r') as [(e' & I' & H')|[H' N']]; rewrite H, H' in E.
    + destruct (begins_either _ _ _ _ E) as [B|B]; pose proof escapes_apart_true as A; unfold escapes_apart in A; rewrite forallb_forall in A.
      * specialize (A _ I). rewrite forallb_forall in A. specialize (A _ I'). cbn in A. rewrite B, orb_false_r in A. now apply N.eqb_eq in A.
      * specialize (A _ I'). rewrite forallb_forall in A. specialize (A _ I). cbn in A. rewrite B, orb_false_r in A. apply N.eqb_eq in A. auto.
    + destruct (escapes_first _ _ I) as (s & ->). destruct (rune_head r') as (b & s' & U). rewrite U in E. injection E as <- _.
      now destruct (plain_first _ _ _ S' N' U).
    + destruct (escapes_first _ _ I') as (s & ->). destruct (rune_head r) as (b & s' & U). rewrite U in E. injection E as -> _.
      now destruct (plain_first _ _ _ S N U).
    + apply (f_equal runes_of) in E. rewrite !runes_of_utf8_rune in E by assumption. now injection E.
  - subst r'. split; auto. eapply app_cancel, E.
Qed.
Definition body (rs : list rune) : string := fold_right (fun r t => escape r ++ t)%string "" rs.
Lemma body_inj : forall rs rs' x y, scalars rs -> scalars rs' -> (body rs ++ """" ++ x = body rs' ++ """" ++ y)%string -> rs = rs' /\ x = y.
Proof.
  induction rs as [|r rs IH]; intros rs' x y S S' E.
  - destruct rs' as [|r' rs']; [cbn in E; injection E; auto|]. exfalso. inversion S'; subst. destruct (escape_first r' H1) as (b & s & F & N).
    cbn [body fold_right] in E. rewrite F in E. cbn in E. injection E as B _. auto.
  - destruct rs' as [|r' rs'].
    + exfalso. inversion S; subst. destruct (escape_first r H1) as (b & s & F & N). cbn [body fold_right] in E. rewrite F in E. cbn in E. injection E as B _. auto.
    + inversion S; inversion S'; subst. cbn [body fold_right] in E. rewrite !append_assoc in E. apply escape_inj in E as [-> E]; auto.
      apply IH in E as [-> E]; auto.
Qed.
Lemma valid_runes : forall s, valid s -> scalars (runes_of s) /\ utf8 (runes_of s) = s.
Proof. intros s (rs & S & ->). now rewrite runes_of_utf8. Qed.
Lemma string_text_eq : forall s, string_text s = ("""" ++ body (runes_of s) ++ """")%string. Proof. reflexivity. Qed.
Lemma string_inj : forall s s' x y, valid s -> valid s' -> (string_text s ++ x = string_text s' ++ y)%string -> s = s' /\ x = y.
Proof.
  intros s s' x y V V' E. destruct (valid_runes s V) as [S U], (valid_runes s' V') as [S' U']. rewrite !string_text_eq, !append_assoc in E. apply app_cancel in E.
  apply body_inj in E as [R E]; auto. rewrite R in U. split; congruence.
Qed.

(** ** Values *)
Definition number_char (c : ascii) : bool := is_digit c || existsb (Ascii.eqb c) ["+"; "-"; "."; "e"; "E"]%char.
Fixpoint number_chars (s : string) : bool := match s with EmptyString => true | String c s => number_char c && number_chars s end.
Inductive good : json -> Prop :=
| good_null : good JNull
| good_bool b : good (JBool b)
| good_number s : s <> "" -> number_chars s = true -> json_number s -> good (JNumber s)
| good_string s : valid s -> good (JString s)
| good_array l : Forall good l -> good (JArray l)
| good_object l : Forall (fun m => valid (fst m) /\ good (snd m)) l -> good (JObject l).
Lemma good_ind2 : forall P : json -> Prop,
  P JNull -> (forall b, P (JBool b)) -> (forall s, s <> "" -> number_chars s = true -> json_number s -> P (JNumber s)) -> (forall s, valid s -> P (JString s)) ->
  (forall l, Forall (fun j => good j /\ P j) l -> P (JArray l)) ->
  (forall l, Forall (fun m => valid (fst m) /\ good (snd m) /\ P (snd m)) l -> P (JObject l)) ->
  forall j, good j -> P j.
Proof.
  intros P H1 H2 H3 H4 H5 H6. fix IH 2. intros j G. destruct G as [|b|s N C J|s V|l F|l F]; auto.
  - apply H5. induction F as [|x l G F IHF]; constructor; auto.
  - apply H6. induction F as [|x l [V G] F IHF]; constructor; auto.
Qed.

(** what may follow a value *)
Definition closing (c : ascii) : bool := existsb (Ascii.eqb c) [","; "]"; "}"]%char.
Definition stop (r : string) : Prop := match r with EmptyString => True | String c _ => closing c = true end.
Lemma closing_not_number : forall c, closing c = true -> number_char c = false.
Proof.
  intros c H. unfold closing in H. apply existsb_exists in H as (x & I & E). apply Ascii.eqb_eq in E. subst x.
  cbn in I. destruct I as [<-|[<-|[<-|[]]]]; reflexivity.
Qed.
Lemma number_inj : forall s s' x y, number_chars s = true -> number_chars s' = true -> stop x -> stop y -> (s ++ x = s' ++ y)%string -> s = s' /\ x = y.
Proof.
  induction s as [|c s IH]; intros s' x y N N' X Y E.
  - destruct s' as [|c' s']; [auto|]. cbn in E. subst x. apply closing_not_number in X. cbn in N'. rewrite X in N'. discriminate.
  - destruct s' as [|c' s'].
    + cbn in E. subst y. apply closing_not_number in Y. cbn in N. rewrite Y in N. discriminate.
    + cbn in E, N, N'. injection E as -> E. apply andb_true_iff in N as [_ N], N' as [_ N']. apply IH in E as [-> ->]; auto.
Qed.

(** lists with commas *)
Lemma separated_inj : forall A (w : A -> string) (P : A -> Prop) (c : ascii) l l' x y,
  closing c = true -> c <> ","%char ->
  Forall (fun a => forall a' r r', P a' -> stop r -> stop r' -> (w a ++ r = w a' ++ r')%string -> a = a' /\ r = r') l -> Forall P l' ->
  (forall a, P a -> exists b s, w a = String b s /\ closing b = false) -> Forall P l ->
  (separated (map w l) ++ String c x = separated (map w l') ++ String c y)%string -> l = l' /\ x = y.
Proof.
  intros A w P c l l' x y C N H H' W L E. revert l' x y H' E. induction H as [|a l Ha H IH]; intros l' x y H' E.
  - destruct l' as [|a' l']; [cbn in E; injection E; auto|]. exfalso. inversion H'; subst. destruct (W a' H1) as (b & s & F & B).
    destruct l'; cbn [map separated] in E; rewrite F in E; cbn in E; injection E as <- _; congruence.
  - inversion L as [|? ? La L']; subst. specialize (IH L').
    destruct l' as [|a' l'].
    { exfalso. destruct (W a La) as (b & s & F & B). destruct l; cbn [map separated] in E; rewrite F in E; cbn in E; injection E as -> _; congruence. }
    inversion H' as [|? ? Pa' P']; subst.
    assert (S : forall k k' (z : string), (separated (map w (k :: k')) ++ z)%string =
      (w k ++ match k' with [] => z | _ => String "," (separated (map w k') ++ z) end)%string).
    { intros k k' z. destruct k' as [|k2 k']; [reflexivity|]. cbn [map separated]. now rewrite !append_assoc. }
    rewrite !S in E. apply Ha in E as [-> E]; auto.
    + destruct l as [|b l], l' as [|b' l']; try (injection E as E; congruence).
      * injection E as ->. auto.
      * apply (f_equal (fun s => match s with String _ t => t | "" => "" end)) in E. apply (IH (b' :: l') x y P') in E as [E ->]. split; congruence.
    + destruct l; [exact C|reflexivity].
    + destruct l'; [exact C|reflexivity].
Qed.

Lemma write_first : forall j, good j -> exists b s, write j = String b s /\ closing b = false.
Proof.
  intros j G. destruct G as [|b|s N C J|s V|l F|l F]; cbn [write]; eauto; try (eexists; eexists; split; reflexivity).
  - destruct b; eexists; eexists; split; reflexivity.
  - destruct s as [|b s]; [easy|]. exists b, s. split; auto. cbn in C. apply andb_true_iff in C as [C _].
    destruct (closing b) eqn:E; auto. apply closing_not_number in E. congruence.
Qed.
Lemma string_first : forall s, exists t, string_text s = String """" t. Proof. intros s. eexists. reflexivity. Qed.
Ltac first_chars := match goal with E : ?a = ?b |- _ => exfalso; apply (f_equal (fun s => match s with String c _ => c | EmptyString => "000"%char end)) in E; cbn in E; subst; discriminate end.
Lemma number_first : forall s, s <> "" -> number_chars s = true -> exists c t, s = String c t /\ number_char c = true.
Proof. intros [|c t] N C; [easy|]. cbn in C. apply andb_true_iff in C as [C _]. eauto. Qed.
Theorem write_inj : forall j, good j -> forall j' x y, good j' -> stop x -> stop y -> (write j ++ x = write j' ++ y)%string -> j = j' /\ x = y.
Proof.
  intros j G. induction G as [|b|s N C J|s V|l F|l F] using good_ind2; intros j' x y G' X Y E.
  all: destruct G' as [|b'|s' N' C' J'|s' V'|l' F'|l' F']; cbn [write] in E.
  all: try (destruct (number_first _ N C) as (c1 & t1 & -> & M1)).
  all: try (destruct (number_first _ N' C') as (c2 & t2 & -> & M2)).
  all: try (destruct b); try (destruct b'); cbn -[string_text number_char separated write] in E; rewrite ?string_text_eq in E; cbn -[body number_char separated write] in E; try discriminate E.
  all: try (injection E as E0 E1; subst; discriminate).
  - injection E. auto.
  - injection E. auto.
  - injection E. auto.
  - change (String c1 t1 ++ x = String c2 t2 ++ y)%string in E. apply number_inj in E as [E ->]; auto. split; congruence.
  - change ("""" ++ body (runes_of s) ++ """")%string with (string_text s) in E.
    assert (E' : (string_text s ++ x = string_text s' ++ y)%string) by (rewrite !string_text_eq; cbn [append]; exact E).
    apply string_inj in E' as [-> ->]; auto.
  - injection E as E. rewrite !append_assoc in E. cbn [append] in E.
    apply (separated_inj _ write good) in E as [-> ->]; auto; try discriminate.
    + eapply Forall_impl; [|exact F]. intros a [_ H]. exact H.
    + apply write_first.
    + eapply Forall_impl; [|exact F]. intros a [G _]; exact G.
  - injection E as E. rewrite !append_assoc in E. cbn [append] in E.
    apply (separated_inj _ (fun m => string_text (fst m) ++ ":" ++ write (snd m))%string (fun m => valid (fst m) /\ good (snd m))) in E as [-> ->]; auto; try discriminate.
    + eapply Forall_impl; [|exact F]. intros [k v] (K & G & H) [k' v'] r r' (K' & G') R R' E'. cbn [fst snd] in *.
      rewrite !append_assoc in E'. apply string_inj in E' as [-> E']; auto. cbn [append] in E'. injection E' as E'. apply H in E' as [-> ->]; auto.
    + intros [k v] _. destruct (string_first k) as (t & T). cbn [fst]. rewrite T. eexists; eexists. split; reflexivity.
    + eapply Forall_impl; [|exact F]. intros a (K & G & _); auto.
Qed.

(** ** Tables *)
Lemma append_number : forall a b, number_chars (a ++ b) = number_chars a && number_chars b.
Proof. induction a as [|c a IH]; intros b; [reflexivity|]. cbn. now rewrite IH, andb_assoc. Qed.
Lemma digit_number : forall c k, In (c, k) digit_table -> number_char c = true /\ c <> "-"%char.
Proof. intros c k H. cbn in H. repeat destruct H as [H|H]; try contradiction; inversion H; subst; split; try reflexivity; discriminate. Qed.
Lemma decimal_chars : forall s n, decimal s n -> number_chars s = true /\ exists c t, s = String c t /\ c <> "-"%char.
Proof.
  intros s n D. induction D as [c k I|s n c k D [C (b & t & -> & N)] I].
  - destruct (digit_number c k I) as [H N]. cbn. rewrite H. split; eauto.
  - destruct (digit_number c k I) as [H _]. rewrite append_number, C. cbn. rewrite H. split; eauto.
Qed.
Lemma int_text_number : forall z, number_chars (int_text z) = true /\ int_text z <> "".
Proof.
  intros z. unfold int_text. destruct (decimal_chars _ _ (PrintText.numeral_decimal (Z.abs_N z))) as [C (c & t & E & _)].
  destruct (z <? 0)%Z; cbn [append number_chars]; [change (number_char "-") with true; cbn [andb]|]; split; auto; try discriminate. rewrite E. discriminate.
Qed.
(** numbers of the grammar of JSON *)
Definition lead (s : string) : Prop := exists c t, s = String c t /\ one_char "123456789" c /\ digits t.
Lemma digits_app : forall a b, digits a -> digits b -> digits (a ++ b).
Proof. unfold digits, all_chars. induction a as [|c a IH]; intros b A B; [exact B|]. inversion A; subst. constructor; auto. Qed.
Lemma lead_digits : forall s, lead s -> digits s /\ s <> "".
Proof.
  intros s (c & t & -> & C & T). split; [|discriminate]. constructor; [|exact T]. unfold one_char in *. cbn in *. tauto.
Qed.
Lemma low_digit : forall n, (n < 10)%N -> one_char "0123456789" (ascii_of_N (48 + n)) /\ (n <> 0%N -> one_char "123456789" (ascii_of_N (48 + n))).
Proof.
  intros n L. assert (H : In n [0; 1; 2; 3; 4; 5; 6; 7; 8; 9]%N) by (cbn; lia). unfold one_char.
  cbn in H. repeat (destruct H as [<-|H]; [cbn; split; [|intros N; try congruence]; tauto|]). contradiction.
Qed.
Lemma digits_lead : forall k n, (n < 2 ^ N.of_nat k)%N -> n = 0%N /\ digits_of (S k) n = "0" \/ n <> 0%N /\ lead (digits_of (S k) n).
Proof.
  induction k as [|k IH]; intros n L.
  - change (2 ^ N.of_nat 0)%N with 1%N in L. left. replace n with 0%N by lia. auto.
  - remember (S k) as k1. cbn [digits_of]. destruct (N.ltb_spec n 10) as [H|H].
    + cbn [append]. rewrite N.mod_small by auto. destruct (N.eq_dec n 0) as [->|Z]; [left; auto|right]. split; [exact Z|].
      exists (ascii_of_N (48 + n)), "". split; [reflexivity|]. split; [now apply low_digit|constructor].
    + right. split; [lia|]. assert (M : (n / 10 < 2 ^ N.of_nat k)%N).
      { subst k1. rewrite Nat2N.inj_succ, N.pow_succ_r' in L. apply N.div_lt_upper_bound; lia. }
      assert (Z : (n / 10 <> 0)%N) by (intros Z; apply N.div_small_iff in Z; lia).
      subst k1. destruct (IH _ M) as [[Z' _]|[_ (c & t & E & C & T)]]; [contradiction|]. rewrite E.
      exists c, (t ++ String (ascii_of_N (48 + n mod 10)) ""). split; [reflexivity|]. split; [exact C|]. apply digits_app; [exact T|].
      constructor; [|constructor]. apply low_digit. apply N.mod_lt. discriminate.
Qed.
Lemma numeral_int : forall n, json_int (numeral_of n) /\ digits (numeral_of n) /\ numeral_of n <> "".
Proof.
  intros n. unfold numeral_of. destruct (digits_lead (N.size_nat n) n (PrintText.size_bound n)) as [[-> E]|[_ L]].
  - rewrite E. split; [left; reflexivity|]. split; [|discriminate]. constructor; [now left|constructor].
  - split; [right; exact L|]. now apply lead_digits.
Qed.
Lemma int_text_json : forall z, json_number (int_text z).
Proof.
  intros z. unfold int_text. exists (if (z <? 0)%Z then "-" else ""), (numeral_of (Z.abs_N z)), "", "".
  split; [now rewrite !append_nil_r|]. split; [destruct (z <? 0)%Z; cbn; auto|]. split; [apply numeral_int|]. split; left; reflexivity.
Qed.
Lemma number_all : forall s t, forallb number_char (list_ascii_of_string s) = true -> all_chars s t -> number_chars t = true.
Proof.
  intros s t H. unfold all_chars. induction t as [|c t IH]; intros A; [reflexivity|]. inversion A; subst. cbn [number_chars]. rewrite IH by auto.
  rewrite forallb_forall in H. now rewrite H.
Qed.
Lemma json_number_chars : forall s, json_number s -> number_chars s = true /\ s <> "".
Proof.
  intros s (sign & i & f & e & -> & S & I & F & E).
  assert (D : forall t, digits t -> number_chars t = true) by (intros t; now apply number_all).
  assert (C : forall w c, forallb number_char (list_ascii_of_string w) = true -> one_char w c -> number_char c = true)
    by (intros w c W O; rewrite forallb_forall in W; now apply W).
  assert (I1 : number_chars i = true /\ i <> "").
  { destruct I as [->|(c & t & -> & O & T)]; [split; [reflexivity|discriminate]|]. split; [|discriminate]. cbn [number_chars]. rewrite (C "123456789" c), (D t); auto. }
  destruct I1 as [I1 I2]. split.
  - rewrite !append_number, I1. destruct S as [<-|[<-|[]]]; destruct F as [->|(t & -> & _ & T)]; rewrite ?append_number, ?(D _ T);
      destruct E as [->|(x & g & u & -> & X & G & _ & U)]; try reflexivity; cbn [number_chars]; rewrite (C "eE" x), append_number, (D u) by auto;
      destruct G as [<-|[<-|[<-|[]]]]; reflexivity.
  - destruct S as [<-|[<-|[]]]; [|discriminate]. destruct i; [contradiction|discriminate].
Qed.
Lemma int_text_inj : forall z z', int_text z = int_text z' -> z = z'.
Proof.
  assert (A : forall z, decimal (numeral_of (Z.abs_N z)) (Z.abs_N z)) by (intros; apply PrintText.numeral_decimal).
  intros z z' E. unfold int_text in E. pose proof (A z) as D. pose proof (A z') as D'.
  destruct (decimal_chars _ _ D) as [_ (c & t & F & N)], (decimal_chars _ _ D') as [_ (c' & t' & F' & N')].
  destruct (Z.ltb_spec z 0), (Z.ltb_spec z' 0); cbn [append] in E.
  - injection E as E. rewrite E in D. pose proof (ErrorTextFacts.decimal_det _ _ _ D D'). lia.
  - rewrite F' in E. injection E as E _. congruence.
  - rewrite F in E. injection E as E _. congruence.
  - rewrite E in D. pose proof (ErrorTextFacts.decimal_det _ _ _ D D'). lia.
Qed.

Lemma valid_ascii : forall s, forallb (fun c => (N_of_ascii c <? 128)%N) (list_ascii_of_string s) = true -> valid s.
Proof.
  intros s H. exists (map N_of_ascii (list_ascii_of_string s)). split.
  - apply Forall_forall. intros r I. apply in_map_iff in I as (c & <- & I). rewrite forallb_forall in H. specialize (H c I). apply N.ltb_lt in H.
    unfold is_scalar. apply orb_true_iff. left. apply N.ltb_lt. lia.
  - induction s as [|c s IH]; [reflexivity|]. cbn [list_ascii_of_string forallb] in H. apply andb_true_iff in H as [H1 H2]. cbn [list_ascii_of_string map utf8].
    rewrite <- IH by auto. unfold utf8_rune. apply N.ltb_lt in H1 as L. unfold is_scalar. replace (N_of_ascii c <? 55296)%N with true by (symmetry; apply N.ltb_lt; lia).
    cbn [orb]. rewrite H1. cbn. unfold byte. now rewrite ascii_N_embedding.
Qed.
Ltac key := apply valid_ascii; reflexivity.
Ltac members := repeat (apply Forall_cons; [split; [cbn [fst]; key|cbn [snd]]|]); [..|apply Forall_nil].
Lemma good_strings : forall l, Forall valid l -> good (strings l).
Proof. intros l F. apply good_array. apply Forall_forall. intros j I. apply in_map_iff in I as (s & <- & I). constructor. eapply Forall_forall in F; eauto. Qed.
Lemma good_slice : forall A (f : A -> json) l, Forall (fun a => good (f a)) l -> good (slice f l).
Proof.
  intros A f l F. destruct l as [|a l]; [constructor|]. cbn [slice]. apply good_array. apply Forall_forall. intros j I. apply in_map_iff in I as (s & <- & I).
  eapply Forall_forall in F; eauto.
Qed.
Lemma good_reference : forall r, valid_reference r -> good (reference_json r).
Proof. intros [t [cs|]] [V W]; cbn in *; apply good_object; members; cbn; try (constructor; auto; fail). now apply good_strings. Qed.
Lemma good_int : forall z, good (JNumber (int_text z)).
Proof. intros z. destruct (int_text_number z). constructor; auto. apply int_text_json. Qed.
Lemma good_type : forall t, valid (dt_name t) -> good (type_json t).
Proof. intros t V. apply good_object; members; try apply good_int. now constructor. Qed.
Lemma good_default : forall v j, default_json v j -> match v with DString s => valid s | _ => True end -> good j.
Proof.
  intros v j D V. destruct D as [|f s D| |]; try (constructor; auto; fail). destruct f; try contradiction. destruct D as [C P]. destruct (json_number_chars _ C). now constructor.
Qed.
Lemma good_column : forall c j, column_json c j -> valid_column c -> good j.
Proof.
  intros c j [c' x D] (V1 & V2 & V3 & V4 & V5 & V6 & V7). apply good_object. members; [now constructor|now apply good_type|].
  apply good_object. members; try (constructor; auto; fail); [eapply good_default; eauto|now apply good_reference].
Qed.
Lemma good_keys : forall n cs, valid n -> Forall valid cs -> good (key_json n cs).
Proof. intros n cs V W. apply good_object. members; [now constructor|now apply good_strings]. Qed.
Lemma good_constraints : forall tc, valid_constraints tc -> good (constraints_json tc).
Proof.
  intros tc (V1 & V2 & V3 & V4). apply good_object. members; apply good_slice; (eapply Forall_impl; [|eassumption]); cbn beta.
  - intros k [A B]. now apply good_keys.
  - intros k [A B]. now apply good_keys.
  - intros k [A B]. apply good_object. members; constructor; assumption.
  - intros k (A & B & C). apply good_object. members; [now constructor|now apply good_strings|now apply good_reference].
Qed.
Lemma good_table : forall t j, table_json t j -> valid_table t -> good j.
Proof.
  intros t j [t' cs F] (V1 & V2 & V3 & V4). apply good_object. members; try (constructor; auto; fail); [|now apply good_constraints].
  apply good_slice. clear - F V3. induction F; inversion V3; subst; constructor; auto. eapply good_column; eauto.
Qed.

(** injectivity *)
Lemma strings_inj : forall l l', strings l = strings l' -> l = l'.
Proof. intros l l' E. injection E as E. revert l' E. induction l as [|x l IH]; intros [|x' l'] E; cbn in E; try discriminate; auto. injection E as -> E. f_equal. auto. Qed.
Lemma slice_inj : forall A (f : A -> json) l l', (forall a a', f a = f a' -> a = a') -> slice f l = slice f l' -> l = l'.
Proof.
  intros A f l l' H E. assert (M : map f l = map f l') by (destruct l, l'; cbn in E |- *; try discriminate; congruence).
  clear E. revert l' M. induction l as [|x l IH]; intros [|x' l'] E; cbn in E; try discriminate; auto. injection E as X E. f_equal; auto.
Qed.
Lemma reference_inj : forall r r', reference_json r = reference_json r' -> r = r'.
Proof.
  intros [t o] [t' o'] E. unfold reference_json in E. cbn [ref_table ref_columns] in E. injection E as -> E. f_equal.
  destruct o, o'; try discriminate; auto. f_equal. now apply strings_inj.
Qed.
Lemma type_inj : forall t t', type_json t = type_json t' -> t = t'.
Proof. intros [n a b] [n' a' b'] E. unfold type_json in E. cbn [dt_name dt_n dt_m] in E. injection E as -> E1 E2. now rewrite (int_text_inj _ _ E1), (int_text_inj _ _ E2). Qed.
Lemma default_inj : forall v v' j, default_json v j -> default_json v' j -> v = v'.
Proof.
  intros v v' j D D'. destruct D as [|f s D|b|s]; inversion D' as [|f' s' D0| |]; subst; auto.
  destruct f, f'; try contradiction. destruct D as [_ D], D0 as [_ D0]. congruence.
Qed.
Lemma constraint_inj : forall c c' x x', constraint_json c x = constraint_json c' x' -> default_json (c_default c) x -> default_json (c_default c') x' -> c = c'.
Proof.
  intros [n p u b a v k l r] [n' p' u' b' a' v' k' l' r'] x x' E D D'. unfold constraint_json in E.
  cbn [c_name c_pk c_unique c_notnull c_auto c_default c_check c_collate c_references] in E, D, D'.
  pose proof (reference_inj r r') as H. remember (reference_json r) as y. remember (reference_json r') as y'.
  injection E as -> -> -> -> -> <- -> -> E. rewrite (default_inj _ _ _ D D'). f_equal. auto.
Qed.
Lemma column_inj : forall c c' j, column_json c j -> column_json c' j -> c = c'.
Proof.
  intros c c' j H H'. destruct H as [c x D]. remember (JObject _) as j eqn:E in H'. destruct H' as [c' x' D'].
  pose proof (type_inj (col_type c') (col_type c)) as T. pose proof (fun E => constraint_inj _ _ _ _ E D' D) as K.
  remember (type_json (col_type c)) as y. remember (type_json (col_type c')) as y'. remember (constraint_json (col_constraint c) x) as z. remember (constraint_json (col_constraint c') x') as z'.
  injection E as E1 E2 E3. specialize (T E2). specialize (K E3). destruct c, c'. cbn in *. congruence.
Qed.
Lemma constraints_inj : forall a b, constraints_json a = constraints_json b -> a = b.
Proof.
  intros [a1 a2 a3 a4] [b1 b2 b3 b4] E. unfold constraints_json in E. cbn [tc_pk tc_unique tc_check tc_fk] in E.
  assert (K : forall n n' cs cs', key_json n cs = key_json n' cs' -> n = n' /\ cs = cs').
  { intros n n' cs cs' X. unfold key_json in X. pose proof (strings_inj cs cs') as H. remember (strings cs) as y. remember (strings cs') as y'. injection X as -> X. auto. }
  assert (H1 : slice (fun k => key_json (pk_name k) (pk_columns k)) a1 = slice (fun k => key_json (pk_name k) (pk_columns k)) b1 -> a1 = b1).
  { apply slice_inj. intros [] [] X. apply K in X as [X1 X2]. cbn in *. congruence. }
  assert (H2 : slice (fun k => key_json (uq_name k) (uq_columns k)) a2 = slice (fun k => key_json (uq_name k) (uq_columns k)) b2 -> a2 = b2).
  { apply slice_inj. intros [] [] X. apply K in X as [X1 X2]. cbn in *. congruence. }
  assert (H3 : slice check_json a3 = slice check_json b3 -> a3 = b3).
  { apply slice_inj. intros [] [] X. unfold check_json in X. cbn in X. congruence. }
  assert (H4 : slice foreign_json a4 = slice foreign_json b4 -> a4 = b4).
  { apply slice_inj. intros [n l r] [n' l' r'] X. unfold foreign_json in X. cbn [fk_name fk_columns fk_references] in X.
    pose proof (strings_inj l l') as H. pose proof (reference_inj r r') as H'. remember (strings l) as y. remember (strings l') as y'.
    remember (reference_json r) as z. remember (reference_json r') as z'. injection X as -> X1 X2. f_equal; auto. }
  repeat match type of E with context [slice ?f ?l] => let y := fresh "y" in remember (slice f l) as y end.
  injection E as E1 E2 E3 E4. f_equal; auto.
Qed.
Lemma all_inj : forall A (R : A -> json -> Prop), (forall a a' j, R a j -> R a' j -> a = a') -> forall l l' js, Forall2 R l js -> Forall2 R l' js -> l = l'.
Proof. intros A R H l l' js F. revert l'. induction F as [|a j l1 js R1 F IH]; intros l2 F'; inversion F'; subst; auto. f_equal; eauto. Qed.
Lemma table_inj : forall t t' j, table_json t j -> table_json t' j -> t = t'.
Proof.
  intros t t' j H H'. destruct H as [t cs F]. remember (JObject _) as j eqn:E in H'. destruct H' as [t' cs' F'].
  pose proof (constraints_inj (t_constraints t') (t_constraints t)) as K. remember (constraints_json (t_constraints t)) as y. remember (constraints_json (t_constraints t')) as y'.
  assert (C : slice (fun c : json => c) cs' = slice (fun c => c) cs -> cs' = cs) by (apply slice_inj; auto).
  remember (slice (fun c : json => c) cs) as z. remember (slice (fun c : json => c) cs') as z'.
  injection E as E1 E2 E3 E4 E5. specialize (C E4). subst cs'. pose proof (all_inj _ _ column_inj _ _ _ F F') as L. specialize (K E5).
  destruct t, t'. cbn in *. congruence.
Qed.
Theorem marshal_inj : forall ts ts' s, Forall valid_table ts -> Forall valid_table ts' -> marshals ts s -> marshals ts' s -> ts = ts'.
Proof.
  intros ts ts' s V V' (js & F & ->) (js' & F' & E).
  assert (G : forall ts js, Forall valid_table ts -> Forall2 table_json ts js -> Forall good js).
  { clear. intros ts js V F. induction F; inversion V; subst; constructor; auto. eapply good_table; eauto. }
  assert (J : JArray js = JArray js' /\ "" = "").
  { apply write_inj; [| |exact I|exact I|exact (f_equal (fun s => s ++ "")%string E)]; apply good_array; eauto. }
  destruct J as [J _]. injection J as <-. eapply all_inj; eauto. apply table_inj.
Qed.
