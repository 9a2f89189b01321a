(** strconv.ParseFloat reads exactly the numbers of GoFloats.v. *)
From Coq Require Import String Ascii NArith ZArith QArith Qabs Qpower List Bool Lia.
From Verif Require Import GoStr GoNum Numbers NumbersFacts Floats FloatsFacts GoFloats Utf8.
Import ListNotations.
Open Scope nat_scope.
Open Scope string_scope.

(** ** Digits *)

Definition dig (b16 : bool) (c : ascii) : bool := is_digit c || (b16 && is_hex_letter c).
Definition dval (c : ascii) : N := if is_digit c then digit_val c else (N_of_ascii (lower_char c) - 97 + 10)%N.
Definition table (b16 : bool) : list (ascii * N) := if b16 then hex_table else digit_table.
Definition base (b16 : bool) : N := if b16 then 16%N else 10%N.
Lemma table_has : forall b16 c, dig b16 c = true -> In (c, dval c) (table b16).
Proof. intros [] [[] [] [] [] [] [] [] []] H; vm_compute in H; try discriminate H; vm_compute; auto 30. Qed.
Lemma table_only : forall b16 c k, In (c, k) (table b16) -> dig b16 c = true /\ k = dval c.
Proof. intros [] c k H; vm_compute in H; repeat (destruct H as [H|H]; [inversion H; subst; vm_compute; auto|]); contradiction. Qed.
Lemma dig_not : forall b16 c, dig b16 c = true -> Ascii.eqb c "_" = false /\ Ascii.eqb c "." = false.
Proof. intros [] [[] [] [] [] [] [] [] []] H; vm_compute in H |- *; intuition congruence. Qed.

Definition du (b16 : bool) (c : ascii) : bool := dig b16 c || Ascii.eqb c "_".
Fixpoint alls (p : ascii -> bool) (s : string) : bool := match s with "" => true | String c s => p c && alls p s end.
Definition begins (p : ascii -> bool) (s : string) : bool := match s with "" => false | String c _ => p c end.
Lemma span : forall p s, exists w rest, s = w ++ rest /\ alls p w = true /\ begins p rest = false.
Proof.
  intros p s. induction s as [|c s (w & rest & -> & A & B)]; [exists "", ""; auto|]. destruct (p c) eqn:P.
  - exists (String c w), rest. cbn. now rewrite P.
  - exists "", (String c (w ++ rest)). auto.
Qed.
Lemma alls_app : forall p s s', alls p (s ++ s') = alls p s && alls p s'.
Proof. intros p s s'. induction s as [|c s IH]; cbn; auto. now rewrite IH, andb_assoc. Qed.

(** what the loops compute from digits and underscores *)
Fixpoint val (b16 : bool) (m : N) (w : string) : N :=
  match w with "" => m | String c w => if Ascii.eqb c "_" then val b16 m w else val b16 (m * base b16 + dval c) w end.
Fixpoint cnt (w : string) : nat := match w with "" => 0 | String c w => if Ascii.eqb c "_" then cnt w else S (cnt w) end.
Definition hasd (w : string) : bool := negb (Nat.eqb (cnt w) 0).
Fixpoint hasu (w : string) : bool := match w with "" => false | String c w => Ascii.eqb c "_" || hasu w end.
Fixpoint satv (e : N) (w : string) : N :=
  match w with "" => e | String c w => if Ascii.eqb c "_" then satv e w else satv (if (e <? 10000)%N then e * 10 + digit_val c else e) w end.

Lemma mant_seg : forall b16 w rest dot saw m fr us len, alls (du b16) w = true ->
  mantissa_loop b16 dot saw m fr us len (w ++ rest) =
  mantissa_loop b16 dot (saw || hasd w) (val b16 m w) (fr + (if dot then N.of_nat (cnt w) else 0))%N (us || hasu w) (len + String.length w) rest.
Proof.
  intros b16 w rest. induction w as [|c w IH]; intros dot saw m fr us len A.
  - cbn. rewrite !orb_false_r, Nat.add_0_r. f_equal. destruct dot; lia.
  - cbn [alls] in A. apply andb_true_iff in A as [A A']. cbn [append mantissa_loop]. unfold du in A.
    destruct (Ascii.eqb c "_") eqn:U.
    + rewrite IH by auto. unfold hasd. cbn [val cnt hasu String.length]. rewrite U. cbn [orb]. rewrite orb_true_r. f_equal. lia.
    + rewrite orb_false_r in A. destruct (dig_not _ _ A) as [_ P]. rewrite P.
      assert (X : (if is_digit c then mantissa_loop b16 dot true (m * (if b16 then 16 else 10) + digit_val c) (if dot then fr + 1 else fr) us (S len) (w ++ rest)
        else if b16 && is_hex_letter c then mantissa_loop b16 dot true (m * 16 + (N_of_ascii (lower_char c) - 97 + 10)) (if dot then fr + 1 else fr) us (S len) (w ++ rest)
        else (saw, m, fr, us, len, String c (w ++ rest)))%N = mantissa_loop b16 dot true (m * base b16 + dval c) (if dot then fr + 1 else fr)%N us (S len) (w ++ rest)).
      { unfold dig in A. unfold dval, base. destruct (is_digit c); [reflexivity|]. cbn [orb] in A. rewrite A. now destruct b16. }
      rewrite X, IH by auto. unfold hasd. cbn [val cnt hasu String.length]. rewrite U. cbn [orb]. rewrite orb_true_r. f_equal; [destruct dot; lia|lia].
Qed.
Lemma exp_seg : forall w rest e us len, alls (du false) w = true ->
  exponent_loop e us len (w ++ rest) = exponent_loop (satv e w) (us || hasu w) (len + String.length w) rest.
Proof.
  intros w rest. induction w as [|c w IH]; intros e us len A.
  - cbn. now rewrite orb_false_r, Nat.add_0_r.
  - cbn [alls] in A. apply andb_true_iff in A as [A A']. cbn [append exponent_loop satv hasu String.length]. unfold du in A.
    destruct (Ascii.eqb c "_") eqn:U.
    + rewrite IH by auto. cbn [orb]. rewrite orb_true_r. f_equal. lia.
    + rewrite orb_false_r in A. unfold dig in A. rewrite orb_false_r in A. rewrite A, IH by auto. cbn [orb]. f_equal. lia.
Qed.

(** ** Underscores *)

Definition G (b16 : bool) (w : string) : Prop := exists ds, grouped (table b16) w ds.
Lemma G_cons : forall b16 c w, dig b16 c = true -> (G b16 (String c w) <-> w = "" \/ G b16 w \/ exists w', w = String "_" w' /\ G b16 w').
Proof.
  intros b16 c w D. split.
  - intros [ds H]. inversion H; subst; [now left|right; left; eexists; eauto|right; right; eexists; split; [reflexivity|eexists; eauto]].
  - apply table_has in D. intros [->|[[ds H]|(w' & -> & [ds H])]]; eexists; [eapply group_last|eapply group_next|eapply group_under]; eauto.
Qed.
Lemma G_not : forall b16 w, G b16 (String "_" w) -> False.
Proof. intros b16 w [ds H]. inversion H as [c k I|c k s ds' I _|c k s ds' I _]; subst; apply table_only in I as [I _]; destruct b16; discriminate I. Qed.
Lemma G_nil : forall b16, G b16 "" -> False.
Proof. intros b16 [ds H]. inversion H. Qed.
Definition after (hex : bool) (rest : string) : bool := match rest with "" => true | String _ r => underscore_loop hex SawOther r end.
Definition P (b16 : bool) (saw : saw_kind) (w : string) : Prop :=
  match saw with
  | SawStart | SawOther => w = "" \/ G b16 w
  | SawDigit => w = "" \/ G b16 w \/ exists w', w = String "_" w' /\ G b16 w'
  | SawUnderscore => G b16 w
  end.
Lemma under_seg : forall hex w rest saw, alls (du hex) w = true -> begins (du hex) rest = false ->
  (underscore_loop hex saw (w ++ rest) = true <-> P hex saw w /\ after hex rest = true).
Proof.
  intros hex w rest. induction w as [|c w IH]; intros saw A B.
  - cbn [append]. assert (E : underscore_loop hex saw rest = match saw with SawUnderscore => false | _ => after hex rest end).
    { destruct rest as [|c r]; [now destruct saw|]. cbn [begins] in B. unfold du, dig in B. apply orb_false_iff in B as [B B']. cbn [underscore_loop].
      rewrite B, B'. now destruct saw. }
    rewrite E. destruct saw; cbn [P]; try tauto. split; [discriminate|]. intros [X _]. now apply G_nil in X.
  - cbn [alls] in A. apply andb_true_iff in A as [A A']. cbn [append underscore_loop]. unfold du in A.
    destruct (Ascii.eqb c "_") eqn:U.
    + apply Ascii.eqb_eq in U. subst c. replace (is_digit "_" || (hex && is_hex_letter "_")) with false by now destruct hex.
      specialize (IH SawUnderscore A' B). cbn [P] in IH. destruct saw; cbn [P].
      * split; [discriminate|]. intros [[X|X] _]; [discriminate|now apply G_not in X].
      * rewrite IH. split; [intros [X Y]; split; [right; right; eauto|exact Y]|]. intros [[X|[X|(w' & X & Y)]] Z]; [discriminate|now apply G_not in X|]. inversion X; subst. auto.
      * split; [discriminate|]. intros [X _]. now apply G_not in X.
      * split; [discriminate|]. intros [[X|X] _]; [discriminate|now apply G_not in X].
    + rewrite orb_false_r in A. unfold dig in A. rewrite A. rewrite (IH SawDigit) by auto. cbn [P].
      assert (X : P hex saw (String c w) <-> G hex (String c w)).
      { destruct saw; cbn [P]; try tauto; [intuition discriminate| |intuition discriminate]. split; [|tauto].
        intros [X|[X|(w' & X & _)]]; [discriminate|auto|]. inversion X; subst. discriminate U. }
      rewrite X. rewrite G_cons by exact A. tauto.
Qed.
Lemma no_under : forall b16 w, alls (du b16) w = true -> hasu w = false -> w = "" \/ G b16 w.
Proof.
  intros b16 w. induction w as [|c w IH]; intros A U; [now left|]. right. cbn in A, U. apply andb_true_iff in A as [A A'].
  apply orb_false_iff in U as [U U']. unfold du in A. rewrite U, orb_false_r in A. apply G_cons; auto. destruct (IH A' U') as [->|X]; auto.
Qed.

(** digits and their value *)
Lemma grouped_val : forall b16 w ds, grouped (table b16) w ds -> forall m, val b16 m w = val b16 m ds /\ cnt w = String.length ds /\ alls (dig b16) ds = true /\ ds <> "" /\ alls (du b16) w = true.
Proof.
  intros b16 w ds H. induction H as [c k I|c k s ds I H IH|c k s ds I H IH]; intros m; apply table_only in I as [D _];
    destruct (dig_not _ _ D) as [U _]; cbn [val cnt alls String.length]; unfold du; rewrite U, D; cbn [orb andb].
  - repeat split; auto. discriminate.
  - destruct (IH (m * base b16 + dval c)%N) as (-> & -> & -> & _ & E). repeat split; auto. discriminate.
  - destruct (IH (m * base b16 + dval c)%N) as (E1 & -> & -> & _ & E). repeat split; auto; [discriminate|].
    replace (Ascii.eqb "_" "_") with true by reflexivity. now rewrite orb_true_r.
Qed.
Inductive positional (b16 : bool) : string -> N -> Prop :=
| pos_one c k : In (c, k) (table b16) -> positional b16 (String c "") k
| pos_more s n c k : positional b16 s n -> In (c, k) (table b16) -> positional b16 (s ++ String c "") (base b16 * n + k).
Lemma val_app : forall b16 s s' m, val b16 m (s ++ s') = val b16 (val b16 m s) s'.
Proof. intros b16 s s'. induction s as [|c s IH]; intros m; cbn; auto. destruct (Ascii.eqb c "_"); auto. Qed.
Lemma positional_val : forall b16 s n, positional b16 s n <-> s <> "" /\ alls (dig b16) s = true /\ n = val b16 0 s.
Proof.
  intros b16 s n. split.
  - intros H. induction H as [c k I|s n c k H (N & A & V) I]; apply table_only in I as [D ->]; destruct (dig_not _ _ D) as [U _].
    + cbn. rewrite D, U. repeat split; auto. discriminate.
    + rewrite alls_app, val_app, A, <- V. cbn. rewrite D, U. repeat split; [destruct s; discriminate|lia].
  - intros (N & A & ->). destruct s as [|c s]; [congruence|]. clear N. cbn in A. apply andb_true_iff in A as [D A].
    assert (X : forall s p n, positional b16 p n -> alls (dig b16) s = true -> positional b16 (p ++ s) (val b16 n s)).
    { clear. induction s as [|c s IH]; intros p n H A; [cbn; now rewrite append_nil_r|]. cbn in A. apply andb_true_iff in A as [D A].
      destruct (dig_not _ _ D) as [U _]. rewrite app_snoc. cbn [val]. rewrite U. apply IH; auto. rewrite N.mul_comm. constructor; auto. now apply table_has. }
    destruct (dig_not _ _ D) as [U _]. cbn [val]. rewrite U. replace (0 * base b16 + dval c)%N with (dval c) by lia.
    apply (X s (String c "")); auto. constructor. now apply table_has.
Qed.
Lemma decimal_pos : forall s n, decimal s n <-> positional false s n.
Proof. intros s n. split; intros H; induction H; constructor; auto. Qed.
Lemma hexadecimal_pos : forall s n, hexadecimal s n <-> positional true s n.
Proof. intros s n. split; intros H; induction H; constructor; auto. Qed.
Lemma G_val : forall b16 w, G b16 w -> exists ds, grouped (table b16) w ds /\ positional b16 ds (val b16 0 w) /\ cnt w = String.length ds /\ cnt w <> 0.
Proof.
  intros b16 w [ds H]. exists ds. destruct (grouped_val _ _ _ H 0%N) as (A & B & C & D & _). repeat split; auto.
  - apply positional_val. auto.
  - rewrite B. destruct ds; [congruence|discriminate].
Qed.
Lemma satv_val : forall w e, alls (du false) w = true -> satv e w = val false e w \/ (100000 <= val false e w)%N /\ (10000 <= satv e w)%N.
Proof.
  assert (L : forall w e, (e <= val false e w)%N).
  { induction w as [|c w IH]; intros e; cbn [val]; [lia|]. destruct (Ascii.eqb c "_"); auto. specialize (IH (e * base false + dval c)%N). cbn [base] in *. lia. }
  assert (M : forall w e, (10000 <= e)%N -> satv e w = e).
  { induction w as [|c w IH]; intros e H; cbn [satv]; auto. destruct (Ascii.eqb c "_"); auto. rewrite (proj2 (N.ltb_ge _ _)) by auto. auto. }
  induction w as [|c w IH]; intros e A; cbn [val satv]; [now left|]. cbn [alls] in A. apply andb_true_iff in A as [A A']. unfold du in A.
  destruct (Ascii.eqb c "_") eqn:U; auto. rewrite orb_false_r in A. unfold dig in A. rewrite orb_false_r in A.
  unfold dval. rewrite A. cbn [base]. destruct (N.ltb_spec e 10000) as [Q|Q]; auto. right. rewrite M by auto.
  pose proof (L w (e * 10 + digit_val c)%N) as Z. split; lia.
Qed.

(** ** The parts of ParseFloat *)

Definition split_sign (s : string) : bool * nat * string :=
  match s with String "-" s' => (true, 1, s') | String "+" s' => (false, 1, s') | _ => (false, 0, s) end.
Definition split_esign (s : string) : bool * nat * string :=
  match s with String "+" s' => (false, 1, s') | String "-" s' => (true, 1, s') | _ => (false, 0, s) end.
Definition split_prefix (s1 : string) : bool * nat * string :=
  match s1 with
  | String "0" (String c (String d s')) => if Ascii.eqb (lower_char c) "x" then (true, 2, String d s') else (false, 0, s1)
  | _ => (false, 0, s1)
  end.
Definition finish (neg b16 : bool) (m frac : N) (s : string) (e : Z) (us : bool) (len : nat) (rest : string) : option float64 :=
  if us && negb (underscore_ok (substring 0 len s)) then None
  else match rest with EmptyString => float_value neg b16 m frac e | _ => None end.
Definition tail (neg b16 : bool) (s : string) (r : bool * N * N * bool * nat * string) : option float64 :=
  let '(sawdigits, m, frac, us, len, s3) := r in
  if negb sawdigits then None
  else match s3 with
    | String c s4 =>
      if Ascii.eqb (lower_char c) (if b16 then "p" else "e") then
        let '(eneg, elen, s5) := split_esign s4 in
        match s5 with
        | String d _ =>
          if is_digit d then
            let '(e, us, len, s6) := exponent_loop 0 us (len + 1 + elen) s5 in
            finish neg b16 m frac s (if eneg then - Z.of_N e else Z.of_N e)%Z us len s6
          else None
        | EmptyString => None
        end
      else if b16 then None else finish neg b16 m frac s 0%Z us len s3
    | EmptyString => if b16 then None else finish neg b16 m frac s 0%Z us len s3
    end.
Lemma parse_eq : forall s, parse_float s =
  match special_float s with
  | Some f => Some f
  | None => let '(neg, sl, s1) := split_sign s in let '(b16, pl, s2) := split_prefix s1 in
            tail neg b16 s (mantissa_loop b16 false false 0 0 false (sl + pl) s2)
  end.
Proof. reflexivity. Qed.

Lemma sign_inv : forall s neg sl s1, split_sign s = (neg, sl, s1) -> exists sg, s = sg ++ s1 /\ sign sg neg /\ sl = String.length sg.
Proof.
  intros s neg sl s1 H. unfold split_sign in H. destruct s as [|c s]; [inversion H; subst; exists ""; repeat split; constructor|].
  destruct (ascii_dec c "-") as [->|N1]; [inversion H; subst; exists "-"; repeat split; constructor|].
  destruct (ascii_dec c "+") as [->|N2]; [inversion H; subst; exists "+"; repeat split; constructor|].
  exists "". assert (E : (false, 0, String c s) = (neg, sl, s1)) by (rewrite <- H; destruct c as [[] [] [] [] [] [] [] []]; congruence).
  inversion E; subst. repeat split; constructor.
Qed.
Definition is_sign (c : ascii) : bool := Ascii.eqb c "+" || Ascii.eqb c "-".
Lemma sign_fwd : forall sg neg s, sign sg neg -> begins is_sign s = false -> split_sign (sg ++ s) = (neg, String.length sg, s).
Proof.
  intros sg neg s G B. inversion G; subst; try reflexivity. cbn [append]. destruct s as [|c s]; [reflexivity|].
  cbn in B. destruct c as [[] [] [] [] [] [] [] []]; try reflexivity; discriminate B.
Qed.
Lemma esign_swap : forall s, split_esign s = split_sign s.
Proof. intros [|[[] [] [] [] [] [] [] []] s]; reflexivity. Qed.
Lemma prefix_inv : forall s1 b16 pl s2, split_prefix s1 = (b16, pl, s2) ->
  exists p, s1 = p ++ s2 /\ (b16 = false /\ p = "" \/ b16 = true /\ (p = "0x" \/ p = "0X")) /\ pl = String.length p.
Proof.
  assert (D : forall s1, (exists c d s', s1 = String "0" (String c (String d s')) /\ Ascii.eqb (lower_char c) "x" = true /\ split_prefix s1 = (true, 2, String d s')) \/
    split_prefix s1 = (false, 0, s1)).
  { intros [|a s]; [now right|]. destruct (ascii_dec a "0") as [->|N].
    - destruct s as [|c [|d s]]; [now right..|]. cbn. destruct (Ascii.eqb (lower_char c) "x") eqn:E; [left; eauto 6|now right].
    - right. destruct a as [[] [] [] [] [] [] [] []]; try reflexivity. congruence. }
  intros s1 b16 pl s2 H. destruct (D s1) as [(c & d & s' & -> & E & X)|X]; rewrite X in H; inversion H; subst.
  - exists (String "0" (String c "")). split; [reflexivity|]. split; [|reflexivity]. right. split; auto.
    destruct c as [[] [] [] [] [] [] [] []]; try discriminate E; auto.
  - exists "". auto.
Qed.
Definition is_x (c : ascii) : bool := Ascii.eqb (lower_char c) "x".
Lemma prefix_fwd : forall b16 p s2, b16 = false /\ p = "" /\ alls (fun c => negb (is_x c)) s2 = true \/ b16 = true /\ (p = "0x" \/ p = "0X") /\ s2 <> "" ->
  split_prefix (p ++ s2) = (b16, String.length p, s2).
Proof.
  intros b16 p s2 [(-> & -> & A)|(-> & [->| ->] & N)]; [|destruct s2; [congruence|reflexivity]..].
  cbn [append String.length]. destruct s2 as [|a s]; [reflexivity|]. destruct (ascii_dec a "0") as [->|N].
  - destruct s as [|c [|d s]]; [reflexivity..|]. cbn [alls] in A. apply andb_true_iff in A as [_ A]. apply andb_true_iff in A as [A _].
    unfold is_x in A. cbn [split_prefix]. now destruct (Ascii.eqb (lower_char c) "x").
  - destruct a as [[] [] [] [] [] [] [] []]; try reflexivity. congruence.
Qed.

Lemma mant_stop : forall b16 dot saw m fr us len rest, begins (du b16) rest = false -> dot = true \/ begins (Ascii.eqb ".") rest = false ->
  mantissa_loop b16 dot saw m fr us len rest = (saw, m, fr, us, len, rest).
Proof.
  intros b16 dot saw m fr us len [|c r] B D; [reflexivity|]. cbn [begins] in *. unfold du, dig in B. cbn [mantissa_loop].
  apply orb_false_iff in B as [B U]. apply orb_false_iff in B as [B H]. rewrite U, B, H. rewrite Ascii.eqb_sym in D.
  destruct (Ascii.eqb c "."); auto. destruct D as [->|D]; [reflexivity|discriminate].
Qed.
Definition mant (b16 : bool) (w1 dot w2 s3 : string) : Prop :=
  alls (du b16) w1 = true /\ alls (du b16) w2 = true /\ begins (du b16) s3 = false /\
  (dot = "" /\ w2 = "" /\ begins (Ascii.eqb ".") s3 = false \/ dot = ".").
Lemma mant_exists : forall b16 s, exists w1 dot w2 s3, s = w1 ++ dot ++ w2 ++ s3 /\ mant b16 w1 dot w2 s3.
Proof.
  intros b16 s. destruct (span (du b16) s) as (w1 & rest & -> & A & B). destruct (begins (Ascii.eqb ".") rest) eqn:D.
  - destruct rest as [|c r]; [discriminate|]. cbn [begins] in D. apply Ascii.eqb_eq in D. subst c.
    destruct (span (du b16) r) as (w2 & s3 & -> & A' & B'). exists w1, ".", w2, s3. unfold mant. auto 10.
  - exists w1, "", "", rest. unfold mant. auto 10.
Qed.
Lemma du_point : forall b16, du b16 "." = false.
Proof. now intros []. Qed.
Lemma length_app : forall a b : string, String.length (a ++ b) = String.length a + String.length b.
Proof. induction a as [|c a IH]; intros b; cbn; auto. Qed.
Lemma mant_eval : forall b16 w1 dot w2 s3 len, mant b16 w1 dot w2 s3 ->
  mantissa_loop b16 false false 0 0 false len (w1 ++ dot ++ w2 ++ s3) =
  (hasd w1 || hasd w2, val b16 0 (w1 ++ w2), N.of_nat (cnt w2), hasu w1 || hasu w2, len + String.length (w1 ++ dot ++ w2), s3).
Proof.
  intros b16 w1 dot w2 s3 len (A1 & A2 & B & [(-> & -> & D)| ->]).
  - cbn [append]. rewrite mant_seg by auto. rewrite mant_stop by auto. cbn. now rewrite !orb_false_r, !append_nil_r.
  - cbn [append]. rewrite mant_seg by auto. cbn [mantissa_loop]. replace (Ascii.eqb "." "_") with false by reflexivity.
    replace (Ascii.eqb "." ".") with true by reflexivity. rewrite mant_seg by auto. rewrite mant_stop by auto. rewrite val_app, !length_app. cbn [orb String.length].
    rewrite !N.add_0_l. f_equal. f_equal. lia.
Qed.

Definition exp_part (b16 : bool) (s3 w3 : string) (e : Z) : Prop :=
  b16 = false /\ s3 = "" /\ w3 = "" /\ e = 0%Z \/
  exists c esg eneg, s3 = String c (esg ++ w3) /\ lower_char c = (if b16 then "p"%char else "e"%char) /\ sign esg eneg /\
    begins is_digit w3 = true /\ alls (du false) w3 = true /\ e = if eneg then (- Z.of_N (satv 0 w3))%Z else Z.of_N (satv 0 w3).
Lemma substring_all : forall s, substring 0 (String.length s) s = s.
Proof. induction s as [|c s IH]; cbn; auto. now rewrite IH. Qed.
Lemma tail_some : forall neg b16 pre m fr us s3 w3 e, exp_part b16 s3 w3 e ->
  tail neg b16 (pre ++ s3) (true, m, fr, us, String.length pre, s3) =
  if (us || hasu w3) && negb (underscore_ok (pre ++ s3)) then None else float_value neg b16 m fr e.
Proof.
  intros neg b16 pre m fr us s3 w3 e [(-> & -> & -> & ->)|(c & esg & eneg & -> & C & G & B & A & ->)].
  - cbn [tail negb hasu]. unfold finish. now rewrite append_nil_r, substring_all, orb_false_r.
  - cbn [tail negb]. rewrite C, Ascii.eqb_refl, esign_swap. rewrite (sign_fwd esg eneg) by (auto; destruct w3 as [|[[] [] [] [] [] [] [] []] w3]; (discriminate B || reflexivity)).
    destruct w3 as [|d w3]; [discriminate|]. cbn [begins] in B. rewrite B. rewrite <- (append_nil_r (String d w3)) at 1. rewrite exp_seg by auto.
    cbn [exponent_loop]. unfold finish.
    replace (String.length pre + 1 + String.length esg + String.length (String d w3)) with (String.length (pre ++ String c (esg ++ String d w3)))
      by (rewrite length_app; cbn [String.length]; rewrite length_app; cbn [String.length]; lia).
    now rewrite substring_all.
Qed.
Lemma tail_inv : forall neg b16 s sd m fr us len s3 f, tail neg b16 s (sd, m, fr, us, len, s3) = Some f -> sd = true /\ exists w3 e, exp_part b16 s3 w3 e.
Proof.
  intros neg b16 s sd m fr us len s3 f H. cbn [tail] in H. destruct sd; [|discriminate]. cbn [negb] in H. split; auto.
  assert (F0 : forall e us len rest, finish neg b16 m fr s e us len rest = Some f -> rest = "").
  { intros e u l rest. unfold finish. destruct (u && _); [discriminate|]. now destruct rest. }
  destruct s3 as [|c s4].
  - destruct b16; [discriminate|]. exists "", 0%Z. left. auto.
  - destruct (Ascii.eqb (lower_char c) (if b16 then "p" else "e")) eqn:C.
    + apply Ascii.eqb_eq in C. rewrite esign_swap in H. destruct (split_sign s4) as [[eneg elen] s5] eqn:E. apply sign_inv in E as (esg & -> & G & ->).
      destruct s5 as [|d s5]; [discriminate|]. destruct (is_digit d) eqn:D; [|discriminate].
      destruct (span (du false) (String d s5)) as (w3 & rest & X & A & B). rewrite X in H |- *. rewrite exp_seg in H by auto.
      assert (R : forall e u l, exponent_loop e u l rest = (e, u, l, rest)).
      { intros e u l. destruct rest as [|r rest]; [reflexivity|]. cbn [begins] in B. unfold du, dig in B. rewrite orb_false_r in B.
        apply orb_false_iff in B as [B U]. cbn. now rewrite U, B. }
      rewrite R in H. apply F0 in H. subst rest. rewrite append_nil_r in *.
      exists w3. eexists. right. exists c, esg, eneg. split; [reflexivity|]. split; [exact C|]. split; [exact G|]. split; [now rewrite <- X|]. split; [exact A|reflexivity].
    + destruct b16; [discriminate|]. apply F0 in H. discriminate.
Qed.

(** ** The whole number *)

Definition shape (s sg : string) (neg b16 : bool) (p w1 dot w2 s3 w3 : string) (e : Z) : Prop :=
  s = sg ++ p ++ w1 ++ dot ++ w2 ++ s3 /\ sign sg neg /\ (b16 = false /\ p = "" \/ b16 = true /\ (p = "0x" \/ p = "0X")) /\
  mant b16 w1 dot w2 s3 /\ exp_part b16 s3 w3 e /\ hasd w1 || hasd w2 = true.

Definition plainc (c : ascii) : bool := du false c || Ascii.eqb c "." || Ascii.eqb (lower_char c) "e" || is_sign c.
Lemma plainc_chars : forall c, plainc c = true ->
  Ascii.eqb (lower_char c) "b" || Ascii.eqb (lower_char c) "o" || Ascii.eqb (lower_char c) "x" = false.
Proof. intros [[] [] [] [] [] [] [] []] H; vm_compute in H |- *; congruence. Qed.
Lemma alls_imp : forall (p q : ascii -> bool) s, (forall c, p c = true -> q c = true) -> alls p s = true -> alls q s = true.
Proof. intros p q s I. induction s as [|c s IH]; cbn; auto. rewrite !andb_true_iff. intuition auto. Qed.
Lemma du_plain : forall c, du false c = true -> plainc c = true.
Proof. intros c H. unfold plainc. now rewrite H. Qed.
Lemma sign_plain : forall sg neg, sign sg neg -> alls plainc sg = true.
Proof. intros sg neg H. now inversion H. Qed.
Lemma shape_plain : forall w1 dot w2 s3 w3 e, mant false w1 dot w2 s3 -> exp_part false s3 w3 e -> alls plainc (w1 ++ dot ++ w2 ++ s3) = true.
Proof.
  intros w1 dot w2 s3 w3 e (A1 & A2 & _ & D) E. rewrite !alls_app, (alls_imp _ plainc w1 du_plain A1), (alls_imp _ plainc w2 du_plain A2).
  replace (alls plainc dot) with true by (destruct D as [(-> & _)| ->]; reflexivity).
  destruct E as [(_ & -> & _)|(c & esg & eneg & -> & C & G & _ & A & _)]; [reflexivity|]. cbn [alls]. rewrite alls_app.
  rewrite (sign_plain _ _ G), (alls_imp _ plainc w3 du_plain A). unfold plainc. rewrite C. cbn. now rewrite orb_true_r.
Qed.

(** the text after the prefix begins with a digit, an underscore or a point *)
Definition starts (c : ascii) : bool := du true c || Ascii.eqb c ".".
Lemma starts_sign : forall c, starts c = true -> is_sign c = false.
Proof. intros [[] [] [] [] [] [] [] []] H; vm_compute in H |- *; congruence. Qed.
Lemma du_starts : forall b16 c, du b16 c = true -> starts c = true.
Proof. intros b16 c H. unfold starts. apply orb_true_iff. left. revert H. unfold du, dig. destruct (is_digit c), b16, (is_hex_letter c), (Ascii.eqb c "_"); auto. Qed.
Lemma body_starts : forall b16 w1 dot w2 s3, mant b16 w1 dot w2 s3 -> hasd w1 || hasd w2 = true -> begins starts (w1 ++ dot ++ w2 ++ s3) = true.
Proof.
  intros b16 w1 dot w2 s3 (A1 & A2 & _ & D) H. destruct w1 as [|c w1].
  - destruct D as [(-> & -> & _)| ->]; [discriminate|reflexivity].
  - cbn [append begins]. cbn [alls] in A1. apply andb_true_iff in A1 as [A1 _]. now apply du_starts in A1.
Qed.
Lemma begins_sign : forall s, begins starts s = true -> begins is_sign s = false.
Proof. intros [|c s] H; [reflexivity|]. cbn [begins] in *. now apply starts_sign. Qed.
Lemma shape_starts : forall b16 p s, (b16 = false /\ p = "" \/ b16 = true /\ (p = "0x" \/ p = "0X")) -> begins starts s = true -> begins starts (p ++ s) = true.
Proof. intros b16 p s [[_ ->]|[_ [->| ->]]] H; auto. Qed.

(** underscores *)
Definition under1 (s : string) : bool :=
  match s with
  | String "0" (String c s') =>
    if Ascii.eqb (lower_char c) "b" || Ascii.eqb (lower_char c) "o" || Ascii.eqb (lower_char c) "x"
    then underscore_loop (Ascii.eqb (lower_char c) "x") SawDigit s' else underscore_loop false SawStart s
  | _ => underscore_loop false SawStart s
  end.
Lemma under_sign : forall sg neg s, sign sg neg -> begins is_sign s = false -> underscore_ok (sg ++ s) = under1 s.
Proof.
  intros sg neg s G B. inversion G; subst; try reflexivity. cbn [append]. destruct s as [|c s]; [reflexivity|].
  cbn in B. destruct c as [[] [] [] [] [] [] [] []]; try reflexivity; discriminate B.
Qed.
Lemma under_prefix : forall b16 p s, b16 = false /\ p = "" /\ alls plainc s = true \/ b16 = true /\ (p = "0x" \/ p = "0X") ->
  under1 (p ++ s) = underscore_loop b16 (if b16 then SawDigit else SawStart) s.
Proof.
  intros b16 p s [(-> & -> & A)|(-> & [->| ->])]; [|reflexivity..]. cbn [append]. destruct s as [|a s]; [reflexivity|].
  destruct (ascii_dec a "0") as [->|N].
  - destruct s as [|c s]; [reflexivity|]. cbn [alls] in A. apply andb_true_iff in A as [_ A]. apply andb_true_iff in A as [A _].
    unfold under1. now rewrite (plainc_chars _ A).
  - destruct a as [[] [] [] [] [] [] [] []]; try reflexivity. congruence.
Qed.
Lemma G_digits : forall w, G true w -> alls (du false) w = true -> G false w.
Proof.
  intros w [ds H]. induction H as [c k I|c k s ds I H IH|c k s ds I H IH]; intros A; cbn [alls] in A; apply andb_true_iff in A as [A A'];
    apply table_only in I as [D _]; destruct (dig_not _ _ D) as [U _]; unfold du in A; rewrite U, orb_false_r in A; apply G_cons; auto.
  right. right. exists s. split; [reflexivity|]. apply IH. cbn [alls] in A'. now apply andb_true_iff in A' as [_ A'].

Qed.
Lemma G_more : forall w, G false w -> G true w.
Proof.
  assert (T : forall c k, In (c, k) digit_table -> In (c, k) hex_table) by (intros; apply in_or_app; now left).
  intros w [ds H]. exists ds. cbn [table] in *. induction H as [c k I|c k s ds I H IH|c k s ds I H IH]; [eapply group_last|eapply group_next|eapply group_under]; eauto.
Qed.
Lemma du_more : forall b16 c, du false c = true -> du b16 c = true.
Proof. intros b16 c. unfold du, dig. destruct (is_digit c), (Ascii.eqb c "_"), b16, (is_hex_letter c); cbn; auto. Qed.
Lemma after_exp : forall b16 s3 w3 e, exp_part b16 s3 w3 e -> (after b16 s3 = true <-> w3 = "" \/ G false w3).
Proof.
  intros b16 s3 w3 e [(-> & -> & -> & _)|(c & esg & eneg & -> & C & Sg & B & A & _)]; [cbn; tauto|]. cbn [after].
  assert (E : underscore_loop b16 SawOther (esg ++ w3) = underscore_loop b16 SawOther w3) by (inversion Sg; subst; destruct b16; reflexivity).
  rewrite E. rewrite <- (append_nil_r w3) at 1. rewrite under_seg; [|eapply alls_imp; [apply du_more|exact A]|reflexivity]. cbn [P after].
  assert (X : G b16 w3 <-> G false w3) by (destruct b16; [split; [intros; now apply G_digits|apply G_more]|tauto]). tauto.
Qed.
Lemma exp_begins : forall b16 s3 w3 e, exp_part b16 s3 w3 e -> begins (du b16) s3 = false.
Proof.
  intros b16 s3 w3 e [(-> & -> & -> & _)|(c & esg & eneg & -> & C & _)]; [reflexivity|]. cbn [begins].
  destruct b16; destruct c as [[] [] [] [] [] [] [] []]; vm_compute in C |- *; congruence.
Qed.
Definition start_of (b16 : bool) : saw_kind := if b16 then SawDigit else SawStart.
Definition fine (b16 : bool) (w1 w2 w3 : string) : Prop := P b16 (start_of b16) w1 /\ (w2 = "" \/ G b16 w2) /\ (w3 = "" \/ G false w3).
Lemma under_spec : forall s sg neg b16 p w1 dot w2 s3 w3 e, shape s sg neg b16 p w1 dot w2 s3 w3 e -> (underscore_ok s = true <-> fine b16 w1 w2 w3).
Proof.
  intros s sg neg b16 p w1 dot w2 s3 w3 e (-> & Sg & Pr & M & E & H). pose proof (body_starts _ _ _ _ _ M H) as B.
  rewrite (under_sign sg neg) by (auto; apply begins_sign; eapply shape_starts; eauto).
  rewrite (under_prefix b16); [|destruct Pr as [[-> ->]|[-> Pr]]; [left; split; auto; split; auto; eapply shape_plain; eauto|right; auto]].
  unfold fine. rewrite <- (after_exp b16 s3 w3 e E). destruct M as (A1 & A2 & B3 & [(-> & -> & D)| ->]); cbn [append].
  - rewrite under_seg by auto. fold (start_of b16). tauto.
  - rewrite under_seg by (auto; apply du_point). fold (start_of b16). cbn [after]. rewrite under_seg by auto. cbn [P]. tauto.
Qed.
Lemma fine_plain : forall s sg neg b16 p w1 dot w2 s3 w3 e, shape s sg neg b16 p w1 dot w2 s3 w3 e ->
  hasu w1 || hasu w2 || hasu w3 = false -> fine b16 w1 w2 w3.
Proof.
  intros s sg neg b16 p w1 dot w2 s3 w3 e (_ & _ & _ & (A1 & A2 & _) & E & _) U. apply orb_false_iff in U as [U U3]. apply orb_false_iff in U as [U1 U2].
  split; [|split; [now apply no_under|]].
  - pose proof (no_under b16 w1 A1 U1). destruct b16; cbn; tauto.
  - destruct E as [(_ & _ & -> & _)|(c & esg & eneg & _ & _ & _ & _ & A & _)]; [now left|now apply no_under].
Qed.

Lemma special_starts : forall sg neg s, sign sg neg -> begins (fun c => is_digit c || Ascii.eqb c "_" || Ascii.eqb c ".") s = true -> special_float (sg ++ s) = None.
Proof.
  intros sg neg [|c s] Sg B; [discriminate|]. cbn [begins] in B.
  assert (X : special_float (String c s) = None /\ special_float (String "+" (String c s)) = None /\ special_float (String "-" (String c s)) = None).
  { destruct c as [[] [] [] [] [] [] [] []]; try discriminate B; repeat split; reflexivity. }
  inversion Sg; subst; tauto.
Qed.
Lemma shape_not_special : forall s sg neg b16 p w1 dot w2 s3 w3 e, shape s sg neg b16 p w1 dot w2 s3 w3 e -> special_float s = None.
Proof.
  intros s sg neg b16 p w1 dot w2 s3 w3 e (-> & Sg & Pr & M & E & H). apply (special_starts sg neg); auto.
  destruct Pr as [[-> ->]|[_ [->| ->]]]; [|reflexivity..]. cbn [append]. destruct M as (A1 & A2 & _ & D). destruct w1 as [|c w1].
  - destruct D as [(-> & -> & _)| ->]; [discriminate|reflexivity].
  - cbn [alls] in A1. apply andb_true_iff in A1 as [A1 _]. cbn [append begins]. unfold du, dig in A1. rewrite orb_false_r in A1. now rewrite A1.
Qed.
Theorem parse_shape : forall s sg neg b16 p w1 dot w2 s3 w3 e, shape s sg neg b16 p w1 dot w2 s3 w3 e ->
  (fine b16 w1 w2 w3 -> parse_float s = float_value neg b16 (val b16 0 (w1 ++ w2)) (N.of_nat (cnt w2)) e) /\
  (~ fine b16 w1 w2 w3 -> parse_float s = None).
Proof.
  intros s sg neg b16 p w1 dot w2 s3 w3 e S. pose proof (under_spec _ _ _ _ _ _ _ _ _ _ _ S) as U. pose proof (fine_plain _ _ _ _ _ _ _ _ _ _ _ S) as F.
  assert (X : parse_float s = if (hasu w1 || hasu w2 || hasu w3) && negb (underscore_ok s) then None else float_value neg b16 (val b16 0 (w1 ++ w2)) (N.of_nat (cnt w2)) e).
  { rewrite parse_eq, (shape_not_special _ _ _ _ _ _ _ _ _ _ _ S). destruct S as (E & Sg & Pr & M & X & H). pose proof (body_starts _ _ _ _ _ M H) as B.
    replace (split_sign s) with (neg, String.length sg, p ++ w1 ++ dot ++ w2 ++ s3)
      by (rewrite E; symmetry; apply (sign_fwd sg neg); auto; apply begins_sign; eapply shape_starts; eauto).
    rewrite (prefix_fwd b16); [|destruct Pr as [[-> ->]|[-> Pr]]; [left; split; auto; split; auto|right; split; auto; split; auto]].
    - rewrite mant_eval by auto. rewrite H.
      replace s with ((sg ++ p ++ w1 ++ dot ++ w2) ++ s3) by now rewrite E, !append_assoc.
      replace (String.length sg + String.length p + String.length (w1 ++ dot ++ w2)) with (String.length (sg ++ p ++ w1 ++ dot ++ w2)) by (rewrite !length_app; lia).
      now rewrite (tail_some _ _ _ _ _ _ _ w3 e X).
    - eapply alls_imp; [|eapply shape_plain; eauto]. intros c Y. apply plainc_chars in Y. unfold is_x. apply orb_false_iff in Y as [_ ->]. reflexivity.
    - intros Y. rewrite Y in B. discriminate. }
  rewrite X. destruct (hasu w1 || hasu w2 || hasu w3) eqn:Hu; cbn [andb].
  - destruct (underscore_ok s); cbn [negb]; [split; [reflexivity|intros N; elim N; now apply U]|split; [intros Y; apply U in Y; discriminate|reflexivity]].
  - split; [reflexivity|intros N; elim N; now apply F].
Qed.
Theorem shape_exists : forall s f, parse_float s = Some f -> special_float s = None -> exists sg neg b16 p w1 dot w2 s3 w3 e, shape s sg neg b16 p w1 dot w2 s3 w3 e.
Proof.
  intros s f H N. rewrite parse_eq, N in H. destruct (split_sign s) as [[neg sl] s1] eqn:E1. destruct (split_prefix s1) as [[b16 pl] s2] eqn:E2.
  apply sign_inv in E1 as (sg & -> & Sg & ->). apply prefix_inv in E2 as (p & -> & Pr & ->). destruct (mant_exists b16 s2) as (w1 & dot & w2 & s3 & -> & M).
  rewrite mant_eval in H by auto. apply tail_inv in H as (D & w3 & e & X). exists sg, neg, b16, p, w1, dot, w2, s3, w3, e. unfold shape. auto 10.
Qed.

(** ** The numbers of GoFloats.v *)

Definition sat_of (x e : Z) : Prop := e = x \/ (100000 <= x /\ 10000 <= e)%Z \/ (x <= -100000 /\ e <= -10000)%Z.
Definition marks (b16 : bool) : list ascii := if b16 then ["p"; "P"]%char else ["e"; "E"]%char.
Lemma marks_lower : forall b16 c, In c (marks b16) <-> lower_char c = if b16 then "p"%char else "e"%char.
Proof. intros b16 c. split; [destruct b16; cbn; intros [<-|[<-|[]]]; reflexivity|]. intros H. destruct b16, c as [[] [] [] [] [] [] [] []]; try discriminate H; cbn; auto. Qed.
Lemma G_du : forall b16 w, G b16 w -> alls (du b16) w = true.
Proof. intros b16 w [ds H]. now destruct (grouped_val _ _ _ H 0%N) as (_ & _ & _ & _ & E). Qed.
Lemma G_begins : forall b16 w, G b16 w -> begins (dig b16) w = true.
Proof. intros b16 w [ds H]. inversion H as [c k I|c k s ds' I _|c k s ds' I _]; subst; apply table_only in I as [I _]; exact I. Qed.
Lemma sat_sign : forall (neg : bool) w, alls (du false) w = true ->
  sat_of (if neg then - Z.of_N (val false 0 w) else Z.of_N (val false 0 w))%Z (if neg then - Z.of_N (satv 0 w) else Z.of_N (satv 0 w))%Z.
Proof. intros neg w A. destruct (satv_val w 0%N A) as [->|[X Y]]; [now left|]. right. destruct neg; [right|left]; lia. Qed.
Lemma power_exp : forall b16 ex x, power (marks b16) ex x -> exists w3 e, exp_part b16 ex w3 e /\ G false w3 /\ sat_of x e.
Proof.
  intros b16 ex x [c sg neg s ds n C Sg H D]. assert (Gs : G false s) by (eexists; exact H). exists s. eexists. split; [|split; [exact Gs|]].
  - right. exists c, sg, neg. split; [reflexivity|]. split; [now apply marks_lower|]. split; [exact Sg|]. split; [|split; [now apply G_du|reflexivity]].
    apply G_begins in Gs. destruct s; auto. cbn [begins] in *. unfold dig in Gs. now rewrite orb_false_r in Gs.
  - destruct (grouped_val false _ _ H 0%N) as (V & _ & _ & _ & A). apply decimal_pos, positional_val in D as (_ & _ & ->). rewrite <- V. now apply sat_sign.
Qed.
Lemma exp_power : forall b16 s3 w3 e, exp_part b16 s3 w3 e -> w3 = "" \/ G false w3 ->
  b16 = false /\ s3 = "" /\ e = 0%Z \/ exists x, power (marks b16) s3 x /\ sat_of x e.
Proof.
  intros b16 s3 w3 e [(-> & -> & -> & ->)|(c & esg & eneg & -> & C & Sg & B & A & ->)] H; [now left|]. right.
  destruct H as [->|H]; [discriminate|]. apply marks_lower in C. destruct (G_val _ _ H) as (ds & Gs & Ps & _). apply decimal_pos in Ps.
  eexists. split; [eapply power_intro; eauto|]. now apply sat_sign.
Qed.

Definition two_parts (w1 dot w2 : string) : Prop := dot = "" /\ w2 = "" \/ dot = ".".
Lemma cnt_app : forall a b, cnt (a ++ b) = cnt a + cnt b.
Proof. induction a as [|c a IH]; intros b; cbn; auto. rewrite IH. now destruct (Ascii.eqb c "_"). Qed.
Lemma G_hasd : forall b16 w, G b16 w -> hasd w = true.
Proof. intros b16 w H. destruct (G_val _ _ H) as (_ & _ & _ & _ & N). unfold hasd. destruct (cnt w); [congruence|reflexivity]. Qed.
Lemma grouped_ends : forall b16 w ds w' ds', grouped (table b16) w ds -> grouped (table b16) w' ds' -> val b16 0 (w ++ w') = val b16 0 (ds ++ ds').
Proof.
  intros b16 w ds w' ds' H H'. rewrite !val_app. destruct (grouped_val _ _ _ H 0%N) as (-> & _). now destruct (grouped_val _ _ _ H' (val b16 0 ds)) as (-> & _).
Qed.
Lemma mantissa_parts : forall b16 s ds frac, mantissa (table b16) s ds frac -> exists w1 dot w2, s = w1 ++ dot ++ w2 /\ two_parts w1 dot w2 /\
  (w1 = "" \/ G b16 w1) /\ (w2 = "" \/ G b16 w2) /\ hasd w1 || hasd w2 = true /\ frac = cnt w2 /\ val b16 0 (w1 ++ w2) = val b16 0 ds /\ (w1 = "" -> dot = ".").
Proof.
  intros b16 s ds frac H. unfold two_parts.
  assert (Q : forall w d, grouped (table b16) w d -> G b16 w /\ hasd w = true /\ cnt w = String.length d /\ val b16 0 w = val b16 0 d /\ w <> "").
  { intros w d X. assert (Y : G b16 w) by (eexists; exact X). destruct (grouped_val _ _ _ X 0%N) as (V & C & _). split; auto. split; [now apply G_hasd in Y|].
    split; auto. split; auto. intros ->. now apply G_nil in Y. }
  destruct H as [s ds H|s ds H|s ds H|s ds s' ds' H H'].
  - destruct (Q _ _ H) as (A & B & C & D & E). exists s, "", "". cbn [append]. rewrite !append_nil_r, B. repeat split; auto. congruence.
  - destruct (Q _ _ H) as (A & B & C & D & E). exists s, ".", "". rewrite !append_nil_r, B. repeat split; auto.
  - destruct (Q _ _ H) as (A & B & C & D & E). exists "", ".", s. cbn [append]. rewrite B, C. repeat split; auto.
  - destruct (Q _ _ H) as (A & B & C & D & E). destruct (Q _ _ H') as (A' & B' & C' & D' & E'). exists s, ".", s'. rewrite B, C'. repeat split; auto. now apply grouped_ends.
Qed.
Lemma parts_mantissa : forall b16 w1 dot w2, two_parts w1 dot w2 -> w1 = "" \/ G b16 w1 -> w2 = "" \/ G b16 w2 -> hasd w1 || hasd w2 = true ->
  exists ds, mantissa (table b16) (w1 ++ dot ++ w2) ds (cnt w2) /\ positional b16 ds (val b16 0 (w1 ++ w2)).
Proof.
  intros b16 w1 dot w2 T H1 H2 D.
  destruct H1 as [->|H1], H2 as [->|H2]; cbn [append] in *.
  - discriminate.
  - destruct T as [[_ ->]| ->]; [now apply G_nil in H2|]. destruct (G_val _ _ H2) as (ds & Gs & Ps & C & _). exists ds. split; auto. rewrite C. now constructor.
  - destruct (G_val _ _ H1) as (ds & Gs & Ps & C & _). exists ds. rewrite !append_nil_r. split; auto. destruct T as [[-> _]| ->]; [rewrite append_nil_r|]; now constructor.
  - destruct T as [[_ ->]| ->]; [now apply G_nil in H2|]. destruct (G_val _ _ H1) as (ds & Gs & Ps & C & _). destruct (G_val _ _ H2) as (ds' & Gs' & Ps' & C' & _).
    exists (ds ++ ds'). split; [rewrite C'; now constructor|]. apply positional_val in Ps as (N & A & _). apply positional_val in Ps' as (N' & A' & _).
    apply positional_val. split; [destruct ds; [congruence|discriminate]|]. split; [now rewrite alls_app, A, A'|now apply grouped_ends].
Qed.

Lemma mant_intro : forall b16 w1 dot w2 s3, alls (du b16) w1 = true -> w2 = "" \/ G b16 w2 -> two_parts w1 dot w2 ->
  s3 = "" \/ (exists x, power (marks b16) s3 x) -> mant b16 w1 dot w2 s3.
Proof.
  intros b16 w1 dot w2 s3 H1 H2 T E. split; [exact H1|]. split; [destruct H2 as [->|H2]; [reflexivity|now apply G_du]|].
  assert (X : begins (du b16) s3 = false /\ begins (Ascii.eqb ".") s3 = false).
  { destruct E as [->|[x E]]; [auto|]. destruct E as [c sg neg s ds n C _ _ _]. cbn [begins]. destruct b16; cbn in C; destruct C as [<-|[<-|[]]]; auto. }
  split; [apply X|]. destruct T as [[-> ->]| ->]; [left; repeat split; apply X|now right].
Qed.
Lemma part_du : forall b16 w, w = "" \/ G b16 w -> alls (du b16) w = true.
Proof. intros b16 w [->|H]; [reflexivity|now apply G_du]. Qed.

Theorem numeral_shape : forall s neg b16 m frac x, go_numeral s neg b16 m frac x -> exists sg p w1 dot w2 s3 w3 e,
  shape s sg neg b16 p w1 dot w2 s3 w3 e /\ fine b16 w1 w2 w3 /\ m = val b16 0 (w1 ++ w2) /\ frac = cnt w2 /\ sat_of x e.
Proof.
  intros s neg b16 m frac x H. destruct H as [sg neg s ds frac m Sg M D|sg neg s ds frac m ex x Sg M D E|sg neg c s ds frac m ex x Sg C M D E|sg neg c s ds frac m ex x Sg C M N D E].
  - destruct (mantissa_parts false _ _ _ M) as (w1 & dot & w2 & -> & T & H1 & H2 & Hd & -> & V & _). apply decimal_pos, positional_val in D as (_ & _ & ->).
    exists sg, "", w1, dot, w2, "", "", 0%Z. split; [|split; [|split; [auto|split; [auto|now left]]]].
    + split; [now rewrite !append_nil_r|]. split; [auto|]. split; [left; auto|]. split; [apply mant_intro; auto; now apply part_du|]. split; [left; auto|auto].
    + unfold fine. auto.
  - destruct (mantissa_parts false _ _ _ M) as (w1 & dot & w2 & -> & T & H1 & H2 & Hd & -> & V & _). apply decimal_pos, positional_val in D as (_ & _ & ->).
    destruct (power_exp false _ _ E) as (w3 & e & X & Gw & Sx). exists sg, "", w1, dot, w2, ex, w3, e. split; [|split; [|split; [auto|split; auto]]].
    + split; [now rewrite !append_assoc|]. split; [auto|]. split; [left; auto|]. split; [apply mant_intro; eauto; now apply part_du|]. split; auto.
    + unfold fine. auto.
  - destruct (mantissa_parts true _ _ _ M) as (w1 & dot & w2 & -> & T & H1 & H2 & Hd & -> & V & _). apply hexadecimal_pos, positional_val in D as (_ & _ & ->).
    destruct (power_exp true _ _ E) as (w3 & e & X & Gw & Sx). exists sg, (String "0" (String c "")), w1, dot, w2, ex, w3, e. split; [|split; [|split; [auto|split; auto]]].
    + split; [cbn [append]; now rewrite !append_assoc|]. split; [auto|]. split; [right; destruct C as [<-|[<-|[]]]; auto|]. split; [apply mant_intro; eauto; now apply part_du|]. split; auto.
    + unfold fine. cbn. tauto.
  - destruct (mantissa_parts true _ _ _ M) as (w1 & dot & w2 & -> & T & H1 & H2 & Hd & -> & V & Ne). apply hexadecimal_pos, positional_val in D as (_ & _ & ->).
    assert (Gw1 : G true w1) by (destruct H1 as [->|H1]; auto; elim (N w2); now rewrite Ne).
    destruct (power_exp true _ _ E) as (w3 & e & X & Gw & Sx). exists sg, (String "0" (String c "")), (String "_" w1), dot, w2, ex, w3, e. split; [|split; [|split; [auto|split; auto]]].
    + split; [cbn [append]; now rewrite !append_assoc|]. split; [auto|]. split; [right; destruct C as [<-|[<-|[]]]; auto|]. split; [apply mant_intro; eauto; cbn; now apply part_du|]. split; auto.
    + unfold fine. cbn. eauto 10.
Qed.
Theorem shape_numeral : forall s sg neg b16 p w1 dot w2 s3 w3 e, shape s sg neg b16 p w1 dot w2 s3 w3 e -> fine b16 w1 w2 w3 ->
  exists x, go_numeral s neg b16 (val b16 0 (w1 ++ w2)) (cnt w2) x /\ sat_of x e.
Proof.
  intros s sg neg b16 p w1 dot w2 s3 w3 e (-> & Sg & Pr & M & E & Hd) (F1 & F2 & F3).
  assert (T : two_parts w1 dot w2) by (destruct M as (_ & _ & _ & [(-> & -> & _)| ->]); [left|right]; auto).
  pose proof (exp_power _ _ _ _ E F3) as X.
  destruct Pr as [[-> ->]|[-> Pr]].
  - cbn [append]. destruct (parts_mantissa false w1 dot w2 T F1 F2 Hd) as (ds & Md & Pd). apply decimal_pos in Pd.
    destruct X as [(_ & -> & ->)|(x & Px & Sx)].
    + exists 0%Z. split; [|now left]. rewrite append_nil_r. eapply go_integer; eauto.
    + exists x. split; auto. replace (w1 ++ dot ++ w2 ++ s3) with ((w1 ++ dot ++ w2) ++ s3) by now rewrite !append_assoc. eapply go_decimal; eauto.
  - destruct X as [(Y & _)|(x & Px & Sx)]; [discriminate|]. exists x. split; auto.
    assert (C : exists c, p = String "0" (String c "") /\ In c ["x"; "X"]%char) by (destruct Pr as [->| ->]; eexists; split; try reflexivity; cbn; auto).
    destruct C as (c & -> & C). cbn [append].
    assert (Hx : (w1 = "" \/ G true w1) \/ exists w', w1 = String "_" w' /\ G true w') by (cbn in F1; tauto).
    destruct Hx as [F1'|(w' & -> & F1')].
    + destruct (parts_mantissa true w1 dot w2 T F1' F2 Hd) as (ds & Md & Pd). apply hexadecimal_pos in Pd.
      replace (w1 ++ dot ++ w2 ++ s3) with ((w1 ++ dot ++ w2) ++ s3) by now rewrite !append_assoc. eapply go_hex; eauto.
    + destruct (parts_mantissa true w' dot w2 T (or_intror F1') F2) as (ds & Md & Pd); [now rewrite (G_hasd _ _ F1')|]. apply hexadecimal_pos in Pd.
      cbn [append]. replace (w' ++ dot ++ w2 ++ s3) with ((w' ++ dot ++ w2) ++ s3) by now rewrite !append_assoc. eapply go_hex_under; eauto.
      intros s' Y. apply G_begins in F1'. destruct w' as [|a w']; [discriminate|]. inversion Y; subst. discriminate F1'.
Qed.
