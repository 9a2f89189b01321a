(** Statements that are not [readable] are misread: proof device for Exact.v. *)
From Coq Require Import String Ascii NArith List Bool Arith Lia.
From Verif Require Import GoStr Unicode UnicodeFacts GoNum Types Grammar GrammarFacts Ast Emit Safe Seen Converter Fuel Conv.
Import ListNotations.
Open Scope nat_scope. Open Scope string_scope. Open Scope c_scope. Open Scope list_scope.

(** ** Determinism *)
Lemma cle_le : forall A (f : nat -> C A), (forall n, cle (f n) (f (S n))) -> forall n m, n <= m -> cle (f n) (f m).
Proof. intros A f M n m L. induction L; [apply cle_refl|]. eapply cle_trans; [exact IHL|apply M]. Qed.
Lemma steps_det : forall A (f : nat -> C A), (forall n, cle (f n) (f (S n))) -> forall n l a r a' r',
  f n l = COk a r -> steps f l a' r' -> a = a' /\ r = r'.
Proof.
  intros A f M n l a r a' r' H [n0 S]. specialize (S (max n n0) ltac:(lia)).
  destruct (cle_le A f M n (max n n0) ltac:(lia) l) as [X|X]; rewrite H in X; [discriminate|].
  rewrite S in X. now inversion X.
Qed.
Lemma bind_ok : forall A B (m : C A) (f : A -> C B) l b r, cbind m f l = COk b r ->
  exists a r', m l = COk a r' /\ f a r' = COk b r.
Proof. intros A B m f l b r H. unfold cbind in H. destruct (m l) as [a r'| |]; try discriminate. eauto. Qed.

Lemma round_mono : forall n d x, cle (round n d x) (round (S n) d x).
Proof.
  intros n d x. unfold round. apply cle_bind; [apply cle_refl|]. intros [].
  - apply cle_bind; [apply tconstraint_mono|]. intros. apply cle_refl.
  - apply cle_bind; [apply column_mono|]. intros. apply cle_refl.
Qed.

(** ** Words that are no types *)
Definition real (s : string) : bool := existsb (fun w => (s =? w) || (s =? w ++ " VARYING")%string) type_words.
Definition odd (t : string) : Prop := real (go_upper t) = false /\ real (go_upper t ++ " VARYING")%string = false.
Definition unreal (c : column) : Prop := real (dt_name (col_type c)) = false.

Lemma kwd_odd : forall w t, kwd w t -> odd (to_lower w) -> odd (to_upper w) -> odd t.
Proof. intros w t K L U. apply matches_one in K as [->| ->]; auto. Qed.
Ltac vodd := split; vm_compute; reflexivity.
Ltac kodd := eapply kwd_odd; [eassumption|vodd|vodd].

(** a token that begins with a quotation mark *)
Lemma quoted_odd : forall t, quoted any_quote t = true -> odd t.
Proof.
  intros t Q. destruct t as [|c t]; [discriminate|]. unfold quoted, any_quote in Q. cbn [contains existsb] in Q.
  assert (E : c = """"%char \/ c = "'"%char \/ c = "`"%char).
  { rewrite !orb_true_iff, !String.eqb_eq in Q. destruct Q as [Q|[Q|[Q|Q]]]; try discriminate; inversion Q; auto. }
  assert (L : (N_of_ascii c < 128)%N) by (destruct E as [->|[->| ->]]; reflexivity).
  destruct (upper_first c t L) as [u U]. unfold odd. rewrite U. destruct E as [->|[->| ->]]; split; reflexivity.
Qed.
Lemma type_real : forall ty o, em_type ty o -> real (dt_name (type_of ty)) = true.
Proof.
  assert (X : forall w, matches type_words w = true -> In (go_upper w) type_words).
  { intros w H. apply matches_In in H as (w' & I & M). apply matches_one in M.
    assert (Y : go_upper w = w'); [|now rewrite Y].
    assert (Z : forallb (fun w => (go_upper (to_lower w) =? w) && (go_upper (to_upper w) =? w))%string type_words = true) by reflexivity.
    rewrite forallb_forall in Z. specialize (Z w' I). apply andb_true_iff in Z as [Z1 Z2].
    apply String.eqb_eq in Z1, Z2. destruct M as [->| ->]; auto. }
  assert (R1 : forall s, In s type_words -> real s = true).
  { intros s I. unfold real. apply existsb_exists. exists s. split; auto. now rewrite String.eqb_refl. }
  assert (R2 : forall s, In s type_words -> real (s ++ " VARYING")%string = true).
  { intros s I. unfold real. apply existsb_exists. exists s. split; auto. rewrite String.eqb_refl. apply orb_true_r. }
  intros ty o H. inversion H as [w dg o' W D|w v dg o' W V D]; subst; unfold type_of; cbn [at_word at_varying at_digits].
  - destruct dg as [[? [?|]]|]; cbn [dt_name]; auto.
  - assert (Y : real (if go_upper w =? "BIT" then "VARBIT" else if go_upper w =? "CHARACTER" then "VARCHAR"
                      else go_upper w ++ " VARYING")%string = true).
    { destruct (go_upper w =? "BIT")%string; [reflexivity|].
      destruct (go_upper w =? "CHARACTER")%string; [reflexivity|auto]. }
    destruct dg as [[? [?|]]|]; cbn [dt_name]; auto.
Qed.
Lemma columns_real : forall d es os, em_elements d es os -> Forall (fun c => ~ unreal c) (columns_of d es).
Proof.
  assert (X : forall d e o, em_element d e o -> Forall (fun c => ~ unreal c) (columns_of d [e])).
  { intros d e o H. inversion H as [c o' E|n b oc ob CN EB]; subst; [|constructor].
    constructor; [|constructor]. inversion E; subst. unfold unreal. cbn [column_of col_type ac_type].
    rewrite (type_real ty ot) by assumption. discriminate. }
  intros d es os H. induction H as [e o E|e es o os E Es IH]; [eapply X; eauto|].
  change (columns_of d (e :: es)) with
    ((match e with EColumn c => [column_of d c] | _ => [] end) ++ columns_of d es).
  apply Forall_app. split; auto. specialize (X d e o E). unfold columns_of in X. cbn [flat_map] in X.
  now rewrite app_nil_r in X.
Qed.

(** ** What a column with an odd type looks like *)
Lemma cnext_head : forall l t, exists r, cnext (t :: l) = COk t r.
Proof.
  induction l as [|t' l IH]; intros t.
  - cbn [cnext]. rewrite andb_false_r. eauto.
  - cbn [cnext]. destruct ((t =? ",")%string && (t' =? ",")%string) eqn:E; [|eauto].
    apply andb_true_iff in E as [->%String.eqb_eq ->%String.eqb_eq]. apply (IH ",").
Qed.
Lemma type_odd : forall z l ty r, odd z -> convertDateType (z :: l) = COk ty r -> real (dt_name ty) = false.
Proof.
  intros z l ty r [O1 O2] H. unfold convertDateType in H. apply bind_ok in H as (a & r1 & H1 & H).
  destruct (cnext_head l z) as [r1' E]. rewrite E in H1. injection H1 as <- ->. clear E.
  apply bind_ok in H as (b & r2 & H1 & H). unfold cmatch in H1. injection H1 as B <-.
  apply bind_ok in H as (nm & r3 & H1 & H). apply bind_ok in H as ([n m] & r4 & _ & H). injection H as <- _. cbn [dt_name].
  destruct b.
  - apply bind_ok in H1 as (v & r5 & V & H1). unfold ctoken in V. injection V as <- <-.
    apply bind_ok in H1 as (w & r5 & _ & H1). injection H1 as <- _.
    destruct (go_upper z =? "BIT")%string eqn:Q; [apply String.eqb_eq in Q; rewrite Q in O1; discriminate|].
    destruct (go_upper z =? "CHARACTER")%string eqn:Q'; [apply String.eqb_eq in Q'; rewrite Q' in O1; discriminate|].
    destruct r1 as [|v r1]; [discriminate|]. rewrite (upper_varying v B). exact O2.
  - injection H1 as <- _. exact O1.
Qed.

Lemma name_head : forall d t l x r, convertName d (t :: l) = COk x r -> exists r', cnext (t :: l) = COk t r' /\ r = r'.
Proof.
  intros d t l x r H. unfold convertName in H. apply bind_ok in H as (a & r1 & H1 & H).
  destruct (cnext_head l t) as [r1' E]. rewrite E in H1. injection H1 as <- <-. exists r1'. split; auto.
  apply bind_ok in H as (b & r2 & H1 & H). unfold isIdentifier, c_slice01 in H1. apply bind_ok in H1 as (tc & r3 & H1 & H2).
  destruct (slice01 t); [|discriminate]. injection H1 as <- <-. injection H2 as B <-. unfold c_slice_inner, cret in H.
  destruct b; [destruct (slice_inner t)|]; now inversion H.
Qed.
Lemma column_odd : forall n d t z l c r, t <> "," -> odd z ->
  convertColumnDefinition n d (t :: z :: l) = COk c r -> unreal c.
Proof.
  intros n d t z l c r T O H. unfold convertColumnDefinition in H. apply bind_ok in H as (x & r1 & H1 & H).
  apply name_head in H1 as (r' & E & ->). rewrite cnext_tok in E by auto. injection E as <-.
  apply bind_ok in H as (ty & r2 & H1 & H). apply bind_ok in H as (cc & r3 & _ & H). injection H as <- _.
  unfold unreal. cbn [col_type]. eapply type_odd; eauto.
Qed.
(** a column that begins with commas *)
Lemma column_comma : forall n d k z l c r, z <> "," ->
  convertColumnDefinition n d (repeat "," (S k) ++ z :: l) = COk c r ->
  col_name c = "," /\ (odd z -> unreal c).
Proof.
  intros n d k z l c r Z H. unfold convertColumnDefinition in H. apply bind_ok in H as (x & r1 & H1 & H).
  assert (E : convertName d (repeat "," (S k) ++ z :: l) = COk "," (z :: l)).
  { unfold convertName, cbind.
    assert (E : cnext (repeat "," (S k) ++ z :: l) = COk "," (z :: l)).
    { clear -Z. induction k as [|k IH]; [now apply cnext_comma|].
      cbn [repeat app] in *. cbn [cnext] in *. exact IH. }
    rewrite E. destruct d; reflexivity. }
  rewrite E in H1. injection H1 as <- <-.
  apply bind_ok in H as (ty & r2 & H1 & H). apply bind_ok in H as (cc & r3 & _ & H). injection H as <- _.
  split; [reflexivity|]. intros O. unfold unreal. cbn [col_type]. eapply type_odd; eauto.
Qed.

(** ** The loop only adds columns *)
Lemma round_more : forall n d x l y r, round n d x l = COk y r -> exists m, fst y = fst x ++ m.
Proof.
  intros n d x l y r H. unfold round in H. apply bind_ok in H as ([] & r1 & H1 & H).
  - apply bind_ok in H as (tc & r2 & _ & H). injection H as <- _. exists []. cbn [fst]. now rewrite app_nil_r.
  - apply bind_ok in H as (c & r2 & _ & H). injection H as <- _. exists [c]. reflexivity.
Qed.
Lemma loop_more : forall n d x l y r, table_definition_loop n d (fst x) (snd x) l = COk y r -> exists m, fst y = fst x ++ m.
Proof.
  induction n as [|n IH]; intros d x l y r H; [discriminate|]. rewrite loop_round in H. unfold loop1 in H.
  apply bind_ok in H as ([] & r1 & _ & H).
  - injection H as <- _. exists []. now rewrite app_nil_r.
  - apply bind_ok in H as (y1 & r2 & H1 & H). apply round_more in H1 as [m1 E1].
    apply bind_ok in H as ([] & r3 & _ & H).
    + injection H as <- _. eauto.
    + apply bind_ok in H as (t & r4 & _ & H). apply IH in H as [m2 E2]. exists (m1 ++ m2). now rewrite E2, E1, app_assoc.
Qed.
(** one round, and then the rest *)
Lemma loop_first : forall n d x t l y r, t <> ")" -> table_definition_loop n d (fst x) (snd x) (t :: l) = COk y r ->
  exists k y1 r1, n = S k /\ round k d x (t :: l) = COk y1 r1 /\
    match r1 with
    | t1 :: r2 => if (t1 =? ")")%string then y = y1 /\ r = r1
                  else exists a r3, cnext r1 = COk a r3 /\ table_definition_loop k d (fst y1) (snd y1) r3 = COk y r
    | [] => table_definition_loop k d (fst y1) (snd y1) [] = COk y r
    end.
Proof.
  intros [|k] d x t l y r T H; [discriminate|]. rewrite loop_round in H. unfold loop1 in H.
  apply bind_ok in H as (b & r1 & H1 & H). unfold cmatch in H1. injection H1 as B <-.
  rewrite (proj2 (sym_false ")" t eq_refl eq_refl) T) in B. subst b.
  apply bind_ok in H as (y1 & r2 & H1 & H). exists k, y1, r2. split; [reflexivity|]. split; [exact H1|].
  apply bind_ok in H as (b & r3 & H2 & H). unfold cmatch in H2. injection H2 as B <-.
  destruct r2 as [|t1 r2].
  - subst b. apply bind_ok in H as (a & r3 & H2 & H). injection H2 as _ <-. exact H.
  - destruct (t1 =? ")")%string eqn:Q.
    + apply String.eqb_eq in Q as ->. subst b. injection H as <- <-. auto.
    + apply String.eqb_neq in Q. rewrite (proj2 (sym_false ")" t1 eq_refl eq_refl) Q) in B. subst b. apply bind_ok in H as (a & r3 & H2 & H). eauto.
Qed.
Definition spoiled (cols : list column) : Prop := exists c, In c cols /\ unreal c.
Lemma loop_rest : forall (k : nat) d (y1 y : list column * Types.table_constraint) r1 r,
  match r1 with
    | t1 :: r2 => if (t1 =? ")")%string then y = y1 /\ r = r1
                  else exists a r3, cnext r1 = COk a r3 /\ table_definition_loop k d (fst y1) (snd y1) r3 = COk y r
    | [] => table_definition_loop k d (fst y1) (snd y1) [] = COk y r
    end -> exists m, fst y = fst y1 ++ m.
Proof.
  intros k d y1 y r1 r H. destruct r1 as [|t1 r2].
  - eapply loop_more; eauto.
  - destruct (t1 =? ")")%string.
    + destruct H as [-> ->]. exists []. now rewrite app_nil_r.
    + destruct H as (a & r3 & _ & H). eapply loop_more; eauto.
Qed.
Lemma loop_odd : forall n d x t z l y r, t <> "," -> t <> ")" -> matches table_words t = false -> odd z ->
  table_definition_loop n d (fst x) (snd x) (t :: z :: l) = COk y r -> spoiled (fst y).
Proof.
  intros n d x t z l y r T1 T2 T3 O H. apply loop_first in H as (k & y1 & r1 & _ & H & X); auto.
  unfold round in H. apply bind_ok in H as (b & r2 & B & H). unfold cmatch in B. injection B as B <-.
  unfold table_words in T3. rewrite T3 in B. subst b.
  apply bind_ok in H as (c & r2 & H1 & H). injection H as <- _. apply column_odd in H1; auto.
  apply loop_rest in X as [m E]. cbn [fst] in E. exists c. split; auto. rewrite E. apply in_or_app. left.
  apply in_or_app. right. now left.
Qed.

(** ** References with a schema *)

Lemma items_odd : forall d is hs os rest, em_items d is hs os -> stop rest ->
  exists z r, os ++ rest = z :: r /\ odd z.
Proof.
  induction 1 as [|i is h hs o os E Es IH]; intros R.
  - destruct rest as [|t rest]; [contradiction|]. exists t, rest. split; auto. destruct R as [->| ->]; vodd.
  - specialize (IH R). rewrite <- app_assoc.
    inversion E; subst; cbn [app]; auto; try (do 2 eexists; split; [reflexivity|kodd]).
    + do 2 eexists. split; [reflexivity|]. apply matches_In in H as (w & I & M). cbn in I.
      destruct I as [<-|[<-|[]]]; (eapply kwd_odd; [exact M|vodd|vodd]).
    + inversion H0; subst; cbn [app]; (do 2 eexists; split; [reflexivity|kodd]).
Qed.
Lemma items_no_lpar : forall d is hs os rest, em_items d is hs os -> stop rest -> no_lpar (os ++ rest).
Proof.
  intros d is hs os rest E R. pose proof (items_after_type d is hs os rest E R) as X.
  destruct (os ++ rest) as [|t l]; [contradiction|]. cbn [after_type no_lpar] in *. intros ->. discriminate.
Qed.

(** What is left: a point, a name, and a token that is no type. *)
Definition left_over (d : rdbms) (l : list string) : Prop :=
  exists t z r, l = "." :: t :: z :: r /\ name_tok d t /\ odd z.

Lemma reference_schema : forall d rf o l, em_ref d rf o -> safe_ref rf = false ->
  (exists z r, l = z :: r /\ odd z) ->
  exists a r, left_over d r /\ steps (fun n => convertReference n d) (o ++ l) a r.
Proof.
  intros d rf o l E S (z & r & -> & O). inversion E as [| |k s t K T1 T2|k s t cols o' K T1 T2 N]; subst; try discriminate.
  - eexists; exists ("." :: t :: z :: r). split; [exists t, z, r; auto|]. cbn [app]. unfold convertReference.
    eapply steps_next; [kneq|].
    eapply steps_bind; [apply steps_const, convertName_ok; [eapply name_not_sym; eauto|apply T1]|].
    eapply steps_match; [reflexivity|]. apply steps_ret.
  - destruct N as (l & -> & _).
    eexists; exists ("." :: t :: ("(" :: l ++ [")"]) ++ z :: r). split; [exists t, "(", ((l ++ [")"]) ++ z :: r); repeat split; auto; apply T2|].
    cbn [app]. unfold convertReference. eapply steps_next; [kneq|].
    eapply steps_bind; [apply steps_const, convertName_ok; [eapply name_not_sym; eauto|apply T1]|].
    eapply steps_match; [reflexivity|]. apply steps_ret.
Qed.

Lemma items_schema : forall d is hs os, em_items d is hs os -> forallb readable_item is = false ->
  forall rest, stop rest -> forall c, exists a r, left_over d r /\ steps (fun n => convertConstraintAux n d c) (os ++ rest) a r.
Proof.
  induction 1 as [|i is h hs o os E Es IH]; intros S rest R c; [discriminate|]. rewrite <- app_assoc.
  cbn [forallb] in S. destruct (readable_item i) eqn:RI.
  - destruct (IH S rest R (apply_item d c (seen_item i))) as (a & r & L & X). exists a, r. split; auto.
    destruct (item_step d i h o (os ++ rest) E RI (items_no_lpar _ _ _ _ _ Es R)) as [_ P]. now apply P.
  - destruct i; try discriminate. cbn [readable_item] in RI. inversion E as [| | | | | | | | |h' r' o' H K| ]; subst.
    destruct (reference_schema d r o (os ++ rest) K RI (items_odd _ _ _ _ _ Es R)) as (a & l & L & X).
    exists (set_references a c), l. split; auto.
    assert (Y : exists k o', o = k :: o' /\ kwd "REFERENCES" k) by (inversion K; subst; eauto).
    destruct Y as (k & o' & -> & Y). cbn [app] in *. apply steps_S. cbn [convertConstraintAux].
    do 8 (eapply steps_match; [kfalse|]). eapply steps_match; [ktrue|].
    eapply steps_bind; [exact X|]. destruct L as (t & z & r0 & -> & _). apply steps_S. cbn [convertConstraintAux].
    do 9 (eapply steps_match; [reflexivity|]). apply steps_ret.
Qed.

(** the part before the constraints of a column *)
Lemma cname_step : forall d n is hs os oc rest, em_cname d ["CHECK"] os n oc -> em_items d is hs os -> stop rest ->
  exists c, forall a r, steps (fun m => convertConstraintAux m d c) (os ++ rest) a r ->
    steps (fun m => convertConstraint m d) (oc ++ os ++ rest) a r.
Proof.
  intros d n is hs os oc rest E Es R. unfold convertConstraint.
  inversion E as [|k t l' KK -> M|k t KK T]; subst; cbn [app].
  - exists zero_constraint. intros a r P. pose proof (constraint_word d is hs os rest Es R) as X.
    destruct (os ++ rest) as [|t l]; [contradiction|].
    eapply steps_match; [exact X|]. eapply steps_bind; [apply steps_ret|]. exact P.
  - exists zero_constraint. intros a r P. eapply steps_match; [exact KK|]. cbn [app] in *. eapply steps_bind.
    { eapply steps_next; [kneq|]. eapply steps_match with (b := true).
      - apply matches_In in M as (w & I & M). cbn in I. destruct I as [<-|[]]. eapply kwd_is; [exact M|]. cbn; tauto.
      - apply steps_ret. }
    exact P.
  - destruct (matches not_names t) eqn:Q.
    + pose proof (auto_names d t T Q) as A. exists (set_auto zero_constraint). intros a r P.
      eapply steps_match; [exact KK|]. eapply steps_bind.
      { eapply steps_next; [kneq|]. eapply steps_match with (b := true); [exact Q|]. apply steps_ret. }
      apply steps_S. cbn [convertConstraintAux].
      assert (B : matches [","; ")"] t = false /\ matches ["PRIMARY"] t = false).
      { apply matches_In in A as (w & I & M). cbn in I.
        destruct I as [<-|[<-|[]]]; split; eapply kwd_not; try exact M; reflexivity. }
      eapply steps_match; [apply B|]. eapply steps_match; [apply B|]. eapply steps_match; [exact A|].
      eapply steps_next; [eapply name_not_sym; eauto|]. exact P.
    + exists (set_name (unquote d t) zero_constraint). intros a r P.
      eapply steps_match; [exact KK|]. eapply steps_bind.
      { eapply steps_next; [kneq|]. eapply steps_match with (b := false).
        - exact Q.
        - eapply steps_bind; [apply steps_const, convertName_ok; [eapply name_not_sym; eauto|apply T]|]. apply steps_ret. }
      exact P.
Qed.
Lemma cname_after_type : forall d n is hs os oc rest, em_cname d ["CHECK"] os n oc -> em_items d is hs os -> stop rest ->
  after_type (oc ++ os ++ rest).
Proof.
  intros d n is hs os oc rest E Es R. inversion E as [|k t l' KK -> M|k t KK T]; subst; cbn [app]; [|cbn [after_type]; kfalse..].
  eapply items_after_type; eauto.
Qed.

Lemma column_schema : forall d c o rest, em_column d c o -> readable_element (EColumn c) = false -> stop rest ->
  exists a r, left_over d r /\ steps (fun n => convertColumnDefinition n d) (o ++ rest) a r.
Proof.
  intros d c o rest E S R. inversion E as [n ty cn is ot oc oi hs key N T CN IS K ND]; subst.
  cbn [readable_element ac_items] in S.
  destruct (cname_step d cn is hs oi oc rest CN IS R) as [c0 P].
  destruct (items_schema d is hs oi IS S rest R c0) as (a & r & L & X).
  exists (mk_column (unquote d n) (type_of ty) a), r. split; auto.
  unfold convertColumnDefinition. cbn [app]. rewrite <- !app_assoc.
  eapply steps_bind; [apply steps_const, convertName_ok; [eapply name_not_sym; eauto|apply N]|].
  eapply steps_bind; [apply type_ok; eauto; eapply cname_after_type; eauto|].
  eapply steps_bind; [exact (P a r X)|]. apply steps_ret.
Qed.

(** ** FOREIGN KEY with a schema, and INDEX *)
Definition tc_name (d : rdbms) : C string :=
  b <- cmatch ["CONSTRAINT"] ;;
  if b then
    cnext ;;
    b <- cmatch ["PRIMARY"; "UNIQUE"; "CHECK"; "FOREIGN"] ;;
    if b then cret "" else convertName d
  else cret "".
Lemma tc_split : forall m d tc l, convertTableConstraint m d tc l = cbind (tc_name d) (tc_rest m d tc) l.
Proof. intros m d tc l. unfold convertTableConstraint, tc_name. unfold cbind at 1 3. unfold cbind at 3. unfold cmatch. reflexivity. Qed.

Lemma foreign_schema : forall d n cols rf oc ob rest tc,
  em_cname d ["PRIMARY"; "UNIQUE"; "CHECK"; "FOREIGN"] ob n oc -> em_body d (BForeign cols rf) ob ->
  safe_ref rf = false -> stop rest ->
  (exists a r, left_over d r /\ steps (fun m => convertTableConstraint m d tc) ((oc ++ ob) ++ rest) a r) /\
  exists t l, (oc ++ ob) ++ rest = t :: l /\ matches table_words t = true /\ t <> ")".
Proof.
  intros d n cols rf oc ob rest tc E EB S R. inversion EB as [| | |f k cols' o1 r' o2 F K N RF| |]; subst.
  assert (O : exists z r, rest = z :: r /\ odd z).
  { destruct rest as [|z r]; [contradiction|]. exists z, r. split; auto. destruct R as [->| ->]; vodd. }
  destruct (reference_schema d rf o2 rest RF S O) as (a & r & L & X).
  assert (Y : forall nm, exists a', steps (fun m => tc_rest m d tc nm) ((f :: k :: o1 ++ o2) ++ rest) a' r).
  { intros nm. eexists. unfold tc_rest. cbn [app]. do 3 (eapply steps_match; [kfalse|]). eapply steps_match; [ktrue|].
    eapply steps_next; [kneq|]. eapply steps_next; [kneq|]. rewrite <- app_assoc.
    eapply steps_bind; [eapply names_ok; eauto|]. eapply steps_bind; [exact X|apply steps_ret]. }
  rewrite <- app_assoc. split.
  - assert (Z : exists nm, steps (fun _ => tc_name d) (oc ++ (f :: k :: o1 ++ o2) ++ rest) nm ((f :: k :: o1 ++ o2) ++ rest)).
    { unfold tc_name. inversion E as [|k' t l' KK Q M|k' t KK T]; subst; cbn [app].
      - eexists. eapply steps_match; [kfalse|]. apply steps_ret.
      - injection Q as <- <-. eexists. eapply steps_match; [exact KK|]. eapply steps_next; [kneq|].
        eapply steps_match; [exact M|]. apply steps_ret.
      - eexists. eapply steps_match; [exact KK|]. eapply steps_next; [kneq|].
        eapply steps_match; [eapply name_not; eauto|]. apply steps_const. apply convertName_ok; [eapply name_not_sym; eauto|apply T]. }
    destruct Z as [nm Z]. destruct (Y nm) as [a' Y']. exists a', r. split; auto.
    eapply steps_ext with (g := fun m => cbind (tc_name d) (tc_rest m d tc)); [intros; apply tc_split|]. eapply steps_bind; [exact Z|exact Y'].
  - inversion E; subst; cbn [app]; (do 2 eexists; split; [reflexivity|split; [ktrue|kneq]]).
Qed.

Lemma loop_left : forall n d x r1 y r, left_over d r1 ->
  (match r1 with
    | t1 :: r2 => if (t1 =? ")")%string then y = x /\ r = r1
                  else exists a r3, cnext r1 = COk a r3 /\ table_definition_loop n d (fst x) (snd x) r3 = COk y r
    | [] => table_definition_loop n d (fst x) (snd x) [] = COk y r
    end) -> spoiled (fst y).
Proof.
  intros n d x r1 y r (t & z & r0 & -> & T & O) H. cbn in H. destruct H as (a & r3 & E & H). injection E as _ <-.
  eapply loop_odd; [| | |exact O|exact H]; try (eapply name_not_sym; eauto). eapply name_not; eauto.
Qed.


Lemma loop_end : forall n d x l y r, table_definition_loop n d (fst x) (snd x) (")" :: l) = COk y r -> y = x /\ r = ")" :: l.
Proof.
  intros [|n] d x l y r H; [discriminate|]. rewrite loop_round in H. unfold loop1 in H.
  apply bind_ok in H as (b & r1 & B & H). injection B as <- <-. injection H as <- <-. auto.
Qed.

Lemma element_bad : forall d e o rest, em_element d e o -> readable_element e = false -> stop rest ->
  forall n x y r, table_definition_loop n d (fst x) (snd x) (o ++ rest) = COk y r ->
  spoiled (fst y) \/ (d = MySQL /\ is_index e = true /\ y = x /\ r = ")" :: rest).
Proof.
  intros d e o rest E S R n x y r H. inversion E as [c o' EC|nm b oc ob CN EB]; subst.
  - left. destruct (column_schema d c o rest EC S R) as (a & r1 & L & X). inversion EC as [nm ty cn is ot oc oi hs key N T CN IS K ND]; subst.
    cbn [app] in *. apply loop_first in H as (k & y1 & r2 & _ & H1 & H); [|eapply name_not_sym; eauto].
    unfold round in H1. apply bind_ok in H1 as (b & r3 & B & H1). unfold cmatch in B. injection B as B <-.
    rewrite (name_not d nm) in B; auto. subst b. apply bind_ok in H1 as (c & r3 & H1 & H2). injection H2 as <- <-.
    destruct (steps_det _ _ (fun n => column_mono n d) _ _ _ _ _ _ H1 X) as [-> ->].
    eapply loop_left; eauto.
  - cbn [readable_element] in S. destruct b as [| | |cols rf| |]; try discriminate; cbn [readable_body] in S.
    + left. destruct (foreign_schema d nm cols rf oc ob rest (snd x) CN EB S R) as [(a & r1 & L & X) (t & l & Q & M & NR)].
      rewrite Q in *. apply loop_first in H as (k & y1 & r2 & _ & H1 & H); auto.
      unfold round in H1. apply bind_ok in H1 as (b & r3 & B & H1). unfold cmatch in B. injection B as B <-.
      unfold table_words in M. rewrite M in B. subst b. apply bind_ok in H1 as (c & r3 & H1 & H2). injection H2 as <- <-.
      destruct (steps_det _ _ (fun n => tconstraint_mono n d (snd x)) _ _ _ _ _ _ H1 X) as [-> ->].
      eapply loop_left; eauto.
    + inversion EB as [| | | | |ob' D O]; subst ob'. subst d. rewrite <- app_assoc in H.
      assert (RB : forall tc name k, tc_rest k MySQL tc name (")" :: rest) = COk tc (")" :: rest)) by reflexivity.
      assert (RN : forall t tc name k l, name_tok MySQL t -> tc_rest k MySQL tc name (t :: l) = COk tc (t :: l)).
      { intros t tc name k l T. unfold tc_rest, cbind, cmatch.
        repeat (rewrite (name_not MySQL t) by auto). reflexivity. }
      inversion CN as [|k t l' KK Q M|k t KK T]; subst; cbn [app] in H.
      * destruct O as [->|(t & T & ->)]; cbn [app] in H.
        -- right. apply loop_end in H as [-> ->]. auto.
        -- left. eapply loop_odd; [| | | |exact H]; try (eapply name_not_sym; eauto); [|vodd]. eapply name_not; eauto.
      * exfalso. destruct O as [Q|(t' & T & Q)]; injection Q as -> ->; [discriminate|].
        rewrite (name_not MySQL t') in M; auto. discriminate.
      * right. apply loop_first in H as (k' & y1 & r2 & _ & H1 & H); [|kneq].
        unfold round in H1. apply bind_ok in H1 as (b & r3 & B & H1). unfold cmatch in B. injection B as B <-.
        rewrite (kwd_is "CONSTRAINT" k) in B; [|auto|cbn; tauto]. subst b.
        apply bind_ok in H1 as (c & r3 & H1 & H2). injection H2 as <- <-.
        rewrite tc_split in H1. apply bind_ok in H1 as (name & r4 & H1 & H2).
        assert (Z : r4 = ob ++ rest).
        { unfold tc_name in H1. apply bind_ok in H1 as (b & r5 & B & H1). unfold cmatch in B. injection B as B <-.
          unfold kwd in KK. rewrite KK in B. subst b. apply bind_ok in H1 as (b & r5 & B & H1).
          rewrite cnext_tok in B by kneq. injection B as _ <-.
          apply bind_ok in H1 as (b' & r5 & B & H1). unfold cmatch in B. injection B as B <-.
          rewrite (name_not MySQL t) in B by auto. subst b'.
          rewrite convertName_ok in H1; [|eapply name_not_sym; eauto|apply T]. now injection H1 as _ <-. }
        subst r4. destruct O as [->|(t' & T' & ->)]; cbn [app] in H2.
        -- rewrite RB in H2. injection H2 as <- <-. cbn in H. destruct H as [-> ->]. destruct x; auto.
        -- rewrite RN in H2 by auto. injection H2 as <- <-. cbn [app] in H.
           destruct (t' =? ")")%string eqn:Q; [apply String.eqb_eq in Q; exfalso; eapply name_not_sym with (w := ")") (t := t'); eauto|].
           destruct H as (a & r3 & E1 & H). rewrite cnext_tok in E1 by (eapply name_not_sym; eauto). injection E1 as <- <-.
           apply loop_end with (x := (fst x, snd x)) in H as [-> ->]. destruct x; auto.
Qed.

(** ** The elements of a table *)
Lemma bad_head : forall d e o, em_element d e o -> readable_element e = false -> exists t l, o = t :: l /\ t <> ",".
Proof.
  intros d e o E S. inversion E as [c o' EC|nm b oc ob CN EB]; subst.
  - inversion EC; subst. do 2 eexists. split; [reflexivity|]. eapply name_not_sym; eauto.
  - cbn [readable_element] in S. inversion CN as [|k t l' KK Q M|k t KK T]; subst; cbn [app];
      [|do 2 eexists; (split; [reflexivity|kneq])..].
    inversion EB as [| | |f k cols' o1 r' o2 F K N RF| |ob' D O]; subst; try discriminate; cbn [app].
    + do 2 eexists. split; [reflexivity|kneq].
    + destruct O as [->|(t & T & ->)]; do 2 eexists; (split; [reflexivity|]); [discriminate|eapply name_not_sym; eauto].
Qed.

Definition cut (d : rdbms) (es : list a_element) (x y : list column * Types.table_constraint) (r rest : list string) : Prop :=
  d = MySQL /\ exists es1 e es2, es = es1 ++ e :: es2 /\ forallb readable_element es1 = true /\ is_index e = true /\
    y = collected d (map seen_element es1) x /\
    ((es2 = [] /\ r = ")" :: ")" :: rest) \/
     exists os2, em_elements d es2 os2 /\ r = ")" :: "," :: os2 ++ ")" :: rest).

Lemma elements_bad : forall d es os, em_elements d es os -> forallb readable_element es = false ->
  forall n x y rest r, table_definition_loop n d (fst x) (snd x) (drop_commas os ++ ")" :: rest) = COk y r ->
  spoiled (fst y) \/ cut d es x y r rest.
Proof.
  intros d es os H. induction H as [e o E|e es o os E Es IH]; intros S n x y rest r X; cbn [forallb] in S.
  - rewrite andb_true_r in S. destruct (bad_head d e o E S) as (t & l & -> & N). rewrite drop_head in X by auto.
    destruct (element_bad d e (t :: l) (")" :: rest) E S (or_intror eq_refl) n x y r X) as [Y|(D & I & -> & ->)]; [now left|].
    right. split; auto. exists [], e, []. repeat split; auto. cbn [map]. now rewrite collected_nil.
  - destruct (readable_element e) eqn:RE.
    + cbn [andb] in S. destruct (silent e) eqn:SI.
      * rewrite (silent_out d e o E SI) in X. cbn [drop_commas app String.eqb Ascii.eqb Bool.eqb] in X.
        destruct (IH S n x y rest r X) as [Y|(D & es1 & e' & es2 & -> & R1 & I & Y & Z)]; [now left|].
        right. split; auto. exists (e :: es1), e', es2. cbn [forallb map]. rewrite RE.
        rewrite <- collected_cons, silent_add by auto. auto 6.
      * destruct (element_ok d e o ("," :: os ++ ")" :: rest) x E RE SI) as [P (t & l & -> & N1 & N2)]; [left; reflexivity|].
        rewrite <- app_comm_cons, drop_head in X by auto.
        replace ((t :: l ++ "," :: os) ++ ")" :: rest) with ((t :: l) ++ "," :: os ++ ")" :: rest) in X
          by (cbn [app]; now rewrite <- app_assoc).
        cbn [app] in *. apply loop_first in X as (k & y1 & r1 & _ & X1 & X); auto.
        destruct (steps_det _ _ (fun n => round_mono n d x) _ _ _ _ _ _ X1 P) as [-> ->].
        cbn [String.eqb Ascii.eqb Bool.eqb] in X. destruct X as (a & r3 & E1 & X).
        rewrite cnext_drop in E1 by discriminate. injection E1 as _ <-.
        destruct (IH S _ _ _ _ _ X) as [Y|(D & es1 & e' & es2 & -> & R1 & I & Y & Z)]; [now left|].
        right. split; auto. exists (e :: es1), e', es2. cbn [forallb map]. rewrite RE.
        rewrite <- collected_cons. auto 6.
    + destruct (bad_head d e o E RE) as (t & l & -> & N). rewrite <- app_comm_cons, drop_head in X by auto.
      replace ((t :: l ++ "," :: os) ++ ")" :: rest) with ((t :: l) ++ "," :: os ++ ")" :: rest) in X
        by (cbn [app]; now rewrite <- app_assoc).
      destruct (element_bad d e (t :: l) ("," :: os ++ ")" :: rest) E RE (or_introl eq_refl) n x y r X) as [Y|(D & I & -> & ->)];
        [now left|].
      right. split; auto. exists [], e, es. cbn [map]. rewrite collected_nil. repeat split; auto. right. eauto.
Qed.

(** the first token after the commas, if EXCLUDE comes first *)
Lemma first_token : forall d es os, em_elements d es os -> d <> MySQL -> exists k z l,
  os ++ [")"] = repeat "," k ++ z :: l /\ z <> "," /\ (first_ok es = false -> 1 <= k) /\
  (odd z \/ (exists c cs, columns_of d es = c :: cs /\ col_name c = unquote d z)).
Proof.
  intros d es os H D.
  assert (X : forall e o l, em_element d e o -> silent e = false -> exists z l', o ++ l = z :: l' /\ z <> "," /\
    (odd z \/ (exists c, e = EColumn c /\ unquote d (ac_name c) = unquote d z))).
  { intros e o l E S. inversion E as [c o' EC|nm b oc ob CN EB]; subst.
    - inversion EC; subst. cbn [app]. do 2 eexists. split; [reflexivity|]. split; [eapply name_not_sym; eauto|]. right. eauto.
    - inversion CN as [|k t l' KK Q M|k t KK T]; subst; cbn [app];
        [|do 2 eexists; (split; [reflexivity|split; [kneq|left; kodd]])..].
      inversion EB; subst; try contradiction; try discriminate; cbn [app];
        do 2 eexists; (split; [reflexivity|split; [kneq|left; kodd]]). }
  induction H as [e o E|e es o os E Es IH].
  - destruct (silent e) eqn:SI.
    + rewrite (silent_out d e o E SI). exists 0, ")", []. repeat split; try discriminate. left. vodd.
    + destruct (X e o [")"] E SI) as (z & l' & Q & N & Z). exists 0, z, l'. repeat split; auto; [discriminate|].
      destruct Z as [Z|(c & -> & Z)]; [now left|]. right. exists (column_of d c), []. split; auto.
  - destruct (silent e) eqn:SI.
    + rewrite (silent_out d e o E SI). destruct IH as (k & z & l & Q & N & _ & Z).
      exists (S k), z, l. cbn [app repeat]. rewrite Q. repeat split; auto; [lia|].
      destruct Z as [Z|(c & cs & Z1 & Z2)]; [now left|]. right. exists c, cs. split; auto.
      unfold columns_of in *. cbn [flat_map]. destruct e; [discriminate|]. exact Z1.
    + destruct (X e o ("," :: os ++ [")"]) E SI) as (z & l' & Q & N & Z). exists 0, z, l'.
      rewrite <- app_assoc. cbn [app repeat]. repeat split; auto.
      * cbn [first_ok]. destruct es; [discriminate|]. rewrite SI. discriminate.
      * destruct Z as [Z|(c & -> & Z)]; [now left|]. right. exists (column_of d c), (columns_of d es). split; auto.
Qed.

Lemma first_bad : forall d es os, em_elements d es os -> first_ok es = false ->
  forall n y rest r, table_definition_loop n d [] zero_tc (os ++ ")" :: rest) = COk y r -> fst y <> columns_of d es.
Proof.
  intros d es os H F n y rest r X.
  assert (D : d <> MySQL).
  { intros ->. inversion H as [|e es' o os' E Es]; subst; [discriminate|]. destruct es'; [inversion Es|].
    cbn [first_ok] in F. apply negb_false_iff in F. destruct e as [|[] []]; try discriminate.
    inversion E; subst. match goal with K : em_body _ BNone _ |- _ => inversion K; discriminate end. }
  destruct (first_token d es os H D) as (k & z & l & Q & N & K & Z). specialize (K F). destruct k as [|k]; [lia|].
  replace (os ++ ")" :: rest) with (repeat "," (S k) ++ z :: l ++ rest) in X.
  2:{ change (")" :: rest) with ([")"] ++ rest). rewrite app_assoc, Q, <- app_assoc. reflexivity. }
  change (repeat "," (S k)) with ("," :: repeat "," k) in X. cbn [app] in X.
  change zero_tc with (snd (@nil column, zero_tc)) in X. change (@nil column) with (fst (@nil column, zero_tc)) in X at 1.
  apply loop_first in X as (k' & y1 & r1 & _ & X1 & X); [|discriminate].
  unfold round in X1. apply bind_ok in X1 as (b & r2 & B & X1). injection B as <- <-.
  cbn in X1.
  change (("," :: repeat "," k ++ z :: l ++ rest)) with (repeat "," (S k) ++ z :: l ++ rest) in X1.
  apply bind_ok in X1 as (c & r3 & X1 & X2). injection X2 as <- _. apply column_comma in X1 as [CN CO]; auto.
  apply loop_rest in X as [m E]. cbn [fst app] in E. rewrite E.
  intros Y. pose proof (columns_real d es os H) as R. rewrite <- Y in R. inversion R as [|c' m' R1 R2]; subst.
  destruct Z as [Z|(c0 & cs & Z1 & Z2)]; [now apply R1, CO|].
  rewrite Z1 in Y. injection Y as <- _. rewrite CN in Z2.
  unfold unquote in Z2. destruct (quoted (name_quotes d) z) eqn:QT; [|now subst z].
  apply R1, CO, quoted_odd. unfold quoted in *. destruct z as [|a z]; [discriminate|].
  destruct d; cbn in QT |- *; try discriminate; repeat rewrite orb_true_iff in *; tauto.
Qed.
