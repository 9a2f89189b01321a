(** C77: the characters of the JSON text. *)
From Coq Require Import String Ascii NArith ZArith List Bool Arith Lia.
From Verif Require Import GoStr GoNum Types Utf8 Scan Spec Json JsonFacts JsonResult LexicalFacts.
Import ListNotations.
Open Scope nat_scope.
Open Scope string_scope.

(** A character that can stand in a line of a script element of an HTML page: no control character, none of < > & and no line
    separator of JavaScript. *)
Definition harmless (r : rune) : Prop := is_scalar r = true /\ (32 <= r)%N /\ ~ In r [60; 62; 38; 8232; 8233]%N.
Definition plain_text (s : string) : Prop := exists rs, s = utf8 rs /\ Forall harmless rs.

Lemma plain_app : forall a b, plain_text a -> plain_text b -> plain_text (a ++ b).
Proof. intros a b (x & -> & X) (y & -> & Y). exists (x ++ y)%list. split; [symmetry; apply utf8_app|apply Forall_app; auto]. Qed.
Definition harmless_byte (c : ascii) : bool :=
  let r := N_of_ascii c in (32 <=? r)%N && (r <? 128)%N && negb (existsb (N.eqb r) [60; 62; 38]%N).
Lemma byte_rune : forall c, (N_of_ascii c < 128)%N -> utf8 [N_of_ascii c] = String c "".
Proof.
  intros c H. cbn [utf8]. unfold utf8_rune. unfold is_scalar. replace (N_of_ascii c <? 55296)%N with true by (symmetry; apply N.ltb_lt; lia).
  cbn [orb]. replace (N_of_ascii c <? 128)%N with true by (symmetry; now apply N.ltb_lt). cbn. unfold byte. now rewrite ascii_N_embedding.
Qed.
Lemma plain_bytes : forall s, forallb harmless_byte (list_ascii_of_string s) = true -> plain_text s.
Proof.
  induction s as [|c s IH]; intros H; [now exists []|]. cbn [list_ascii_of_string forallb] in H. apply andb_true_iff in H as [H1 H2].
  change (String c s) with (String c "" ++ s). apply plain_app; [|auto]. unfold harmless_byte in H1. cbv zeta in H1.
  apply andb_true_iff in H1 as [H1 H3]. apply andb_true_iff in H1 as [H1 H4]. apply N.leb_le in H1. apply N.ltb_lt in H4. apply negb_true_iff in H3.
  exists [N_of_ascii c]. split; [now rewrite byte_rune|]. constructor; [|constructor]. split; [|split; auto].
  - unfold is_scalar. apply orb_true_iff. left. apply N.ltb_lt. lia.
  - intros I. assert (X : existsb (N.eqb (N_of_ascii c)) [60; 62; 38]%N = true); [|congruence].
    apply existsb_exists. exists (N_of_ascii c). split; [|apply N.eqb_refl]. destruct I as [I|[I|[I|[I|[I|[]]]]]]; rewrite <- I in *; cbn; auto; lia.
Qed.
Ltac bytes := apply plain_bytes; reflexivity.

Lemma escapes_plain : forall r e, In (r, e) escapes -> plain_text e.
Proof.
  intros r e I. apply plain_bytes. assert (A : forallb (fun x => forallb harmless_byte (list_ascii_of_string (snd x))) escapes = true) by (vm_compute; reflexivity).
  rewrite forallb_forall in A. exact (A _ I).
Qed.
(** every character that must be escaped is *)
Lemma escaped : forall r, (r < 32)%N \/ In r [60; 62; 38; 8232; 8233]%N -> exists e, In (r, e) escapes.
Proof.
  intros r [L|I].
  - assert (A : forallb (fun k => existsb (fun x => (fst x =? N.of_nat k)%N) escapes) (seq 0 32) = true) by (vm_compute; reflexivity).
    rewrite forallb_forall in A. specialize (A (N.to_nat r)). rewrite in_seq in A. specialize (A ltac:(lia)). rewrite N2Nat.id in A.
    apply existsb_exists in A as ([r' e] & I & E). apply N.eqb_eq in E. cbn in E. subst. eauto.
  - assert (A : forallb (fun k => existsb (fun x => (fst x =? k)%N) escapes) [60; 62; 38; 8232; 8233]%N = true) by (vm_compute; reflexivity).
    rewrite forallb_forall in A. specialize (A r I). apply existsb_exists in A as ([r' e] & J & E). apply N.eqb_eq in E. cbn in E. subst. eauto.
Qed.
Lemma escape_plain : forall r, is_scalar r = true -> plain_text (escape r).
Proof.
  intros r S. destruct (escape_cases r) as [(e & I & ->)|(-> & N)]; [eapply escapes_plain; eauto|].
  exists [r]. split; [cbn [utf8]; now rewrite append_nil_r|]. constructor; [|constructor]. split; [exact S|]. split.
  - destruct (N.le_gt_cases 32 r) as [L|L]; auto. destruct (escaped r (or_introl L)) as [e I]. destruct (N e I).
  - intros I. destruct (escaped r (or_intror I)) as [e J]. destruct (N e J).
Qed.
Lemma body_plain : forall rs, scalars rs -> plain_text (body rs).
Proof. intros rs S. induction S; cbn; [bytes|]. apply plain_app; [now apply escape_plain|auto]. Qed.
Lemma string_plain : forall s, plain_text (string_text s).
Proof. intros s. rewrite string_text_eq. apply plain_app; [bytes|]. apply plain_app; [apply body_plain, runes_scalars|bytes]. Qed.
Lemma number_plain : forall s, number_chars s = true -> plain_text s.
Proof.
  intros s H. apply plain_bytes. induction s as [|c s IH]; [reflexivity|]. cbn in H. apply andb_true_iff in H as [H1 H2]. cbn [list_ascii_of_string forallb].
  rewrite IH by auto. rewrite andb_true_r. revert H1. clear. destruct c as [[] [] [] [] [] [] [] []]; vm_compute; congruence.
Qed.
Lemma separated_plain : forall l, Forall plain_text l -> plain_text (separated l).
Proof.
  induction l as [|x l IH]; intros F; [bytes|]. inversion F; subst. destruct l as [|y l]; [auto|]. cbn [separated].
  apply plain_app; [auto|]. apply plain_app; [bytes|]. now apply IH.
Qed.
Lemma write_plain : forall j, good j -> plain_text (write j).
Proof.
  apply good_ind2; cbn [write].
  - bytes.
  - intros []; bytes.
  - intros s _ C _. now apply number_plain.
  - intros s _. apply string_plain.
  - intros l F. apply plain_app; [bytes|]. apply plain_app; [|bytes]. apply separated_plain, Forall_map. eapply Forall_impl; [|exact F]. intros j [_ P]. exact P.
  - intros l F. apply plain_app; [bytes|]. apply plain_app; [|bytes]. apply separated_plain, Forall_map. eapply Forall_impl; [|exact F].
    intros m (_ & _ & P). apply plain_app; [apply string_plain|]. apply plain_app; [bytes|exact P].
Qed.
Theorem marshal_plain : forall ddl d ts s, accepted ddl d ts -> marshals ts s -> plain_text s.
Proof.
  intros ddl d ts s A (js & F & ->). apply write_plain, good_array. pose proof (result_valid _ _ _ A) as V. clear A.
  induction F; inversion V; subst; constructor; auto. eapply good_table; eauto.
Qed.
