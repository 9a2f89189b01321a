(** C78: the JSON text follows the grammar of JSON. *)
From Coq Require Import String Ascii NArith ZArith List Bool Arith Lia.
From Verif Require Import GoStr GoNum Types Utf8 Scan Spec JsonGrammar Json JsonFacts JsonResult LexicalFacts.
Import ListNotations.
Open Scope nat_scope.
Open Scope string_scope.

Lemma escapes_shape : forall r e s, In (r, e) escapes -> json_chars s -> json_chars (e ++ s).
Proof.
  intros r e s I H. unfold escapes in I. apply in_app_or in I as [I|I].
  - unfold short_escapes in I. cbn [In] in I.
    repeat (destruct I as [I|I]; [injection I as _ <-; refine (jc_short _ _ _ H); unfold one_char; cbn; tauto|]). contradiction.
  - apply in_map_iff in I as (x & E & I). injection E as _ <-.
    assert (D : forallb (fun x => (x <? 65536)%N) long_escapes = true) by (vm_compute; reflexivity). rewrite forallb_forall in D. specialize (D x I). apply N.ltb_lt in D.
    assert (K : forall n, (n < 16)%N -> exists c, hex_digit n = String c "" /\ one_char "0123456789abcdefABCDEF" c).
    { intros n L. assert (M : In n [0; 1; 2; 3; 4; 5; 6; 7; 8; 9; 10; 11; 12; 13; 14; 15]%N) by (cbn; lia). cbn in M. unfold one_char.
      repeat (destruct M as [<-|M]; [eexists; split; [reflexivity|cbn; tauto]|]). contradiction. }
    unfold rune in *. unfold unicode_escape.
    destruct (K (x / 4096)%N) as (a & -> & A); [apply N.div_lt_upper_bound; lia|].
    destruct (K (x / 256 mod 16)%N) as (b & -> & B); [now apply N.mod_lt|].
    destruct (K (x / 16 mod 16)%N) as (c & -> & C); [now apply N.mod_lt|].
    destruct (K (x mod 16)%N) as (d & -> & F); [now apply N.mod_lt|].
    refine (jc_hex a b c d s _ H). repeat (apply Forall_cons; [assumption|]). apply Forall_nil.
Qed.
Lemma must_escape : forall r, (r < 32)%N \/ r = 34%N \/ r = 92%N -> exists e, In (r, e) escapes.
Proof.
  assert (A : forallb (fun k => existsb (fun x => (fst x =? N.of_nat k)%N) escapes) (34 :: 92 :: seq 0 32) = true) by (vm_compute; reflexivity).
  rewrite forallb_forall in A. intros r H. specialize (A (N.to_nat r)). rewrite N2Nat.id in A.
  assert (I : In (N.to_nat r) (34 :: 92 :: seq 0 32)).
  { unfold rune in *. destruct H as [H|[->| ->]]; [right; right; apply in_seq; lia|left; reflexivity|right; left; reflexivity]. }
  apply A, existsb_exists in I as ([r' e] & J & E). apply N.eqb_eq in E. cbn in E. subst. eauto.
Qed.
Lemma body_shape : forall rs, scalars rs -> json_chars (body rs).
Proof.
  intros rs S. induction S as [|r rs R S IH]; [constructor|]. change (body (r :: rs)) with (escape r ++ body rs).
  destruct (escape_cases r) as [(e & I & ->)|(-> & N)]; [eapply escapes_shape; eauto|].
  assert (M : forall P : Prop, ((r < 32)%N \/ r = 34%N \/ r = 92%N) -> P) by (intros P X; destruct (must_escape r X) as [e I]; destruct (N e I)).
  apply jc_plain; [exact R| | | |exact IH].
  - destruct (N.le_gt_cases 32 r) as [L|L]; [exact L|]. apply M. now left.
  - intros X. apply M. auto.
  - intros X. apply M. auto.
Qed.
Lemma string_shape : forall s, json_string (string_text s).
Proof. intros s. exists (body (runes_of s)). split; [apply string_text_eq|apply body_shape, runes_scalars]. Qed.
Lemma write_shape : forall j, good j -> json_text (write j).
Proof.
  apply good_ind2; cbn [write].
  - apply jt_word. cbn. auto.
  - intros b. apply jt_word. destruct b; cbn; auto.
  - intros s _ _ J. now apply jt_number.
  - intros s _. apply jt_string, string_shape.
  - intros [|x l] F; [exact jt_array_empty|]. apply jt_array. revert x F.
    induction l as [|y l IH]; intros x F; inversion F as [|? ? [_ X] F']; subst; [now apply el_one|].
    change (separated (map write (x :: y :: l))) with (write x ++ "," ++ separated (map write (y :: l))). apply el_more; auto.
  - intros [|x l] F; [exact jt_object_empty|]. apply jt_object. set (w := fun m => string_text (fst m) ++ ":" ++ write (snd m)). revert x F.
    induction l as [|y l IH]; intros x F; inversion F as [|? ? (_ & _ & X) F']; subst; [apply me_one; [apply string_shape|exact X]|].
    change (separated (map w (x :: y :: l))) with (w x ++ "," ++ separated (map w (y :: l))). apply me_more; auto. apply string_shape.
Qed.
Theorem marshal_shape : forall ddl d ts s, accepted ddl d ts -> marshals ts s -> json_text s.
Proof.
  intros ddl d ts s A (js & F & ->). apply write_shape, good_array. pose proof (result_valid _ _ _ A) as V. clear A.
  induction F; inversion V; subst; constructor; auto. eapply good_table; eauto.
Qed.
