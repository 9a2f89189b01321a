(** The strings in the result are bounded by the text. *)
From Coq Require Import String Ascii ZArith NArith List Bool Arith Lia.
From Verif Require Import GoStr Unicode UnicodeFacts GoNum Types Lexer VBase Exec Grammar GrammarFacts Ast Converter Parse Fuel Scan Spec Pipe
  Safe Emit Conv Derive Tokens Accept Meaning NoPanic Sources SourcesFacts Utf8 Layout Lexical LexicalFacts Size.
Import ListNotations.
Open Scope nat_scope.
Open Scope string_scope.
Open Scope list_scope.

Notation len := String.length.
Lemma total_cons : forall s l, total (s :: l) = len s + total l.
Proof. reflexivity. Qed.
Lemma total_nil : total [] = 0.
Proof. reflexivity. Qed.
Lemma total_app : forall a b, total (a ++ b) = total a + total b.
Proof. intros a b. unfold total. rewrite map_app. apply list_sum_app. Qed.
Lemma len_append : forall a b, len (a ++ b)%string = len a + len b.
Proof. induction a as [|c a IH]; intros b; cbn; [reflexivity|]. now rewrite IH. Qed.
Lemma len_upper : forall s, len (to_upper s) = len s.
Proof. induction s as [|c s IH]; cbn; congruence. Qed.
Lemma len_lower : forall s, len (to_lower s) = len s.
Proof. induction s as [|c s IH]; cbn; congruence. Qed.
Lemma len_pos : forall s, s <> "" -> 1 <= len s.
Proof. intros [|c s] H; [contradiction|cbn; lia]. Qed.
Lemma matches_len : forall w t, matches [w] t = true -> len t = len w.
Proof. intros w t H. apply contains_spec in H. cbn in H. destruct H as [<-|[<-|[]]]; auto using len_upper, len_lower. Qed.
Lemma len_substring : forall n m s, len (substring n m s) <= m.
Proof.
  induction n as [|n IH]; intros m s; destruct s as [|c s]; cbn; destruct m; cbn; try lia.
  - generalize m. clear. intros m. revert s. induction m as [|m IH]; intros [|c s]; cbn; try lia. specialize (IH s). lia.
  - apply IH.
  - apply IH.
Qed.
Lemma len_slice : forall t s, slice_inner t = Some s -> len s <= len t.
Proof.
  intros t s H. unfold slice_inner in H. destruct (len t) as [|[|k]] eqn:E; try discriminate. injection H as <-.
  pose proof (len_substring 1 k t). lia.
Qed.

(** ** The weight of tokens *)

(** The longer of a token and its upper case: a type is reported in upper case. *)
Definition mu (t : string) : nat := Nat.max (len t) (len (go_upper t)).
Definition weight (l : list string) : nat := list_sum (map mu l).
Lemma weight_cons : forall s l, weight (s :: l) = mu s + weight l.
Proof. reflexivity. Qed.
Lemma weight_nil : weight [] = 0.
Proof. reflexivity. Qed.
Lemma weight_app : forall a b, weight (a ++ b) = weight a + weight b.
Proof. intros a b. unfold weight. rewrite map_app. apply list_sum_app. Qed.
Lemma mu_len : forall t, len t <= mu t.
Proof. intros t. unfold mu. lia. Qed.
Lemma mu_upper : forall t, len (go_upper t) <= mu t.
Proof. intros t. unfold mu. lia. Qed.

(** ** The tokens of the text *)

Definition width (rs : list rune) : nat := len (utf8 rs).
Lemma width_cons : forall c rs, width (c :: rs) = width [c] + width rs.
Proof. intros. unfold width. cbn [utf8]. rewrite !len_append. cbn. lia. Qed.
Lemma width_app : forall a b, width (a ++ b) = width a + width b.
Proof.
  induction a as [|c a IH]; intros b; [reflexivity|]. cbn [app]. rewrite (width_cons c (a ++ b)), (width_cons c a), IH. lia.
Qed.
Lemma width_tail : forall c rs, width rs <= width (c :: rs).
Proof. intros. rewrite (width_cons c rs). lia. Qed.
(** The length of a text, each character in the longer of its two cases. *)
Definition reach (c : rune) : nat := Nat.max (width [c]) (width [upper_rune c]).
Definition span (rs : list rune) : nat := list_sum (map reach rs).
Lemma span_cons : forall c rs, span (c :: rs) = reach c + span rs.
Proof. reflexivity. Qed.
Lemma span_app : forall a b, span (a ++ b) = span a + span b.
Proof. intros a b. unfold span. rewrite map_app. apply list_sum_app. Qed.
Lemma span_tail : forall c rs, span rs <= span (c :: rs).
Proof. intros. rewrite span_cons. lia. Qed.
Lemma span_width : forall rs, width rs <= span rs /\ width (map upper_rune rs) <= span rs.
Proof.
  induction rs as [|c rs [IH1 IH2]]; [cbn; lia|]. cbn [map]. rewrite (width_cons c rs), (width_cons (upper_rune c)), span_cons. unfold reach. lia.
Qed.
Lemma mu_span : forall rs, scalars rs -> mu (utf8 rs) <= span rs.
Proof.
  intros rs S. destruct (span_width rs) as [A B]. unfold mu, go_upper. fold (width rs). destruct (is_ascii (utf8 rs)).
  - rewrite len_upper. fold (width rs). lia.
  - rewrite runes_of_utf8 by auto. fold (width (map upper_rune rs)). lia.
Qed.
(** A rune that cannot be encoded is written as U+FFFD. *)
Definition written (c : rune) : rune := if is_scalar c then c else 65533%N.
Lemma written_scalar : forall rs, scalars (map written rs).
Proof. induction rs as [|c rs IH]; constructor; [unfold written; now destruct (is_scalar c) eqn:E|exact IH]. Qed.
Lemma written_utf8 : forall rs, utf8 (map written rs) = utf8 rs.
Proof.
  induction rs as [|c rs IH]; [reflexivity|]. cbn [map utf8]. rewrite IH. f_equal. unfold written. destruct (is_scalar c) eqn:E; [reflexivity|].
  unfold utf8_rune at 2. now rewrite E.
Qed.
Lemma written_reach : forall c, reach (written c) <= reach c.
Proof.
  intros c. unfold written. destruct (is_scalar c) eqn:E; [lia|]. apply Nat.le_trans with 3; [vm_compute; lia|].
  assert (W : width [c] = 3) by (unfold width; cbn [utf8]; unfold utf8_rune; rewrite E; reflexivity). unfold reach. lia.
Qed.
Lemma mu_text : forall rs, mu (utf8 rs) <= span rs.
Proof.
  intros rs. rewrite <- written_utf8. eapply Nat.le_trans; [apply mu_span, written_scalar|].
  induction rs as [|c rs IH]; [auto|]. cbn [map]. rewrite !span_cons. pose proof (written_reach c). lia.
Qed.
Lemma reach_le : forall c, is_scalar c = true -> 2 * reach c <= 3 * width [c].
Proof.
  intros c S. assert (E : forall r, width [r] = len (utf8_rune r)) by (intros r; unfold width; cbn [utf8]; rewrite len_append; cbn; lia).
  pose proof (upper_rune_length c S). unfold reach. rewrite !E. lia.
Qed.
Lemma span_le : forall rs, scalars rs -> 2 * span rs <= 3 * width rs.
Proof.
  induction rs as [|c rs IH]; intros S; [cbn; lia|]. inversion S as [|? ? S1 S2]; subst. rewrite (width_cons c rs), span_cons.
  pose proof (reach_le c S1). specialize (IH S2). lia.
Qed.
Definition words (l : list string) : list string := filter (fun t => negb (line_break =? t)%string) l.
Lemma words_app : forall a b, words (a ++ b) = words a ++ words b.
Proof. intros. unfold words. apply filter_app. Qed.
Lemma words_le : forall l, weight (words l) <= weight l.
Proof. induction l as [|t l IH]; [auto|]. unfold words. cbn [filter]. destruct (negb _); rewrite ?weight_cons; unfold words in IH; lia. Qed.
Lemma words_breaks : forall n, words (repeat line_break n) = [].
Proof. induction n; auto. Qed.
Lemma quotation_width : forall q body n s, quotation q body n s -> span s <= span body.
Proof.
  intros q body n s H. induction H as [q|q body n s H IH|q c body n s N M H IH|q c body n s x body' n' s' N M H IH H' IH'].
  - lia.
  - rewrite (span_cons nl body). lia.
  - rewrite (span_cons c body), (span_cons c s). lia.
  - rewrite (span_cons c (body ++ x :: body')), (span_cons c (s ++ s')), !span_app, (span_cons x body'). lia.
Qed.
Lemma words_cons : forall t l, weight (words (t :: l)) <= mu t + weight (words l).
Proof. intros t l. change (t :: l) with ([t] ++ l). rewrite words_app, weight_app. pose proof (words_le [t]) as X. rewrite weight_cons, weight_nil in X. lia. Qed.
Lemma words_break : forall l, words (line_break :: l) = words l.
Proof. reflexivity. Qed.
Lemma reads_width : forall d fresh rs r, reads d fresh rs r -> forall toks, r = Tokens toks -> weight (words toks) <= span rs.
Proof.
  intros d fresh rs r H.
  induction H; intros toks E; try discriminate E;
    try (injection E as <-; cbn; lia);
    try (destruct r as [l'|]; [|discriminate E]; injection E as <-; specialize (IHreads _ eq_refl); cbn [app]).
  - rewrite span_cons. lia.
  - rewrite words_break, span_cons. lia.
  - eapply Nat.le_trans; [apply words_cons|]. pose proof (mu_text [c]) as X. rewrite span_cons in X |- *. cbn [utf8] in X. change (span []) with 0 in X. lia.
  - eapply Nat.le_trans; [apply words_cons|]. rewrite span_app. match goal with |- mu (utf8 ?w) + _ <= _ => pose proof (mu_text w) end. lia.
  - rewrite <- app_assoc, words_app, words_breaks. cbn [app]. eapply Nat.le_trans; [apply words_cons|].
    apply quotation_width in H0. rewrite (span_cons q (body ++ rest)), span_app. match goal with |- mu ?t + _ <= _ => pose proof (mu_text (q :: s)) as X end. rewrite (span_cons q s) in X. cbn [utf8] in *. lia.
  - rewrite words_break. do 2 (eapply Nat.le_trans; [|apply span_tail]). rewrite span_app. pose proof (span_tail nl rest). lia.
  - rewrite words_break. eapply Nat.le_trans; [|apply span_tail]. rewrite span_app. pose proof (span_tail nl rest). lia.
  - rewrite words_app, words_breaks. cbn [app]. do 2 (eapply Nat.le_trans; [|apply span_tail]). rewrite span_app.
    pose proof (span_tail aster (slash :: rest)). pose proof (span_tail slash rest). lia.
Qed.
Lemma tokens_width : forall d ddl l, tokens d ddl l -> weight l <= span (runes_of ddl).
Proof.
  intros d ddl l (n & toks & L & ->). assert (X : lexes d ddl toks) by (now exists n). apply lexes_reads in X.
  pose proof (reads_width _ _ _ _ X _ eq_refl) as Y. rewrite strip_words. exact Y.
Qed.
Lemma width_rune : forall c, width [c] <= 4.
Proof. intros c. unfold width, utf8, utf8_rune. repeat match goal with |- context [if ?b then _ else _] => destruct b end; cbn; lia. Qed.
Lemma width_1 : forall c, (c < 128)%N -> width [c] = 1.
Proof.
  intros c H. unfold width, utf8, utf8_rune, is_scalar. assert (X : (c <? 55296)%N = true) by (apply N.ltb_lt; lia).
  rewrite X. cbn [orb]. apply N.ltb_lt in H. now rewrite H.
Qed.
(** A byte that is no character is read as U+FFFD, which has three bytes and no upper case. *)
Lemma reach_6 : forall c, reach c <= 6.
Proof. intros c. unfold reach. pose proof (width_rune c). pose proof (width_rune (upper_rune c)). lia. Qed.
Lemma reach_1 : forall c, (c < 128)%N -> reach c = 1.
Proof.
  intros c H. assert (U : (upper_rune c < 128)%N) by (unfold upper_rune; destruct (N.ltb_spec c 128); [|lia]; destruct (_ && _)%bool; lia).
  assert (A : width (@cons rune c nil) = 1) by exact (width_1 c H). assert (B : width (@cons rune (upper_rune c) nil) = 1) by exact (width_1 _ U).
  unfold reach. now rewrite A, B.
Qed.
Lemma span_runes : forall ddl, span (runes_of ddl) <= 3 * len ddl.
Proof.
  assert (W : forall rs, span (@cons rune 65533%N rs) = 3 + span rs) by (intros rs; exact (span_cons 65533%N rs)).
  fix IH 1. intros [|b0 s1]; [cbn; lia|]. cbn [runes_of].
  destruct (N_of_ascii b0 <? 128)%N eqn:E0.
  { apply N.ltb_lt in E0. rewrite span_cons, reach_1 by auto. pose proof (IH s1). cbn [len]. lia. }
  assert (Z : span (65533%N :: runes_of s1) <= 3 * len (String b0 s1)) 
    by (eapply Nat.le_trans; [apply Nat.eq_le_incl; exact (W (runes_of s1))|]; pose proof (IH s1); cbn [len]; lia).
  destruct (in_range _ _ b0).
  { destruct s1 as [|b1 s2]; auto. destruct (in_range _ _ b1); auto. rewrite span_cons.
    pose proof (reach_6 ((N_of_ascii b0 - 192) * 64 + low6 b1)%N). pose proof (IH s2). cbn [len]. lia. }
  destruct (in_range _ _ b0).
  { destruct s1 as [|b1 [|b2 s3]]; auto. match goal with |- context [if ?b then _ else _] => destruct b end; auto. rewrite span_cons.
    match goal with |- context [reach ?c] => pose proof (reach_6 c) end. pose proof (IH s3). cbn [len]. lia. }
  destruct (in_range _ _ b0).
  { destruct s1 as [|b1 [|b2 [|b3 s4]]]; auto. match goal with |- context [if ?b then _ else _] => destruct b end; auto. rewrite span_cons.
    match goal with |- context [reach ?c] => pose proof (reach_6 c) end. pose proof (IH s4). cbn [len]. lia. }
  exact Z.
Qed.

(** ** The tokens handed to the converter *)

(** [b] times the length of what is handed on is at most [a] times the length of the tokens, and this number. *)
Open Scope Z_scope.
Fixpoint shortest (ws : list string) : nat := match ws with [] => 1000 | [w] => len w | w :: ws => Nat.min (len w) (shortest ws) end.
Fixpoint gain {A} (a b : Z) (g : gr A) : Z :=
  match g with
  | Put o => b * Z.of_nat (weight o)
  | One false (CW ws) => - (a * Z.of_nat (shortest ws))
  | Eps | One _ _ | NotNext _ | IsNext _ | Brackets _ | Skip | While _ _ | WhileU _ _ _ => 0
  | SepBy _ g | Map _ g => gain a b g
  | Seq g h => gain a b g + gain a b h
  | Cond _ g h => Z.max (gain a b g) (gain a b h)
  end.
Fixpoint pays {A} (a b : Z) (g : gr A) : bool :=
  match g with
  | Eps | Put _ | One _ _ | NotNext _ | IsNext _ | Brackets _ | Skip => true
  | Seq g h | Cond _ g h => pays a b g && pays a b h
  | Map _ g => pays a b g
  | While _ g | WhileU _ _ g | SepBy _ g => pays a b g && (gain a b g <=? 0)
  end.
Lemma shortest_le : forall ws t, matches ws t = true -> (shortest ws <= len t)%nat.
Proof.
  intros ws t H. apply contains_spec, in_app_iff in H.
  assert (X : exists w, In w ws /\ len w = len t).
  { destruct H as [H|H]; apply in_map_iff in H as (w & <- & I); exists w; split; auto using eq_sym, len_lower, len_upper. }
  destruct X as (w & I & <-). clear H. induction ws as [|x ws IH]; [contradiction|]. destruct ws as [|y ws].
  - destruct I as [->|[]]. cbn. lia.
  - change (shortest (x :: y :: ws)) with (Nat.min (len x) (shortest (y :: ws))). destruct I as [->|I]; [lia|]. apply IH in I. lia.
Qed.
Notation wt l := (Z.of_nat (weight l)).
Lemma lang_gain : forall a b, 0 <= b <= a -> forall A (g : gr A), pays a b g = true ->
  forall l nxt o v, lang g l nxt o v -> b * wt o <= a * wt l + gain a b g.
Proof.
  intros a b AB.
  assert (K : forall l, b * wt l <= a * wt l) by (intros; nia).
  assert (KK : forall k l, b * wt (kept k l) <= a * wt l) by (intros [] l; cbn [kept]; [apply K|rewrite weight_nil; nia]).
  assert (ST : forall A (L : list string -> option string -> list string -> A -> Prop) c,
    c <= 0 -> (forall l nxt o v, L l nxt o v -> b * wt o <= a * wt l + c) ->
    forall l nxt o vs hs, star L l nxt o vs hs -> b * wt o <= a * wt l).
  { intros A L c C H l nxt o vs hs S. induction S as [|t l1 l2 nxt o1 o2 v vs hs H1 H2 IH]; [rewrite weight_nil; lia|].
    apply H in H1. rewrite app_comm_cons, !weight_app. lia. }
  induction g; cbn [pays gain lang]; intros P l nxt o val H.
  - destruct H as [-> ->]. rewrite weight_nil. lia.
  - destruct H as [-> ->]. rewrite weight_nil. lia.
  - destruct H as (M & -> & ->). pose proof (KK keep [val]) as X. destruct keep; [destruct c; lia|].
    destruct c as [ws|d| |d|d]; try lia. cbn [kept]. rewrite weight_nil, weight_cons, weight_nil.
    apply shortest_le in M. pose proof (mu_len val). nia.
  - destruct H as (-> & -> & _). rewrite weight_nil. lia.
  - destruct H as (-> & -> & _). rewrite weight_nil. lia.
  - destruct H as (l1 & _ & _ & -> & _). pose proof (KK keep l). lia.
  - destruct H as (_ & -> & _). rewrite weight_nil. nia.
  - apply andb_true_iff in P as [P1 P2]. destruct H as (l1 & l2 & o1 & o2 & -> & -> & H1 & H2).
    apply IHg1 in H1; auto. apply IHg2 in H2; auto. rewrite !weight_app. lia.
  - destruct H as (x & _ & H). eauto.
  - apply andb_true_iff in P as [P1 P2]. destruct H as [H|H]; [apply IHg1 in H|apply IHg2 in H]; auto; lia.
  - apply andb_true_iff in P as [P1 P2]. apply Z.leb_le in P2. destruct H as (hs & S). eapply ST in S; eauto. lia.
  - apply andb_true_iff in P as [P1 P2]. apply Z.leb_le in P2. destruct H as (hs & S & _). eapply ST in S; eauto. lia.
  - apply andb_true_iff in P as [P1 P2]. apply Z.leb_le in P2.
    induction H as [l nxt o v H|l1 l2 nxt o1 o2 v vs H1 H2 IH]; eauto.
    apply IHg in H1; auto. change ("," :: l2) with ([","] ++ l2). pose proof (KK keep [","]). rewrite !weight_app. lia.
Qed.
Definition factor (d : rdbms) : Z * Z := match d with MySQL => (10, 3) | _ => (1, 1) end.
Lemma script_pays : forall d, pays (fst (factor d)) (snd (factor d)) (script d) = true /\ gain (fst (factor d)) (snd (factor d)) (script d) = 0.
Proof. intros []; vm_compute; auto. Qed.
Close Scope Z_scope.

(** ** The converter *)

Open Scope c_scope.
Definition full (l : list string) : Prop := Forall (fun t => t <> "") l.
Lemma full_suffix : forall r l, suffix r l -> full l -> full r.
Proof. intros r l [p ->] H. now apply Forall_app in H. Qed.
(** The size [sz] of what is read, and of what is left, exceeds what there was by [c] at most, unless all tokens are used up. *)
Definition bnd {A} (c : nat) (sz : A -> nat) (m : C A) : Prop :=
  forall l a r, full l -> m l = COk a r -> r <> [] -> sz a + weight r <= weight l + c.

Lemma bnd_bind : forall A B c (s1 : A -> nat) (s2 : B -> nat) (m : C A) (f : A -> C B),
  bnd 0 s1 m -> moves m -> (forall a, moves (f a)) -> (forall a, bnd (s1 a + c) s2 (f a)) -> bnd c s2 (cbind m f).
Proof.
  intros A B c s1 s2 m f M MM MF F l b r S H N. unfold cbind in H. destruct (m l) as [a r1| |] eqn:E; try discriminate.
  assert (S1 : suffix r1 l) by (eapply MM; eauto).
  assert (S2 : suffix r r1) by (eapply MF; eauto).
  pose proof (M l a r1 S E (suffix_ne _ _ S2 N)). pose proof (F a r1 b r (full_suffix _ _ S1 S) H N). lia.
Qed.
Lemma bnd_ret : forall A c (s : A -> nat) a, s a <= c -> bnd c s (cret a).
Proof. intros A c s a H l b r S E N. injection E as <- <-. lia. Qed.
Lemma bnd_fuel : forall A c (s : A -> nat), bnd c s cfuel.
Proof. intros A c s l a r S H. discriminate. Qed.
Lemma bnd_if : forall A c s (b : bool) (m m' : C A), bnd c s m -> bnd c s m' -> bnd c s (if b then m else m').
Proof. intros A c s []; auto. Qed.
Lemma bnd_weaken : forall A c c' s s' (m : C A), c' <= c -> (forall a, s a <= s' a) -> bnd c' s' m -> bnd c s m.
Proof. intros A c c' s s' m C S H l a r F E N. pose proof (H l a r F E N). pose proof (S a). lia. Qed.
Lemma bnd_match : forall B c (s : B -> nat) ws (f : bool -> C B), (forall b, bnd c s (f b)) -> bnd c s (cbind (cmatch ws) f).
Proof. intros B c s ws f F l a r S H N. unfold cbind, cmatch in H. eapply F; eauto. Qed.
Lemma next_total : forall l t r, l <> [] -> cnext l = COk t r -> mu t + weight r <= weight l.
Proof.
  induction l as [|x l IH]; intros t r N H; [contradiction|]. cbn [cnext] in H. rewrite weight_cons. destruct (_ && _) eqn:E.
  - destruct l as [|y l]; [rewrite andb_false_r in E; discriminate|]. apply IH in H; [lia|discriminate].
  - injection H as <- <-. lia.
Qed.
Lemma next_in_list : forall l t r, l <> [] -> cnext l = COk t r -> In t l.
Proof.
  induction l as [|x l IH]; intros t r N H; [contradiction|]. cbn [cnext] in H. destruct (_ && _) eqn:E.
  - destruct l as [|y l]; [rewrite andb_false_r in E; discriminate|]. right. apply IH in H; [auto|discriminate].
  - injection H as <- <-. now left.
Qed.
Lemma bnd_next : forall B c (s : B -> nat) (f : string -> C B), (forall t, moves (f t)) ->
  (forall t, 1 <= len t <= mu t -> bnd (mu t + c) s (f t)) -> bnd c s (cbind cnext f).
Proof.
  intros B c s f MF F l b r S H N. unfold cbind in H. destruct (cnext l) as [t r1| |] eqn:E; try discriminate.
  assert (S2 : suffix r r1) by (eapply MF; eauto). pose proof (moves_next _ _ _ E) as S1.
  assert (NE : l <> []) by (eapply suffix_ne; [exact S1|eapply suffix_ne; eauto]).
  pose proof (next_total _ _ _ NE E).
  assert (P : 1 <= len t <= mu t). { split; [|apply mu_len]. apply len_pos. apply next_in_list in E; auto. unfold full in S. rewrite Forall_forall in S. auto. }
  pose proof (F t P r1 b r (full_suffix _ _ S1 S) H N). lia.
Qed.
(** ... when the result is not used *)
Lemma bnd_skip : forall B c (s : B -> nat) (m : C B), moves m -> bnd c s m -> bnd c s (cbind cnext (fun _ => m)).
Proof. intros B c s m M H. apply bnd_next; auto. intros t P. eapply bnd_weaken; [|intros; apply le_n|exact H]. lia. Qed.

Lemma bnd_step : forall A B c (s1 : A -> nat) (s2 : B -> nat) (m : C A) (f : A -> C B),
  bnd 0 s1 m -> moves m -> (forall a, moves (f a)) -> (forall a, bnd (s1 a + c) s2 (f a)) -> bnd c s2 (cbind m f).
Proof. exact bnd_bind. Qed.

Ltac bm := match goal with
  | |- bnd _ _ (cbind (cmatch _) _) => apply bnd_match; intros ?
  | |- bnd _ _ (cbind cnext (fun _ => ?m)) => apply bnd_skip; [mv|]
  | |- bnd _ _ (if _ then _ else _) => apply bnd_if
  | |- bnd _ _ cfuel => apply bnd_fuel
  | |- bnd _ _ (cret _) => apply bnd_ret
  end.

Section Sizes.
Variable d : rdbms.

Lemma bnd_name : bnd 0 len (convertName d).
Proof.
  unfold convertName. apply bnd_next; [intros; mv|]. intros t P l a r S H N. unfold cbind in H.
  destruct (isIdentifier d t l) as [b r1| |] eqn:E; try discriminate.
  assert (R : r1 = l).
  { unfold isIdentifier, cbind, c_slice01 in E. destruct (slice01 t); [|discriminate]. now injection E as _ <-. }
  subst r1. destruct b; [|injection H as <- <-; lia].
  unfold c_slice_inner in H. destruct (slice_inner t) as [s|] eqn:K; [|discriminate]. injection H as <- <-. apply len_slice in K. lia.
Qed.
Lemma total_rev : forall l, total (rev l) = total l.
Proof. induction l as [|x l IH]; [reflexivity|]. cbn [rev]. rewrite total_app, IH, !total_cons, total_nil. lia. Qed.
Lemma bnd_names : forall n, bnd 0 total (convertCommaSeparatedColumnNames n).
Proof.
  assert (X : forall n ls, bnd (total ls) total (column_names_loop n ls)).
  { induction n as [|n IH]; intros ls; cbn [column_names_loop]; [bm|].
    do 2 bm; [bm; rewrite total_rev; lia|]. do 2 bm; [now bm|].
    intros l a r S H N. unfold cbind at 1 in H. unfold ctoken in H. unfold cbind in H.
    destruct (cnext l) as [t r1| |] eqn:E; try discriminate. pose proof (moves_next _ _ _ E) as S1.
    assert (S2 : suffix r r1) by (eapply moves_names_loop; eauto).
    assert (NE : l <> []) by (eapply suffix_ne; [exact S1|eapply suffix_ne; eauto]).
    pose proof (IH _ r1 a r (full_suffix _ _ S1 S) H N) as Q. rewrite total_cons in Q.
    destruct l as [|x l]; [contradiction|].
    assert (T : mu x + weight r1 <= weight (x :: l)).
    { rewrite weight_cons. destruct S1 as [p P]. destruct p as [|y p]; cbn [app] in P.
      - exfalso. clear - E P. apply (f_equal (@length string)) in P.
        assert (Z : forall l t r, l <> [] -> cnext l = COk t r -> length r < length l).
        { induction l0 as [|z l0 IH]; intros t0 r0 NZ EZ; [contradiction|]. cbn [cnext] in EZ. destruct (_ && _) eqn:B.
          - destruct l0 as [|y l0]; [rewrite andb_false_r in B; discriminate|]. apply IH in EZ; [cbn in *; lia|discriminate].
          - injection EZ as <- <-. cbn. lia. }
        apply Z in E; [|discriminate]. lia.
      - injection P as <- ->. rewrite weight_app. lia. }
    pose proof (mu_len x). lia. }
  intros n. unfold convertCommaSeparatedColumnNames. bm.
  eapply bnd_bind; [apply (X n [])|mv|intros; mv|]. intros ls. bm. bm. lia.
Qed.
Lemma bnd_expr_aux : forall n, bnd 0 len (convertExprAux n).
Proof.
  induction n as [|n IH]; cbn [convertExprAux]; [bm|]. do 2 bm; [bm; cbn; lia|]. do 2 bm.
  - apply bnd_next; [intros; mv|]. intros o O. eapply bnd_bind; [exact IH|mv|intros; mv|]. intros e.
    apply bnd_next; [intros; mv|]. intros c O'. eapply bnd_bind; [exact IH|mv|intros; mv|]. intros r. bm. rewrite !len_append. lia.
  - apply bnd_next; [intros; mv|]. intros o O. eapply bnd_bind; [exact IH|mv|intros; mv|]. intros e. bm. rewrite !len_append. lia.
Qed.
Lemma bnd_expr : forall n, bnd 0 len (convertExpr n).
Proof.
  intros n. unfold convertExpr. apply bnd_next; [intros; mv|]. intros o O. eapply bnd_bind; [apply bnd_expr_aux|mv|intros; mv|]. intros e.
  apply bnd_next; [intros; mv|]. intros c O'. bm. rewrite !len_append. lia.
Qed.
Definition dsize (x : default_value) : nat := total (default_strings x).
Lemma bnd_literal : bnd 0 dsize (convertLiteralValue d).
Proof.
  unfold convertLiteralValue. apply bnd_next; [intros t; destruct (parse_float t); mv|]. intros t P.
  destruct (parse_float t); [bm; cbn; lia|].
  intros l a r S H N. unfold cbind in H. destruct (isStringValue d t l) as [b r1| |] eqn:E; try discriminate.
  assert (R : r1 = l).
  { unfold isStringValue, cbind, c_slice01 in E. destruct (slice01 t); [|discriminate]. now injection E as _ <-. }
  subst r1. unfold dsize. destruct b.
  - unfold c_slice_inner in H. destruct (slice_inner t) as [s|] eqn:K; [|discriminate]. injection H as <- <-. apply len_slice in K.
    cbn [default_strings]. rewrite total_cons, total_nil. lia.
  - repeat (match type of H with (if ?b then _ else _) _ = _ => destruct b end; [injection H as <- <-; cbn [default_strings]; rewrite total_nil; lia|]).
    injection H as <- <-. cbn [default_strings]. rewrite total_cons, total_nil. lia.
Qed.
Lemma bnd_default : forall n, bnd 0 dsize (convertDefaultValue n d).
Proof.
  intros n. unfold convertDefaultValue. do 2 bm; [|apply bnd_literal].
  eapply bnd_bind; [apply bnd_expr|mv|intros; mv|]. intros e. bm. unfold dsize. cbn [default_strings]. rewrite total_cons, total_nil. lia.
Qed.
Definition rsize (r : reference) : nat := total (reference_strings r).
Lemma bnd_reference : forall n, bnd 0 rsize (convertReference n d).
Proof.
  intros n. unfold convertReference. bm. eapply bnd_bind; [apply bnd_name|mv|intros; mv|]. intros x. do 2 bm.
  - eapply bnd_bind; [apply bnd_names|mv|intros; mv|]. intros ls. bm. unfold rsize, reference_strings. cbn [ref_table ref_columns]. rewrite total_cons. lia.
  - bm. unfold rsize, reference_strings. cbn [ref_table ref_columns]. rewrite total_cons, total_nil. lia.
Qed.
Definition csize (c : constraint) : nat := total (constraint_strings c).
Ltac cs := unfold csize, constraint_strings, set_name, set_pk, set_unique, set_notnull, set_auto, set_default, set_check, set_collate, set_references, dsize, rsize in *;
  cbn [c_name c_default c_check c_collate c_references] in *; repeat (rewrite ?total_cons, ?total_app in * ); try lia.
Lemma bnd_constraint_aux : forall n c, bnd (csize c) csize (convertConstraintAux n d c).
Proof.
  assert (W : forall n k c, (forall c, bnd (csize c) csize (convertConstraintAux n d c)) -> csize c <= k -> bnd k csize (convertConstraintAux n d c)).
  { intros n k c H L. eapply bnd_weaken; [exact L|intros; apply le_n|apply H]. }
  induction n as [|n IH]; intros c; cbn [convertConstraintAux]; [bm|].
  do 2 bm; [bm; lia|].
  do 2 bm; [do 2 bm; apply W; auto; cs|].
  do 2 bm; [bm; apply W; auto; cs|].
  do 2 bm; [do 2 bm; apply W; auto; cs|].
  do 2 bm; [bm; apply W; auto; cs|].
  do 2 bm; [bm; eapply bnd_bind; [apply bnd_default|mv|intros; mv|]; intros x; apply W; auto; cs|].
  do 2 bm; [bm; eapply bnd_bind; [apply bnd_expr|mv|intros; mv|]; intros x; apply W; auto; cs|].
  do 2 bm; [bm; eapply bnd_bind; [apply bnd_name|mv|intros; mv|]; intros x; apply W; auto; cs|].
  do 2 bm; [eapply bnd_bind; [apply bnd_reference|mv|intros; mv|]; intros x; apply W; auto; cs|].
  bm. lia.
Qed.
Lemma bnd_constraint : forall n, bnd 0 csize (convertConstraint n d).
Proof.
  intros n. unfold convertConstraint. bm. eapply bnd_bind with (s1 := csize);
    [|mv|intros; mv|intros c; eapply bnd_weaken; [|intros; apply le_n|apply bnd_constraint_aux]; lia].
  bm; [|bm; cbn; lia]. do 3 bm; [bm; cbn; lia|].
  eapply bnd_bind; [apply bnd_name|mv|intros; mv|]. intros x. bm. cs. cbn. lia.
Qed.
Lemma bnd_digits : forall c, bnd c (fun _ => 0) convertTypeDigit.
Proof.
  intros c. unfold convertTypeDigit. do 2 bm; [|bm; lia]. bm. apply bnd_next; [intros; mv|]. intros t P. bm.
  eapply bnd_bind with (s1 := fun _ => 0); [|mv|intros; mv|].
  - bm; [bm|bm; lia]. apply bnd_next; [intros; mv|]. intros t' P'. bm. lia.
  - intros m. bm. bm. lia.
Qed.
(** the blank between a word and VARYING *)
Lemma bnd_date : bnd 1 (fun ty => len (dt_name ty)) convertDateType.
Proof.
  unfold convertDateType. apply bnd_next; [intros; unfold convertTypeDigit; mv|]. intros t P. cbv zeta.
  assert (D : forall k name l a r, full l -> len name <= k -> ('(n, m) <- convertTypeDigit ;; cret (mk_data_type name n m)) l = COk a r -> r <> [] ->
    len (dt_name a) + weight r <= weight l + k).
  { intros k name l a r S K H N.
    assert (B : bnd k (fun ty => len (dt_name ty)) ('(n, m) <- convertTypeDigit ;; cret (mk_data_type name n m))).
    { eapply bnd_bind with (s1 := fun _ => 0); [apply bnd_digits|unfold convertTypeDigit; mv|intros; mv|]. intros [n m]. bm. exact K. }
    exact (B l a r S H N). }
  intros l a r S H N. unfold cbind at 1 in H. unfold cmatch at 1 in H. cbv beta iota in H.
  destruct (matches ["VARYING"] _) eqn:M.
  - destruct l as [|v l]; [discriminate|]. unfold cbind at 1 in H. unfold cbind at 1 in H. unfold ctoken in H. cbv beta iota in H.
    assert (E : cnext (v :: l) = COk v l).
    { cbn [cnext]. destruct (v =? ",") eqn:E; [|reflexivity]. apply String.eqb_eq in E. subst. discriminate. }
    apply matches_len in M. cbn [len] in M. unfold cbind at 1 in H. rewrite E in H. unfold cret at 1 in H.
    inversion S as [|? ? _ S']; subst.
    pose proof (mu_len v). pose proof (mu_upper v). pose proof (mu_upper t).
    eapply (D (mu v + mu t + 1)) in H; [rewrite weight_cons; lia|exact S'| |exact N].
    destruct (_ =? "BIT") eqn:EB; [cbn; lia|]. destruct (_ =? "CHARACTER") eqn:EC; [cbn; lia|].
    rewrite !len_append. cbn. lia.
  - unfold cbind at 1 in H. unfold cret at 1 in H. eapply (D (mu t)) in H; auto; [lia|]. apply mu_upper.
Qed.
Definition colsize (c : column) : nat := total (column_strings c).
Lemma bnd_column : forall n, bnd 1 colsize (convertColumnDefinition n d).
Proof.
  intros n. unfold convertColumnDefinition. eapply bnd_bind; [apply bnd_name|mv|intros; mv|]. intros x.
  intros l a r S H N. unfold cbind in H. destruct (convertDateType l) as [ty r1| |] eqn:E1; try discriminate.
  destruct (convertConstraint n d r1) as [c r2| |] eqn:E2; try discriminate. injection H as <- <-.
  pose proof (moves_date _ _ _ E1) as M1. pose proof (moves_constraint _ _ _ _ _ E2) as M2.
  assert (N1 : r1 <> []) by (eapply suffix_ne; eauto).
  pose proof (bnd_date _ _ _ S E1 N1). pose proof (bnd_constraint _ _ _ _ (full_suffix _ _ M1 S) E2 N). cbv beta in *.
  unfold colsize, column_strings. cbn [col_name col_type col_constraint]. rewrite !total_cons. fold (csize c). lia.
Qed.
Definition tcsize (tc : table_constraint) : nat := total (tc_strings tc).
Lemma total_flat : forall A (f : A -> list string) a b, total (flat_map f (a ++ b)) = total (flat_map f a) + total (flat_map f b).
Proof. intros. now rewrite flat_map_app, total_app. Qed.
Ltac ts := unfold tcsize, tc_strings, rsize in *; cbn [tc_pk tc_unique tc_check tc_fk] in *; rewrite ?total_app, ?total_flat in *;
  cbn [flat_map app] in *; repeat (rewrite ?total_cons, ?total_app, ?app_nil_r, ?total_nil in * );
  cbn [pk_name pk_columns uq_name uq_columns ck_name ck_expr fk_name fk_columns fk_references] in *; try lia.
Lemma bnd_table_constraint : forall n tc, bnd (tcsize tc) tcsize (convertTableConstraint n d tc).
Proof.
  intros n tc. unfold convertTableConstraint. bm.
  eapply bnd_bind with (s1 := len); [|mv|intros; mv|].
  { bm; [|bm; cbn; lia]. bm. do 2 bm; [bm; cbn; lia|apply bnd_name]. }
  intros x.
  do 2 bm; [do 2 bm; eapply bnd_bind; [apply bnd_names|mv|intros; mv|]; intros ls; bm; ts|].
  do 2 bm; [bm; eapply bnd_bind; [apply bnd_names|mv|intros; mv|]; intros ls; bm; ts|].
  do 2 bm; [bm; eapply bnd_bind; [apply bnd_expr|mv|intros; mv|]; intros ls; bm; ts|].
  do 2 bm; [do 2 bm; eapply bnd_bind; [apply bnd_names|mv|intros; mv|]; intros ls;
    eapply bnd_bind; [apply bnd_reference|mv|intros; mv|]; intros rf; bm; ts|].
  bm. lia.
Qed.
Definition psize (p : list column * table_constraint) : nat := total (flat_map column_strings (fst p)) + tcsize (snd p).
(** After a column the bracket, or another token, is still to be passed over. *)
Lemma bnd_definition : forall n cols tc l a r, full l -> table_definition_loop n d cols tc l = COk a r ->
  psize a + weight r <= weight l + psize (cols, tc) + 1.
Proof.
  induction n as [|n IH]; intros cols tc l a r S H; cbn [table_definition_loop] in H; [discriminate|].
  pose proof (definition_end d (Datatypes.S n) cols tc l a r) as NE. cbn [table_definition_loop] in NE. specialize (NE H).
  unfold cbind at 1 in H. unfold cmatch at 1 in H. destruct (matches [")"] _); [injection H as <- <-; lia|].
  unfold cbind at 1 in H. unfold cmatch at 1 in H. cbv beta iota in H. unfold cbind at 1 in H.
  match type of H with match ?m with _ => _ end = _ => destruct m as [[cols' tc'] r1| |] eqn:E; try discriminate end.
  cbv beta iota in H.
  assert (M1 : suffix r1 l).
  { assert (Q : moves (if matches ["CONSTRAINT"; "PRIMARY"; "UNIQUE"; "CHECK"; "FOREIGN"] match l with [] => EOF | t :: _ => t end
         then tc0 <- convertTableConstraint n d tc ;; cret (cols, tc0) else c <- convertColumnDefinition n d ;; cret ((cols ++ [c])%list, tc))) by mv.
    eapply Q. exact E. }
  unfold cbind at 1 in H. unfold cmatch at 1 in H.
  assert (B : r1 <> [] -> psize (cols', tc') + weight r1 <= weight l + psize (cols, tc) + 1).
  { intros N1. destruct (matches _ _); unfold cbind in E.
    - destruct (convertTableConstraint n d tc l) as [tc0 r2| |] eqn:F; try discriminate. injection E as <- <- <-.
      pose proof (bnd_table_constraint _ _ _ _ _ S F N1). unfold psize. cbn [fst snd]. lia.
    - destruct (convertColumnDefinition n d l) as [c r2| |] eqn:F; try discriminate. injection E as <- <- <-.
      pose proof (bnd_column _ _ _ _ S F N1) as Q. unfold colsize in Q. unfold psize. cbn [fst snd]. rewrite total_flat. cbn [flat_map].
      rewrite app_nil_r. lia. }
  destruct (matches [")"] _) eqn:M'; [injection H as <- <-; apply B; exact NE|].
  unfold cbind at 1 in H. destruct (cnext r1) as [t r2| |] eqn:E2; try discriminate.
  pose proof (moves_next _ _ _ E2) as M2. pose proof (moves_definition _ _ _ _ _ _ _ H) as M3.
  assert (N2 : r2 <> []) by (eapply suffix_ne; eauto). assert (N1 : r1 <> []) by (eapply suffix_ne; eauto).
  pose proof (full_suffix _ _ M1 S) as S1. pose proof (next_total _ _ _ N1 E2).
  pose proof (mu_len t). assert (P : 1 <= len t). { apply len_pos. apply next_in_list in E2; auto. unfold full in S1. rewrite Forall_forall in S1. auto. }
  pose proof (IH _ _ _ _ _ (full_suffix _ _ M2 S1) H). specialize (B N1). lia.
Qed.

(** The same when it does not matter whether anything is left. *)
Definition fits {A} (c : nat) (sz : A -> nat) (m : C A) : Prop :=
  forall l a r, full l -> m l = COk a r -> sz a + weight r <= weight l + c.
Lemma fits_bind : forall A B c (s1 : A -> nat) (s2 : B -> nat) (m : C A) (f : A -> C B),
  bnd 0 s1 m -> moves m -> (forall a, needs (f a)) -> (forall a, fits (s1 a + c) s2 (f a)) -> fits c s2 (cbind m f).
Proof.
  intros A B c s1 s2 m f M MM NF F l b r S H. unfold cbind in H. destruct (m l) as [a r1| |] eqn:E; try discriminate.
  assert (S1 : suffix r1 l) by (eapply MM; eauto).
  pose proof (M l a r1 S E (NF _ _ _ _ H)). pose proof (F a r1 b r (full_suffix _ _ S1 S) H). lia.
Qed.
Lemma fits_last : forall A B c (s1 : A -> nat) (s2 : B -> nat) (m : C A) (f : A -> C B),
  fits 0 s1 m -> moves m -> (forall a, fits (s1 a + c) s2 (f a)) -> fits c s2 (cbind m f).
Proof.
  intros A B c s1 s2 m f M MM F l b r S H. unfold cbind in H. destruct (m l) as [a r1| |] eqn:E; try discriminate.
  assert (S1 : suffix r1 l) by (eapply MM; eauto).
  pose proof (M l a r1 S E). pose proof (F a r1 b r (full_suffix _ _ S1 S) H). lia.
Qed.
Lemma bnd_drop : forall A (m : C A), moves m -> bnd 0 (fun _ => 0) m.
Proof. intros A m M l a r S H N. apply M in H as [p ->]. rewrite weight_app. lia. Qed.
Lemma fits_definition : forall n, fits 0 psize (convertTableDefinition n d).
Proof.
  intros n. unfold convertTableDefinition.
  eapply fits_bind with (s1 := fun _ => 0); [apply bnd_drop; mv|mv|intros; apply needs_first, needs_loop|]. intros _ l a r S H.
  unfold cbind in H. destruct (table_definition_loop n d [] zero_tc l) as [p r1| |] eqn:E; try discriminate.
  destruct (cnext r1) as [t r2| |] eqn:E2; try discriminate. injection H as <- <-.
  pose proof (definition_end _ _ _ _ _ _ _ E) as N1. pose proof (bnd_definition _ _ _ _ _ _ S E) as B.
  pose proof (next_total _ _ _ N1 E2). change (psize ([], zero_tc)) with 0 in B.
  pose proof (mu_len t). assert (P : 1 <= len t).
  { apply len_pos. apply next_in_list in E2; auto. pose proof (full_suffix _ _ (moves_definition _ _ _ _ _ _ _ E) S) as F.
    unfold full in F. rewrite Forall_forall in F. auto. }
  lia.
Qed.
Definition two_size (p : string * string) : nat := len (fst p) + len (snd p).
Lemma bnd_tname : bnd 0 two_size (convertTableName d).
Proof.
  unfold convertTableName. eapply bnd_bind; [apply bnd_name|mv|intros; mv|]. intros x. do 2 bm.
  - bm. eapply bnd_bind; [apply bnd_name|mv|intros; mv|]. intros y. bm. unfold two_size. cbn [fst snd]. lia.
  - bm. unfold two_size. cbn [fst snd len]. lia.
Qed.
Definition tsize (t : table) : nat := total (table_strings t).
Lemma fits_table : forall n, fits 0 tsize (convertTable n d).
Proof.
  intros n. unfold convertTable.
  assert (N : forall f : _ -> C table, needs ('(sc, tn) <- convertTableName d ;; x <- convertTableDefinition n d ;; f (sc, tn, x))).
  { intros f. apply needs_bind; [apply moves_tname|]. intros [sc tn]. apply needs_first, needs_definition. }
  eapply fits_bind with (s1 := fun _ => 0); [apply bnd_drop; mv|mv| |intros _].
  { intros _. apply needs_bind; [mv|intros _]. apply needs_bind; [mv|intros b]. apply needs_bind; [mv|intros _].
    apply (N (fun '(sc, tn, x) => let '(cs, tc) := x in _)). }
  eapply fits_bind with (s1 := fun _ => 0); [apply bnd_drop; mv|mv| |intros _].
  { intros _. apply needs_bind; [mv|intros b]. apply needs_bind; [mv|intros _].
    apply (N (fun '(sc, tn, x) => let '(cs, tc) := x in _)). }
  eapply fits_bind with (s1 := fun _ => 0); [apply bnd_drop; mv|mv| |intros b].
  { intros b. apply needs_bind; [mv|intros _]. apply (N (fun '(sc, tn, x) => let '(cs, tc) := x in _)). }
  eapply fits_bind with (s1 := fun _ => 0); [apply bnd_drop; mv|mv| |intros _].
  { intros _. apply (N (fun '(sc, tn, x) => let '(cs, tc) := x in _)). }
  eapply fits_bind; [apply bnd_tname|apply moves_tname|intros [sc tn]; apply needs_first, needs_definition|].
  intros [sc tn]. eapply fits_last; [apply fits_definition|apply moves_tdef|]. intros [cs tc].
  intros l t r S H.
  assert (X : t = mk_table sc tn b cs tc /\ suffix r l).
  { unfold cbind in H. destruct (cmatch [";"] l) as [q r1| |] eqn:E; try discriminate. injection E as <- <-. destruct (matches _ _).
    - destruct (cnext l) as [x r2| |] eqn:E2; try discriminate. injection H as <- <-. split; auto. eapply moves_next; eauto.
    - injection H as <- <-. split; auto. apply suffix_refl. }
  destruct X as [-> [p ->]]. rewrite weight_app. unfold tsize, table_strings, two_size, psize, tcsize. cbn [t_schema t_name t_columns t_constraints fst snd].
  rewrite !total_cons, total_app. lia.
Qed.
Lemma fits_convert : forall n, fits 0 size (convert n d).
Proof.
  induction n as [|n IH]; cbn [convert]; [intros l a r S H; discriminate|].
  intros l a r S H. destruct l as [|t l]; [injection H as <- <-; cbn; lia|].
  assert (X : fits 0 size (t <- convertTable n d ;; ts <- convert n d ;; cret (t :: ts))).
  { eapply fits_last; [apply fits_table|apply moves_table|]. intros x l' ts r' S' H'. unfold cbind in H'.
    destruct (convert n d l') as [ys r2| |] eqn:E; try discriminate. injection H' as <- <-. pose proof (IH _ _ _ S' E).
    unfold size in *. cbn [flat_map]. rewrite total_app. unfold tsize. lia. }
  exact (X (t :: l) a r S H).
Qed.
End Sizes.
Close Scope c_scope.

(** ** Results *)

Lemma bounded : forall d ddl ts, accepted ddl d ts ->
  (snd (factor d) * Z.of_nat (size ts) <= fst (factor d) * Z.of_nat (span (runes_of ddl)))%Z.
Proof.
  intros d ddl ts H. apply returns_stage in H. inversion H as [| |toks rest out ts' L V [n [r C]]]; subst.
  apply verdict_ok in V as [-> [v V]].
  assert (T : tokens d ddl (strip toks)) by (apply tokens_lexed; eauto).
  pose proof (tokens_width _ _ _ T) as W. destruct (script_pays d) as [P G].
  assert (AB : (0 <= snd (factor d) <= fst (factor d))%Z) by (destruct d; cbn; lia).
  pose proof (lang_gain _ _ AB _ _ P _ _ _ _ V) as K. rewrite G in K.
  assert (F : full out).
  { pose proof (lang_out_good _ _ (script_puts d) _ _ _ _ (tokens_good _ _ _ T) V) as Q. eapply Forall_impl; [|exact Q]. intros t [X _]. exact X. }
  pose proof (fits_convert d _ _ _ _ F C). nia.
Qed.
Lemma steady_if : forall rs, forallb (fun c => Nat.leb (len (utf8 [upper_rune c])) (len (utf8 [c]))) rs = true -> steady rs.
Proof. intros rs H. apply Forall_forall. rewrite forallb_forall in H. intros c I. apply Nat.leb_le, H, I. Qed.
Lemma steady_span : forall rs, steady rs -> span rs = width rs.
Proof.
  induction rs as [|c rs IH]; intros S; [reflexivity|]. inversion S as [|? ? S1 S2]; subst. rewrite (width_cons c rs), span_cons, IH by auto.
  unfold reach, width. lia.
Qed.
Theorem text_bound : forall d rs ts, d <> MySQL -> scalars rs -> steady rs -> accepted (utf8 rs) d ts -> size ts <= len (utf8 rs).
Proof.
  intros d rs ts D S T H. apply bounded in H. rewrite runes_of_utf8, steady_span in H by auto. unfold width in H.
  destruct d; cbn [factor fst snd] in H; try congruence; lia.
Qed.
Theorem text_bound_mysql : forall rs ts, scalars rs -> steady rs -> accepted (utf8 rs) MySQL ts -> 3 * size ts <= 10 * len (utf8 rs).
Proof. intros rs ts S T H. apply bounded in H. rewrite runes_of_utf8, steady_span in H by auto. unfold width in H. cbn [factor fst snd] in H. lia. Qed.
Theorem any_bound : forall d rs ts, d <> MySQL -> scalars rs -> accepted (utf8 rs) d ts -> 2 * size ts <= 3 * len (utf8 rs).
Proof.
  intros d rs ts D S H. apply bounded in H. rewrite runes_of_utf8 in H by auto. pose proof (span_le rs S) as L. unfold width in L.
  destruct d; cbn [factor fst snd] in H; try congruence; lia.
Qed.
Theorem any_bound_mysql : forall rs ts, scalars rs -> accepted (utf8 rs) MySQL ts -> size ts <= 5 * len (utf8 rs).
Proof.
  intros rs ts S H. apply bounded in H. rewrite runes_of_utf8 in H by auto. pose proof (span_le rs S) as L. unfold width in L. cbn [factor fst snd] in H. lia.
Qed.
Theorem byte_bound : forall d ddl ts, d <> MySQL -> accepted ddl d ts -> size ts <= 3 * len ddl.
Proof. intros d ddl ts D H. apply bounded in H. pose proof (span_runes ddl). destruct d; cbn [factor fst snd] in H; try congruence; lia. Qed.
Theorem byte_bound_mysql : forall ddl ts, accepted ddl MySQL ts -> size ts <= 10 * len ddl.
Proof. intros ddl ts H. apply bounded in H. pose proof (span_runes ddl). cbn [factor fst snd] in H. lia. Qed.
