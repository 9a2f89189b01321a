(** What readable scripts say is no longer than the text. *)
From Coq Require Import String Ascii List Bool Arith NArith Lia.
From Verif Require Import GoStr GoNum Unicode UnicodeFacts Types Lexer VBase Exec Grammar GrammarFacts Ast Parse Spec Scan Pipe Safe Seen Meaning Names
  RenameVerdict Utf8 Layout Lexical LexicalFacts Size SizeFacts.
From Verif Require GSqlite GPostgres GMysql.
Import ListNotations.
Open Scope nat_scope.
Open Scope string_scope.
Open Scope list_scope.

(** ** Tokens *)
Lemma words_less : forall l, total (words l) <= total l.
Proof. induction l as [|t l IH]; [auto|]. unfold words. cbn [filter]. destruct (negb _); rewrite ?total_cons; unfold words in IH; lia. Qed.
Lemma words_first : forall t l, total (words (t :: l)) <= len t + total (words l).
Proof. intros t l. change (t :: l) with ([t] ++ l). rewrite words_app, total_app. pose proof (words_less [t]) as X. rewrite total_cons, total_nil in X. lia. Qed.
Lemma quotation_len : forall q body n s, quotation q body n s -> width s <= width body.
Proof.
  intros q body n s H. induction H as [q|q body n s H IH|q c body n s N M H IH|q c body n s x body' n' s' N M H IH H' IH'].
  - lia.
  - rewrite (width_cons nl body). lia.
  - rewrite (width_cons c body), (width_cons c s). lia.
  - rewrite (width_cons c (body ++ x :: body')), (width_cons c (s ++ s')), !width_app, (width_cons x body'). lia.
Qed.
Lemma reads_len : forall d fresh rs r, reads d fresh rs r -> forall toks, r = Tokens toks -> total (words toks) <= width rs.
Proof.
  intros d fresh rs r H.
  induction H; intros toks E; try discriminate E;
    try (injection E as <-; cbn; lia);
    try (destruct r as [l'|]; [|discriminate E]; injection E as <-; specialize (IHreads _ eq_refl); cbn [app]).
  - rewrite width_cons. lia.
  - rewrite words_break, width_cons. lia.
  - eapply Nat.le_trans; [apply words_first|]. rewrite width_cons. unfold width at 1. cbn [utf8]. rewrite len_append. cbn [len]. lia.
  - eapply Nat.le_trans; [apply words_first|]. rewrite width_app. unfold width at 1. lia.
  - rewrite <- app_assoc, words_app, words_breaks. cbn [app]. eapply Nat.le_trans; [apply words_first|].
    apply quotation_len in H0. rewrite (width_cons q (body ++ rest)), width_app.
    pose proof (width_cons q s) as X. unfold width in X at 1. cbn [utf8] in *. lia.
  - rewrite words_break. do 2 (eapply Nat.le_trans; [|apply width_tail]). rewrite width_app. pose proof (width_tail nl rest). lia.
  - rewrite words_break. eapply Nat.le_trans; [|apply width_tail]. rewrite width_app. pose proof (width_tail nl rest). lia.
  - rewrite words_app, words_breaks. cbn [app]. do 2 (eapply Nat.le_trans; [|apply width_tail]). rewrite width_app.
    pose proof (width_tail aster (slash :: rest)). pose proof (width_tail slash rest). lia.
Qed.
Lemma tokens_len : forall d ddl l, tokens d ddl l -> total l <= width (runes_of ddl).
Proof.
  intros d ddl l (n & toks & L & ->). assert (X : lexes d ddl toks) by (now exists n). apply lexes_reads in X.
  pose proof (reads_len _ _ _ _ X _ eq_refl) as Y. rewrite strip_words. exact Y.
Qed.

(** ** Grammars *)

(** what is read from tokens of total length [n] *)
Definition holds {A} (Q : A -> nat -> Prop) (g : gr A) : Prop := forall l nxt out v, lang g l nxt out v -> Q v (total l).
Definition Wt {A} (w : A -> nat) (v : A) (n : nat) : Prop := w v <= n.
Definition prodQ {A B} (P : A -> nat -> Prop) (Q : B -> nat -> Prop) (v : A * B) (n : nat) : Prop :=
  exists a b, n = a + b /\ P (fst v) a /\ Q (snd v) b.
Definition optQ {A} (Q : A -> nat -> Prop) (v : option A) (n : nat) : Prop := match v with Some x => Q x n | None => True end.
Definition any {A} (v : A) (n : nat) : Prop := True.
Definition sum {A} (w : A -> nat) (l : list A) : nat := list_sum (map w l).

Lemma holds_any : forall A (g : gr A), holds any g.
Proof. intros A g l nxt out v H. exact I. Qed.
Lemma total_one : forall t, total [t] = len t.
Proof. intros t. unfold total. cbn. lia. Qed.
Lemma holds_one : forall keep c, holds (Wt len) (One keep c).
Proof. intros keep c l nxt out v (_ & -> & _). unfold Wt. rewrite total_one. lia. Qed.
Lemma holds_kw : forall keep ws, holds (fun v n => matches ws v = true /\ len v <= n) (One keep (CW ws)).
Proof. intros keep ws l nxt out v (M & -> & _). rewrite total_one. split; auto. Qed.
Lemma holds_brackets : forall keep, holds (Wt total) (Brackets keep).
Proof. intros keep l nxt out v (l1 & _ & _ & _ & ->). unfold Wt. lia. Qed.
Lemma holds_seq : forall A B (P : A -> nat -> Prop) (Q : B -> nat -> Prop) g h, holds P g -> holds Q h -> holds (prodQ P Q) (Seq g h).
Proof.
  intros A B P Q g h G H l nxt out v (l1 & l2 & o1 & o2 & -> & _ & H1 & H2). exists (total l1), (total l2).
  split; [apply total_app|split; eauto].
Qed.
Lemma holds_map : forall A B (P : A -> nat -> Prop) (Q : B -> nat -> Prop) f g, holds P g -> (forall v n, P v n -> Q (f v) n) -> holds Q (Map f g).
Proof. intros A B P Q f g G H l nxt out v (a & -> & L). eauto. Qed.
Lemma holds_cond : forall A (Q : A -> nat -> Prop) c g h, holds Q g -> holds Q h -> holds Q (Cond c g h).
Proof. intros A Q c g h G H l nxt out v [L|L]; eauto. Qed.
Lemma holds_opt : forall A (Q : A -> nat -> Prop) ws g, holds Q g -> holds (optQ Q) (opt ws g).
Proof.
  intros A Q ws g G. apply holds_cond; eapply holds_map; eauto using holds_any.
Qed.
Lemma holds_star : forall A (w : A -> nat) g, holds (Wt w) g ->
  forall l nxt out vs hs, star (lang g) l nxt out vs hs -> sum w vs <= total l.
Proof.
  intros A w g G l nxt out vs hs H. induction H as [nxt|t l1 l2 nxt o1 o2 v vs hs H1 H2 IH]; [cbn; lia|].
  change (t :: l1 ++ l2) with ((t :: l1) ++ l2). rewrite total_app. apply G in H1. unfold Wt in H1. unfold sum in *. cbn [map list_sum fold_right].
  change (fold_right Nat.add 0 (map w vs)) with (list_sum (map w vs)). lia.
Qed.
Lemma holds_while : forall A (w : A -> nat) c g, holds (Wt w) g -> holds (Wt (sum w)) (While c g).
Proof. intros A w c g G l nxt out v [hs H]. eapply holds_star; eauto. Qed.
Lemma holds_whileu : forall A (w : A -> nat) c key g, holds (Wt w) g -> holds (Wt (sum w)) (WhileU c key g).
Proof. intros A w c key g G l nxt out v (hs & H & _). eapply holds_star; eauto. Qed.
Lemma sum_cons : forall A (w : A -> nat) v vs, sum w (v :: vs) = w v + sum w vs.
Proof. reflexivity. Qed.
Lemma holds_sepby : forall A (w : A -> nat) keep g, holds (Wt w) g -> holds (Wt (sum w)) (SepBy keep g).
Proof.
  intros A w keep g G l nxt out vs H. unfold Wt. induction H as [l nxt o v H|l1 l2 nxt o1 o2 v vs H1 H2 IH].
  - apply G in H. unfold Wt in H. rewrite sum_cons. cbn. lia.
  - apply G in H1. unfold Wt in H1. rewrite sum_cons, total_app, total_cons. lia.
Qed.

(** ** Statements *)
Definition w_opt (o : option string) : nat := match o with Some t => len t | None => 0 end.
Definition w_default (x : a_default) : nat := match x with ALit t => len t | AExpr l => total l end.
Definition w_ref (r : a_ref) : nat := len (ar_table r) + match ar_columns r with Some l => total l | None => 0 end.
Definition w_item (i : a_item) : nat :=
  match i with IDefault x => w_default x | ICheck l => total l | ICollate t => len t | IReferences r => w_ref r | _ => 0 end.
Definition w_type (t : a_type) : nat := len (dt_name (type_of t)).
Definition w_body (b : a_body) : nat :=
  match b with BPrimary l => total l | BUnique l => total l | BCheck l => total l | BForeign l r => total l + w_ref r | _ => 0 end.
Definition w_column (c : a_column) : nat := len (ac_name c) + w_type (ac_type c) + w_opt (ac_cname c) + sum w_item (ac_items c).
Definition w_element (e : a_element) : nat := match e with EColumn c => w_column c | EConstraint n b => w_opt n + w_body b end.
Definition w_table (t : a_table) : nat := w_opt (at_schema t) + len (at_name t) + sum w_element (at_elements t).
Definition w_stmt (s : a_stmt) : nat := match s with STable t => w_table t | SOther => 0 end.
Definition w_zero {A} (_ : A) : nat := 0.

Lemma holds_zero : forall A (g : gr A), holds (Wt w_zero) g.
Proof. intros A g l nxt out v H. unfold Wt, w_zero. lia. Qed.

(** type words *)
Lemma word_len : forall ws w, forallb is_ascii ws = true -> matches ws w = true -> len (go_upper w) = len w.
Proof. intros ws w A M. rewrite (upper_matches ws w A M). apply len_upper. Qed.
Lemma plain_type : forall ws w g n, forallb is_ascii ws = true -> matches ws w = true -> len w <= n -> Wt w_type (mk_atype w false g) n.
Proof.
  intros ws w g n A M L. unfold Wt, w_type, type_of. cbn [at_word at_varying at_digits].
  replace (dt_name _) with (go_upper w) by (destruct g as [[x [y|]]|]; reflexivity). rewrite (word_len ws) by auto. lia.
Qed.
Lemma varying_type : forall w g n m b, matches ["BIT"; "CHARACTER"] w = true -> len w <= n -> (b = true -> 7 <= m) ->
  Wt w_type (mk_atype w b g) (n + m).
Proof.
  intros w g n m b M L V. destruct b; [|apply (plain_type ["BIT"; "CHARACTER"]); [reflexivity|auto|lia]]. specialize (V eq_refl).
  unfold Wt, w_type, type_of. cbn [at_word at_varying at_digits]. apply matches_spec in M as (x & I & E).
  cbn in I. destruct I as [<-|[<-|[]]]; destruct E as [-> | ->]; destruct g as [[y [z|]]|]; vm_compute in L;
    cbn [dt_name]; match goal with |- ?a <= _ => let k := eval vm_compute in a in change a with k end; lia.
Qed.

Ltac wof T :=
  lazymatch T with
  | string => constr:(len)
  | list ?A => let w := wof A in constr:(sum w)
  | option string => constr:(w_opt)
  | option (list string) => constr:(fun o : option (list string) => match o with Some l => total l | None => 0 end)
  | (option string * string)%type => constr:(fun p : option string * string => w_opt (fst p) + len (snd p))
  | a_default => constr:(w_default)
  | a_item => constr:(w_item)
  | a_type => constr:(w_type)
  | a_body => constr:(w_body)
  | a_element => constr:(w_element)
  | a_table => constr:(w_table)
  | a_stmt => constr:(w_stmt)
  | _ => constr:(@w_zero T)
  end.
Ltac split_h :=
  repeat match goal with
  | v : (_ * _)%type |- _ => destruct v
  | v : option _ |- _ => destruct v
  | H : prodQ _ _ _ _ |- _ => destruct H as (? & ? & -> & ? & ?); cbn [fst snd] in *
  | H : optQ _ _ _ |- _ => cbn [optQ] in H
  | H : Wt _ _ _ |- _ => unfold Wt in H
  | H : _ /\ _ |- _ => destruct H
  end.
Ltac close_h :=
  intros; cbv beta in *; split_h; cbn [fst snd];
  first
  [ exact I
  | solve [unfold Wt, w_zero; lia]
  | solve [apply varying_type; [assumption|lia|cbn; intros; try discriminate;
      match goal with H : matches ["VARYING"] _ = true |- _ => apply matches_len in H; cbn in H end; lia]]
  | solve [match goal with H : matches ?ws ?w = true |- Wt w_type (mk_atype ?w false _) _ => apply (plain_type ws w); [reflexivity|exact H|lia] end]
  | solve [unfold Wt, w_stmt, w_table in *; cbn [fst snd w_opt at_schema at_name at_elements] in *; lia]
  | solve [unfold Wt, w_element, w_column, w_stmt, w_table, w_zero in *; cbn [fst snd w_opt w_item w_body w_default w_ref ac_name ac_type ac_cname ac_items at_schema at_name at_elements ar_table ar_columns] in *; lia]
  | solve [unfold Wt, w_element, w_column, w_stmt, w_table, w_item, w_body, w_ref, w_default, w_zero, w_opt in *;
      cbn [fst snd ac_name ac_type ac_cname ac_items at_schema at_name at_elements ar_table ar_columns total map list_sum fold_right sum] in *; unfold sum, total in *;
      cbn [map list_sum fold_right] in *; lia] ].
Ltac go_h :=
  lazymatch goal with
  | |- holds ?Q ?g =>
    lazymatch g with
    | One _ (CW _) => first [apply holds_kw | apply holds_one]
    | One _ _ => apply holds_one
    | Eps => first [apply holds_any | apply holds_zero]
    | Put _ => first [apply holds_any | apply holds_zero]
    | NotNext _ => first [apply holds_any | apply holds_zero]
    | IsNext _ => first [apply holds_any | apply holds_zero]
    | Skip => first [apply holds_any | apply holds_zero]
    | Brackets _ => apply holds_brackets
    | GMysql.keys _ => match goal with H : forall k, holds _ (GMysql.keys k) |- _ => apply H end
    | Seq _ _ => tryif eapply holds_seq then go_h else apply holds_zero
    | opt _ _ => tryif eapply holds_opt then go_h else apply holds_zero
    | optkw _ _ => unfold optkw; eapply holds_opt; go_h
    | @Map _ ?B _ _ =>
        let w := wof B in
        lazymatch w with w_zero => first [apply holds_any | apply holds_zero] | _ =>
        eapply holds_map; [go_h
          |first [ solve [unify Q (@Wt B w); close_h] | idtac "stuck" B ]] end
    | @Cond ?A _ _ _ => let w := wof A in lazymatch w with w_zero => first [apply holds_any | apply holds_zero] | _ => eapply (holds_cond A (Wt w)); go_h end
    | While _ _ => eapply holds_while; go_h
    | WhileU _ _ _ => eapply holds_whileu; go_h
    | SepBy _ _ => eapply holds_sepby; go_h
    | _ => let g' := eval red in g in change g with g'; go_h
    end
  end.
Lemma holds_keys : forall keep, holds (Wt total) (GMysql.keys keep).
Proof.
  intros keep. unfold GMysql.keys.
  eapply (holds_map _ _ (prodQ any (prodQ (Wt (sum w_opt)) any))).
  - eapply holds_seq; [apply holds_any|]. eapply holds_seq; [|apply holds_any]. apply holds_sepby.
    unfold GMysql.key_part. eapply (holds_map _ _ (prodQ (Wt w_opt) any)).
    + eapply holds_seq; [|apply holds_any]. go_h.
    + close_h.
  - intros [a [l b]] n H. split_h. unfold Wt. assert (X : total (GMysql.some_of l) <= sum w_opt l).
    { clear. induction l as [|[t|] l IH]; cbn [GMysql.some_of flat_map app]; auto; rewrite sum_cons; cbn [w_opt]; rewrite ?total_cons; unfold GMysql.some_of in IH; lia. }
    lia.
Qed.
Lemma holds_script : forall d, holds (Wt (sum w_stmt)) (script d).
Proof.
  intros d. destruct d as [| | |x]; cbn [script].
  - go_h.
  - go_h.
  - pose proof holds_keys as KEYS. go_h.
  - go_h.
Qed.

(** ** Tables *)
Section Tables.
Variable d : rdbms.
Lemma len_inner : forall t, len (inner t) <= len t.
Proof. intros t. unfold inner. pose proof (len_substring 1 (len t - 2) t). lia. Qed.
Lemma len_unquote : forall t, len (unquote d t) <= len t.
Proof. intros t. unfold unquote. destruct (quoted _ t); [apply len_inner|lia]. Qed.
Lemma len_opt : forall o, len (opt_name d o) <= w_opt o.
Proof. intros [t|]; cbn; [apply len_unquote|lia]. Qed.
Lemma len_text : forall l, len (text l) = total l.
Proof. induction l as [|t l IH]; [reflexivity|]. unfold text in *. cbn [fold_right]. rewrite len_append, IH. reflexivity. Qed.
Lemma len_default : forall x, total (default_strings (default_of d x)) <= w_default x.
Proof.
  intros [t|l]; cbn [default_of w_default].
  - pose proof (len_inner t). unfold literal_value. destruct (is_numeric_token t); [destruct (parse_float t); cbn; lia|].
    destruct (quoted _ t); [cbn [default_strings]; rewrite total_one; lia|].
    destruct (go_upper t =? "NULL")%string; [cbn; lia|]. destruct (go_upper t =? "TRUE")%string; [cbn; lia|]. destruct (go_upper t =? "FALSE")%string; [cbn; lia|].
    cbn [default_strings]. rewrite total_one. lia.
  - cbn [default_strings]. rewrite total_one, len_text. lia.
Qed.
Lemma len_ref : forall r, total (reference_strings (reference_of d r)) <= w_ref r.
Proof.
  intros r. unfold reference_strings, w_ref, reference_of. cbn [ref_table ref_columns]. rewrite total_cons. pose proof (len_unquote (ar_table r)).
  destruct (ar_columns r); cbn; lia.
Qed.
(** the first of several is part of them all *)
Lemma first_sum : forall B (f : a_item -> option B) (z : B) (w : B -> nat) l, w z = 0 ->
  w (or_else (first_of f l) z) <= sum (fun i => match f i with Some b => w b | None => 0 end) l.
Proof.
  intros B f z w l Z. induction l as [|i l IH]; [cbn; lia|]. rewrite sum_cons. cbn [first_of]. destruct (f i) as [b|]; cbn [or_else]; lia.
Qed.
Lemma sum_add : forall A (f g : A -> nat) l, sum f l + sum g l = sum (fun x => f x + g x) l.
Proof. intros A f g l. induction l as [|x l IH]; [reflexivity|]. rewrite !sum_cons. lia. Qed.
Lemma sum_le : forall A (f g : A -> nat) l, (forall x, f x <= g x) -> sum f l <= sum g l.
Proof. intros A f g l H. induction l as [|x l IH]; [cbn; lia|]. rewrite !sum_cons. specialize (H x). lia. Qed.
Lemma len_constraint : forall n l, total (constraint_strings (constraint_of d n l)) <= w_opt n + sum w_item l.
Proof.
  intros n l. unfold constraint_strings, constraint_of. cbn [c_name c_default c_check c_collate c_references].
  rewrite total_cons, total_app, !total_cons. pose proof (len_opt n).
  pose proof (first_sum _ (fun i => match i with IDefault x => Some (default_of d x) | _ => None end) DNil (fun v => total (default_strings v)) l eq_refl) as A.
  pose proof (first_sum _ (fun i => match i with ICheck e => Some (text e) | _ => None end) "" len l eq_refl) as B.
  pose proof (first_sum _ (fun i => match i with ICollate t => Some (unquote d t) | _ => None end) "" len l eq_refl) as C.
  pose proof (first_sum _ (fun i => match i with IReferences r => Some (reference_of d r) | _ => None end) zero_reference
    (fun v => total (reference_strings v)) l eq_refl) as D.
  match type of A with _ <= sum ?a _ => match type of B with _ <= sum ?b _ => match type of C with _ <= sum ?c _ => match type of D with _ <= sum ?e _ =>
    pose proof (sum_add _ a b l) as AB; pose proof (sum_add _ c e l) as CD;
    pose proof (sum_add _ (fun x => a x + b x) (fun x => c x + e x) l) as S;
    assert (L : sum (fun x => (a x + b x) + (c x + e x)) l <= sum w_item l) end end end end.
  { apply sum_le. intros i. destruct i; cbn [w_item]; try lia.
    - pose proof (len_default x). lia.
    - rewrite len_text. lia.
    - pose proof (len_unquote t). lia.
    - pose proof (len_ref r). lia. }
  lia.
Qed.
Lemma len_column : forall c, total (column_strings (column_of d c)) <= w_column c.
Proof.
  intros c. unfold column_strings, column_of, w_column. cbn [col_name col_type col_constraint]. rewrite !total_cons.
  pose proof (len_unquote (ac_name c)). pose proof (len_constraint (ac_cname c) (ac_items c)). unfold w_type. lia.
Qed.
Lemma total_flat_cons : forall A (f : A -> list string) x l, total (flat_map f (x :: l)) = total (f x) + total (flat_map f l).
Proof. intros. cbn [flat_map]. apply total_app. Qed.
Lemma len_elements : forall l, total (flat_map column_strings (columns_of d l)) + total (tc_strings (constraints_of d l)) <= sum w_element l.
Proof.
  induction l as [|e l IH]; [cbn; lia|]. rewrite sum_cons. unfold tc_strings, constraints_of, columns_of in *. cbn [tc_pk tc_unique tc_check tc_fk] in *.
  rewrite !total_app in *. cbn [flat_map] in *. rewrite !flat_map_app, !total_app.
  destruct e as [c|n b]; cbn [w_element].
  - pose proof (len_column c). cbn [flat_map]. rewrite app_nil_r. rewrite !total_nil. lia.
  - pose proof (len_opt n). destruct b; cbn [w_body flat_map app pk_name pk_columns uq_name uq_columns ck_name ck_expr fk_name fk_columns fk_references];
      rewrite ?app_nil_r, ?total_cons, ?total_app, ?total_nil, ?len_text; try lia.
    pose proof (len_ref r). lia.
Qed.
Lemma len_table : forall t, total (table_strings (table_of d t)) <= w_table t.
Proof.
  intros t. unfold table_strings, table_of, w_table. cbn [t_schema t_name t_columns t_constraints]. rewrite !total_cons, total_app.
  pose proof (len_opt (at_schema t)). pose proof (len_unquote (at_name t)). pose proof (len_elements (at_elements t)). lia.
Qed.
Lemma len_tables : forall s, size (tables_of d s) <= sum w_stmt s.
Proof.
  unfold size, tables_of. induction s as [|x s IH]; [cbn; lia|]. rewrite sum_cons. cbn [flat_map]. rewrite flat_map_app, total_app.
  destruct x as [t|]; cbn [w_stmt]; [|cbn [flat_map]; rewrite total_nil; lia]. pose proof (len_table t). cbn [flat_map]. rewrite app_nil_r. lia.
Qed.
(** what the converter makes of them is not longer *)
Lemma squeeze_less : forall l, total (squeeze l) <= total l.
Proof. induction l as [|t l IH]; [auto|]. cbn [squeeze]. destruct (_ && _); rewrite !total_cons; lia. Qed.
Lemma sum_map : forall A B (f : A -> B) (w : B -> nat) l, sum w (map f l) = sum (fun x => w (f x)) l.
Proof. intros. unfold sum. now rewrite map_map. Qed.
Lemma seen_less : forall s, sum w_stmt (seen s) <= sum w_stmt s.
Proof.
  intros s. unfold seen. rewrite sum_map. apply sum_le. intros [t|]; cbn [seen_stmt w_stmt]; auto. unfold seen_table, w_table. cbn [at_schema at_name at_elements].
  assert (X : sum w_element (map seen_element (at_elements t)) <= sum w_element (at_elements t)); [|lia].
  rewrite sum_map. apply sum_le. intros [c|n b]; cbn [seen_element w_element].
  - assert (Y : sum w_item (map seen_item (ac_items c)) <= sum w_item (ac_items c)).
    { rewrite sum_map. apply sum_le. intros i. destruct i as [| | | |[x|x]|e| | |]; cbn [seen_item w_item w_default]; auto using squeeze_less. }
    unfold seen_column, w_column. destruct (ac_cname c) as [x|]; [destruct (matches not_names x)|];
      cbn [ac_name ac_type ac_cname ac_items w_opt]; rewrite ?sum_cons; cbn [w_item]; lia.
  - assert (Y : w_body (seen_body b) <= w_body b) by (destruct b; cbn; auto using squeeze_less). lia.
Qed.
End Tables.

Lemma readable_width : forall d ddl stmts, says d ddl stmts -> readable stmts = true ->
  exists ts, accepted ddl d ts /\ size ts <= width (runes_of ddl).
Proof.
  intros d ddl stmts H R. exists (tables_of d (seen stmts)). split; [now apply says_seen|].
  destruct H as (l & out & T & L). apply holds_script in L. unfold Wt in L. apply tokens_len in T.
  pose proof (len_tables d (seen stmts)). pose proof (seen_less stmts). lia.
Qed.
Theorem readable_bound : forall d rs stmts, scalars rs -> says d (utf8 rs) stmts -> readable stmts = true ->
  exists ts, accepted (utf8 rs) d ts /\ size ts <= len (utf8 rs).
Proof.
  intros d rs stmts S H R. destruct (readable_width _ _ _ H R) as (ts & A & B). rewrite runes_of_utf8 in B by auto. exists ts. auto.
Qed.
Theorem readable_bytes : forall d ddl stmts, says d ddl stmts -> readable stmts = true ->
  exists ts, accepted ddl d ts /\ size ts <= 3 * len ddl.
Proof.
  intros d ddl stmts H R. destruct (readable_width _ _ _ H R) as (ts & A & B). exists ts. split; auto.
  pose proof (span_runes ddl). destruct (span_width (runes_of ddl)). lia.
Qed.
