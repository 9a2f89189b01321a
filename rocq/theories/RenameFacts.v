(** Renaming: the tables are the same up to the names. *)
From Coq Require Import String Ascii List Bool Arith NArith Lia.
From Verif Require Import GoStr GoNum Types Lexer VBase Exec Grammar GrammarFacts Ast Spec Scan Pipe Safe Seen Meaning Names Recase RecaseFacts
  Rename RenameTokens RenameVerdict.
From Verif Require GSqlite GPostgres GMysql.
Import ListNotations.
Open Scope nat_scope.
Open Scope string_scope.

Section Renamed.
Variables (d : rdbms) (R : string -> string -> Prop).
Notation S := (renamed d R).
Definition nren (o o' : option string) : Prop := match o, o' with Some t, Some t' => S t t' | None, None => True | _, _ => False end.

Definition moves {A} (Q : A -> A -> Prop) (g : gr A) : Prop :=
  forall l nxt out v, lang g l nxt out v -> forall l' nxt', Forall2 S l l' -> nren nxt nxt' ->
  exists out' v', lang g l' nxt' out' v' /\ Q v v'.

Lemma split_app : forall (l1 l2 l' : list string), Forall2 S (l1 ++ l2) l' ->
  exists l1' l2', l' = (l1' ++ l2')%list /\ Forall2 S l1 l1' /\ Forall2 S l2 l2'.
Proof. intros l1 l2 l' H. apply Forall2_app_inv_l in H as (a & b & A & B & ->). eauto. Qed.
Lemma ren_hd : forall l l' nxt nxt', Forall2 S l l' -> nren nxt nxt' -> nren (hdr l nxt) (hdr l' nxt').
Proof. intros l l' nxt nxt' [] N; auto. Qed.
(** the words of the grammars stay *)
Lemma ren_word : forall ws t t', known_words d ws -> matches ws t = true -> S t t' -> t' = t.
Proof. intros ws t t' K M [->|(_ & N & _)]; auto. rewrite (nt_matches _ _ N _ K) in M. discriminate. Qed.
Lemma ren_mark : forall w t', In w marks -> S w t' -> t' = w.
Proof.
  intros w t' I. apply (ren_word [w]).
  - unfold known_words. cbn [forallb]. apply contains_spec in I. now rewrite I, orb_true_r.
  - apply matches_spec. exists w. split; [now left|]. right. cbn in I. repeat (destruct I as [<-|I]; [reflexivity|]). contradiction.
Qed.
Lemma ren_not_mark : forall w t t', In w marks -> t <> w -> S t t' -> t' <> w.
Proof.
  intros w t t' I H [->|(_ & _ & N)]; auto. intros ->. destruct N as [L _]. apply legal_head in L as (c & s & E & C).
  assert (P : mark_head c = true) by (apply (head_all mark_head d); [vm_compute; reflexivity|exact C]).
  assert (F : mark_head c = false); [|congruence]. rewrite E in I. clear - I.
  cbn in I. repeat (destruct I as [I|I]; [inversion I; subst; reflexivity|]). contradiction.
Qed.

Lemma moves_eps : moves eq Eps.
Proof. intros l nxt out v [-> ->] l' nxt' H N. inversion H; subst. exists [], v. cbn. auto. Qed.
Lemma moves_put : forall o, moves eq (Put o).
Proof. intros o l nxt out v [-> ->] l' nxt' H N. inversion H; subst. exists o, v. cbn. auto. Qed.
Lemma one_inv : forall v l', Forall2 S [v] l' -> exists t, l' = [t] /\ S v t.
Proof. intros v l' H. inversion H as [|? t ? ? E F]; subst. inversion F; subst. eauto. Qed.
Lemma moves_kw : forall keep ws, known_words d ws -> moves eq (One keep (CW ws)).
Proof.
  intros keep ws K l nxt out v (M & -> & ->) l' nxt' H N. apply one_inv in H as (t & -> & E). cbn [cmem] in M.
  pose proof (ren_word _ _ _ K M E) as ->. exists (kept keep [v]), v. cbn. auto.
Qed.
Lemma moves_name : forall keep, moves S (One keep (CName (base d))).
Proof.
  intros keep l nxt out v (M & -> & ->) l' nxt' H N. apply one_inv in H as (t & -> & E). cbn [cmem] in M.
  exists (kept keep [t]), t. cbn [lang cmem]. rewrite <- (renamed_name _ _ _ _ E). auto.
Qed.
Lemma fixed_class : forall c t t', match c with CLit x => x = base d | CStr x => x = base d | CPos => True | _ => False end ->
  cmem c t = true -> S t t' -> t' = t.
Proof.
  intros c t t' C M [->|(_ & N & _)]; auto. exfalso. destruct c; cbn [cmem] in M; try contradiction.
  - rewrite (nt_positive _ _ N) in M. discriminate.
  - subst. unfold literal in M. rewrite (nt_numeric _ _ N), (not_string _ _ N), (nt_matches _ _ N _ (literal_known d)) in M. discriminate.
  - subst. rewrite (not_string _ _ N) in M. discriminate.
Qed.
Lemma moves_fixed : forall keep c, match c with CLit x => x = base d | CStr x => x = base d | CPos => True | _ => False end ->
  moves eq (One keep c).
Proof.
  intros keep c C l nxt out v (M & -> & ->) l' nxt' H N. apply one_inv in H as (t & -> & E).
  rewrite (fixed_class _ _ _ C M E). exists (kept keep [v]), v. cbn. auto.
Qed.
Lemma moves_notnext : forall ws, known_words d ws -> moves eq (NotNext ws).
Proof.
  intros ws K l nxt out v (-> & -> & M) l' nxt' H N. inversion H; subst. exists [], v. cbn. repeat split; auto.
  destruct nxt, nxt'; cbn in N; try tauto. now rewrite <- (renamed_matches _ _ _ _ _ K N).
Qed.
Lemma moves_isnext : forall ws, known_words d ws -> moves eq (IsNext ws).
Proof.
  intros ws K l nxt out v (-> & -> & M) l' nxt' H N. inversion H; subst. exists [], v. cbn. repeat split; auto.
  destruct nxt, nxt'; cbn in N; try tauto. now rewrite <- (renamed_matches _ _ _ _ _ K N).
Qed.
Lemma ren_balanced : forall l, balanced l -> forall l', Forall2 S l l' -> balanced l'.
Proof.
  induction 1 as [|t l A B H IH|l1 l2 H1 IH1 H2 IH2]; intros l' F.
  - inversion F; subst. constructor.
  - inversion F as [|? t' ? l'' E F']; subst. constructor; auto; eapply ren_not_mark; eauto; cbn; tauto.
  - inversion F as [|? t' ? l'' E F']; subst. apply split_app in F' as (a & b & -> & FA & FB).
    inversion FB as [|? t'' ? b' E' FB']; subst. rewrite (ren_mark "(" t'), (ren_mark ")" t''); auto; try (cbn; tauto). now constructor; auto.
Qed.
Lemma moves_brackets : forall keep, moves (Forall2 S) (Brackets keep).
Proof.
  intros keep l nxt out v (l1 & B & E & -> & ->) l' nxt' F N. rewrite E in F. inversion F as [|? t' ? l'' E1 F']; subst.
  apply split_app in F' as (a & b & -> & FA & FB). apply one_inv in FB as (t & -> & E2).
  pose proof (ren_mark "(" _ ltac:(cbn; tauto) E1) as ->. pose proof (ren_mark ")" _ ltac:(cbn; tauto) E2) as ->.
  exists (kept keep ("(" :: a ++ [")"])), ("(" :: a ++ [")"])%list. split; auto. exists a. split; auto. now apply (ren_balanced l1).
Qed.
Lemma begin_known : known_words d ["BEGIN"] /\ known_words d ["END"].
Proof. destruct d; split; vm_compute; reflexivity. Qed.
Lemma ren_skipped : forall l, skipped l -> forall l', Forall2 S l l' -> skipped l'.
Proof.
  destruct begin_known as [KB KE].
  induction 1 as [|t l A B H IH|b mid e l A M E H IH]; intros l' F.
  - inversion F; subst. constructor.
  - inversion F as [|? t' ? l'' X F']; subst. constructor; auto.
    + now rewrite <- (renamed_matches _ _ _ _ _ KB X).
    + eapply ren_not_mark; eauto. cbn. tauto.
  - inversion F as [|? t' ? l'' X F']; subst. apply split_app in F' as (m' & r & -> & FM & FR).
    inversion FR as [|? t'' ? r' X' FR']; subst. apply sk_block; auto.
    + now rewrite <- (renamed_matches _ _ _ _ _ KB X).
    + clear - FM M KE. induction FM as [|x x' ? ? X FM IH]; constructor; inversion M; subst; auto.
      now rewrite <- (renamed_matches _ _ _ _ _ KE X).
    + now rewrite <- (renamed_matches _ _ _ _ _ KE X').
Qed.
Lemma moves_skip : moves eq Skip.
Proof.
  intros l nxt out v (B & -> & ->) l' nxt' F N. exists [], v. split; auto. split; [now apply (ren_skipped l)|split; auto].
  destruct nxt' as [t|]; [|destruct N]. cbn in N. f_equal. apply (ren_mark ";" t); auto. cbn. tauto.
Qed.
Lemma moves_seq : forall A B (P : A -> A -> Prop) (Q : B -> B -> Prop) (g : gr A) (h : gr B), moves P g -> moves Q h -> moves (prodR P Q) (Seq g h).
Proof.
  intros A B P Q g h CG CH l nxt out v (l1 & l2 & o1 & o2 & -> & -> & H1 & H2) l' nxt' F N.
  apply split_app in F as (l1' & l2' & -> & F1 & F2).
  destruct (CH _ _ _ _ H2 _ _ F2 N) as (p2 & v2 & L2 & E2).
  destruct (CG _ _ _ _ H1 _ _ F1 (ren_hd _ _ _ _ F2 N)) as (p1 & v1 & L1 & E1).
  exists (p1 ++ p2)%list, (v1, v2). split; [|split; auto]. exists l1', l2', p1, p2. auto.
Qed.
Lemma moves_map : forall A B (P : A -> A -> Prop) (Q : B -> B -> Prop) f g,
  moves P g -> (forall v v', P v v' -> Q (f v) (f v')) -> moves Q (Map f g).
Proof.
  intros A B P Q f g C H l nxt out v (a & -> & L) l' nxt' F N.
  destruct (C _ _ _ _ L _ _ F N) as (o & v' & L' & E). exists o, (f v'). split; [exists v'; auto|auto].
Qed.
Lemma moves_cond : forall A (Q : A -> A -> Prop) c g h, moves Q g -> moves Q h -> moves Q (Cond c g h).
Proof.
  intros A Q c g h CG CH l nxt out v [H|H] l' nxt' F N; [destruct (CG _ _ _ _ H _ _ F N) as (o & v' & L & E)
    |destruct (CH _ _ _ _ H _ _ F N) as (o & v' & L & E)]; exists o, v'; cbn; auto.
Qed.
Lemma moves_opt : forall A (Q : A -> A -> Prop) ws g, moves Q g -> moves (optR Q) (opt ws g).
Proof.
  intros A Q ws g C. apply moves_cond; eapply moves_map; eauto using moves_eps. intros v v' _. exact I.
Qed.
Lemma moves_star : forall A (Q : A -> A -> Prop) g, moves Q g ->
  forall l nxt out vs hs, star (lang g) l nxt out vs hs -> forall l' nxt', Forall2 S l l' -> nren nxt nxt' ->
  exists out' vs' hs', star (lang g) l' nxt' out' vs' hs' /\ Forall2 Q vs vs' /\ Forall2 S hs hs'.
Proof.
  intros A Q g C l nxt out vs hs H. induction H as [nxt|t l1 l2 nxt o1 o2 v vs hs H1 H2 IH]; intros l' nxt' F N.
  - inversion F; subst. exists [], [], []. repeat split; constructor.
  - change (t :: l1 ++ l2)%list with ((t :: l1) ++ l2)%list in F. apply split_app in F as (l1' & l2' & -> & F1 & F2).
    destruct (IH _ _ F2 N) as (p2 & vs' & hs' & L2 & E2 & S2).
    destruct (C _ _ _ _ H1 _ _ F1 (ren_hd _ _ _ _ F2 N)) as (p1 & v1 & L1 & E1).
    inversion F1 as [|? t' ? r Et Fr]; subst.
    exists (p1 ++ p2)%list, (v1 :: vs'), (t' :: hs'). split; [|split; constructor; auto].
    cbn [app]. now constructor.
Qed.
Lemma moves_while : forall A (Q : A -> A -> Prop) c g, moves Q g -> moves (Forall2 Q) (While c g).
Proof.
  intros A Q c g C l nxt out v [hs H] l' nxt' F N.
  destruct (moves_star _ _ _ C _ _ _ _ _ H _ _ F N) as (o & v' & hs' & L & E & _). exists o, v'. split; auto. exists hs'. auto.
Qed.
(** the first words of the repeated parts are words of the grammar *)
Lemma star_heads : forall A (g : gr A) ws, forallb (la_is (next_in ws) true) (look g [FAny; FEof]) = true ->
  forall l nxt out vs hs, star (lang g) l nxt out vs hs -> Forall (fun t => matches ws t = true) hs.
Proof.
  intros A g ws K l nxt out vs hs H. induction H as [nxt|t l1 l2 nxt o1 o2 v vs hs H1 H2 IH]; constructor; auto.
  destruct (look_within _ _ [FAny; FEof] _ _ _ _ H1 (within_any _)) as (f & I & M). rewrite forallb_forall in K.
  pose proof (la_is_spec _ _ _ _ (K _ I) M) as X. cbn [hdr la_mem next_in la_words la_neg] in X. now rewrite xorb_false_r in X.
Qed.
Lemma moves_whileu : forall A (Q : A -> A -> Prop) ws key g, known_words d ws ->
  forallb (la_is (next_in ws) true) (look g [FAny; FEof]) = true ->
  moves Q g -> moves (Forall2 Q) (WhileU (next_in ws) key g).
Proof.
  intros A Q ws key g W K C l nxt out v (hs & H & D) l' nxt' F N.
  destruct (moves_star _ _ _ C _ _ _ _ _ H _ _ F N) as (o & v' & hs' & L & E & X). exists o, v'. split; auto. exists hs'.
  split; auto. replace hs' with hs; auto. apply (star_heads _ _ _ K) in H. clear - X H W.
  induction X as [|t t' hs hs' T X IH]; auto. inversion H; subst. f_equal; auto. symmetry. eapply ren_word; eauto.
Qed.
Lemma moves_sepby : forall A (Q : A -> A -> Prop) keep g, moves Q g -> moves (Forall2 Q) (SepBy keep g).
Proof.
  intros A Q keep g C l nxt out vs H.
  induction H as [l nxt o v H|l1 l2 nxt o1 o2 v vs H1 H2 IH]; intros l' nxt' F N.
  - destruct (C _ _ _ _ H _ _ F N) as (p & v' & L & E). exists p, [v']. split; auto. now constructor.
  - apply split_app in F as (l1' & r & -> & F1 & F2). inversion F2 as [|? t' ? l2' Et Fr]; subst.
    pose proof (ren_mark "," _ ltac:(cbn; tauto) Et) as ->.
    destruct (IH _ _ Fr N) as (p2 & vs' & L2 & E2).
    destruct (C _ _ _ _ H1 _ (Some ",") F1 (renamed_refl _ _ _)) as (p1 & v1 & L1 & E1).
    exists (p1 ++ kept keep [","] ++ p2)%list, (v1 :: vs'). split; [now constructor|now constructor].
Qed.

(** ** Statements *)

Definition ref_ren (r r' : a_ref) : Prop :=
  optR S (ar_schema r) (ar_schema r') /\ S (ar_table r) (ar_table r') /\ optR (Forall2 S) (ar_columns r) (ar_columns r').
Inductive default_ren : a_default -> a_default -> Prop :=
| dr_refl x : default_ren x x
| dr_expr l l' : Forall2 S l l' -> default_ren (AExpr l) (AExpr l').
Inductive item_ren : a_item -> a_item -> Prop :=
| ir_refl i : item_ren i i
| ir_default x x' : default_ren x x' -> item_ren (IDefault x) (IDefault x')
| ir_check l l' : Forall2 S l l' -> item_ren (ICheck l) (ICheck l')
| ir_collate t t' : S t t' -> item_ren (ICollate t) (ICollate t')
| ir_references r r' : ref_ren r r' -> item_ren (IReferences r) (IReferences r').
Inductive body_ren : a_body -> a_body -> Prop :=
| br_refl b : body_ren b b
| br_primary l l' : Forall2 S l l' -> body_ren (BPrimary l) (BPrimary l')
| br_unique l l' : Forall2 S l l' -> body_ren (BUnique l) (BUnique l')
| br_check l l' : Forall2 S l l' -> body_ren (BCheck l) (BCheck l')
| br_foreign l l' r r' : Forall2 S l l' -> ref_ren r r' -> body_ren (BForeign l r) (BForeign l' r').
Inductive element_ren : a_element -> a_element -> Prop :=
| er_constraint n n' b b' : optR S n n' -> body_ren b b' -> element_ren (EConstraint n b) (EConstraint n' b')
| er_column n n' t c c' l l' : S n n' -> optR S c c' -> Forall2 item_ren l l' ->
    element_ren (EColumn (mk_acolumn n t c l)) (EColumn (mk_acolumn n' t c' l')).
Inductive stmt_ren : a_stmt -> a_stmt -> Prop :=
| sr_other : stmt_ren SOther SOther
| sr_table i s s' t t' l l' : optR S s s' -> S t t' -> Forall2 element_ren l l' ->
    stmt_ren (STable (mk_atable i s t l)) (STable (mk_atable i s' t' l')).
End Renamed.

Lemma Forall2_eq' : forall A (l l' : list A), Forall2 eq l l' -> l = l'.
Proof. induction 1; congruence. Qed.

Ltac ren_of d R T :=
  lazymatch T with
  | string => constr:(renamed d R)
  | list ?A => let Q := ren_of d R A in constr:(Forall2 Q)
  | option ?A => let Q := ren_of d R A in constr:(optR Q)
  | (?A * ?B)%type => let P := ren_of d R A in let Q := ren_of d R B in constr:(prodR P Q)
  | a_ref => constr:(ref_ren d R)
  | a_default => constr:(default_ren d R)
  | a_item => constr:(item_ren d R)
  | a_body => constr:(body_ren d R)
  | a_element => constr:(element_ren d R)
  | a_stmt => constr:(stmt_ren d R)
  | _ => constr:(@eq T)
  end.
Ltac split_ren :=
  repeat match goal with
  | v : (_ * _)%type |- _ => destruct v
  | v : unit |- _ => destruct v
  | H : prodR _ _ _ _ |- _ => destruct H; cbn [fst snd] in *
  | H : (_, _) = (_, _) |- _ => inversion H; clear H; subst
  | H : _ = _ |- _ => progress subst
  | H : optR _ ?a ?b |- _ => is_var a; is_var b; destruct a, b; cbn [optR] in H; try contradiction H
  | H : Forall2 eq _ _ |- _ => apply Forall2_eq' in H; subst
  end.
Ltac close_ren :=
  intros; split_ren; cbn [fst snd];
  first
  [ reflexivity
  | eassumption
  | solve [auto]
  | constructor; solve [auto]
  | solve [repeat first [eassumption | reflexivity | exact I | progress (repeat split) | constructor]] ].
Ltac ren_move d R :=
  lazymatch goal with
  | |- moves _ _ ?Q ?g =>
    lazymatch g with
    | Eps => apply moves_eps
    | Put _ => apply moves_put
    | One _ (CW _) => apply moves_kw; known
    | One _ (CName _) => exact (moves_name d R _)
    | One _ _ => apply moves_fixed; first [exact I|reflexivity]
    | NotNext _ => apply moves_notnext; known
    | IsNext _ => apply moves_isnext; known
    | Brackets _ => apply moves_brackets
    | Skip => apply moves_skip
    | GMysql.keys _ => match goal with H : forall k, moves _ _ _ (GMysql.keys k) |- _ => apply H end
    | Seq _ _ => eapply moves_seq; ren_move d R
    | opt _ _ => eapply moves_opt; ren_move d R
    | optkw _ _ => unfold optkw; eapply moves_opt; ren_move d R
    | @Map _ ?B _ _ =>
        let P := ren_of d R B in
        eapply moves_map; [ren_move d R
          |first [ solve [unify Q (@eq B); close_ren] | solve [unify Q P; close_ren] | idtac "stuck" B; fail 2 ]]
    | @Cond ?A _ _ _ => let P := ren_of d R A in eapply (moves_cond d R _ P); ren_move d R
    | While _ _ => eapply moves_while; ren_move d R
    | WhileU _ _ _ => eapply moves_whileu; [known|vm_compute; reflexivity|ren_move d R]
    | SepBy _ _ => eapply moves_sepby; ren_move d R
    | _ => let g' := eval red in g in change g with g'; ren_move d R
    end
  end.
Lemma moves_keys : forall R keep, moves MySQL R (Forall2 (renamed MySQL R)) (GMysql.keys keep).
Proof.
  intros R keep. unfold GMysql.keys. eapply (moves_map MySQL R _ _ (prodR eq (prodR (Forall2 (optR (renamed MySQL R))) eq))).
  - eapply moves_seq; [apply moves_kw; known|]. eapply moves_seq; [|apply moves_kw; known]. eapply moves_sepby. ren_move MySQL R.
  - intros [a [l b]] [a' [l' b']] (_ & H & _). cbn in *. unfold GMysql.some_of. induction H as [|x x' l l' E H IH]; cbn; [constructor|].
    destruct x, x'; cbn in E; try contradiction; cbn; auto.
Qed.
Lemma moves_script : forall d R, moves d R (Forall2 (stmt_ren d R)) (script d).
Proof.
  intros d R. destruct d as [| | |x]; cbn [script].
  - ren_move SQLite R.
  - ren_move PostgreSQL R.
  - pose proof (moves_keys R) as KEYS. ren_move MySQL R.
  - ren_move (Other x) R.
Qed.

(** ** Tables *)
Section Tables.
Variables (d : rdbms) (R : string -> string -> Prop).
Notation S := (renamed d R).
Lemma same_names : forall t, name_renamed d R (unquote d t) (unquote d t).
Proof. intros t. exists t, t. repeat split. now left. Qed.
Lemma ren_names : forall t t', S t t' -> name_renamed d R (unquote d t) (unquote d t').
Proof. intros t t' H. exists t, t'. auto. Qed.
Lemma ren_opt : forall o o', optR S o o' -> opt_renamed d R (opt_name d o) (opt_name d o').
Proof. intros [t|] [t'|] H; cbn in *; try tauto; [right; now apply ren_names|left; auto]. Qed.
Lemma list_refl : forall l, Forall2 S l l.
Proof. induction l; constructor; auto. now left. Qed.
Lemma ren_text : forall l l', Forall2 S l l' -> text_renamed d R (text l) (text l').
Proof. intros l l' H. exists l, l'. auto. Qed.
Lemma empty_text : text_renamed d R "" "".
Proof. exists [], []. repeat split. constructor. Qed.
Lemma ren_default : forall x x', default_ren d R x x' -> default_renamed d R (default_of d x) (default_of d x').
Proof. intros x x' [y|l l' H]; [now left|]. right. cbn. do 2 eexists. split; [reflexivity|split; [reflexivity|now apply ren_text]]. Qed.
Lemma ren_reference : forall r r', ref_ren d R r r' -> reference_renamed d R (reference_of d r) (reference_of d r').
Proof.
  intros [s t c] [s' t' c'] (A & B & C). cbn in *. split; cbn; [right; now apply ren_names|]. destruct c, c'; cbn in C; auto.
Qed.
Lemma zero_ref : reference_renamed d R zero_reference zero_reference.
Proof. split; cbn; auto. left. auto. Qed.
Lemma ref_refl : forall r, ref_ren d R r r.
Proof. intros [s t c]. repeat split; cbn; [destruct s; cbn; auto; now left|now left|destruct c; cbn; auto using list_refl]. Qed.

Lemma first_ren : forall A B (Q : A -> A -> Prop) (P : B -> B -> Prop) (f : A -> option B),
  (forall i i', Q i i' -> optR P (f i) (f i')) -> forall l l', Forall2 Q l l' -> optR P (first_of f l) (first_of f l').
Proof.
  intros A B Q P f H l l' F. induction F as [|i i' l l' E F IH]; cbn; auto. apply H in E. destruct (f i), (f i'); cbn in E; auto; contradiction.
Qed.
Lemma exists_ren : forall A (Q : A -> A -> Prop) (f : A -> bool), (forall i i', Q i i' -> f i = f i') ->
  forall l l', Forall2 Q l l' -> existsb f l = existsb f l'.
Proof. intros A Q f H l l' F. induction F as [|i i' l l' E F IH]; cbn; auto. now rewrite (H _ _ E), IH. Qed.
Lemma ren_constraint : forall n n' l l', optR S n n' -> Forall2 (item_ren d R) l l' ->
  let k := constraint_of d n l in let k' := constraint_of d n' l' in
  opt_renamed d R (c_name k) (c_name k') /\ c_pk k = c_pk k' /\ c_unique k = c_unique k' /\ c_notnull k = c_notnull k' /\ c_auto k = c_auto k' /\
  default_renamed d R (c_default k) (c_default k') /\ text_renamed d R (c_check k) (c_check k') /\
  opt_renamed d R (c_collate k) (c_collate k') /\ reference_renamed d R (c_references k) (c_references k').
Proof.
  intros n n' l l' N F. cbn. split; [now apply ren_opt|].
  do 4 (split; [apply (exists_ren _ (item_ren d R)); [intros i i' []; reflexivity|exact F]|]).
  assert (X : forall B (P : B -> B -> Prop) z o o', P z z -> optR P o o' -> P (or_else o z) (or_else o' z)).
  { intros B P z [|] [|] Z H; cbn in *; auto; contradiction. }
  split; [|split; [|split]].
  - apply X; [now left|]. apply (first_ren _ _ (item_ren d R)); auto. intros i i' [j|x x' H|a a' H|t t' H|r r' H]; cbn; auto; [|now apply ren_default].
    destruct j; cbn; auto. now left.
  - apply X; [apply empty_text|]. apply (first_ren _ _ (item_ren d R)); auto. intros i i' [j|x x' H|a a' H|t t' H|r r' H]; cbn; auto; [|now apply ren_text].
    destruct j; cbn; auto. apply ren_text, list_refl.
  - apply X; [left; auto|]. apply (first_ren _ _ (item_ren d R)); auto. intros i i' [j|x x' H|a a' H|t t' H|r r' H]; cbn; auto; [|right; now apply ren_names].
    destruct j; cbn; auto. right. apply same_names.
  - apply X; [apply zero_ref|]. apply (first_ren _ _ (item_ren d R)); auto. intros i i' [j|x x' H|a a' H|t t' H|r r' H]; cbn; auto; [|now apply ren_reference].
    destruct j; cbn; auto. apply ren_reference, ref_refl.
Qed.
Lemma flat_ren : forall A B (Q : A -> A -> Prop) (P : B -> B -> Prop) (f : A -> list B), (forall a a', Q a a' -> Forall2 P (f a) (f a')) ->
  forall l l', Forall2 Q l l' -> Forall2 P (flat_map f l) (flat_map f l').
Proof. intros A B Q P f H l l' F. induction F; cbn; auto. apply Forall2_app; auto. Qed.
Lemma ren_columns : forall e e', Forall2 (element_ren d R) e e' -> Forall2 (column_renamed d R eq) (columns_of d e) (columns_of d e').
Proof.
  apply flat_ren. intros a a' [n n' b b' N B|n n' t c c' l l' N C L]; constructor; auto.
  unfold column_renamed, column_of. cbn [ac_name ac_type ac_cname ac_items col_name col_type col_constraint].
  split; [now apply ren_names|]. split; auto. now apply ren_constraint.
Qed.
Lemma ren_tc : forall e e', Forall2 (element_ren d R) e e' -> tc_renamed d R (constraints_of d e) (constraints_of d e').
Proof.
  intros e e' H. unfold constraints_of, tc_renamed. cbn [tc_pk tc_unique tc_check tc_fk].
  repeat split; revert e e' H; apply flat_ren; intros a a' [n n' b b' N B|n n' t c c' l l' N C L]; try constructor.
  all: destruct B as [b|x x' X|x x' X|x x' X|x x' r r' X Y]; try destruct b; constructor; try constructor; cbn; unfold list_renamed;
    repeat split; auto using ren_opt, ren_text, list_refl.
  all: first [apply ren_reference, ref_refl|now apply ren_reference].
Qed.
Lemma ren_tables : forall s s', Forall2 (stmt_ren d R) s s' -> Forall2 (table_renamed d R eq) (tables_of d s) (tables_of d s').
Proof.
  apply flat_ren. intros a a' [|i s s' t t' l l' A B C]; constructor; auto.
  unfold table_renamed, table_of. cbn. split; [now apply ren_opt|]. split; [now apply ren_names|]. split; auto.
  split; [now apply ren_columns|now apply ren_tc].
Qed.

(** what the converter makes of them *)
Lemma not_names_known : known_words d not_names.
Proof. destruct d; vm_compute; reflexivity. Qed.
Lemma ren_comma : forall t t', S t t' -> (t =? ",") = (t' =? ",").
Proof.
  intros t t' H. destruct (String.eqb_spec t ",") as [->|E].
  - rewrite (ren_mark d R "," t'); auto. cbn. tauto.
  - symmetry. apply String.eqb_neq. eapply ren_not_mark; eauto. cbn. tauto.
Qed.
Lemma ren_squeeze : forall l l', Forall2 S l l' -> Forall2 S (squeeze l) (squeeze l').
Proof.
  intros l l' F. induction F as [|t t' l l' H F IH]; cbn [squeeze]; [constructor|].
  rewrite (ren_comma _ _ H). assert (comma_next l = comma_next l') as ->.
  { destruct F; auto. cbn. now apply ren_comma. }
  destruct ((t' =? ",") && comma_next l'); auto.
Qed.
Lemma ren_seen_item : forall i i', item_ren d R i i' -> item_ren d R (seen_item i) (seen_item i').
Proof.
  intros i i' [j|x x' [y|l l' H]|a a' H|t t' H|r r' H]; cbn [seen_item]; try (constructor; auto using ren_squeeze; fail).
  apply ir_default, dr_expr. now apply ren_squeeze.
Qed.
Lemma ren_seen : forall s s', Forall2 (stmt_ren d R) s s' -> Forall2 (stmt_ren d R) (seen s) (seen s').
Proof.
  intros s s' F. induction F as [|a a' s s' H F IH]; cbn [seen map]; constructor; auto.
  destruct H as [|i s1 s1' t t' l l' A B C]; cbn [seen_stmt]; [constructor|]. unfold seen_table. cbn [at_ine at_schema at_name at_elements]. constructor; auto.
  clear - C. induction C as [|e e' l l' H C IH]; cbn [map]; constructor; auto.
  destruct H as [n n' b b' N B|n n' t c c' l1 l1' N C1 L]; cbn [seen_element].
  - constructor; auto. destruct B; cbn; constructor; auto using ren_squeeze.
  - unfold seen_column. cbn [ac_name ac_type ac_cname ac_items].
    assert (J : Forall2 (item_ren d R) (map seen_item l1) (map seen_item l1')).
    { clear - L. induction L; cbn [map]; constructor; auto using ren_seen_item. }
    destruct c as [x|], c' as [x'|]; cbn in C1; try contradiction; [|constructor; cbn; auto].
    rewrite (renamed_matches _ _ _ _ _ not_names_known C1). destruct (matches not_names x'); constructor; cbn; auto. constructor; auto. constructor.
Qed.
Lemma ren_readable : forall s s', Forall2 (stmt_ren d R) s s' -> readable s = readable s'.
Proof.
  intros s s' F. induction F as [|a a' s s' H F IH]; cbn; auto. unfold readable in IH. rewrite IH. f_equal.
  destruct H as [|i s1 s1' t t' l l' A B C]; cbn; auto. unfold readable_table. cbn [at_elements].
  assert (Y : forall r r', ref_ren d R r r' -> safe_ref r = safe_ref r').
  { intros [r1 r2 r3] [r1' r2' r3'] (X & _). unfold safe_ref. cbn in *. destruct r1, r1'; cbn in X; auto; contradiction. }
  f_equal.
  - clear - C Y. induction C as [|e e' l l' H C IH]; cbn; auto. rewrite IH. f_equal.
    destruct H as [n n' b b' N B|n n' t c c' l1 l1' N C1 L]; cbn.
    + destruct B; cbn; auto.
    + clear - L Y. induction L as [|i i' l l' I L IH]; cbn; auto. rewrite IH. f_equal. destruct I; cbn; auto.
  - unfold first_ok. destruct C as [|e e' l l' H C]; auto. destruct C; auto. f_equal.
    destruct H as [n n' b b' N BB|]; auto. destruct n, n'; cbn in *; auto; try contradiction. destruct BB; auto.
Qed.
End Tables.

Theorem renamed_statements : forall d R l l' stmts, (exists out, lang (script d) l None out stmts) -> Forall2 (renamed d R) l l' ->
  exists stmts', (exists out, lang (script d) l' None out stmts') /\ Forall2 (stmt_ren d R) stmts stmts'.
Proof.
  intros d R l l' stmts [out L] F. destruct (moves_script d R _ _ _ _ L l' None F I) as (o & v & L' & E). exists v. split; eauto.
Qed.
Theorem renamed_tables : forall d R ddl ddl' l l' stmts, tokens d ddl l -> tokens d ddl' l' -> Forall2 (renamed d R) l l' ->
  says d ddl stmts -> readable stmts = true ->
  exists ts ts', accepted ddl d ts /\ accepted ddl' d ts' /\ Forall2 (table_renamed d R eq) ts ts'.
Proof.
  intros d R ddl ddl' l l' stmts T T' F (l0 & out & T0 & L) RD. rewrite (tokens_det _ _ _ _ T0 T) in L.
  destruct (renamed_statements d R l l' stmts (ex_intro (fun o => lang (script d) l None o stmts) _ L) F) as (s' & [o' L'] & E).
  exists (tables_of d (seen stmts)), (tables_of d (seen s')). split; [apply says_seen; auto; exists l, out; auto|].
  split; [apply says_seen; [exists l', o'; auto|now rewrite <- (ren_readable d R _ _ E)]|].
  apply ren_tables, ren_seen, E.
Qed.

(** ** Quotation marks *)
Section Requoted.
Variable d : rdbms.
Notation Q := (same_name d).
Lemma rq_name : forall x x', name_renamed d Q x x' -> x = x'.
Proof. intros x x' (t & t' & [->|(H & _)] & -> & ->); auto. Qed.
Lemma rq_opt : forall x x', opt_renamed d Q x x' -> x = x'.
Proof. intros x x' [[-> ->]|H]; auto using rq_name. Qed.
Lemma rq_reference : forall r r', reference_renamed d Q r r' -> reference_requoted d r r'.
Proof. intros r r' [A B]. split; auto using rq_opt. Qed.
Lemma rq_column : forall T c c', column_renamed d Q T c c' -> column_requoted d T c c'.
Proof.
  intros T c c' (A & B & C & D & E & F & G & H & I & J & K). unfold column_requoted. cbn zeta. apply rq_name in A. apply rq_opt in C, J. apply rq_reference in K. tauto.
Qed.
Lemma Forall2_sub : forall A (P P' : A -> A -> Prop), (forall a b, P a b -> P' a b) -> forall l l', Forall2 P l l' -> Forall2 P' l l'.
Proof. induction 2; constructor; auto. Qed.
Lemma rq_table : forall T t t', table_renamed d Q T t t' -> table_requoted d T t t'.
Proof.
  intros T t t' (A & B & C & D & E & F & G & H). apply rq_opt in A. apply rq_name in B. repeat split; auto.
  - revert D. apply Forall2_sub, rq_column.
  - revert E. apply Forall2_sub. intros p p' [X Y]. split; auto using rq_opt.
  - revert F. apply Forall2_sub. intros p p' [X Y]. split; auto using rq_opt.
  - revert G. apply Forall2_sub. intros p p' [X Y]. split; auto using rq_opt.
  - revert H. apply Forall2_sub. intros p p' (X & Y & Z). auto using rq_opt, rq_reference.
Qed.
End Requoted.
Theorem requoted_tables : forall d ddl ddl' l l' stmts, tokens d ddl l -> tokens d ddl' l' -> Forall2 (renamed d (same_name d)) l l' ->
  says d ddl stmts -> readable stmts = true ->
  exists ts ts', accepted ddl d ts /\ accepted ddl' d ts' /\ Forall2 (table_requoted d eq) ts ts'.
Proof.
  intros d ddl ddl' l l' stmts T T' F SA RD. destruct (renamed_tables _ _ _ _ _ _ _ T T' F SA RD) as (ts & ts' & A & B & E).
  exists ts, ts'. split; auto. split; auto. revert E. apply Forall2_sub, rq_table.
Qed.
