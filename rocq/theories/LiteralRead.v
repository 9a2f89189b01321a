(** Other strings: what readable scripts say. *)
From Coq Require Import String Ascii List Bool Arith NArith Lia.
From Verif Require Import GoStr GoNum Unicode Types Lexer VBase Exec Grammar GrammarFacts Ast Spec Scan Pipe Safe Seen Meaning Names Recase RecaseFacts
  Rename RenameTokens RenameVerdict Literal LiteralFacts.
From Verif Require GSqlite GPostgres GMysql RenameFacts LiteralConvert.
Import ListNotations.
Open Scope nat_scope.
Open Scope string_scope.

Section Renamed.
Variables (d : rdbms) (R : string -> string -> Prop).
Notation S := (swapped d R).
Definition nren (o o' : option string) : Prop := match o, o' with Some t, Some t' => S t t' | None, None => True | _, _ => False end.

Definition moves {A} (Q : A -> A -> Prop) (g : gr A) : Prop :=
  forall l nxt out v, lang g l nxt out v -> forall l' nxt', Forall2 S l l' -> nren nxt nxt' ->
  exists out' v', lang g l' nxt' out' v' /\ Q v v'.

Lemma split_app : forall (l1 l2 l' : list string), Forall2 S (l1 ++ l2) l' ->
  exists l1' l2', l' = (l1' ++ l2')%list /\ Forall2 S l1 l1' /\ Forall2 S l2 l2'.
Proof. intros l1 l2 l' H. apply Forall2_app_inv_l in H as (a & b & A & B & ->). eauto. Qed.
Lemma ren_hd : forall l l' nxt nxt', Forall2 S l l' -> nren nxt nxt' -> nren (hdr l nxt) (hdr l' nxt').
Proof. intros l l' nxt nxt' [] N; auto. Qed.
(** the words of the grammars stay *)
Lemma ren_word : forall ws t t', known_words d ws -> matches ws t = true -> S t t' -> t' = t.
Proof. intros ws t t' K M [->|(_ & N & _)]; auto. rewrite (st_matches _ _ N _ K) in M. discriminate. Qed.
Lemma ren_mark : forall w t', In w marks -> S w t' -> t' = w.
Proof.
  intros w t' I. apply (ren_word [w]).
  - unfold known_words. cbn [forallb]. apply contains_spec in I. now rewrite I, orb_true_r.
  - apply matches_spec. exists w. split; [now left|]. right. cbn in I. repeat (destruct I as [<-|I]; [reflexivity|]). contradiction.
Qed.
Lemma ren_not_mark : forall w t t', In w marks -> t <> w -> S t t' -> t' <> w.
Proof.
  intros w t t' I H [->|(_ & _ & N)]; auto. intros ->. pose proof (st_no_string _ _ N) as E.
  cbn in I. repeat (destruct I as [<-|I]; [discriminate E|]). contradiction.
Qed.

Lemma moves_eps : moves eq Eps.
Proof. intros l nxt out v [-> ->] l' nxt' H N. inversion H; subst. exists [], v. cbn. auto. Qed.
Lemma moves_put : forall o, moves eq (Put o).
Proof. intros o l nxt out v [-> ->] l' nxt' H N. inversion H; subst. exists o, v. cbn. auto. Qed.
Lemma one_inv : forall v l', Forall2 S [v] l' -> exists t, l' = [t] /\ S v t.
Proof. intros v l' H. inversion H as [|? t ? ? E F]; subst. inversion F; subst. eauto. Qed.
Lemma moves_kw : forall keep ws, known_words d ws -> moves eq (One keep (CW ws)).
Proof.
  intros keep ws K l nxt out v (M & -> & ->) l' nxt' H N. apply one_inv in H as (t & -> & E). cbn [cmem] in M.
  pose proof (ren_word _ _ _ K M E) as ->. exists (kept keep [v]), v. cbn. auto.
Qed.
Lemma moves_name : forall keep, moves eq (One keep (CName (base d))).
Proof.
  intros keep l nxt out v (M & -> & ->) l' nxt' H N. apply one_inv in H as (t & -> & E). cbn [cmem] in M.
  assert (t = v) as ->. { destruct E as [->|(_ & X & _)]; auto. rewrite legal_base, (st_illegal _ _ X) in M. discriminate. }
  exists (kept keep [v]), v. cbn. auto.
Qed.
Lemma moves_pos : forall keep, moves eq (One keep CPos).
Proof.
  intros keep l nxt out v (M & -> & ->) l' nxt' H N. apply one_inv in H as (t & -> & E). cbn [cmem] in M.
  assert (t = v) as ->. { destruct E as [->|(_ & X & _)]; auto. rewrite (st_positive _ _ X) in M. discriminate. }
  exists (kept keep [v]), v. cbn. auto.
Qed.
Lemma moves_str : forall keep, moves S (One keep (CStr (base d))).
Proof.
  intros keep l nxt out v (M & -> & ->) l' nxt' H N. apply one_inv in H as (t & -> & E). cbn [cmem] in M.
  assert (quoted (str_quotes (base d)) t = true). { destruct E as [->|(_ & _ & X)]; auto. rewrite str_base. now apply st_quoted. }
  exists (kept keep [t]), t. cbn. auto.
Qed.
Lemma moves_lit : forall keep, moves S (One keep (CLit (base d))).
Proof.
  intros keep l nxt out v (M & -> & ->) l' nxt' H N. apply one_inv in H as (t & -> & E). cbn [cmem] in M.
  assert (literal (base d) t = true).
  { destruct E as [->|(_ & _ & X)]; auto. unfold literal. rewrite str_base, (st_quoted _ _ X). now rewrite orb_true_r. }
  exists (kept keep [t]), t. cbn. auto.
Qed.
Lemma moves_notnext : forall ws, known_words d ws -> moves eq (NotNext ws).
Proof.
  intros ws K l nxt out v (-> & -> & M) l' nxt' H N. inversion H; subst. exists [], v. cbn. repeat split; auto.
  destruct nxt, nxt'; cbn in N; try tauto. now rewrite <- (swapped_matches _ _ _ _ _ K N).
Qed.
Lemma moves_isnext : forall ws, known_words d ws -> moves eq (IsNext ws).
Proof.
  intros ws K l nxt out v (-> & -> & M) l' nxt' H N. inversion H; subst. exists [], v. cbn. repeat split; auto.
  destruct nxt, nxt'; cbn in N; try tauto. now rewrite <- (swapped_matches _ _ _ _ _ K N).
Qed.
Lemma ren_balanced : forall l, balanced l -> forall l', Forall2 S l l' -> balanced l'.
Proof.
  induction 1 as [|t l A B H IH|l1 l2 H1 IH1 H2 IH2]; intros l' F.
  - inversion F; subst. constructor.
  - inversion F as [|? t' ? l'' E F']; subst. constructor; auto; eapply ren_not_mark; eauto; cbn; tauto.
  - inversion F as [|? t' ? l'' E F']; subst. apply split_app in F' as (a & b & -> & FA & FB).
    inversion FB as [|? t'' ? b' E' FB']; subst. rewrite (ren_mark "(" t'), (ren_mark ")" t''); auto; try (cbn; tauto). now constructor; auto.
Qed.
Lemma moves_brackets : forall keep, moves (Forall2 S) (Brackets keep).
Proof.
  intros keep l nxt out v (l1 & B & E & -> & ->) l' nxt' F N. rewrite E in F. inversion F as [|? t' ? l'' E1 F']; subst.
  apply split_app in F' as (a & b & -> & FA & FB). apply one_inv in FB as (t & -> & E2).
  pose proof (ren_mark "(" _ ltac:(cbn; tauto) E1) as ->. pose proof (ren_mark ")" _ ltac:(cbn; tauto) E2) as ->.
  exists (kept keep ("(" :: a ++ [")"])), ("(" :: a ++ [")"])%list. split; auto. exists a. split; auto. now apply (ren_balanced l1).
Qed.
Lemma begin_known : known_words d ["BEGIN"] /\ known_words d ["END"].
Proof. destruct d; split; vm_compute; reflexivity. Qed.
Lemma ren_skipped : forall l, skipped l -> forall l', Forall2 S l l' -> skipped l'.
Proof.
  destruct begin_known as [KB KE].
  induction 1 as [|t l A B H IH|b mid e l A M E H IH]; intros l' F.
  - inversion F; subst. constructor.
  - inversion F as [|? t' ? l'' X F']; subst. constructor; auto.
    + now rewrite <- (swapped_matches _ _ _ _ _ KB X).
    + eapply ren_not_mark; eauto. cbn. tauto.
  - inversion F as [|? t' ? l'' X F']; subst. apply split_app in F' as (m' & r & -> & FM & FR).
    inversion FR as [|? t'' ? r' X' FR']; subst. apply sk_block; auto.
    + now rewrite <- (swapped_matches _ _ _ _ _ KB X).
    + clear - FM M KE. induction FM as [|x x' ? ? X FM IH]; constructor; inversion M; subst; auto.
      now rewrite <- (swapped_matches _ _ _ _ _ KE X).
    + now rewrite <- (swapped_matches _ _ _ _ _ KE X').
Qed.
Lemma moves_skip : moves eq Skip.
Proof.
  intros l nxt out v (B & -> & ->) l' nxt' F N. exists [], v. split; auto. split; [now apply (ren_skipped l)|split; auto].
  destruct nxt' as [t|]; [|destruct N]. cbn in N. f_equal. apply (ren_mark ";" t); auto. cbn. tauto.
Qed.
Lemma moves_seq : forall A B (P : A -> A -> Prop) (Q : B -> B -> Prop) (g : gr A) (h : gr B), moves P g -> moves Q h -> moves (prodR P Q) (Seq g h).
Proof.
  intros A B P Q g h CG CH l nxt out v (l1 & l2 & o1 & o2 & -> & -> & H1 & H2) l' nxt' F N.
  apply split_app in F as (l1' & l2' & -> & F1 & F2).
  destruct (CH _ _ _ _ H2 _ _ F2 N) as (p2 & v2 & L2 & E2).
  destruct (CG _ _ _ _ H1 _ _ F1 (ren_hd _ _ _ _ F2 N)) as (p1 & v1 & L1 & E1).
  exists (p1 ++ p2)%list, (v1, v2). split; [|split; auto]. exists l1', l2', p1, p2. auto.
Qed.
Lemma moves_map : forall A B (P : A -> A -> Prop) (Q : B -> B -> Prop) f g,
  moves P g -> (forall v v', P v v' -> Q (f v) (f v')) -> moves Q (Map f g).
Proof.
  intros A B P Q f g C H l nxt out v (a & -> & L) l' nxt' F N.
  destruct (C _ _ _ _ L _ _ F N) as (o & v' & L' & E). exists o, (f v'). split; [exists v'; auto|auto].
Qed.
Lemma moves_cond : forall A (Q : A -> A -> Prop) c g h, moves Q g -> moves Q h -> moves Q (Cond c g h).
Proof.
  intros A Q c g h CG CH l nxt out v [H|H] l' nxt' F N; [destruct (CG _ _ _ _ H _ _ F N) as (o & v' & L & E)
    |destruct (CH _ _ _ _ H _ _ F N) as (o & v' & L & E)]; exists o, v'; cbn; auto.
Qed.
Lemma moves_opt : forall A (Q : A -> A -> Prop) ws g, moves Q g -> moves (optR Q) (opt ws g).
Proof.
  intros A Q ws g C. apply moves_cond; eapply moves_map; eauto using moves_eps. intros v v' _. exact I.
Qed.
Lemma moves_star : forall A (Q : A -> A -> Prop) g, moves Q g ->
  forall l nxt out vs hs, star (lang g) l nxt out vs hs -> forall l' nxt', Forall2 S l l' -> nren nxt nxt' ->
  exists out' vs' hs', star (lang g) l' nxt' out' vs' hs' /\ Forall2 Q vs vs' /\ Forall2 S hs hs'.
Proof.
  intros A Q g C l nxt out vs hs H. induction H as [nxt|t l1 l2 nxt o1 o2 v vs hs H1 H2 IH]; intros l' nxt' F N.
  - inversion F; subst. exists [], [], []. repeat split; constructor.
  - change (t :: l1 ++ l2)%list with ((t :: l1) ++ l2)%list in F. apply split_app in F as (l1' & l2' & -> & F1 & F2).
    destruct (IH _ _ F2 N) as (p2 & vs' & hs' & L2 & E2 & S2).
    destruct (C _ _ _ _ H1 _ _ F1 (ren_hd _ _ _ _ F2 N)) as (p1 & v1 & L1 & E1).
    inversion F1 as [|? t' ? r Et Fr]; subst.
    exists (p1 ++ p2)%list, (v1 :: vs'), (t' :: hs'). split; [|split; constructor; auto].
    cbn [app]. now constructor.
Qed.
Lemma moves_while : forall A (Q : A -> A -> Prop) c g, moves Q g -> moves (Forall2 Q) (While c g).
Proof.
  intros A Q c g C l nxt out v [hs H] l' nxt' F N.
  destruct (moves_star _ _ _ C _ _ _ _ _ H _ _ F N) as (o & v' & hs' & L & E & _). exists o, v'. split; auto. exists hs'. auto.
Qed.
(** the first words of the repeated parts are words of the grammar *)
Lemma star_heads : forall A (g : gr A) ws, forallb (la_is (next_in ws) true) (look g [FAny; FEof]) = true ->
  forall l nxt out vs hs, star (lang g) l nxt out vs hs -> Forall (fun t => matches ws t = true) hs.
Proof.
  intros A g ws K l nxt out vs hs H. induction H as [nxt|t l1 l2 nxt o1 o2 v vs hs H1 H2 IH]; constructor; auto.
  destruct (look_within _ _ [FAny; FEof] _ _ _ _ H1 (within_any _)) as (f & I & M). rewrite forallb_forall in K.
  pose proof (la_is_spec _ _ _ _ (K _ I) M) as X. cbn [hdr la_mem next_in la_words la_neg] in X. now rewrite xorb_false_r in X.
Qed.
Lemma moves_whileu : forall A (Q : A -> A -> Prop) ws key g, known_words d ws ->
  forallb (la_is (next_in ws) true) (look g [FAny; FEof]) = true ->
  moves Q g -> moves (Forall2 Q) (WhileU (next_in ws) key g).
Proof.
  intros A Q ws key g W K C l nxt out v (hs & H & D) l' nxt' F N.
  destruct (moves_star _ _ _ C _ _ _ _ _ H _ _ F N) as (o & v' & hs' & L & E & X). exists o, v'. split; auto. exists hs'.
  split; auto. replace hs' with hs; auto. apply (star_heads _ _ _ K) in H. clear - X H W.
  induction X as [|t t' hs hs' T X IH]; auto. inversion H; subst. f_equal; auto. symmetry. eapply ren_word; eauto.
Qed.
Lemma moves_sepby : forall A (Q : A -> A -> Prop) keep g, moves Q g -> moves (Forall2 Q) (SepBy keep g).
Proof.
  intros A Q keep g C l nxt out vs H.
  induction H as [l nxt o v H|l1 l2 nxt o1 o2 v vs H1 H2 IH]; intros l' nxt' F N.
  - destruct (C _ _ _ _ H _ _ F N) as (p & v' & L & E). exists p, [v']. split; auto. now constructor.
  - apply split_app in F as (l1' & r & -> & F1 & F2). inversion F2 as [|? t' ? l2' Et Fr]; subst.
    pose proof (ren_mark "," _ ltac:(cbn; tauto) Et) as ->.
    destruct (IH _ _ Fr N) as (p2 & vs' & L2 & E2).
    destruct (C _ _ _ _ H1 _ (Some ",") F1 (swapped_refl _ _ _)) as (p1 & v1 & L1 & E1).
    exists (p1 ++ kept keep [","] ++ p2)%list, (v1 :: vs'). split; [now constructor|now constructor].
Qed.

(** ** Statements *)

Inductive default_ren : a_default -> a_default -> Prop :=
| dr_lit t t' : S t t' -> default_ren (ALit t) (ALit t')
| dr_expr l l' : Forall2 S l l' -> default_ren (AExpr l) (AExpr l').
Inductive item_ren : a_item -> a_item -> Prop :=
| ir_refl i : item_ren i i
| ir_default x x' : default_ren x x' -> item_ren (IDefault x) (IDefault x')
| ir_check l l' : Forall2 S l l' -> item_ren (ICheck l) (ICheck l').
Inductive body_ren : a_body -> a_body -> Prop :=
| br_refl b : body_ren b b
| br_check l l' : Forall2 S l l' -> body_ren (BCheck l) (BCheck l').
Inductive element_ren : a_element -> a_element -> Prop :=
| er_constraint n b b' : body_ren b b' -> element_ren (EConstraint n b) (EConstraint n b')
| er_column n t c l l' : Forall2 item_ren l l' -> element_ren (EColumn (mk_acolumn n t c l)) (EColumn (mk_acolumn n t c l')).
Inductive stmt_ren : a_stmt -> a_stmt -> Prop :=
| sr_other : stmt_ren SOther SOther
| sr_table i s t l l' : Forall2 element_ren l l' -> stmt_ren (STable (mk_atable i s t l)) (STable (mk_atable i s t l')).
End Renamed.

Lemma Forall2_eq' : forall A (l l' : list A), Forall2 eq l l' -> l = l'.
Proof. induction 1; congruence. Qed.

Ltac ren_of d R T :=
  lazymatch T with
  | string => constr:(@eq string)
  | list ?A => let Q := ren_of d R A in constr:(Forall2 Q)
  | option ?A => let Q := ren_of d R A in constr:(optR Q)
  | (?A * ?B)%type => let P := ren_of d R A in let Q := ren_of d R B in constr:(prodR P Q)
  | a_default => constr:(default_ren d R)
  | a_item => constr:(item_ren d R)
  | a_body => constr:(body_ren d R)
  | a_element => constr:(element_ren d R)
  | a_stmt => constr:(stmt_ren d R)
  | _ => constr:(@eq T)
  end.
Ltac split_ren :=
  repeat match goal with
  | v : (_ * _)%type |- _ => destruct v
  | v : unit |- _ => destruct v
  | H : prodR _ _ _ _ |- _ => destruct H; cbn [fst snd] in *
  | H : (_, _) = (_, _) |- _ => inversion H; clear H; subst
  | H : _ = _ |- _ => progress subst
  | H : optR _ ?a ?b |- _ => is_var a; is_var b; destruct a, b; cbn [optR] in H; try contradiction H
  | H : Forall2 eq _ _ |- _ => apply Forall2_eq' in H; subst
  end.
Ltac close_ren :=
  intros; split_ren; cbn [fst snd];
  first
  [ reflexivity
  | eassumption
  | solve [auto]
  | constructor; solve [auto]
  | solve [repeat first [eassumption | reflexivity | exact I | progress (repeat split) | constructor]] ].
Ltac ren_move d R :=
  lazymatch goal with
  | |- moves _ _ ?Q ?g =>
    lazymatch g with
    | Eps => apply moves_eps
    | Put _ => apply moves_put
    | One _ (CW _) => apply moves_kw; known
    | One _ (CName _) => exact (moves_name d R _)
    | One _ CPos => apply moves_pos
    | One _ (CLit _) => exact (moves_lit d R _)
    | One _ (CStr _) => exact (moves_str d R _)
    | NotNext _ => apply moves_notnext; known
    | IsNext _ => apply moves_isnext; known
    | Brackets _ => apply moves_brackets
    | Skip => apply moves_skip
    | GMysql.keys _ => match goal with H : forall k, moves _ _ _ (GMysql.keys k) |- _ => apply H end
    | Seq _ _ => eapply moves_seq; ren_move d R
    | opt _ _ => eapply moves_opt; ren_move d R
    | optkw _ _ => unfold optkw; eapply moves_opt; ren_move d R
    | @Map _ ?B _ _ =>
        let P := ren_of d R B in
        eapply moves_map; [ren_move d R
          |first [ solve [unify Q (@eq B); close_ren] | solve [unify Q P; close_ren] | solve [unify Q (Forall2 (swapped d R)); close_ren] | idtac "stuck" B; fail 2 ]]
    | @Cond ?A _ _ _ => let P := ren_of d R A in eapply (moves_cond d R _ P); ren_move d R
    | While _ _ => eapply moves_while; ren_move d R
    | WhileU _ _ _ => eapply moves_whileu; [known|vm_compute; reflexivity|ren_move d R]
    | SepBy _ _ => eapply moves_sepby; ren_move d R
    | _ => let g' := eval red in g in change g with g'; ren_move d R
    end
  end.
Lemma moves_keys : forall R keep, moves MySQL R eq (GMysql.keys keep).
Proof.
  intros R keep. unfold GMysql.keys. eapply (moves_map MySQL R _ _ (prodR eq (prodR (Forall2 eq) eq))).
  - eapply moves_seq; [apply moves_kw; known|]. eapply moves_seq; [|apply moves_kw; known]. eapply moves_sepby. ren_move MySQL R.
  - intros [a [l b]] [a' [l' b']] (_ & H & _). cbn in *. apply Forall2_eq' in H. now subst.
Qed.
Lemma moves_script : forall d R, moves d R (Forall2 (stmt_ren d R)) (script d).
Proof.
  intros d R. destruct d as [| | |x]; cbn [script].
  - ren_move SQLite R.
  - ren_move PostgreSQL R.
  - pose proof (moves_keys R) as KEYS. ren_move MySQL R.
  - ren_move (Other x) R.
Qed.

(** ** Tables *)
Section Tables.
Variables (d : rdbms) (R : string -> string -> Prop).
Notation S := (swapped d R).
Lemma list_refl : forall l, Forall2 S l l.
Proof. induction l; constructor; auto. now left. Qed.
Lemma ren_text : forall l l', Forall2 S l l' -> text_swapped d R (text l) (text l').
Proof. intros l l' H. exists l, l'. auto. Qed.
Lemma ren_default : forall x x', default_ren d R x x' -> default_swapped d R (default_of d x) (default_of d x').
Proof.
  intros x x' [t t' H|l l' H]; [|right; cbn; do 2 eexists; split; [reflexivity|split; [reflexivity|left; now apply ren_text]]].
  destruct H as [->|(HR & N & N')]; [now left|]. right. cbn [default_of]. unfold literal_value.
  rewrite (st_numeric _ _ N), (st_numeric _ _ N'). 
  assert (X : quoted (string_quotes d) t = quoted (string_quotes d) t').
  { pose proof (st_quoted d t N) as Q. pose proof (st_quoted d t' N') as Q'. destruct d; cbn [string_quotes]; try congruence. now destruct t, t'. }
  rewrite X. destruct (quoted (string_quotes d) t').
  - exists (inner t), (inner t'). repeat split. right. exists t, t'. auto.
  - rewrite !(LiteralConvert.st_upper d) by (auto; reflexivity). exists t, t'. repeat split. left. apply (LiteralConvert.text_one d R). right. auto.
Qed.
Lemma default_refl : forall x, default_ren d R x x.
Proof. intros [t|l]; constructor; [now left|apply list_refl]. Qed.
Lemma item_refl : forall i, item_ren d R i i.
Proof. constructor. Qed.

Lemma ren_constraint : forall n l l', Forall2 (item_ren d R) l l' -> constraint_kept d R (constraint_of d n l) (constraint_of d n l').
Proof.
  intros n l l' F. unfold constraint_kept. cbn. split; auto.
  do 4 (split; [apply (RenameFacts.exists_ren _ (item_ren d R)); [intros i i' []; reflexivity|exact F]|]).
  assert (X : forall B (P : B -> B -> Prop) z o o', P z z -> optR P o o' -> P (or_else o z) (or_else o' z)).
  { intros B P z [|] [|] Z H; cbn in *; auto; contradiction. }
  split; [|split; [|split]].
  - apply X; [now left|]. apply (RenameFacts.first_ren _ _ (item_ren d R)); auto. intros i i' [j|x x' H|a a' H]; cbn; auto; [|now apply ren_default].
    destruct j; cbn; auto. now left.
  - apply X; [apply LiteralConvert.empty_text|]. apply (RenameFacts.first_ren _ _ (item_ren d R)); auto. intros i i' [j|x x' H|a a' H]; cbn; auto; [|now apply ren_text].
    destruct j; cbn; auto. apply ren_text, list_refl.
  - apply X; auto. apply (RenameFacts.first_ren _ _ (item_ren d R)); auto. intros i i' [j|x x' H|a a' H]; cbn; auto. destruct j; cbn; auto.
  - apply X; auto. apply (RenameFacts.first_ren _ _ (item_ren d R)); auto. intros i i' [j|x x' H|a a' H]; cbn; auto. destruct j; cbn; auto.
Qed.
Lemma ren_columns : forall e e', Forall2 (element_ren d R) e e' -> Forall2 (column_kept d R) (columns_of d e) (columns_of d e').
Proof.
  apply RenameFacts.flat_ren. intros a a' [n b b' B|n t c l l' L]; constructor; auto.
  unfold column_kept, column_of. cbn [ac_name ac_type ac_cname ac_items col_name col_type col_constraint]. repeat split. all: now apply ren_constraint.
Qed.
Lemma ren_tc : forall e e', Forall2 (element_ren d R) e e' -> tc_kept d R (constraints_of d e) (constraints_of d e').
Proof.
  intros e e' H. unfold constraints_of, tc_kept. cbn [tc_pk tc_unique tc_check tc_fk]. repeat split.
  3: { revert e e' H; apply RenameFacts.flat_ren; intros a a' [n b b' B|n t c l l' L]; try constructor.
    destruct B as [b|x x' X]; try destruct b; constructor; try constructor; cbn; auto using ren_text, list_refl. }
  all: apply Forall2_eq'; revert e e' H; apply RenameFacts.flat_ren; intros a a' [n b b' B|n t c l l' L]; try constructor.
  all: destruct B as [b|x x' X]; try destruct b; constructor; auto; constructor.
Qed.
Lemma ren_tables : forall s s', Forall2 (stmt_ren d R) s s' -> Forall2 (table_kept d R) (tables_of d s) (tables_of d s').
Proof.
  apply RenameFacts.flat_ren. intros a a' [|i s t l l' C]; constructor; auto.
  unfold table_kept, table_of. cbn. repeat split. 1: now apply ren_columns. all: now apply ren_tc.
Qed.

(** what the converter makes of them *)
Lemma ren_squeeze : forall l l', Forall2 S l l' -> Forall2 S (squeeze l) (squeeze l').
Proof.
  intros l l' F. induction F as [|t t' l l' H F IH]; cbn [squeeze]; [constructor|].
  rewrite (LiteralConvert.ren_comma d R _ _ H). assert (comma_next l = comma_next l') as ->.
  { destruct F; auto. cbn. now apply (LiteralConvert.ren_comma d R). }
  destruct ((t' =? ",") && comma_next l'); auto.
Qed.
Lemma ren_seen_item : forall i i', item_ren d R i i' -> item_ren d R (seen_item i) (seen_item i').
Proof.
  intros i i' [j|x x' [t t' H|l l' H]|a a' H]; cbn [seen_item]; try (constructor; auto using ren_squeeze; fail).
  - apply ir_default, dr_lit. exact H.
  - apply ir_default, dr_expr. now apply ren_squeeze.
Qed.
Lemma ren_seen : forall s s', Forall2 (stmt_ren d R) s s' -> Forall2 (stmt_ren d R) (seen s) (seen s').
Proof.
  intros s s' F. induction F as [|a a' s s' H F IH]; cbn [seen map]; constructor; auto.
  destruct H as [|i s1 t l l' C]; cbn [seen_stmt]; [constructor|]. unfold seen_table. cbn [at_ine at_schema at_name at_elements]. constructor; auto.
  clear - C. induction C as [|e e' l l' H C IH]; cbn [map]; constructor; auto.
  destruct H as [n b b' B|n t c l1 l1' L]; cbn [seen_element].
  - constructor; auto. destruct B; cbn; constructor; auto using ren_squeeze.
  - unfold seen_column. cbn [ac_name ac_type ac_cname ac_items].
    assert (J : Forall2 (item_ren d R) (map seen_item l1) (map seen_item l1')).
    { clear - L. induction L; cbn [map]; constructor; auto using ren_seen_item. }
    destruct c as [x|]; [|constructor; cbn; auto].
    destruct (matches not_names x); constructor; cbn; auto. constructor; auto. constructor.
Qed.
Lemma ren_readable : forall s s', Forall2 (stmt_ren d R) s s' -> readable s = readable s'.
Proof.
  intros s s' F. induction F as [|a a' s s' H F IH]; cbn; auto. unfold readable in IH. rewrite IH. f_equal.
  destruct H as [|i s1 t l l' C]; cbn; auto. unfold readable_table. cbn [at_elements].
  f_equal.
  - clear - C. induction C as [|e e' l l' H C IH]; cbn; auto. rewrite IH. f_equal.
    destruct H as [n b b' B|n t c l1 l1' L]; cbn.
    + destruct B; cbn; auto.
    + clear - L. induction L as [|i i' l l' I L IH]; cbn; auto. rewrite IH. f_equal. destruct I; cbn; auto.
  - unfold first_ok. destruct C as [|e e' l l' H C]; auto. destruct C; auto. f_equal.
    destruct H as [n b b' BB|]; auto. destruct n; cbn in *; auto. destruct BB; auto.
Qed.
End Tables.

Theorem swapped_statements : forall d R l l' stmts, (exists out, lang (script d) l None out stmts) -> Forall2 (swapped d R) l l' ->
  exists stmts', (exists out, lang (script d) l' None out stmts') /\ Forall2 (stmt_ren d R) stmts stmts'.
Proof.
  intros d R l l' stmts [out L] F. destruct (moves_script d R _ _ _ _ L l' None F I) as (o & v & L' & E). exists v. split; eauto.
Qed.
Theorem swapped_tables : forall d R ddl ddl' l l' stmts, tokens d ddl l -> tokens d ddl' l' -> Forall2 (swapped d R) l l' ->
  says d ddl stmts -> readable stmts = true ->
  exists ts ts', accepted ddl d ts /\ accepted ddl' d ts' /\ Forall2 (table_kept d R) ts ts'.
Proof.
  intros d R ddl ddl' l l' stmts T T' F (l0 & out & T0 & L) RD. rewrite (tokens_det _ _ _ _ T0 T) in L.
  destruct (swapped_statements d R l l' stmts (ex_intro (fun o => lang (script d) l None o stmts) _ L) F) as (s' & [o' L'] & E).
  exists (tables_of d (seen stmts)), (tables_of d (seen s')). split; [apply says_seen; auto; exists l, out; auto|].
  split; [apply says_seen; [exists l', o'; auto|now rewrite <- (ren_readable d R _ _ E)]|].
  apply ren_tables, ren_seen, E.
Qed.
