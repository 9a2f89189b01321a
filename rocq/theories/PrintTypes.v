(** Types as they are printed. *)
From Coq Require Import String Ascii NArith ZArith List Bool Arith Lia.
From Verif Require Import GoStr Unicode GoNum Types Grammar GrammarFacts Ast Safe Spec Numbers NumbersFacts Utf8 Layout Parts Build
  Print PrintText PrintItems.
From Verif Require GSqlite GPostgres GMysql.
Import ListNotations.
Open Scope nat_scope.
Open Scope string_scope.
Open Scope list_scope.

Definition digits_of_type (n m : Z) : option (string * option string) :=
  if (n =? 0)%Z then None
  else Some (numeral_of (Z.to_N n), if (m =? 0)%Z then None else Some (numeral_of (Z.to_N m))).
Lemma number_token : forall n, (0 < n < 2 ^ 63)%Z -> is_positive_integer_token (numeral_of (Z.to_N n)) = true /\ atoi_value (numeral_of (Z.to_N n)) = n.
Proof.
  intros n L. apply positive_spec. exists (numeral_of (Z.to_N n)), (Z.to_N n). split; [now left|]. split; [apply numeral_decimal|]. lia.
Qed.

Definition size_text (n m : Z) : list string :=
  if (n =? 0)%Z then []
  else ["("; numeral_of (Z.to_N n)] ++ (if (m =? 0)%Z then [] else [","; numeral_of (Z.to_N m)]) ++ [")"].
Definition type_after (nxt : option string) : Prop :=
  match nxt with Some t => In t ("CONSTRAINT" :: "NOT" :: follow) | None => False end.

Lemma gen_digits1_postgres : forall n nxt, (n = 0 \/ 0 < n < 2 ^ 63)%Z -> gen GPostgres.digits1 (size_text n 0) nxt (digits_of_type n 0).
Proof.
  intros n nxt [->|L]; unfold size_text, digits_of_type; [apply gen_none|]. destruct (Z.eqb_spec n 0); [lia|]. apply number_token in L as [L _].
  cbn [Z.eqb app]. apply gen_some. build.
Qed.
Lemma gen_digits1_mysql : forall n nxt, (n = 0 \/ 0 < n < 2 ^ 63)%Z -> gen GMysql.digits1 (size_text n 0) nxt (digits_of_type n 0).
Proof.
  intros n nxt [->|L]; unfold size_text, digits_of_type; [apply gen_none|]. destruct (Z.eqb_spec n 0); [lia|]. apply number_token in L as [L _].
  cbn [Z.eqb app]. apply gen_some. build.
Qed.
Lemma gen_digits2_postgres : forall n m nxt, (n = 0 /\ m = 0 \/ 0 < n < 2 ^ 63 /\ (m = 0 \/ 0 < m < 2 ^ 63))%Z ->
  gen GPostgres.digits2 (size_text n m) nxt (digits_of_type n m).
Proof.
  intros n m nxt [[-> ->]|[L M]]; unfold size_text, digits_of_type; [apply gen_none|]. destruct (Z.eqb_spec n 0); [lia|]. apply number_token in L as [L _].
  destruct M as [->|M].
  - cbn [Z.eqb app]. apply gen_some. build.
  - destruct (Z.eqb_spec m 0); [lia|]. apply number_token in M as [M _]. apply gen_some. cbn [app].
    eapply gen_map; [apply gen_tok; [tok|]; apply gen_tok; [tok|]; apply (gen_seq _ _ _ _ [","; numeral_of (Z.to_N m)] [")"]); [apply gen_some|]; build|reflexivity].
Qed.
Lemma gen_digits2_mysql : forall n m nxt, (n = 0 /\ m = 0 \/ 0 < n < 2 ^ 63 /\ (m = 0 \/ 0 < m < 2 ^ 63))%Z ->
  gen GMysql.digits2 (size_text n m) nxt (digits_of_type n m).
Proof.
  intros n m nxt [[-> ->]|[L M]]; unfold size_text, digits_of_type; [apply gen_none|]. destruct (Z.eqb_spec n 0); [lia|]. apply number_token in L as [L _].
  destruct M as [->|M].
  - cbn [Z.eqb app]. apply gen_some. build.
  - destruct (Z.eqb_spec m 0); [lia|]. apply number_token in M as [M _]. apply gen_some. cbn [app].
    eapply gen_map; [apply gen_tok; [tok|]; apply gen_tok; [tok|]; apply (gen_seq _ _ _ _ [","; numeral_of (Z.to_N m)] [")"]); [apply gen_some|]; build|reflexivity].
Qed.

(** words in capitals *)
Lemma capitals : forall ws w, forallb (fun x => (to_upper x =? x)%string) ws = true -> In w ws -> matches ws w = true.
Proof.
  intros ws w C I. apply matches_spec. exists w. split; auto. right. rewrite forallb_forall in C. symmetry. now apply String.eqb_eq, C.
Qed.

Definition type_ast (t : data_type) : a_type := mk_atype (dt_name t) false (digits_of_type (dt_n t) (dt_m t)).

Lemma in_split : forall ws ws' (w : string), In w ws -> ws = ws' -> In w ws'.
Proof. now intros ws ws' w I <-. Qed.

Lemma type_sqlite : forall t nxt, type_ok SQLite t -> gen GSqlite.type_name (type_text SQLite t) nxt (type_ast t).
Proof.
  intros [w n m] nxt [I S]. cbn in S. destruct S as [[-> ->]|[[] _]]. cbn [dt_name] in I. unfold type_text, type_ast. cbn.
  eapply gen_map; [apply gen_one|reflexivity]. now apply (capitals ["TEXT"; "NUMERIC"; "INTEGER"; "REAL"; "NONE"]).
Qed.

(** words that are in one of the lists only *)
Lemma listed : forall l1 l2 (w : string), forallb (fun x => negb (contains l2 x)) l1 = true -> In w l1 -> In w l2 -> False.
Proof. intros l1 l2 w D I J. rewrite forallb_forall in D. apply D in I. apply contains_spec in J. now rewrite J in I. Qed.
Ltac unlisted := exfalso; match goal with I : In _ ?l1, J : In _ ?l2 |- _ => exact (listed l1 l2 _ eq_refl I J) end.

Lemma in_lists : forall ws ls (w : string), forallb (fun x => existsb (fun l => contains l x) ls) ws = true -> In w ws ->
  exists l, In l ls /\ In w l.
Proof.
  intros ws ls w H I. rewrite forallb_forall in H. apply H in I. apply existsb_exists in I as (l & A & B). apply contains_spec in B. eauto.
Qed.

Lemma type_mysql : forall t nxt, type_ok MySQL t -> gen GMysql.type_name (type_text MySQL t) nxt (type_ast t).
Proof.
  intros [w n m] nxt [I S]. cbn [dt_name dt_n dt_m] in *. unfold type_text, type_ast. cbn [dt_name dt_n dt_m app]. fold (size_text n m).
  assert (C : In w GMysql.char_types \/ In w GMysql.number_types \/ In w GMysql.int_types \/ In w GMysql.time_types \/ In w GMysql.plain_types).
  { destruct (in_lists (type_words MySQL) [GMysql.char_types; GMysql.number_types; GMysql.int_types; GMysql.time_types; GMysql.plain_types] w eq_refl I) as (l & A & B).
    cbn [In] in A. clear I S. repeat destruct A as [<-|A]; try contradiction; auto. }
  destruct C as [C|[C|[C|[C|C]]]].
  - assert (m = 0 /\ (n = 0 \/ 0 < n < 2 ^ 63))%Z as [-> N] by (destruct S as [[-> ->]|(_ & N & [->|[S _]])]; auto; unlisted).
    apply gen_left. eapply gen_map; [apply gen_tok; [now apply capitals|now apply gen_digits1_mysql]|reflexivity].
  - assert (N : (n = 0 /\ m = 0 \/ 0 < n < 2 ^ 63 /\ (m = 0 \/ 0 < m < 2 ^ 63))%Z) by (destruct S as [S|(_ & N & [->|[_ S]])]; auto).
    apply gen_right, gen_left. eapply gen_map; [apply gen_tok; [now apply capitals|now apply gen_digits2_mysql]|reflexivity].
  - assert (m = 0 /\ (n = 0 \/ 0 < n < 2 ^ 63))%Z as [-> N] by (destruct S as [[-> ->]|(_ & N & [->|[S _]])]; auto; unlisted).
    do 2 apply gen_right. apply gen_left. eapply gen_map; [apply gen_tok; [now apply capitals|now apply gen_digits1_mysql]|reflexivity].
  - assert (m = 0 /\ (n = 0 \/ 0 < n < 2 ^ 63))%Z as [-> N] by (destruct S as [[-> ->]|(_ & N & [->|[S _]])]; auto; unlisted).
    do 3 apply gen_right. apply gen_left. eapply gen_map; [apply gen_tok; [now apply capitals|]; eapply gen_last; [now apply gen_digits1_mysql|apply gen_none]|reflexivity].
  - assert (m = 0 /\ n = 0)%Z as [-> ->] by (destruct S as [[-> ->]|(S & _ & _)]; auto; unlisted).
    do 4 apply gen_right. eapply gen_map; [apply gen_one; now apply capitals|reflexivity].
Qed.
Lemma type_postgres : forall t nxt, type_ok PostgreSQL t -> gen GPostgres.type_name (type_text PostgreSQL t) nxt (type_ast t).
Proof.
  intros [w n m] nxt [I S]. cbn [dt_name dt_n dt_m] in *. unfold type_text, type_ast. cbn [dt_name dt_n dt_m app]. fold (size_text n m).
  assert (C : In w ["BIT"; "CHARACTER"] \/ In w ["VARBIT"; "VARCHAR"; "CHAR"] \/ In w ["NUMERIC"; "DECIMAL"] \/ w = "DOUBLE" \/
              In w ["TIME"; "TIMESTAMP"] \/ In w GPostgres.plain_types).
  { destruct (in_lists (type_words PostgreSQL) [["BIT"; "CHARACTER"]; ["VARBIT"; "VARCHAR"; "CHAR"]; ["NUMERIC"; "DECIMAL"]; ["DOUBLE"]; ["TIME"; "TIMESTAMP"];
      GPostgres.plain_types] w eq_refl I) as (l & A & B).
    cbn [In] in A. clear I S. repeat destruct A as [<-|A]; try contradiction; auto 8. destruct B as [<-|[]]. auto. }
  assert (D : w <> "DOUBLE" -> (w =? "DOUBLE")%string = false) by apply String.eqb_neq.
  destruct C as [C|[C|[C|[C|[C|C]]]]].
  - assert (m = 0 /\ (n = 0 \/ 0 < n < 2 ^ 63))%Z as [-> N] by (destruct S as [[-> ->]|(_ & N & [->|[S _]])]; auto; unlisted).
    rewrite D by (intros ->; eapply (listed ["DOUBLE"]); [|now left|exact C]; reflexivity). cbn [app]. apply gen_left.
    eapply gen_map; [apply gen_tok; [now apply capitals|]; eapply gen_skip; [apply gen_none|now apply gen_digits1_postgres]|reflexivity].
  - assert (m = 0 /\ (n = 0 \/ 0 < n < 2 ^ 63))%Z as [-> N] by (destruct S as [[-> ->]|(_ & N & [->|[S _]])]; auto; unlisted).
    rewrite D by (intros ->; eapply (listed ["DOUBLE"]); [|now left|exact C]; reflexivity). cbn [app]. apply gen_right, gen_left.
    eapply gen_map; [apply gen_tok; [now apply capitals|]; now apply gen_digits1_postgres|reflexivity].
  - assert (N : (n = 0 /\ m = 0 \/ 0 < n < 2 ^ 63 /\ (m = 0 \/ 0 < m < 2 ^ 63))%Z) by (destruct S as [S|(_ & N & [->|[_ S]])]; auto).
    rewrite D by (intros ->; eapply (listed ["DOUBLE"]); [|now left|exact C]; reflexivity). cbn [app]. do 2 apply gen_right. apply gen_left.
    eapply gen_map; [apply gen_tok; [now apply capitals|now apply gen_digits2_postgres]|reflexivity].
  - subst w. assert (m = 0 /\ n = 0)%Z as [-> ->] by (destruct S as [[-> ->]|(S & _ & _)]; auto; cbn in S; intuition discriminate).
    cbn [String.eqb Ascii.eqb Bool.eqb app size_text Z.eqb digits_of_type]. do 3 apply gen_right. apply gen_left. build.
  - assert (m = 0 /\ (n = 0 \/ 0 < n < 2 ^ 63))%Z as [-> N] by (destruct S as [[-> ->]|(_ & N & [->|[S _]])]; auto; unlisted).
    rewrite D by (intros ->; eapply (listed ["DOUBLE"]); [|now left|exact C]; reflexivity). cbn [app]. do 4 apply gen_right. apply gen_left.
    eapply gen_map; [apply gen_tok; [now apply capitals|]; eapply gen_last; [now apply gen_digits1_postgres|apply gen_none]|reflexivity].
  - assert (m = 0 /\ n = 0)%Z as [-> ->] by (destruct S as [[-> ->]|(S & _ & _)]; auto; unlisted).
    rewrite D by (intros ->; eapply (listed ["DOUBLE"]); [|now left|exact C]; reflexivity). cbn [app]. do 5 apply gen_right. eapply gen_map; [apply gen_one; now apply capitals|reflexivity].
Qed.

Theorem type_gen : forall d t nxt, known d -> type_ok d t -> gen (column_type d) (type_text d t) nxt (type_ast t).
Proof. intros d t nxt K H. dialects d K; [now apply type_sqlite|now apply type_postgres|now apply type_mysql]. Qed.

Definition wordsb (ws : list string) : bool :=
  forallb (fun w => (go_upper w =? w)%string && negb (w =? "")%string && forallb name_char (list_ascii_of_string w)) ws.
Lemma word_text : forall d ws w, wordsb ws = true -> In w ws -> piece d w [w] /\ go_upper w = w.
Proof.
  intros d ws w H I. unfold wordsb in H. rewrite forallb_forall in H. apply H in I as [[A B]%andb_true_iff C]%andb_true_iff.
  split; [|now apply String.eqb_eq]. apply word_piece.
  - apply negb_true_iff, String.eqb_neq in B. exact B.
  - eapply forallb_imp; [|exact C]. intros c X. now apply name_char_un.
  - apply pairs_none. eapply forallb_imp; [|exact C]. intros c X. now apply name_char_un.
Qed.
Lemma type_word : forall d t, type_ok d t -> piece d (dt_name t) [dt_name t] /\ go_upper (dt_name t) = dt_name t.
Proof. intros d t [I _]. eapply word_text; [|exact I]. destruct d; reflexivity. Qed.

Ltac symbols := apply sym_piece; cbn; tauto.
Ltac words := apply word_piece; [discriminate|reflexivity|reflexivity].
Lemma type_spells : forall d t, type_ok d t -> spells d (type_text d t) (type_text d t).
Proof.
  intros d t H. destruct (type_word d t H) as [P _]. unfold type_text. apply spells_one; auto. apply spells_app.
  - destruct d; try constructor. destruct (dt_name t =? "DOUBLE")%string; [|constructor]. apply spells_one; [words|constructor].
  - destruct (dt_n t =? 0)%Z; [constructor|]. apply (spells_app _ [_; _] [_; _]).
    + apply spells_one; [symbols|]. apply spells_one; [eapply decimal_piece, numeral_decimal|constructor].
    + apply spells_app.
      * destruct (dt_m t =? 0)%Z; [constructor|]. apply spells_one; [symbols|]. apply spells_one; [eapply decimal_piece, numeral_decimal|constructor].
      * apply spells_one; [symbols|constructor].
Qed.
Theorem type_meaning : forall d t, type_ok d t -> type_of (type_ast t) = t.
Proof.
  intros d t H. destruct (type_word d t H) as [_ U]. destruct H as [_ H]. destruct t as [w n m]. unfold type_of, type_ast, digits_of_type in *.
  cbn [at_word at_varying at_digits dt_name dt_n dt_m] in *. rewrite U.
  destruct H as [[-> ->]|(_ & N & M)]; [reflexivity|]. destruct (Z.eqb_spec n 0); [lia|]. apply number_token in N as [_ N].
  destruct M as [->|[_ M]]; [cbn [Z.eqb]; now rewrite N|]. destruct (Z.eqb_spec m 0); [lia|]. apply number_token in M as [_ M]. now rewrite N, M.
Qed.
