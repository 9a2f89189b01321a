(** Quoted names and strings. *)
From Coq Require Import String Ascii NArith ZArith List Bool Arith Lia.
From Verif Require Import GoStr GoNum Types Lexer VBase Exec Grammar Ast Safe Scan Utf8 Spec Pipe Conv Read Meaning Layout LayoutFacts.
Import ListNotations.
Open Scope nat_scope.
Open Scope string_scope.

Lemma says_read : forall n d ddl l out v, tokens d ddl l -> read (script d) n l = Some (v, [], out) -> says d ddl v.
Proof.
  intros n d ddl l out v T R. apply (read_sound _ _ (script_loops d)) in R as (l1 & E & R). rewrite app_nil_r in E. subst.
  exists l1, out. auto.
Qed.

Lemma length_append : forall a b, String.length (a ++ b) = String.length a + String.length b.
Proof. induction a; intros; cbn; auto. Qed.
Lemma substring_append : forall a b, substring 0 (String.length a) (a ++ b) = a.
Proof. induction a as [|c a IH]; intros [|x b]; cbn; auto; now rewrite IH. Qed.
Lemma inner_text : forall c d s, inner (String c (s ++ String d "")) = s.
Proof.
  intros. unfold inner. cbn [String.length substring]. rewrite length_append. cbn [String.length].
  replace (S (String.length s + 1) - 2) with (String.length s) by lia. apply substring_append.
Qed.

Lemma unquote_text : forall d c s, contains (name_quotes d) (String c "") = true ->
  unquote d (String c "" ++ s ++ String c "") = s.
Proof. intros d c s H. unfold unquote. cbn [append quoted]. rewrite H. apply inner_text. Qed.
Lemma quote_not_number : forall c s, c = "034"%char \/ c = "039"%char -> parse_float (String c s) = None.
Proof. intros c s [->| ->]; vm_compute; reflexivity. Qed.
Lemma literal_text : forall d c s, contains (string_quotes d) (String c "") = true ->
  literal_value d (String c "" ++ s ++ String c "") = DString s.
Proof.
  intros d c s H. assert (C : c = "034"%char \/ c = "039"%char).
  { destruct d; cbn [string_quotes str_quotes contains existsb] in H; try discriminate;
    rewrite ?orb_false_r, ?orb_true_iff, ?String.eqb_eq in H; try destruct H as [H|H]; inversion H; auto. }
  unfold literal_value, is_numeric_token. cbn [append]. rewrite (quote_not_number _ _ C). cbn [quoted]. rewrite H.
  now rewrite inner_text.
Qed.

Lemma utf8_quoted : forall q body, utf8 (q :: body ++ [q]) = utf8 [q] ++ utf8 body ++ utf8 [q].
Proof. intros. change (q :: body ++ [q])%list with ([q] ++ body ++ [q])%list. now rewrite !utf8_app. Qed.

Definition column_stmt (d : rdbms) (a b c : string) : list a_stmt :=
  [STable (mk_atable false None a [EColumn (mk_acolumn b (mk_atype "TEXT" false None) None [IDefault (ALit c)])])].

Section One.
Variables (q s : rune) (n1 n2 v : list rune).
Definition column_items : list item :=
  [IWord [67;82;69;65;84;69]%N; ISpace 32%N; IWord [84;65;66;76;69]%N; ISpace 32%N; IQuoted q n1; ISpace 32%N; ISym 40%N;
   IQuoted q n2; ISpace 32%N; IWord [84;69;88;84]%N; ISpace 32%N; IWord [68;69;70;65;85;76;84]%N; ISpace 32%N; IQuoted s v;
   ISym 41%N; ISym 59%N].
Lemma column_text : "CREATE TABLE " ++ utf8 [q] ++ utf8 n1 ++ utf8 [q] ++ " (" ++ utf8 [q] ++ utf8 n2 ++ utf8 [q] ++
  " TEXT DEFAULT " ++ utf8 [s] ++ utf8 v ++ utf8 [s] ++ ");" = text_of column_items.
Proof.
  unfold text_of, column_items, chars. cbn [flat_map chars_of]. rewrite !utf8_app, !utf8_quoted, !append_assoc.
  change (utf8 []) with "". reflexivity.
Qed.
End One.

Theorem quoted_column : forall d q s n1 n2 v, In d [SQLite; PostgreSQL; MySQL] ->
  In (utf8 [q]) (name_quotes d) -> In (utf8 [s]) (string_quotes d) -> is_scalar q = true -> is_scalar s = true ->
  verbatim n1 = true -> verbatim n2 = true -> verbatim v = true ->
  accepted ("CREATE TABLE " ++ utf8 [q] ++ utf8 n1 ++ utf8 [q] ++ " (" ++ utf8 [q] ++ utf8 n2 ++ utf8 [q] ++
    " TEXT DEFAULT " ++ utf8 [s] ++ utf8 v ++ utf8 [s] ++ ");") d
   [mk_table "" (utf8 n1) false
     [mk_column (utf8 n2) (mk_data_type "TEXT" 0 0)
       (mk_constraint "" false false false false (DString (utf8 v)) "" "" zero_reference)]
     (mk_tc [] [] [] [])].
Proof.
  intros d q s n1 n2 v D Q S SQ SS V1 V2 V3. rewrite column_text.
  assert (X : forall c x, is_scalar c = true -> utf8 [c] = String x "" -> N_of_ascii x <> 255%N -> c = hd 0%N (runes_of (String x ""))).
  { intros c x K E _. rewrite <- E, runes_of_utf8; [reflexivity|]. now constructor. }
  assert (QQ : q = 34%N /\ d <> MySQL \/ q = 96%N /\ d <> PostgreSQL).
  { destruct D as [<-|[<-|[<-|[]]]]; cbn [name_quotes id_quotes In] in Q; intuition;
    match goal with H : _ = utf8 [q] |- _ => symmetry in H; apply X in H; auto; cbn in H; subst; try discriminate end;
    first [left; split; [reflexivity|discriminate]|right; split; [reflexivity|discriminate]]. }
  assert (SQ' : s = 39%N \/ s = 34%N /\ d = MySQL).
  { destruct D as [<-|[<-|[<-|[]]]]; cbn [string_quotes str_quotes In] in S; intuition;
    match goal with H : _ = utf8 [s] |- _ => symmetry in H; apply X in H; auto; cbn in H; subst; try discriminate end; auto. }
  clear X Q S SQ SS.
  assert (L : layout d (column_items q s n1 n2 v) = true).
  { unfold column_items, layout. cbn [layout_from item_ok fits]. fold (verbatim n1) (verbatim n2) (verbatim v).
    rewrite V1, V2, V3. destruct QQ as [[-> N]|[-> N]], SQ' as [->|[-> SM]]; destruct d; try reflexivity; congruence. }
  assert (T := layout_tokens_are d _ L).
  assert (R : exists out, read (script d) 40 (lexemes (column_items q s n1 n2 v)) =
    Some (column_stmt d (utf8 (q :: n1 ++ [q])) (utf8 (q :: n2 ++ [q])) (utf8 (s :: v ++ [s])), [], out)).
  { unfold column_items, lexemes. cbn [flat_map lexeme app].
    rewrite !utf8_quoted. set (a := utf8 n1 ++ utf8 [q]). set (b := utf8 n2 ++ utf8 [q]). set (c := utf8 v ++ utf8 [s]).
    clearbody a b c.
    destruct D as [<-|[<-|[<-|[]]]]; destruct QQ as [[-> N]|[-> N]], SQ' as [->|[-> E]]; try congruence; eexists; vm_compute; reflexivity. }
  destruct R as [out R]. pose proof (says_read 40 d _ _ out _ T R) as Y. apply says_tables in Y.
  2: { reflexivity. }
  assert (U : forall body, unquote d (utf8 (q :: body ++ [q])) = utf8 body).
  { intros body. rewrite utf8_quoted. clear - D QQ.
    destruct D as [<-|[<-|[<-|[]]]]; destruct QQ as [[-> N]|[-> N]]; try congruence;
    [exact (unquote_text SQLite "034" (utf8 body) eq_refl)|exact (unquote_text SQLite "096" (utf8 body) eq_refl)
    |exact (unquote_text PostgreSQL "034" (utf8 body) eq_refl)|exact (unquote_text MySQL "096" (utf8 body) eq_refl)]. }
  assert (U2 : literal_value d (utf8 (s :: v ++ [s])) = DString (utf8 v)).
  { rewrite utf8_quoted. clear - D SQ'. destruct D as [<-|[<-|[<-|[]]]]; destruct SQ' as [->|[-> N]]; try congruence;
    [exact (literal_text SQLite "039" (utf8 v) eq_refl)|exact (literal_text PostgreSQL "039" (utf8 v) eq_refl)
    |exact (literal_text MySQL "039" (utf8 v) eq_refl)|exact (literal_text MySQL "034" (utf8 v) eq_refl)]. }
  unfold column_stmt, tables_of, table_of, columns_of, column_of, constraint_of in Y.
  cbn [flat_map app at_schema at_name at_ine at_elements ac_name ac_type ac_cname ac_items opt_name existsb first_of or_else default_of constraints_of] in Y.
  rewrite !U, U2 in Y. exact Y.
Qed.

Theorem one_token : forall d a q body b, layout d (a ++ IQuoted q body :: b) = true ->
  tokens d (text_of (a ++ IQuoted q body :: b)) (lexemes a ++ (utf8 [q] ++ utf8 body ++ utf8 [q])%string :: lexemes b)%list.
Proof.
  intros d a q body b H. apply layout_tokens_are in H. unfold lexemes in H at 1. rewrite flat_map_app in H.
  cbn [flat_map lexeme app] in H. now rewrite utf8_quoted in H.
Qed.
