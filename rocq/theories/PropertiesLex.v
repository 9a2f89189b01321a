(** Claims about the layout of the text: white space, comments, quoted text, lexical errors.
    The vocabulary is in Layout.v (items of a text) and Spec.v. *)
From Coq Require Import String Ascii NArith ZArith List Bool Arith.
From Verif Require Import GoStr GoNum Types Utf8 Ast Spec Text Layout Witness.
From Verif Require LayoutFacts Quoted.
Import ListNotations.
Open Scope nat_scope.
Open Scope string_scope.

Definition word (s : string) : item := IWord (runes_of s).

(** C06. *)
Theorem C06_layout : forall d l l', layout d l = true -> layout d l' = true -> lexemes l = lexemes l' ->
  alike d (text_of l) (text_of l').
Proof. exact LayoutFacts.layouts_alike. Qed.
Print Assumptions C06_layout.
Theorem C06_tokens : forall d l, layout d l = true -> tokens d (text_of l) (lexemes l).
Proof. exact LayoutFacts.layout_tokens_are. Qed.
Print Assumptions C06_tokens.
Example C06_example : exists l l' ts,
  text_of l = "CREATE TABLE t(a TEXT);" /\
  text_of l' = "
	CREATE

TABLE  t ( a	TEXT ) ;
" /\
  layout SQLite l = true /\ layout SQLite l' = true /\ lexemes l = lexemes l' /\
  accepted (text_of l) SQLite ts /\ accepted (text_of l') SQLite ts /\ ts <> [].
Proof.
  exists [word "CREATE"; ISpace 32%N; word "TABLE"; ISpace 32%N; word "t"; ISym 40%N; word "a"; ISpace 32%N; word "TEXT"; ISym 41%N; ISym 59%N].
  exists [IBreak; ISpace 9%N; word "CREATE"; IBreak; IBreak; word "TABLE"; ISpace 32%N; ISpace 32%N; word "t"; ISpace 32%N; ISym 40%N;
    ISpace 32%N; word "a"; ISpace 9%N; word "TEXT"; ISpace 32%N; ISym 41%N; ISpace 32%N; ISym 59%N; IBreak].
  eexists. do 5 (split; [vm_compute; reflexivity|]). split; [computes|]. split; [computes|discriminate].
Qed.
Example C06_rejected : exists l l',
  text_of l = "CREATE FOO;" /\ text_of l' = "CREATE
 FOO;" /\ layout MySQL l = true /\ layout MySQL l' = true /\ lexemes l = lexemes l' /\
  rejected (text_of l) MySQL 1 "FOO" /\ rejected (text_of l') MySQL 2 "FOO".
Proof.
  exists [word "CREATE"; ISpace 32%N; word "FOO"; ISym 59%N], [word "CREATE"; IBreak; ISpace 32%N; word "FOO"; ISym 59%N].
  do 5 (split; [vm_compute; reflexivity|]). split; computes.
Qed.

(** C07: true when the comment does not follow another comment or one of - / * directly, and no -- or /* follows it
    at the start of the next line.  The result is the same, including the line of an error. *)
Theorem C07_line_comment_partial : forall d a b body,
  layout d (a ++ IBreak :: b) = true -> layout d (a ++ IDash body :: b) = true ->
  same_result d (text_of (a ++ IBreak :: b)) (text_of (a ++ IDash body :: b)).
Proof. exact LayoutFacts.line_comment. Qed.
Print Assumptions C07_line_comment_partial.
(** A # comment has no such restriction. *)
Theorem C07_sharp_comment : forall a b body, layout MySQL (a ++ IBreak :: b) = true -> line_body body = true ->
  same_result MySQL (text_of (a ++ IBreak :: b)) (text_of (a ++ ISharp body :: b)).
Proof. exact LayoutFacts.sharp_comment. Qed.
Print Assumptions C07_sharp_comment.
(** At the end of the text no line break is needed. *)
Theorem C07_at_end_partial : forall d l body,
  layout d l = true -> fits (end_of None l) (IDash body) = true -> line_body body = true ->
  lexes d (utf8 (chars l ++ dash :: dash :: body)) (layout_tokens l).
Proof. exact LayoutFacts.comment_at_end. Qed.
Print Assumptions C07_at_end_partial.
Theorem C07_sharp_at_end : forall l body, layout MySQL l = true -> line_body body = true ->
  lexes MySQL (utf8 (chars l ++ sharp :: body)) (layout_tokens l).
Proof. exact LayoutFacts.sharp_at_end. Qed.
Print Assumptions C07_sharp_at_end.
Example C07_example : exists a b body,
  text_of (a ++ IDash body :: b) = "CREATE TABLE t ( -- the ""table"" /* é
  a INT);" /\ line_body body = true /\
  layout MySQL (a ++ IBreak :: b) = true /\ layout MySQL (a ++ IDash body :: b) = true /\
  layout MySQL (a ++ ISharp body :: b) = true /\
  exists ts, accepted (text_of (a ++ ISharp body :: b)) MySQL ts /\ List.length ts = 1.
Proof.
  exists [word "CREATE"; ISpace 32%N; word "TABLE"; ISpace 32%N; word "t"; ISpace 32%N; ISym 40%N; ISpace 32%N].
  exists [ISpace 32%N; ISpace 32%N; word "a"; ISpace 32%N; word "INT"; ISym 41%N; ISym 59%N].
  exists (runes_of " the ""table"" /* é").
  do 5 (split; [vm_compute; reflexivity|]). eexists. split; [computes|reflexivity].
Qed.
Theorem C07_refuted : exists ts,
  accepted (String "010" "-- x
CREATE TABLE t (a TEXT);") SQLite ts /\
  rejected ("-- y" ++ String "010" "-- x
CREATE TABLE t (a TEXT);") SQLite 1 "--".
Proof. eexists. split; computes. Qed.
Print Assumptions C07_refuted.

(** C08: true under the same condition, and if in the comment text every * and / is followed by one more character, which is
    not a / after a *. *)
Theorem C08_block_comment_partial : forall d a b body,
  layout d (a ++ ISpace 32%N :: b) = true -> layout d (a ++ IBlock body :: b) = true ->
  alike d (text_of (a ++ ISpace 32%N :: b)) (text_of (a ++ IBlock body :: b)).
Proof. exact LayoutFacts.block_comment. Qed.
Print Assumptions C08_block_comment_partial.
Theorem C08_one_line_partial : forall d a b body,
  layout d (a ++ ISpace 32%N :: b) = true -> layout d (a ++ IBlock body :: b) = true -> block_breaks body = 0 ->
  same_result d (text_of (a ++ ISpace 32%N :: b)) (text_of (a ++ IBlock body :: b)).
Proof. exact LayoutFacts.block_comment_line. Qed.
Print Assumptions C08_one_line_partial.
Example C08_example : exists a b body,
  text_of (a ++ IBlock body :: b) = "CREATE/* 2 * 3, 'x'
-- ; */TABLE t (id INT);" /\
  layout PostgreSQL (a ++ ISpace 32%N :: b) = true /\ layout PostgreSQL (a ++ IBlock body :: b) = true /\
  exists ts, accepted (text_of (a ++ IBlock body :: b)) PostgreSQL ts /\ List.length ts = 1.
Proof.
  exists [word "CREATE"].
  exists [word "TABLE"; ISpace 32%N; word "t"; ISpace 32%N; ISym 40%N; word "id"; ISpace 32%N; word "INT"; ISym 41%N; ISym 59%N].
  exists (runes_of " 2 * 3, 'x'
-- ; ").
  do 3 (split; [vm_compute; reflexivity|]). eexists. split; [computes|reflexivity].
Qed.
Theorem C08_refuted : exists a b ts, accepted (a ++ " " ++ b) SQLite ts /\ rejected (a ++ "/***/" ++ b) SQLite 1 "<EOF>".
Proof. exists "CREATE", "TABLE t (a TEXT);". eexists. split; computes. Qed.
Print Assumptions C08_refuted.
Example C08_witnesses :
  rejected "CREATE/* x **/TABLE t (a TEXT);" SQLite 1 "<EOF>" /\
  rejected "CREATE/* x *//* y */TABLE t (a TEXT);" SQLite 1 "*" /\
  rejected "CREATE/* x */-- y
TABLE t (a TEXT);" SQLite 1 "--".
Proof. repeat split; computes. Qed.

(** C09: true for contents without quotation marks of any kind and without line breaks. *)
Theorem C09_one_token_partial : forall d a q body b, layout d (a ++ IQuoted q body :: b) = true ->
  tokens d (text_of (a ++ IQuoted q body :: b)) (lexemes a ++ (utf8 [q] ++ utf8 body ++ utf8 [q])%string :: lexemes b)%list.
Proof. exact Quoted.one_token. Qed.
Print Assumptions C09_one_token_partial.
Theorem C09_reported_partial : forall d q s n1 n2 v, In d [SQLite; PostgreSQL; MySQL] ->
  In (utf8 [q]) (name_quotes d) -> In (utf8 [s]) (string_quotes d) -> is_scalar q = true -> is_scalar s = true ->
  verbatim n1 = true -> verbatim n2 = true -> verbatim v = true ->
  accepted ("CREATE TABLE " ++ utf8 [q] ++ utf8 n1 ++ utf8 [q] ++ " (" ++ utf8 [q] ++ utf8 n2 ++ utf8 [q] ++
    " TEXT DEFAULT " ++ utf8 [s] ++ utf8 v ++ utf8 [s] ++ ");") d
   [mk_table "" (utf8 n1) false
     [mk_column (utf8 n2) (mk_data_type "TEXT" 0 0)
       (mk_constraint "" false false false false (DString (utf8 v)) "" "" zero_reference)]
     (mk_tc [] [] [] [])].
Proof. exact Quoted.quoted_column. Qed.
Print Assumptions C09_reported_partial.
Example C09_example : 
  let n1 := runes_of "CREATE -- x, /* é; */" in let n2 := runes_of "" in let v := runes_of "12 日本　#" in
  verbatim n1 = true /\ verbatim n2 = true /\ verbatim v = true /\
  In (utf8 [96%N]) (name_quotes MySQL) /\ In (utf8 [34%N]) (string_quotes MySQL) /\
  utf8 n1 = "CREATE -- x, /* é; */" /\
  layout MySQL [word "a"; IQuoted 96%N n1; IQuoted 39%N v; ISym 44%N] = true.
Proof. cbn zeta. repeat split; vm_compute; auto. Qed.
Theorem C09_refuted : exists ts, accepted "CREATE TABLE ""a'b'cd"" (a TEXT);" SQLite ts /\ map t_name ts = ["a'b'd"].
Proof. eexists. split; [computes|reflexivity]. Qed.
Print Assumptions C09_refuted.
Example C09_witnesses :
  rejected "CREATE TABLE ""a'b"" (a TEXT);" SQLite 1 "<EOF>" /\
  exists ts, accepted "CREATE TABLE ""a
b"" (a TEXT);" SQLite ts /\ map t_name ts = ["ab"].
Proof. split; [computes|]. eexists. split; [computes|reflexivity]. Qed.

(** C31: true if the comment mark is recognised (see C07, C08). *)
Theorem C31_open_quote : forall d l q rest, layout d l = true -> quote_mark q = true -> (d = PostgreSQL -> q <> 96%N) ->
  scalars rest -> ~ In q rest -> exists line, rejected (utf8 (chars l ++ q :: rest)) d line EOF.
Proof. exact LayoutFacts.open_end. Qed.
Print Assumptions C31_open_quote.
Theorem C31_open_quote_line : forall d l q rest, layout d l = true -> quote_mark q = true -> (d = PostgreSQL -> q <> 96%N) ->
  scalars rest -> forallb (fun c => negb (quote_mark c)) rest = true ->
  rejected (utf8 (chars l ++ q :: rest)) d (1 + all_breaks l + count_occ N.eq_dec rest nl) EOF.
Proof. exact LayoutFacts.open_end_line. Qed.
Print Assumptions C31_open_quote_line.
Theorem C31_open_comment_partial : forall d l body, layout d l = true -> fits (end_of None l) (IBlock []) = true ->
  scalars body -> no_end body = true ->
  rejected (utf8 (chars l ++ slash :: aster :: body)) d (1 + all_breaks l + block_breaks body) EOF.
Proof. exact LayoutFacts.open_comment. Qed.
Print Assumptions C31_open_comment_partial.
Example C31_example :
  let l := [word "CREATE"; IBreak; word "TABLE"; ISpace 32%N] in let rest := runes_of "t (a TEXT);
-- `x" in
  layout MySQL l = true /\ scalarsb rest = true /\ ~ In 34%N rest /\ no_end rest = true /\
  fits (end_of None l) (IBlock []) = true /\
  rejected (utf8 (chars l ++ 34%N :: rest)) MySQL 3 EOF /\
  rejected (utf8 (chars l ++ slash :: aster :: rest)) MySQL 3 EOF.
Proof.
  cbn zeta. split; [reflexivity|]. split; [vm_compute; reflexivity|].
  split; [vm_compute; intuition discriminate|]. do 2 (split; [vm_compute; reflexivity|]). split; computes.
Qed.
Theorem C31_refuted : exists ts, accepted "CREATE TABLE t (a INTEGER CHECK (a /* x *//* b));" SQLite ts.
Proof. eexists. computes. Qed.
Print Assumptions C31_refuted.

(** C32: true if the mark */ does not follow a comment or one of - / * directly; the line does not count line breaks right
    after a * or / in a comment. *)
Theorem C32_bad_character : forall d l c rest, layout d l = true -> scalars rest ->
  c = wide \/ (d = PostgreSQL /\ c = 96%N) ->
  rejected (utf8 (chars l ++ c :: rest)) d (1 + all_breaks l) (utf8 [c]).
Proof. exact LayoutFacts.bad_char. Qed.
Print Assumptions C32_bad_character.
Theorem C32_stray_end_partial : forall d l rest, layout d l = true -> scalars rest ->
  fits (end_of None l) (IBlock []) = true ->
  rejected (utf8 (chars l ++ aster :: slash :: rest)) d (1 + all_breaks l) "*".
Proof. exact LayoutFacts.stray_end. Qed.
Print Assumptions C32_stray_end_partial.
Example C32_example :
  let l := [word "CREATE"; IBlock (runes_of "
"); word "TABLE"; IDash (runes_of " x"); ISpace 32%N] in let rest := runes_of "t '" in
  layout PostgreSQL l = true /\ scalarsb rest = true /\ fits (end_of None l) (IBlock []) = true /\
  rejected (utf8 (chars l ++ wide :: rest)) PostgreSQL 3 "　" /\
  rejected (utf8 (chars l ++ 96%N :: rest)) PostgreSQL 3 "`" /\
  rejected (utf8 (chars l ++ aster :: slash :: rest)) PostgreSQL 3 "*".
Proof. cbn zeta. do 3 (split; [vm_compute; reflexivity|]). repeat split; computes. Qed.
Theorem C32_refuted : exists ts, accepted "CREATE TABLE t (a INTEGER CHECK (a /* x */*/ b));" SQLite ts.
Proof. eexists. computes. Qed.
Print Assumptions C32_refuted.
Example C32_witnesses : rejected "/* *
*/　" SQLite 1 "　".
Proof. computes. Qed.
