(** What holds in place of the refuted properties C25, C35, C36, C37 and C38 (see Refuted.v for the witnesses). *)
From Coq Require Import String Ascii NArith List Bool Arith.
From Verif Require Import GoStr Types Grammar Ast Emit Converter Parse Safe Seen Spec Text Witness Decide Parts PartsFacts Values Layout Listed.
From Verif Require Follow ListedFacts.
Import ListNotations.
Open Scope nat_scope.
Open Scope string_scope.
Open Scope list_scope.

(** C25: a script without its last ";" is rejected at the end, in every dialect. *)
Theorem C25_rejected : forall d ddl l o v, lang (script d) (l ++ [";"]) None o v -> tokens d ddl l ->
  exists line, rejected ddl d line "<EOF>".
Proof. exact Follow.last_semicolon. Qed.
Print Assumptions C25_rejected.
Example C25_example : exists line, rejected "CREATE TABLE t (a TEXT); CREATE TRIGGER x BEGIN foo; END" SQLite line "<EOF>".
Proof.
  eapply (C25_rejected SQLite _ ["CREATE"; "TABLE"; "t"; "("; "a"; "TEXT"; ")"; ";"; "CREATE"; "TRIGGER"; "x"; "BEGIN"; "foo"; ";"; "END"]).
  - is_part (@None string).
  - is_tokens.
Qed.

(** C35: the CHECK and DEFAULT expressions of two texts with the same result are the same, if in each of them of two
    neighbouring tokens one is a symbol or quoted. *)
Theorem C35_partial : forall d ddl ddl' stmts stmts' ts,
  says d ddl stmts -> safe stmts = true -> says d ddl' stmts' -> safe stmts' = true -> accepted ddl d ts -> accepted ddl' d ts ->
  Forall2 (fun c c' =>
    (forall e e', check_in (ac_items c) = Some e -> check_in (ac_items c') = Some e' -> glued d e -> glued d e' -> e = e') /\
    (forall e e', default_in (ac_items c) = Some (AExpr e) -> default_in (ac_items c') = Some (AExpr e') -> glued d e -> glued d e' -> e = e'))
    (columns_in stmts) (columns_in stmts') /\
  Forall2 (fun e e' => glued d e -> glued d e' -> e = e') (checks_in stmts) (checks_in stmts').
Proof. exact ListedFacts.same_checks. Qed.
Print Assumptions C35_partial.
Example C35_example : exists stmts stmts' ts,
  let ddl := "CREATE TABLE t (a TEXT CHECK (f(a,'x')), CHECK (b));" in
  let ddl' := "CREATE TABLE t (a TEXT CHECK ( f ( a , 'x' ) ), CHECK (b));" in
  says SQLite ddl stmts /\ safe stmts = true /\ says SQLite ddl' stmts' /\ safe stmts' = true /\
  accepted ddl SQLite ts /\ accepted ddl' SQLite ts /\
  map (fun c => check_in (ac_items c)) (columns_in stmts) = [Some ["("; "f"; "("; "a"; ","; "'x'"; ")"; ")"]] /\
  checks_in stmts = [["("; "b"; ")"]] /\
  glued SQLite ["("; "f"; "("; "a"; ","; "'x'"; ")"; ")"].
Proof.
  do 3 eexists. split; [reads|]. split; [reflexivity|]. split; [reads|]. split; [reflexivity|]. split; [computes|]. split; [computes|].
  do 2 (split; [reflexivity|]).
  exists [ISym 40%N; IWord [102%N]; ISym 40%N; IWord [97%N]; ISym 44%N; IQuoted 39%N [120%N]; ISym 41%N; ISym 41%N].
  repeat split; vm_compute; reflexivity.
Qed.
(** ["x"; "y"] is not of this kind, see C35_refuted. *)
Example C35_not_glued : ~ glued SQLite ["("; "x"; "y"; ")"].
Proof.
  intros G. assert (G' : glued SQLite ["("; "xy"; ")"]).
  { exists [ISym 40%N; IWord [120%N; 121%N]; ISym 41%N]. repeat split; vm_compute; reflexivity. }
  discriminate (ListedFacts.glued_inj _ _ _ G G' eq_refl).
Qed.

(** C36: listed columns are reported as they are written, columns without their quotation marks; so a listed column is
    spelled like Column.Name if and only if it is written without quotation marks. *)
Theorem C36_partial : forall d ddl stmts, says d ddl stmts -> readable stmts = true ->
  exists ts, accepted ddl d ts /\ result_lists ts = lists_in stmts /\
  Forall2 (fun c r => col_name r = unquote d (ac_name c)) (columns_in stmts) (result_columns ts) /\
  forall t, unquote d t = t <-> quoted (name_quotes d) t = false.
Proof. exact ListedFacts.lists_reported. Qed.
Print Assumptions C36_partial.
Example C36_example : exists stmts ts,
  let ddl := "CREATE TABLE t (id INT REFERENCES u (x), ""b"" INT, PRIMARY KEY (id, ""b""), UNIQUE (id), FOREIGN KEY (""b"") REFERENCES v (""y"", z));" in
  says PostgreSQL ddl stmts /\ readable stmts = true /\ accepted ddl PostgreSQL ts /\
  lists_in stmts = [["x"]; ["id"; """b"""]; ["id"]; ["""b"""]; ["""y"""; "z"]] /\
  map col_name (result_columns ts) = ["id"; "b"].
Proof. do 2 eexists. split; [reads|]. split; [reflexivity|]. split; [computes|]. split; reflexivity. Qed.

(** After the value of a DEFAULT clause only another constraint, "," or ")" can follow -- in MySQL also ON. *)
Theorem C37_C38_after_default : forall d ddl s1 v1 a oa p h oh items oi vi hs k x rest,
  (exists o1, lang (script d) s1 None o1 v1) -> lang (opening d) a None oa tt -> before d p ->
  lang (column_head d) h (hd_error (items ++ [k])) oh tt ->
  star (lang (column_constraint d)) items (Some k) oi vi hs -> NoDup (map (kind d) hs) ->
  kwd "DEFAULT" k -> ~ In (kind d k) (map (kind d) hs) -> x <> "(" -> literal d x = true ->
  (forall t, hd_error rest = Some t -> matches (constraint_words d) t = false) ->
  (forall t, hd_error rest = Some t -> matches [","; ")"] t = false) ->
  (d = MySQL -> forall t, hd_error rest = Some t -> matches ["ON"] t = false) ->
  tokens d ddl (s1 ++ a ++ p ++ h ++ items ++ k :: x :: rest) ->
  exists line, rejected ddl d line (match rest with t :: _ => t | [] => "<EOF>" end).
Proof.
  intros. replace (match rest with t :: _ => t | [] => "<EOF>" end) with (VBase.tok (hd_error rest)) by now destruct rest.
  eapply Follow.after_default; eauto.
Qed.
Print Assumptions C37_C38_after_default.

(** C37: DEFAULT with two strings in a row, as 'it''s' is read, is rejected at the second. *)
Theorem C37_rejected : forall d ddl s1 v1 a oa p h oh items oi vi hs k x y rest,
  (exists o1, lang (script d) s1 None o1 v1) -> lang (opening d) a None oa tt -> before d p ->
  lang (column_head d) h (hd_error (items ++ [k])) oh tt ->
  star (lang (column_constraint d)) items (Some k) oi vi hs -> NoDup (map (kind d) hs) ->
  kwd "DEFAULT" k -> ~ In (kind d k) (map (kind d) hs) -> quoted (str_quotes d) x = true -> quoted (str_quotes d) y = true ->
  tokens d ddl (s1 ++ a ++ p ++ h ++ items ++ k :: x :: y :: rest) -> exists line, rejected ddl d line y.
Proof. exact Follow.two_strings. Qed.
Print Assumptions C37_rejected.
(** Two quoted texts without space between them are two tokens. *)
Theorem C37_two_tokens : forall d a q b b' c, layout d (a ++ IQuoted q b :: IQuoted q b' :: c) = true ->
  tokens d (text_of (a ++ IQuoted q b :: IQuoted q b' :: c))
    (lexemes a ++ utf8 (q :: b ++ [q]) :: utf8 (q :: b' ++ [q]) :: lexemes c).
Proof.
  intros d a q b b' c L. pose proof (LayoutFacts.layout_tokens_are _ _ L) as T. unfold lexemes in *. rewrite flat_map_app in T. exact T.
Qed.
Print Assumptions C37_two_tokens.
Example C37_example : exists line, rejected "CREATE TABLE t (id INT UNIQUE DEFAULT 'it''s' NOT NULL);" PostgreSQL line "'s'".
Proof.
  eapply (C37_rejected PostgreSQL _ [] _ ["CREATE"; "TABLE"; "t"; "("] _ [] ["id"; "INT"] _ ["UNIQUE"] _ _ ["UNIQUE"] "DEFAULT" "'it'" "'s'" ["NOT"; "NULL"; ")"; ";"]).
  - eexists. is_part (@None string).
  - is_part (@None string).
  - now left.
  - is_part (Some "UNIQUE").
  - apply (star_cons _ "UNIQUE" [] []); [is_part (Some "DEFAULT")|]. constructor.
  - repeat constructor; cbn; intuition discriminate.
  - reflexivity.
  - cbn. intuition discriminate.
  - reflexivity.
  - reflexivity.
  - is_tokens.
Qed.

(** C38: a literal with a point after it is rejected at the point. *)
Theorem C38_rejected : forall d ddl s1 v1 a oa p h oh items oi vi hs k x rest,
  (exists o1, lang (script d) s1 None o1 v1) -> lang (opening d) a None oa tt -> before d p ->
  lang (column_head d) h (hd_error (items ++ [k])) oh tt ->
  star (lang (column_constraint d)) items (Some k) oi vi hs -> NoDup (map (kind d) hs) ->
  kwd "DEFAULT" k -> ~ In (kind d k) (map (kind d) hs) -> literal d x = true ->
  tokens d ddl (s1 ++ a ++ p ++ h ++ items ++ k :: x :: "." :: rest) -> exists line, rejected ddl d line ".".
Proof. exact Follow.decimal_point. Qed.
Print Assumptions C38_rejected.
(** Digits, a point and digits are three tokens. *)
Theorem C38_three_tokens : forall d a m n c, layout d (a ++ IWord m :: ISym 46%N :: IWord n :: c) = true ->
  tokens d (text_of (a ++ IWord m :: ISym 46%N :: IWord n :: c)) (lexemes a ++ utf8 m :: "." :: utf8 n :: lexemes c).
Proof.
  intros d a m n c L. pose proof (LayoutFacts.layout_tokens_are _ _ L) as T. unfold lexemes in *. rewrite flat_map_app in T. exact T.
Qed.
Print Assumptions C38_three_tokens.
Example C38_example : exists line, rejected "CREATE TABLE t (a INT, b FLOAT NOT NULL DEFAULT 1.5);" MySQL line ".".
Proof.
  eapply (C38_rejected MySQL _ [] _ ["CREATE"; "TABLE"; "t"; "("] _ ["a"; "INT"; ","] ["b"; "FLOAT"] _ ["NOT"; "NULL"] _ _ ["NOT"] "DEFAULT" "1" ["5"; ")"; ";"]).
  - eexists. is_part (@None string).
  - is_part (@None string).
  - right. exists ["a"; "INT"]. do 2 eexists. split; [reflexivity|]. apply sep_one. is_part (Some ",").
  - is_part (Some "NOT").
  - apply (star_cons _ "NOT" ["NULL"] []); [is_part (Some "DEFAULT")|]. constructor.
  - repeat constructor; cbn; intuition discriminate.
  - reflexivity.
  - cbn. intuition discriminate.
  - vm_compute. reflexivity.
  - is_tokens.
Qed.
