(** C21, C22, C23, C30: the parts of CREATE TABLE statements. *)
From Coq Require Import String Ascii List Bool Arith ZArith.
From Verif Require Import GoStr GoNum Types Grammar Ast Emit Converter Parse Safe Seen Spec Decide Witness Parts PartsFacts Numbers Floats GoFloats Stops Values ValuesFacts.
Import ListNotations.
Open Scope nat_scope.
Open Scope string_scope.

(** C21: a column whose constraints repeat a kind of constraint is rejected, whatever follows. *)
Theorem C21_once : forall d ddl s1 v1 a oa p h oh items oi vi hs rest,
  (exists o1, lang (script d) s1 None o1 v1) -> lang (opening d) a None oa tt -> before d p ->
  lang (column_head d) h (hd_error (items ++ rest)) oh tt ->
  star (lang (column_constraint d)) items (hd_error rest) oi vi hs -> ~ NoDup (map (kind d) hs) ->
  tokens d ddl (s1 ++ a ++ p ++ h ++ items ++ rest) -> exists line k, In k hs /\ rejected ddl d line k.
Proof. exact Stops.repeated. Qed.
Print Assumptions C21_once.
(** The error is at the word with which the repetition begins, even if the rest of the constraint is missing or wrong. *)
Theorem C21_at : forall d ddl s1 v1 a oa p h oh items oi vi hs k rest,
  (exists o1, lang (script d) s1 None o1 v1) -> lang (opening d) a None oa tt -> before d p ->
  lang (column_head d) h (hd_error (items ++ [k])) oh tt ->
  star (lang (column_constraint d)) items (Some k) oi vi hs -> NoDup (map (kind d) hs) ->
  matches (constraint_words d) k = true -> In (kind d k) (map (kind d) hs) ->
  tokens d ddl (s1 ++ a ++ p ++ h ++ items ++ k :: rest) -> exists line, rejected ddl d line k.
Proof. exact Stops.repeated_at. Qed.
Print Assumptions C21_at.
(** NULL and NOT NULL are of the same kind, except in SQLite. *)
Theorem C21_kinds : forall t, to_upper t = "NOT" -> matches ["NOT"] t = true ->
  kind PostgreSQL t = kind PostgreSQL "NULL" /\ kind MySQL t = kind MySQL "NULL".
Proof. intros t _ M. unfold kind, GPostgres.constraint_key, GMysql.constraint_key. rewrite M. split; reflexivity. Qed.
Print Assumptions C21_kinds.
Example C21_example : exists line, rejected "CREATE VIEW v; CREATE TABLE t (id INT, b INT NOT NULL UNIQUE null);" PostgreSQL line "null".
Proof.
  eapply (C21_at PostgreSQL _ ["CREATE"; "VIEW"; "v"; ";"] _ ["CREATE"; "TABLE"; "t"; "("] _ ["id"; "INT"; ","] ["b"; "INT"] _
    ["NOT"; "NULL"; "UNIQUE"] _ _ ["NOT"; "UNIQUE"] "null" [")"; ";"]).
  - eexists. is_part (@None string).
  - is_part (@None string).
  - right. exists ["id"; "INT"]. do 2 eexists. split; [reflexivity|]. apply sep_one. is_part (Some ",").
  - is_part (Some "NOT").
  - apply (star_cons _ "NOT" ["NULL"] ["UNIQUE"]); [is_part (Some "UNIQUE")|].
    apply (star_cons _ "UNIQUE" [] []); [is_part (Some "null")|]. constructor.
  - repeat constructor; cbn; intuition discriminate.
  - reflexivity.
  - left. reflexivity.
  - is_tokens.
Qed.
Example C21_examples : (exists line, rejected "CREATE TABLE t (a INTEGER UNIQUE unique);" SQLite line "unique") /\
  (exists line, rejected "CREATE TABLE t (a INT PRIMARY KEY COMMENT 'x' KEY);" MySQL line "KEY") /\
  (exists ts, accepted "CREATE TABLE t (a INTEGER PRIMARY KEY NOT NULL UNIQUE DEFAULT 1);" SQLite ts).
Proof. repeat split; eexists; computes. Qed.

(** C22: what is reported for the DEFAULT clauses of the columns. *)
Theorem C22_reported_partial : forall d ddl stmts, says d ddl stmts -> readable stmts = true -> exists ts, accepted ddl d ts /\
  Forall2 (fun c r => default_as d (default_in (ac_items c)) (c_default (col_constraint r))) (columns_in stmts) (result_columns ts).
Proof. exact ValuesFacts.default_reported. Qed.
Print Assumptions C22_reported_partial.
(** Expressions without two commas in a row are reported as they are. *)
Theorem C22_squeeze : forall l, double_comma l = false -> squeeze l = l.
Proof. exact Conv.squeeze_same. Qed.
Print Assumptions C22_squeeze.
(** A token after DEFAULT that is not a literal is rejected, *)
Theorem C22_rejected : forall d ddl s1 v1 a oa p h oh items oi vi hs k x rest,
  (exists o1, lang (script d) s1 None o1 v1) -> lang (opening d) a None oa tt -> before d p ->
  lang (column_head d) h (hd_error (items ++ [k])) oh tt ->
  star (lang (column_constraint d)) items (Some k) oi vi hs -> NoDup (map (kind d) hs) ->
  kwd "DEFAULT" k -> ~ In (kind d k) (map (kind d) hs) -> x <> "(" -> literal d x = false ->
  tokens d ddl (s1 ++ a ++ p ++ h ++ items ++ k :: x :: rest) -> exists line, rejected ddl d line x.
Proof. exact Stops.bad_default. Qed.
Print Assumptions C22_rejected.
(** and the literals are numbers less than the limit of float64, *)
Theorem C22_number : forall d t neg hex m frac x, go_numeral t neg hex m frac x -> moderate t x ->
  (literal d t = true <-> QArith_base.Qlt (go_value hex m frac x) too_large).
Proof. exact ValuesFacts.number_literal. Qed.
Print Assumptions C22_number.
(** and the other kinds of literals. *)
Theorem C22_kinds : forall d ddl l t, tokens d ddl l -> In t l -> literal d t = true -> literal_kind d t.
Proof. exact ValuesFacts.token_kinds. Qed.
Print Assumptions C22_kinds.
Example C22_example : exists stmts ts,
  let ddl := "CREATE TABLE t (a INT DEFAULT 1e-1, b INT DEFAULT -9007199254740993, c INT DEFAULT 'it', d INT DEFAULT null,
    e INT DEFAULT TRUE, f INT DEFAULT CURRENT_DATE ON UPDATE CURRENT_DATE, g INT DEFAULT (1 + now()), h INT, i INT DEFAULT (1,,2));" in
  says MySQL ddl stmts /\ readable stmts = true /\ accepted ddl MySQL ts /\
  map (fun c => c_default (col_constraint c)) (result_columns ts) =
    [DFloat (FFin false 7205759403792794 (-56)); DFloat (FFin true 4503599627370496 1); DString "it"; DNil; DBool true;
     DString "CURRENT_DATE"; DString "(1+now())"; DNil; DString "(1,2)"].
Proof. do 2 eexists. split; [reads|]. split; [reflexivity|]. split; [computes|]. reflexivity. Qed.
Example C22_spellings : exists stmts ts,
  let ddl := "CREATE TABLE t (aa INT DEFAULT 0x1Fp-2, bb INT DEFAULT 0x_1_0p1, cc INT DEFAULT -1_000e1_0, dd INT DEFAULT +Infinity,
    ee INT DEFAULT -iNF, ff INT DEFAULT NaN, gg INT DEFAULT 1e-400, hh INT DEFAULT 0e400);" in
  says PostgreSQL ddl stmts /\ readable stmts = true /\ accepted ddl PostgreSQL ts /\
  map (fun c => c_default (col_constraint c)) (result_columns ts) =
    map DFloat [FFin false 8725724278030336 (-50); FFin false 4503599627370496 (-47); FFin true 5120000000000000 (-9); FInf false; FInf true; FNaN;
      FFin false 0 0; FFin false 0 0].
Proof. do 2 eexists. split; [reads|]. split; [reflexivity|]. split; [computes|]. reflexivity. Qed.
Example C22_numeral : go_numeral "-1_2e+003" true false 12 0 3 /\ nearest (go_value false 12 0 3) 6597069766656000 (-39) /\
  go_numeral "+0x_1.8p1024" false true 24 1 1024 /\ QArith_base.Qle too_large (go_value true 24 1 1024).
Proof.
  assert (N : go_numeral "-1_2e+003" true false 12 0 3).
  { apply (go_decimal "-" true "1_2" "12" 0 12 "e+003" 3).
    - constructor.
    - constructor. apply (group_under _ "1" 1); [cbn; auto|]. apply (group_last _ "2" 2). cbn. auto.
    - apply NumbersFacts.decimal_spec. split; [discriminate|reflexivity].
    - apply (power_intro _ "e" "+" false "003" "003" 3); [cbn; auto|constructor| |apply NumbersFacts.decimal_spec; split; [discriminate|reflexivity]].
      apply (group_next _ "0" 0); [cbn; auto|]. apply (group_next _ "0" 0); [cbn; auto|]. apply (group_last _ "3" 3). cbn. auto 10. }
  split; [exact N|]. split.
  - pose proof (GoFloatsRead.go_float_spec _ _ _ _ _ _ N (or_introl eq_refl)) as F.
    replace (parse_float "-1_2e+003") with (Some (FFin true 6597069766656000 (-39))) in F by (vm_compute; reflexivity).
    destruct F as (_ & q & e & E & F). now inversion E; subst.
  - split; [|vm_compute; discriminate].
    apply (go_hex_under "+" false "x" "1.8" "18" 1 24 "p1024" 1024).
    + constructor.
    + cbn. auto.
    + apply (man_both _ "1" "1" "8" "8"); [apply (group_last _ "1" 1)|apply (group_last _ "8" 8)]; cbn; auto 12.
    + discriminate.
    + apply (hex_more "1" 1 "8" 8); [|cbn; auto 12]. apply (hex_one "1" 1). cbn. auto.
    + apply (power_intro _ "p" "" false "1024" "1024" 1024); [cbn; auto|constructor| |apply NumbersFacts.decimal_spec; split; [discriminate|reflexivity]].
      apply (group_next _ "1" 1); [cbn; auto|]. apply (group_next _ "0" 0); [cbn; auto|]. apply (group_next _ "2" 2); [cbn; auto|]. apply (group_last _ "4" 4). cbn. auto 10.
Qed.
Example C22_rejected_example : exists line, rejected "CREATE TABLE t (id INT NOT NULL DEFAULT 1e309);" PostgreSQL line "1e309".
Proof.
  eapply (C22_rejected PostgreSQL _ [] _ ["CREATE"; "TABLE"; "t"; "("] _ [] ["id"; "INT"] _ ["NOT"; "NULL"] _ _ ["NOT"] "DEFAULT" "1e309" [")"; ";"]).
  - eexists. is_part (@None string).
  - is_part (@None string).
  - now left.
  - is_part (Some "NOT").
  - apply (star_cons _ "NOT" ["NULL"] []); [is_part (Some "DEFAULT")|]. constructor.
  - repeat constructor; cbn; intuition discriminate.
  - reflexivity.
  - cbn. intuition discriminate.
  - discriminate.
  - vm_compute. reflexivity.
  - is_tokens.
Qed.
(** The clause of a column after an INDEX element is lost. *)
Theorem C22_refuted : exists ddl stmts ts, says MySQL ddl stmts /\ accepted ddl MySQL ts /\
  ~ Forall2 (fun c r => default_as MySQL (default_in (ac_items c)) (c_default (col_constraint r))) (columns_in stmts) (result_columns ts).
Proof.
  exists "CREATE TABLE t (a INT, INDEX (a), b INT DEFAULT TRUE CHECK (b) NOT NULL);". do 2 eexists. split; [reads|]. split; [computes|].
  intros F. inversion F as [|? ? ? ? _ F']; subst. inversion F' as [|? ? ? ? P _]; subst.
  destruct P as (_ & _ & _ & _ & _ & _ & _ & P & _). specialize (P (or_introl eq_refl)). discriminate P.
Qed.
Print Assumptions C22_refuted.

(** C23: the numbers after the types of the columns are reported. *)
Theorem C23_reported_partial : forall d ddl stmts, says d ddl stmts -> readable stmts = true -> exists ts, accepted ddl d ts /\
  Forall2 (fun c r => digits_as_written (at_digits (ac_type c)) (dt_n (col_type r)) (dt_m (col_type r))) (columns_in stmts) (result_columns ts).
Proof. exact ValuesFacts.digits_reported. Qed.
Print Assumptions C23_reported_partial.
(** A number that is not a positive 64-bit integer is rejected: the first in brackets, *)
Theorem C23_first_rejected : forall d ddl s1 v1 a oa p n w x rest,
  (exists o1, lang (script d) s1 None o1 v1) -> lang (opening d) a None oa tt -> before d p -> cmem (name_class d) n = true ->
  sized d w -> (forall k, ~ positive_int x k) ->
  tokens d ddl (s1 ++ a ++ p ++ n :: w ++ "(" :: x :: rest) -> exists line, rejected ddl d line x.
Proof. exact Stops.bad_digit. Qed.
Print Assumptions C23_first_rejected.
(** and the second. *)
Theorem C23_second_rejected : forall d ddl s1 v1 a oa p n w k kn x rest,
  (exists o1, lang (script d) s1 None o1 v1) -> lang (opening d) a None oa tt -> before d p -> cmem (name_class d) n = true ->
  matches (scaled_words d) w = true -> positive_int k kn -> (forall m, ~ positive_int x m) ->
  tokens d ddl (s1 ++ a ++ p ++ n :: w :: "(" :: k :: "," :: x :: rest) -> exists line, rejected ddl d line x.
Proof. exact Stops.bad_scale. Qed.
Print Assumptions C23_second_rejected.
Ltac not_int := let k := fresh in intros k; apply NumbersFacts.not_positive; vm_compute; reflexivity.
Ltac int_is := apply NumbersFacts.positive_spec; vm_compute; split; reflexivity.
Example C23_example : exists stmts ts,
  let ddl := "CREATE TABLE t (num NUMERIC(+10, 0002), str character varying(9223372036854775807), cnt INT);" in
  says PostgreSQL ddl stmts /\ readable stmts = true /\ accepted ddl PostgreSQL ts /\
  map (fun c => (dt_n (col_type c), dt_m (col_type c))) (result_columns ts) = [(10, 2); (9223372036854775807, 0); (0, 0)]%Z.
Proof. do 2 eexists. split; [reads|]. split; [reflexivity|]. split; [computes|]. reflexivity. Qed.
Example C23_example_int : positive_int "+10" 10 /\ (forall k, ~ positive_int "9223372036854775808" k) /\ (forall k, ~ positive_int "00" k) /\
  (forall k, ~ positive_int "-3" k) /\ (forall k, ~ positive_int "1e2" k).
Proof. split; [int_is|]. repeat split; not_int. Qed.
Example C23_example_first : exists line, rejected "CREATE TABLE t (id INT, b BIT VARYING(0) UNIQUE);" PostgreSQL line "0".
Proof.
  eapply (C23_first_rejected PostgreSQL _ [] [] ["CREATE"; "TABLE"; "t"; "("] _ ["id"; "INT"; ","] "b" ["BIT"; "VARYING"] "0" [")"; "UNIQUE"; ")"; ";"]).
  - eexists. is_part (@None string).
  - is_part (@None string).
  - right. exists ["id"; "INT"]. do 2 eexists. split; [reflexivity|]. apply sep_one. is_part (Some ",").
  - reflexivity.
  - right. split; [reflexivity|]. exists "BIT", "VARYING". repeat split.
  - not_int.
  - is_tokens.
Qed.
Example C23_example_second : exists line, rejected "CREATE TABLE t (b DOUBLE(5, -1));" MySQL line "-1".
Proof.
  eapply (C23_second_rejected MySQL _ [] [] ["CREATE"; "TABLE"; "t"; "("] _ [] "b" "DOUBLE" "5" 5%Z "-1" [")"; ")"; ";"]).
  - eexists. is_part (@None string).
  - is_part (@None string).
  - now left.
  - reflexivity.
  - reflexivity.
  - int_is.
  - not_int.
  - is_tokens.
Qed.

(** After an INDEX the converter takes what follows for another table. *)
Theorem C23_refuted : exists ddl stmts ts, says MySQL ddl stmts /\ accepted ddl MySQL ts /\
  ~ Forall2 (fun c r => digits_as_written (at_digits (ac_type c)) (dt_n (col_type r)) (dt_m (col_type r))) (columns_in stmts) (result_columns ts).
Proof.
  exists "CREATE TABLE t (a INT, INDEX (a), b INT(5));". do 2 eexists. split; [reads|]. split; [computes|].
  intros F. inversion F as [|? ? ? ? _ F']; subst. inversion F' as [|? ? ? ? P _]; subst. destruct P as [P _].
  apply NumbersFacts.positive_spec in P as [_ P]. vm_compute in P. discriminate.
Qed.
Print Assumptions C23_refuted.

(** C30: table options do not affect the result. *)
Theorem C30_options : forall d s s' l1 v1 a oa es oe ve o o' l2 v2,
  (exists o1, lang (script d) l1 None o1 v1) -> lang (opening d) a None oa tt -> lang (elements d) es (Some ")") oe ve ->
  (exists oo, lang (options d) o (Some ";") oo tt) -> (exists oo, lang (options d) o' (Some ";") oo tt) ->
  (exists o2, lang (script d) l2 None o2 v2) ->
  tokens d s (l1 ++ a ++ es ++ ")" :: o ++ ";" :: l2) -> tokens d s' (l1 ++ a ++ es ++ ")" :: o' ++ ";" :: l2) ->
  same_result d s s'.
Proof. exact PartsFacts.options_same. Qed.
Print Assumptions C30_options.
(** Every CREATE TABLE statement of every script has these parts. *)
Theorem C30_parts : forall d s vs1 t vs2, says d s (vs1 ++ STable t :: vs2)%list ->
  exists l1 a oa es oe ve o l2, tokens d s (l1 ++ a ++ es ++ ")" :: o ++ ";" :: l2) /\
  (exists o1, lang (script d) l1 None o1 vs1) /\ lang (opening d) a None oa tt /\ lang (elements d) es (Some ")") oe ve /\
  (exists oo, lang (options d) o (Some ";") oo tt) /\ (exists o2, lang (script d) l2 None o2 vs2).
Proof. exact PartsFacts.options_found. Qed.
Print Assumptions C30_parts.
Example C30_example : same_result MySQL "CREATE TABLE t (id INT) ENGINE = InnoDB, COMMENT 'x';" "CREATE TABLE t (id INT);".
Proof.
  eapply (C30_options MySQL _ _ [] _ ["CREATE"; "TABLE"; "t"; "("] _ ["id"; "INT"] _ _ ["ENGINE"; "="; "InnoDB"; ","; "COMMENT"; "'x'"] [] []).
  - eexists. is_part (@None string).
  - is_part (@None string).
  - is_part (Some ")").
  - eexists. is_part (Some ";").
  - eexists. is_part (Some ";").
  - eexists. is_part (@None string).
  - is_tokens.
  - is_tokens.
Qed.
