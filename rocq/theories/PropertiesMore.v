(** C39 - C42: the text of errors, statements that are skipped, texts that are continued, texts without statements. *)
From Coq Require Import String Ascii NArith List Bool Arith.
From Verif Require Import GoStr Types Grammar Ast Converter Parse Spec Decide Witness Parts PartsFacts Numbers ErrorText ErrorTextFacts
  Layout Skipped SkippedFacts Extend.
Import ListNotations.
Open Scope nat_scope.
Open Scope string_scope.
Open Scope list_scope.

(** C39: the message of an error shows where the error is, and it can be told from the message. *)
Theorem C39_message : forall line near, exists ds, decimal ds (N.of_nat line) /\
  Error (mk_verror line near) = ("ValidateError: Syntax error: near '" ++ near ++ "' at line " ++ ds ++ ".")%string.
Proof. exact ErrorTextFacts.error_text. Qed.
Print Assumptions C39_message.
Theorem C39_tells : forall e e', Error e = Error e' -> e = e'.
Proof. exact ErrorTextFacts.error_inj. Qed.
Print Assumptions C39_tells.
Example C39_example : exists line near, rejected ("CREATE TABLE t (" ++ String "010" "id INTEGERS);") SQLite line near /\
  Error (mk_verror line near) = "ValidateError: Syntax error: near 'INTEGERS' at line 2.".
Proof. exists 2, "INTEGERS". split; [computes|reflexivity]. Qed.
Example C39_example_long : Error (mk_verror 1207 "' at line 3.") = "ValidateError: Syntax error: near '' at line 3.' at line 1207.".
Proof. vm_compute. reflexivity. Qed.

(** C40: CREATE VIEW, CREATE INDEX, CREATE TRIGGER ... can be put in and left out anywhere between statements, whatever
    follows. *)
Theorem C40_skipped : forall d s s' l1 v1 x l2, (exists o1, lang (script d) l1 None o1 v1) -> other_statement d x ->
  tokens d s (l1 ++ l2) -> tokens d s' (l1 ++ x ++ l2) -> alike d s s'.
Proof. exact SkippedFacts.other_same. Qed.
Print Assumptions C40_skipped.
(** Every skipped statement of every script is such a statement. *)
Theorem C40_found : forall d s vs1 vs2, says d s (vs1 ++ SOther :: vs2) -> exists l1 x l2, tokens d s (l1 ++ x ++ l2) /\
  (exists o1, lang (script d) l1 None o1 vs1) /\ other_statement d x /\ (exists o2, lang (script d) l2 None o2 vs2).
Proof. exact SkippedFacts.other_found. Qed.
Print Assumptions C40_found.
Example C40_example :
  alike SQLite "CREATE TABLE t (id INTEGER); CREATE TABLE u (n TEXT,"
    "CREATE TABLE t (id INTEGER); CREATE TEMP TRIGGER x BEGIN DELETE; INSERT; END; CREATE TABLE u (n TEXT,".
Proof.
  apply (C40_skipped SQLite _ _ ["CREATE"; "TABLE"; "t"; "("; "id"; "INTEGER"; ")"; ";"]
    [STable (mk_atable false None "t" [EColumn (mk_acolumn "id" (mk_atype "INTEGER" false None) None [])])]
    ["CREATE"; "TEMP"; "TRIGGER"; "x"; "BEGIN"; "DELETE"; ";"; "INSERT"; ";"; "END"; ";"] ["CREATE"; "TABLE"; "u"; "("; "n"; "TEXT"; ","]).
  - eexists. is_part (@None string).
  - exists "CREATE", ["TEMP"], "TRIGGER", ["x"; "BEGIN"; "DELETE"; ";"; "INSERT"; ";"; "END"].
    split; [reflexivity|]. split; [reflexivity|]. split; [right; exists "TEMP"; auto|]. split; [reflexivity|].
    constructor; [reflexivity|discriminate|]. apply (sk_block "BEGIN" ["DELETE"; ";"; "INSERT"; ";"] "END" []); try reflexivity; repeat constructor.
  - is_tokens.
  - is_tokens.
Qed.

(** C41: if a text is accepted and a longer text is accepted, too, then the tables of the longer text begin with those
    of the shorter one. *)
Theorem C41_continued : forall d s1 s2 ts1 ts, accepted s1 d ts1 -> accepted (s1 ++ s2) d ts -> exists ts2, ts = ts1 ++ ts2.
Proof. exact Extend.more_tables. Qed.
Print Assumptions C41_continued.
Example C41_example :
  let s1 := "CREATE TABLE t (id INT);--" in let s2 := ("x" ++ String "010" "CREATE TABLE u (n TEXT);")%string in
  exists ts1 ts, accepted s1 PostgreSQL ts1 /\ accepted (s1 ++ s2) PostgreSQL ts /\ map t_name ts1 = ["t"] /\ map t_name ts = ["t"; "u"].
Proof. do 2 eexists. split; [computes|]. split; [computes|]. split; reflexivity. Qed.

(** C42: a text that consists of white space and comments is accepted, and has no tables. *)
Theorem C42_blank : forall d l, layout d l = true -> lexemes l = [] -> accepted (text_of l) d [].
Proof. exact SkippedFacts.blank_text. Qed.
Print Assumptions C42_blank.
Example C42_example : let l := [ISpace 32%N; IBlock [65%N; 10%N]; IBreak; IDash [104%N; 105%N]; ISpace 9%N] in
  layout PostgreSQL l = true /\ lexemes l = [] /\
  text_of l = (" /*A" ++ String "010" "*/" ++ String "010" "--hi" ++ String "010" (String "009" ""))%string.
Proof. repeat split. Qed.
