(** C56, C57, C58, C77, C78, C79: reported text is UTF-8; the JSON text of the result (Json.v). *)
From Coq Require Import String Ascii NArith ZArith List Bool Arith.
From Verif Require Import GoStr GoNum Types Grammar Print Spec GoFloats Decide Witness JsonGrammar Json JsonFacts JsonResult JsonPlain JsonShape JsonPaths JsonPathsFacts Force.
From Verif Require GoFloatsRead.
Import ListNotations.
Open Scope nat_scope.
Open Scope string_scope.

(** C56: every reported string is valid UTF-8, for texts of any bytes. *)
Theorem C56_tables : forall ddl d ts, accepted ddl d ts -> Forall valid_table ts.
Proof. exact result_valid. Qed.
Print Assumptions C56_tables.
Theorem C56_near : forall ddl d line near, rejected ddl d line near -> valid near.
Proof. intros ddl d line near H. exact (near_valid ddl d [] _ H). Qed.
Print Assumptions C56_near.
Theorem C56_force : forall ddl ts err, force_returns ddl ts err -> Forall valid_table ts.
Proof.
  intros ddl ts err [_ [(d & b & a & _ & A & _)|[-> _]]]%force_iff; [exact (C56_tables _ _ _ A)|constructor].
Qed.
Print Assumptions C56_force.
(** The bytes C3 and FF are no characters; they are reported as U+FFFD. *)
Definition broken : string := String "195" (String "255" "").
Definition c56_text : string := "CREATE TABLE ""a" ++ broken ++ """ (bb TEXT DEFAULT '" ++ broken ++ "', c" ++ utf8 [252%N] ++ " TEXT);".
Example C56_example : ~ valid c56_text /\ exists line, rejected c56_text SQLite line ("c" ++ utf8 [252%N]).
Proof.
  split; [|eexists; computes]. intros V. apply valid_runes in V as [_ E]. vm_compute in E. discriminate E.
Qed.
Definition c56_accepted : string := "CREATE TABLE ""a" ++ broken ++ """ (bb TEXT DEFAULT '" ++ broken ++ "');".
Example C56_example_table : exists t, accepted c56_accepted SQLite [t] /\ t_name t = "a" ++ utf8 [65533; 65533]%N.
Proof. eexists. split; [computes|reflexivity]. Qed.

(** C57: when the result can be written as JSON. *)
(** a default value that is not a number, or infinite *)
Theorem C57_exactly_partial : forall ddl d ts, accepted ddl d ts ->
  ((exists s, marshals ts s) <-> forall t c, In t ts -> In c (t_columns t) -> ~ no_json (c_default (col_constraint c))).
Proof. exact json_iff. Qed.
Print Assumptions C57_exactly_partial.
(** so it can be written if no token is one of inf, infinity, nan (in any case, inf and infinity also with a sign) *)
Theorem C57_words_partial : forall ddl d ts l, accepted ddl d ts -> tokens d ddl l ->
  (forall t, In t l -> ~ In (lower_letters t) ["inf"; "+inf"; "infinity"; "+infinity"; "-inf"; "-infinity"; "nan"]) -> exists s, marshals ts s.
Proof. exact json_words. Qed.
Print Assumptions C57_words_partial.
Definition c57_text : string := "CREATE TABLE IF NOT EXISTS s.t (aa NUMERIC(5,2) NOT NULL DEFAULT -15e-1 REFERENCES u(x), bb TEXT DEFAULT '<&>' CHECK(bb<>'\'), PRIMARY KEY (aa, bb));".
Definition c57_json : string := "[{""schema"":""s"",""name"":""t"",""if_not_exists"":true,""columns"":[{""name"":""aa"",""data_type"":{""name"":""NUMERIC"",""digit_n"":5,""digit_m"":2},""constraint"":{""name"":"""",""is_primary_key"":false,""is_unique"":false,""is_not_null"":true,""is_autoincrement"":false,""default"":-1.5,""check"":"""",""collate"":"""",""references"":{""table_name"":""u"",""column_names"":[""x""]}}},{""name"":""bb"",""data_type"":{""name"":""TEXT"",""digit_n"":0,""digit_m"":0},""constraint"":{""name"":"""",""is_primary_key"":false,""is_unique"":false,""is_not_null"":false,""is_autoincrement"":false,""default"":""\u003c\u0026\u003e"",""check"":""(bb\u003c\u003e'\\')"",""collate"":"""",""references"":{""table_name"":"""",""column_names"":null}}}],""constraints"":{""primary_key"":[{""name"":"""",""column_names"":[""aa"",""bb""]}],""unique"":null,""check"":null,""foreign_key"":null}}]".
Example C57_example : exists ts, accepted c57_text PostgreSQL ts /\ marshals ts c57_json.
Proof.
  eexists. split; [computes|]. eexists. split.
  - constructor; [|constructor]. constructor. constructor; [|constructor; [|constructor]]; constructor.
    + apply (dj_float _ "-1.5"). split; [|vm_compute; reflexivity]. exists "-", "1", ".5", "". split; [reflexivity|]. split; [cbn; auto|].
      split; [right; exists "1"%char, ""; split; [reflexivity|split; [now left|constructor]]|]. split; [|now left].
      right. exists "5". split; [reflexivity|]. split; [discriminate|]. constructor; [unfold one_char; cbn; tauto|constructor].
    + apply dj_string.
  - vm_compute. reflexivity.
Qed.
(** DEFAULT nan is accepted by every dialect, and json.Marshal of the result is an error. *)
Theorem C57_refuted : Forall (fun d => exists ts, accepted "CREATE TABLE t (aa INTEGER DEFAULT nan);" d ts /\ forall s, ~ marshals ts s) [SQLite; PostgreSQL; MySQL].
Proof.
  repeat apply Forall_cons; try apply Forall_nil; eexists; (split; [computes|]); intros s M; apply json_only in M; inversion M as [|x y N]; apply N; exact I.
Qed.
Print Assumptions C57_refuted.

(** C58: the JSON text determines the tables. *)
Theorem C58_injective : forall ddl ddl' d d' ts ts' s, accepted ddl d ts -> accepted ddl' d' ts' -> marshals ts s -> marshals ts' s -> ts = ts'.
Proof. intros ddl ddl' d d' ts ts' s A A'. exact (marshal_inj ts ts' s (result_valid _ _ _ A) (result_valid _ _ _ A')). Qed.
Print Assumptions C58_injective.
(** for two texts with the same JSON *)
Example C58_example : exists ts ts', accepted c57_text PostgreSQL ts /\
  accepted "create table if not exists ""s"".t (aa numeric(5,2) default -1500e-3 not null references u(x), bb text check(bb<>'\') default '<&>', primary key (aa, bb));" PostgreSQL ts' /\
  marshals ts c57_json /\ marshals ts' c57_json.
Proof.
  destruct C57_example as (ts & A & M). exists ts, ts. split; [exact A|]. split; [|auto].
  assert (E : exists us, accepted c57_text PostgreSQL us /\ accepted "create table if not exists ""s"".t (aa numeric(5,2) default -1500e-3 not null references u(x), bb text check(bb<>'\') default '<&>', primary key (aa, bb));" PostgreSQL us)
    by (eexists; split; computes).
  destruct E as (us & B & B'). destruct (returns_det _ _ _ _ _ _ A B) as [-> _]. exact B'.
Qed.

(** C77: the JSON text can stand in a line of a script element of an HTML page. *)
Theorem C77_plain : forall ddl d ts s, accepted ddl d ts -> marshals ts s -> plain_text s.
Proof. exact JsonPlain.marshal_plain. Qed.
Print Assumptions C77_plain.
Definition c77_text : string := "CREATE TABLE t (aa TEXT DEFAULT '</script>" ++ String "010" (utf8 [8232%N] ++ "&');").
Example C77_example : exists ts s, accepted c77_text SQLite ts /\ marshals ts s /\ ~ plain_text c77_text.
Proof.
  eexists. eexists. split; [computes|]. split.
  - eexists. split; [|reflexivity]. constructor; [|constructor]. constructor. constructor; [|constructor]. constructor. apply dj_string.
  - intros (rs & E & F). assert (R : runes_of c77_text = rs) by (rewrite E; apply Utf8.runes_of_utf8; eapply Forall_impl; [|exact F]; intros r H; apply H).
    rewrite <- R in F. eapply Forall_forall with (x := 60%N) in F; [|vm_compute; tauto]. destruct F as (_ & _ & N). apply N. now left.
Qed.

(** C78: the JSON text follows the grammar of RFC 8259 (JsonGrammar.v). *)
Theorem C78_grammar : forall ddl d ts s, accepted ddl d ts -> marshals ts s -> json_text s.
Proof. exact JsonShape.marshal_shape. Qed.
Print Assumptions C78_grammar.
Example C78_example : exists ts, accepted c57_text PostgreSQL ts /\ marshals ts c57_json /\ json_text c57_json.
Proof. destruct C57_example as (ts & A & M). exists ts. split; [exact A|]. split; [exact M|]. exact (C78_grammar _ _ _ _ A M). Qed.
(** The grammar tells something: a text with a lone quotation mark or a number such as 01 is none of its texts. *)
Example C78_not : ~ json_number "01" /\ ~ json_number "1." /\ ~ json_string """a".
Proof.
  assert (Z : forall s, json_int s -> s <> "").
  { intros s [->|(c & t & -> & _)]; discriminate. }
  split; [|split].
  - intros (sign & i & f & e & E & S & I & F & X). destruct S as [<-|[<-|[]]]; [|discriminate]. cbn [append] in E.
    destruct I as [->|(c & t & -> & C & _)].
    + injection E as E. destruct F as [->|(t & -> & _)]; [|discriminate]. destruct X as [->|(x & g & u & -> & O & _)]; [discriminate|].
      injection E as <- _. destruct O as [O|[O|[]]]; discriminate.
    + injection E as <- _. unfold one_char in C. cbn in C. repeat (destruct C as [C|C]; [discriminate|]). contradiction.
  - intros (sign & i & f & e & E & S & I & F & X). destruct S as [<-|[<-|[]]]; [|discriminate]. cbn [append] in E.
    assert (P : i = "1" \/ i = "1." \/ i = "").
    { destruct i as [|a [|b [|c i]]]; [tauto| | |]; injection E; intros; subst; auto; discriminate. }
    destruct P as [->|[->| ->]].
    + injection E as E. destruct F as [->|(t & -> & N & _)].
      * destruct X as [->|(x & g & u & -> & O & _)]; [discriminate|]. injection E as <- _. destruct O as [O|[O|[]]]; discriminate.
      * injection E as E. destruct t; [contradiction|discriminate].
    + destruct I as [I|(c & t & I & _ & T)]; [discriminate|]. injection I as _ <-. inversion T as [|? ? O _]. unfold one_char in O. cbn in O.
      repeat (destruct O as [O|O]; [discriminate|]). contradiction.
    + now apply (Z "").
  - intros (t & E & _). cbn [append] in E. injection E as E. destruct t as [|c [|b t]]; cbn [append] in E; try discriminate.
Qed.

(** C79: where the values of the result stand in the JSON text (JsonPaths.v); [good]: values of JSON with strings in UTF-8. *)
Theorem C79_paths : forall ddl d ts s, accepted ddl d ts -> marshals ts s ->
  exists j, good j /\ s = write j /\ tables_at ts j /\ forall j', good j' -> s = write j' -> j' = j.
Proof. exact marshal_paths. Qed.
Print Assumptions C79_paths.
Example C79_example : exists ts j, accepted c57_text PostgreSQL ts /\ marshals ts c57_json /\ c57_json = write j /\
  at_path j [Item 0; Member "columns"; Item 0; Member "constraint"; Member "is_not_null"] = Some (JBool true) /\
  at_path j [Item 0; Member "constraints"; Member "primary_key"; Item 0; Member "column_names"; Item 1] = Some (JString "bb") /\
  at_path j [Item 0; Member "columns"; Item 2] = None.
Proof.
  assert (X : exists t, accepted c57_text PostgreSQL [t] /\ map (fun c => c_notnull (col_constraint c)) (t_columns t) = [true; false] /\
    map pk_columns (tc_pk (t_constraints t)) = [["aa"; "bb"]]) by (eexists; split; [computes|split; reflexivity]).
  destruct X as (t & A & N & P). destruct C57_example as (ts & A' & M). destruct (returns_det _ _ _ _ _ _ A' A) as [-> _].
  destruct (C79_paths _ _ _ _ A M) as (j & _ & E & (_ & T) & _). exists [t], j. split; [exact A|]. split; [exact M|]. split; [exact E|].
  specialize (T 0 t eq_refl). destruct T as (_ & _ & _ & _ & (_ & C & O) & _ & (_ & K & _) & _).
  assert (L : length (t_columns t) = 2) by (apply (f_equal (@length bool)) in N; now rewrite map_length in N).
  destruct (t_columns t) as [|c cs] eqn:Ec; [discriminate|]. destruct (tc_pk (t_constraints t)) as [|k ks] eqn:Ek; [discriminate|].
  injection N as N _. injection P as P _. split; [|split].
  - destruct (C 0 c eq_refl) as (_ & _ & _ & _ & _ & _ & _ & _ & _ & _ & H & _). cbv beta in H. now rewrite H, N.
  - destruct (K 0 k eq_refl) as (_ & _ & H). unfold string_list in H. rewrite P in H.
    assert (R : forall p x q, at_path j p = Some x -> at_path j (p ++ q)%list = at_path x q).
    { clear. intros p. revert j. induction p as [|s p IH]; intros j x q H; [injection H as ->; reflexivity|]. cbn [at_path app] in *. destruct (down j s); [now apply IH|discriminate]. }
    exact (R _ _ [Item 1] H).
  - apply (O 2). now rewrite L.
Qed.
