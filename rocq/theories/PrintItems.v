(** Column constraints as they are printed. *)
From Coq Require Import String Ascii NArith ZArith List Bool Arith Lia.
From Verif Require Import GoStr GoNum Types Grammar GrammarFacts Ast Safe Spec Numbers NumbersFacts Utf8 Layout Parts Quoted Build
  Print PrintText PrintFloat Meaning.
From Verif Require GSqlite GPostgres GMysql.
Import ListNotations.
Open Scope nat_scope.
Open Scope string_scope.
Open Scope list_scope.

Definition known (d : rdbms) : Prop := match d with Other _ => False | _ => True end.
Ltac dialects d K := destruct d; [| | |destruct K].

(** ** Building *)

Lemma gen_name_sqlite : forall B (h : gr B) t l nxt b, legal_name SQLite t = true -> gen h l nxt b ->
  gen (GSqlite.table_name ** h) (t :: l) nxt ((None, t), b).
Proof.
  intros. change (t :: l) with ([t] ++ l). apply gen_seq; auto. eapply gen_map; [apply gen_tok; [eassumption|apply gen_none]|reflexivity].
Qed.
Lemma gen_name_postgres : forall B (h : gr B) t l nxt b, legal_name PostgreSQL t = true -> gen h l nxt b ->
  gen (GPostgres.table_name ** h) (t :: l) nxt ((None, t), b).
Proof.
  intros. change (t :: l) with ([t] ++ l). apply gen_seq; auto. eapply gen_map; [apply gen_tok; [eassumption|apply gen_none]|reflexivity].
Qed.
Lemma gen_name_mysql : forall B (h : gr B) t l nxt b, legal_name MySQL t = true -> gen h l nxt b ->
  gen (GMysql.table_name ** h) (t :: l) nxt ((None, t), b).
Proof.
  intros. change (t :: l) with ([t] ++ l). apply gen_seq; auto. eapply gen_map; [apply gen_tok; [eassumption|apply gen_none]|reflexivity].
Qed.

Ltac tok := first [eassumption | apply name_legal | vm_compute; reflexivity].
Ltac unhead g := match g with ?f _ _ => unhead f | ?f _ => unhead f | _ => unfold g end.
Ltac build := lazymatch goal with
  | |- gen (Map _ _) _ _ _ => eapply gen_map; [build|reflexivity]
  | |- gen (Cond _ _ _) _ _ _ => first [solve [apply gen_left; build] | solve [apply gen_right; build]]
  | |- gen (opt _ _) _ _ _ => first [apply gen_none | solve [apply gen_some; build]]
  | |- gen (While _ _) _ _ _ => apply gen_while
  | |- gen (One _ _) _ _ _ => apply gen_one; tok
  | |- gen Eps _ _ _ => apply gen_eps
  | |- gen (Put _) _ _ _ => apply gen_put
  | |- gen (NotNext _) _ _ _ => apply gen_notnext; cbn [hdr]; tok
  | |- gen (IsNext _) _ _ _ => cbn [hdr]; apply gen_isnext; tok
  | |- gen (Brackets _) _ _ _ => apply gen_brackets; tok
  | |- gen (Seq _ _) _ _ _ => first
    [ solve [apply gen_tok; [tok|build]]
    | solve [first [apply gen_name_sqlite|apply gen_name_postgres|apply gen_name_mysql]; [tok|build]]
    | solve [eapply gen_skip; [solve [build]|build]]
    | solve [eapply gen_seq; [solve [eauto]|build]]
    | solve [eapply gen_last; [solve [build]|build]] ]
  | |- gen ?g _ _ _ => unhead g; build
  end.

Definition follow : list string :=
  [","; ")"; "PRIMARY"; "UNIQUE"; "AUTO_INCREMENT"; "DEFAULT"; "CHECK"; "COLLATE"; "REFERENCES"].
Ltac follows I := cbn [follow In] in I; repeat destruct I as [<-|I]; try contradiction.

Definition item_gen (d : rdbms) (l : list string) (i : a_item) : Prop := forall x, In x follow -> gen (column_constraint d) l (Some x) i.

Lemma item_notnull : forall d, item_gen d ["NOT"; "NULL"] INotNull.
Proof. intros d x I. destruct d; cbn [column_constraint]; follows I; build. Qed.
Lemma item_primary : forall d, item_gen d ["PRIMARY"; "KEY"] (IPrimary false).
Proof. intros d x I. destruct d; cbn [column_constraint]; follows I; build. Qed.
Lemma item_auto_primary : item_gen SQLite ["PRIMARY"; "KEY"; "AUTOINCREMENT"] (IPrimary true).
Proof. intros x I. cbn [column_constraint]; follows I; build. Qed.
Lemma item_unique : forall d, item_gen d ["UNIQUE"] IUnique.
Proof. intros d x I. destruct d; cbn [column_constraint]; follows I; build. Qed.
Lemma item_auto : item_gen MySQL ["AUTO_INCREMENT"] IAuto.
Proof. intros x I. cbn [column_constraint]; follows I; build. Qed.

(** expressions *)
Lemma lexemes_text : forall its, forallb lexeme_item its = true -> text (lexemes its) = text_of its.
Proof.
  induction its as [|i its IH]; [reflexivity|]. cbn [forallb]. intros [A B]%andb_true_iff. unfold text_of, lexemes, chars in *. cbn [flat_map].
  rewrite utf8_app, <- IH by auto. destruct i; try discriminate; reflexivity.
Qed.
Lemma expr_tokens : forall d s, expr_ok d s -> exists body, piece d s ("(" :: body ++ [")"]) /\ balanced body /\
  text ("(" :: body ++ [")"]) = s /\ double_comma ("(" :: body ++ [")"]) = false.
Proof.
  intros d s (its & body & L & Y & -> & E & B & D). exists body. rewrite <- E. repeat split; auto.
  - now exists its.
  - now apply lexemes_text.
Qed.

Lemma item_check : forall d body, balanced body -> item_gen d ("CHECK" :: "(" :: body ++ [")"]) (ICheck ("(" :: body ++ [")"])).
Proof.
  intros d body B x I. destruct d; cbn [column_constraint].
  1,4: do 3 apply gen_right; apply gen_left; eapply gen_map; [apply gen_tok; [tok|now apply gen_brackets]|reflexivity].
  - do 4 apply gen_right. apply gen_left.
    eapply gen_map; [apply gen_tok; [tok|eapply gen_last; [now apply gen_brackets|build]]|reflexivity].
  - do 4 apply gen_right. apply gen_left. follows I;
    (eapply gen_map; [eapply gen_map; [apply gen_tok; [tok|eapply gen_last; [now apply gen_brackets|build]]|reflexivity]|reflexivity]).
Qed.
Lemma item_default_expr : forall d body, balanced body ->
  item_gen d ("DEFAULT" :: "(" :: body ++ [")"]) (IDefault (AExpr ("(" :: body ++ [")"]))).
Proof.
  intros d body B x I. destruct d; cbn [column_constraint].
  1,4: do 4 apply gen_right. 3,4: do 5 apply gen_right. all: apply gen_left.
  all: eapply gen_map; [apply gen_tok; [tok|apply gen_left; eapply gen_map; [now apply gen_brackets|reflexivity]]|reflexivity].
Qed.
Lemma item_default_lit : forall d t, known d -> literal d t = true -> item_gen d ["DEFAULT"; t] (IDefault (ALit t)).
Proof.
  intros d t K L x I. dialects d K; cbn [column_constraint].
  1: do 4 apply gen_right. 2,3: do 5 apply gen_right. all: apply gen_left.
  all: eapply gen_map; [apply gen_tok; [tok|apply gen_right; eapply gen_map; [|reflexivity];
    first [apply gen_one; exact L|apply gen_tok; [exact L|apply gen_none]]]|reflexivity].
Qed.

Lemma item_collate_sqlite : forall t, matches ["BINARY"; "NOCASE"; "RTRIM"] t = true -> item_gen SQLite ["COLLATE"; t] (ICollate t).
Proof.
  intros t M x I. cbn [column_constraint]. do 5 apply gen_right. apply gen_left. eapply gen_map; [apply gen_tok; [tok|now apply gen_one]|reflexivity].
Qed.
Lemma item_collate_mysql : forall t, legal_name MySQL t = true -> item_gen MySQL ["COLLATE"; t] (ICollate t).
Proof.
  intros t M x I. cbn [column_constraint]. do 6 apply gen_right. apply gen_left. eapply gen_map; [apply gen_tok; [tok|now apply gen_one]|reflexivity].
Qed.

(** REFERENCES, without or with one column *)
Lemma item_ref : forall d t, known d -> legal_name d t = true -> item_gen d ["REFERENCES"; t] (IReferences (mk_aref None t None)).
Proof.
  intros d t K L x I. dialects d K; cbn [column_constraint]; do 6 apply gen_right; [| |apply gen_right]; apply gen_left; follows I; build.
Qed.
Lemma item_ref_column : forall d t c, known d -> legal_name d t = true -> legal_name d c = true ->
  item_gen d ["REFERENCES"; t; "("; c; ")"] (IReferences (mk_aref None t (Some [c]))).
Proof.
  intros d t c K L C x I. dialects d K; cbn [column_constraint]; do 6 apply gen_right; [| |apply gen_right]; apply gen_left.
  - follows I; (eapply gen_map; [apply gen_tok; [tok|]; apply gen_name_sqlite; [tok|]; apply (gen_seq _ _ _ _ ["("; c; ")"] []);
      [apply gen_some; build|build]|reflexivity]).
  - follows I; (eapply gen_map; [apply gen_tok; [tok|]; apply gen_name_postgres; [tok|]; apply (gen_seq _ _ _ _ ["("; c; ")"] []);
      [apply gen_some; build|build]|reflexivity]).
  - follows I; (eapply gen_map; [apply gen_tok; [tok|]; apply gen_name_mysql; [tok|]; apply (gen_seq _ _ _ _ ["("; c; ")"] []);
      [apply gen_some; build|build]|reflexivity]).
Qed.
