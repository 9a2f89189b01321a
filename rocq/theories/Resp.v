(** Validators that do not tell certain tokens apart. *)
From Coq Require Import String Ascii List Bool Arith NArith Lia.
From Verif Require Import GoStr GoNum Types VBase Exec Grammar GrammarFacts.
Import ListNotations.
Open Scope nat_scope.
Open Scope string_scope.

Section Resp.
(** tokens that are not told apart, and the lists of words for which this is so *)
Context (S : string -> string -> Prop) (S_refl : forall t, S t t).
Context (W : list string -> Prop) (S_matches : forall ws t t', W ws -> S t t' -> matches ws t = matches ws t').

Definition like {A} (r r' : eres A) : Prop :=
  match r, r' with
  | EOk a rest o, EOk a' rest' o' => a = a' /\ Forall2 S rest rest' /\ Forall2 S o o'
  | EErr rest, EErr rest' => Forall2 S rest rest'
  | EPanic, EPanic => True
  | EFuel, EFuel => True
  | _, _ => False
  end.
Lemma like_pre : forall A o o' (r r' : eres A), Forall2 S o o' -> like r r' -> like (epre o r) (epre o' r').
Proof. intros A o o' [] [] O; cbn; auto. intros (H1 & H2 & H3). auto using Forall2_app. Qed.

Definition resp {A} (m m' : V A) : Prop := forall l l', Forall2 S l l' -> like (exec m l) (exec m' l').

Lemma resp_bind : forall A B (m m' : V A) (f f' : A -> V B), resp m m' -> (forall a, resp (f a) (f' a)) ->
  resp (bind m f) (bind m' f').
Proof.
  intros A B m m' f f' H F l l' L. rewrite !exec_bind. specialize (H l l' L).
  destruct (exec m l), (exec m' l'); cbn in *; try tauto. destruct H as (<- & H & O). apply like_pre; auto. apply F, H.
Qed.
Lemma resp_ret : forall A (a : A), resp (Ret a) (Ret a).
Proof. intros A a l l' L. cbn. auto. Qed.
Lemma resp_fail : forall A, resp (@Fail A) Fail.
Proof. intros A l l' L. exact L. Qed.
Lemma resp_fuel : forall A, resp (@OutOfFuel A) OutOfFuel.
Proof. intros A l l' L. exact I. Qed.
Lemma resp_panic : forall A, resp (@Panic A) Panic.
Proof. intros A l l' L. exact I. Qed.
Lemma resp_emit : forall A t t' (k k' : V A), S t t' -> resp k k' -> resp (Emit t k) (Emit t' k').
Proof. intros A t t' k k' E H l l' L. cbn. apply like_pre; auto. Qed.

Lemma Forall2_hd : forall l l', Forall2 S l l' ->
  match hd_error l, hd_error l' with Some t, Some t' => S t t' | None, None => True | _, _ => False end.
Proof. intros l l' []; cbn; auto. Qed.
Lemma la_same : forall c l l', W (la_words c) -> Forall2 S l l' -> la_mem c (hd_error l) = la_mem c (hd_error l').
Proof.
  intros c l l' H F%Forall2_hd. destruct (hd_error l), (hd_error l'); try tauto. cbn. now rewrite (S_matches _ _ _ H F).
Qed.
Lemma tok_same : forall l l', Forall2 S l l' -> S (tok (hd_error l)) (tok (hd_error l')).
Proof. intros l l' F%Forall2_hd. destruct (hd_error l), (hd_error l'); try tauto; auto. Qed.

Lemma resp_look_la : forall c, W (la_words c) -> resp (look_la c) (look_la c).
Proof. intros c H l l' F. unfold look_la. cbn. now rewrite (la_same c l l' H F). Qed.
Lemma resp_match : forall ws, W ws -> resp (matchToken ws) (matchToken ws).
Proof. intros ws H l l' F. unfold matchToken. cbn. now rewrite (S_matches ws _ _ H (tok_same _ _ F)). Qed.
Lemma resp_next : resp next next.
Proof. intros l l' F. destruct F; cbn; auto. Qed.
Lemma resp_next_set : forall b, resp (next_set b) (next_set b).
Proof. intros b l l' F. destruct F, b; cbn; auto. Qed.
Lemma resp_out : resp isOutOfRange isOutOfRange.
Proof. intros l l' F. destruct F; cbn; auto. Qed.
Lemma resp_if : forall A (c c' : V bool) (p p' q q' : V A), resp c c' -> resp p p' -> resp q q' ->
  resp (bind c (fun b : bool => if b then p else q)) (bind c' (fun b : bool => if b then p' else q')).
Proof. intros. apply resp_bind; auto. intros []; auto. Qed.
Lemma resp_then : forall A (m m' : V unit) (p p' : V A), resp m m' -> resp p p' -> resp (bind m (fun _ => p)) (bind m' (fun _ => p')).
Proof. intros. apply resp_bind; auto. Qed.
Lemma resp_token : forall A (f f' : string -> V A), (forall t t', S t t' -> resp (f t) (f' t')) ->
  resp (bind token f) (bind token f').
Proof. intros A f f' H l l' F. cbn. apply H; auto. now apply tok_same. Qed.
Lemma resp_syntax : forall A, resp (@syntaxError A) syntaxError.
Proof. exact resp_fail. Qed.
Hint Resolve resp_look_la resp_match resp_next_set resp_next resp_out resp_ret resp_fail resp_fuel resp_panic resp_emit resp_syntax : resp.
Ltac rs := repeat first [solve [auto with resp] | apply resp_if | apply resp_then].

Lemma resp_validateToken : forall b ws, W ws -> resp (validateToken b ws) (validateToken b ws).
Proof. intros. unfold validateToken, syntaxError. rs. Qed.
Hint Resolve resp_validateToken : resp.
Lemma resp_matchTokenNext : forall b ws, W ws -> resp (matchTokenNext b ws) (matchTokenNext b ws).
Proof. intros. unfold matchTokenNext. rs. Qed.
Hint Resolve resp_matchTokenNext : resp.

(** membership in the classes of a grammar *)
Definition class_fits (c : tclass) : Prop := forall t t', S t t' ->
  match c with
  | CW ws => W ws
  | CName d => valid_name d t = valid_name d t'
  | CPos => is_positive_integer_token t = is_positive_integer_token t'
  | CLit d => W literal_words /\ is_numeric_token t = is_numeric_token t' /\ first_byte_in (str_quotes d) t = first_byte_in (str_quotes d) t'
  | CStr d => first_byte_in (str_quotes d) t = first_byte_in (str_quotes d) t'
  end.
Context (W_marks : W ["("] /\ W [")"] /\ W [","] /\ W [";"] /\ W ["BEGIN"] /\ W ["END"]).

Lemma resp_bracketsAux : forall n b, resp (validateBracketsAux n b) (validateBracketsAux n b).
Proof.
  destruct W_marks as (W1 & W2 & _).
  induction n as [|n IH]; intros b; cbn [validateBracketsAux]; [apply resp_fuel|].
  unfold brackets_around. rs.
Qed.
Lemma resp_skip : forall n b, resp (skip_statement n b) (skip_statement n b).
Proof.
  destruct W_marks as (_ & _ & _ & W1 & W2 & W3).
  induction n as [|n IH]; intros b; cbn [skip_statement]; [apply resp_fuel|].
  apply resp_if; [rs|unfold syntaxError; rs|]. apply resp_bind; [rs|]. intros c. cbn zeta.
  destruct (if c then true else b); rs.
Qed.
Lemma first_byte_cases : forall qs t, first_byte_in qs t = Panic \/ exists b, first_byte_in qs t = Ret b.
Proof. intros qs t. unfold first_byte_in. destruct (slice01 t); eauto. Qed.
Lemma resp_eq : forall A (m m' : V A), resp m m -> m = m' -> resp m m'.
Proof. now intros A m m' H <-. Qed.
Lemma resp_one : forall b c, class_fits c -> resp (one b c) (one b c).
Proof.
  intros b c F. destruct c; cbn [one].
  - apply resp_validateToken. apply (F EOF EOF (S_refl _)).
  - apply resp_token. intros t t' E. apply resp_bind; [|intros []; cbn [negb]; rs].
    apply resp_eq; [|apply (F _ _ E)]. unfold valid_name. 
    destruct (first_byte_cases (id_quotes d) t) as [->|[[] ->]]; cbn; rs.
  - apply resp_token. intros t t' E. rewrite (F _ _ E : is_positive_integer_token _ = _). destruct (negb _); unfold syntaxError; rs.
  - pose proof (proj1 (F EOF EOF (S_refl _))) as WL. apply resp_token. intros t t' E. destruct (F _ _ E) as (_ & N & Q).
    rewrite N. destruct (is_numeric_token t'); [rs|]. apply resp_bind; [|intros []; cbn [negb]; rs].
    apply resp_eq; auto. destruct (first_byte_cases (str_quotes d) t) as [->|[x ->]]; rs.
  - apply resp_token. intros t t' E. apply resp_bind; [|intros []; cbn [negb]; rs].
    apply resp_eq; [|apply (F _ _ E)]. destruct (first_byte_cases (str_quotes d) t) as [->|[x ->]]; rs.
Qed.

(** all classes and words of the grammar fit, and the keys of its repetitions *)
Fixpoint fits {A} (g : gr A) : Prop :=
  match g with
  | One _ c => class_fits c
  | NotNext ws | IsNext ws => W ws
  | Seq g h => fits g /\ fits h
  | Map _ g => fits g
  | Cond c g h => W (la_words c) /\ fits g /\ fits h
  | While c g => W (la_words c) /\ fits g
  | WhileU c key g => W (la_words c) /\ (forall t t', S t t' -> la_mem c (Some t) = true -> key t = key t') /\ fits g
  | SepBy _ g => fits g
  | _ => True
  end.

Lemma resp_prog : forall A (g : gr A), fits g -> forall n, resp (prog g n) (prog g n).
Proof.
  destruct W_marks as (W1 & W2 & W3 & _).
  induction g; cbn [fits prog]; intros F n; unfold syntaxError.
  - apply resp_ret.
  - induction out; cbn; [apply resp_ret|]. now apply resp_emit.
  - now apply resp_one.
  - rs.
  - rs.
  - unfold validateBrackets, brackets_around. pose proof resp_bracketsAux. rs.
  - apply resp_skip.
  - destruct F. rs.
  - auto.
  - destruct F as (F0 & F1 & F2). rs.
  - destruct F as (F0 & F1). induction n as [|n IH]; cbn [while_loop]; rs.
  - destruct F as (F0 & K & F). assert (H : forall ls, resp (whileu_loop (prog g) c key n ls) (whileu_loop (prog g) c key n ls)); [|apply H].
    induction n as [|n IH]; intros ls; cbn [whileu_loop]; [apply resp_fuel|]. intros l l' L.
    rewrite !(exec_if _ _ _ _ _ _ (exec_look_la c _)), (la_same c l l' F0 L).
    destruct (la_mem c (hd_error l')) eqn:E; [|apply resp_ret; auto]. cbn [bind token exec].
    assert (key (tok (hd_error l)) = key (tok (hd_error l'))) as ->.
    { destruct L as [|t t' l l' St L]; auto. cbn. apply K; auto. cbn in *. now rewrite (S_matches _ _ _ F0 St). }
    destruct (contains ls _); [apply resp_fail; auto|]. apply resp_then; auto.
  - induction n as [|n IH]; cbn [sep_loop]; rs.
Qed.

Lemma fits_seq : forall A B (g : gr A) (h : gr B), fits g -> fits h -> fits (Seq g h).
Proof. split; auto. Qed.
Lemma fits_map : forall A B (f : A -> B) g, fits g -> fits (Map f g).
Proof. auto. Qed.
Lemma fits_cond : forall A c (g h : gr A), W (la_words c) -> fits g -> fits h -> fits (Cond c g h).
Proof. repeat split; auto. Qed.
Lemma fits_while : forall A c (g : gr A), W (la_words c) -> fits g -> fits (While c g).
Proof. repeat split; auto. Qed.
Lemma fits_whileu : forall A c key (g : gr A), W (la_words c) -> (forall t t', S t t' -> la_mem c (Some t) = true -> key t = key t') ->
  fits g -> fits (WhileU c key g).
Proof. repeat split; auto. Qed.
Lemma fits_sepby : forall A c (g : gr A), fits g -> fits (SepBy c g).
Proof. auto. Qed.
End Resp.
