(** internal/validator/validator.go: the parts shared by the three validators.

    A validator method is a program over a few elementary operations on the validator state;
    the programs are trees, so that facts about all of them can be proved once, and [run]
    executes them. *)
From Coq Require Import String Ascii List Bool.
From Verif Require Import GoStr GoNum Types Lexer.
Import ListNotations.
Open Scope string_scope.

Inductive V (A : Type) : Type :=
| Ret (a : A)                                 (* return a (or a nil error) *)
| Look (k : option string -> V A)             (* read v.token(); None: v.isOutOfRange() *)
| Next (k : string -> V A)                    (* v.next(), with the returned token *)
| Emit (t : string) (k : V A)                 (* v.set(t) *)
| Fail                                        (* return v.syntaxError() *)
| Panic                                       (* run-time panic *)
| OutOfFuel.
Arguments Ret {A}. Arguments Look {A}. Arguments Next {A}. Arguments Emit {A}.
Arguments Fail {A}. Arguments Panic {A}. Arguments OutOfFuel {A}.

Fixpoint bind {A B} (m : V A) (f : A -> V B) : V B :=
  match m with
  | Ret a => f a
  | Look k => Look (fun o => bind (k o) f)
  | Next k => Next (fun t => bind (k t) f)
  | Emit t k => Emit t (bind k f)
  | Fail => Fail
  | Panic => Panic
  | OutOfFuel => OutOfFuel
  end.

Declare Scope v_scope.
Delimit Scope v_scope with v.
(** [if err := m; err != nil { return err }; k] *)
Notation "m ;; k" := (bind m (fun _ => k)) (at level 61, right associativity) : v_scope.
Notation "x <- m ;; k" := (bind m (fun x => k)) (at level 61, m at next level, right associativity) : v_scope.
(** [if c { p } else { q }] for a test [c] that reads or moves the state. *)
Notation "'If' c 'Then' p 'Else' q" := (bind c (fun b : bool => if b then p else q))
  (at level 200, c at level 60, p at level 200, q at level 200) : v_scope.
Open Scope v_scope.

(** validator.go:35-41 [type validator struct].  Simplification: [tokens], [size] and [i] are
    represented by the remaining tokens [tokens[i:]]; the index only moves forward. *)
Record vstate := mk_vstate { v_rest : list string; v_line : nat; v_result : list string }.

(** Outcome of a validator method.  [VErr] carries the [ValidateError]. *)
Inductive vres (A : Type) :=
| VOk (a : A) (st : vstate)
| VErr (e : verror)
| VPanic
| VOutOfFuel.
Arguments VOk {A}. Arguments VErr {A}. Arguments VPanic {A}. Arguments VOutOfFuel {A}.

(** validator.go:56-61 [token]. *)
Definition tok (o : option string) : string := match o with Some t => t | None => EOF end.

(** validator.go:79-89: the loop of [next]: move on past line breaks, counting them. *)
Fixpoint skip_nl (l : list string) (line : nat) : list string * nat :=
  match l with
  | t :: l' => if t =? NL then skip_nl l' (S line) else (l, line)
  | [] => ([], line)
  end.

(** validator.go:74-91 [next]. *)
Definition vnext (st : vstate) : string * vstate :=
  match v_rest st with
  | [] => (EOF, st)
  | t :: l => let '(l, line) := skip_nl l (v_line st) in (t, mk_vstate l line (v_result st))
  end.

(** Execution of a program on a validator state. *)
Fixpoint run {A} (m : V A) (st : vstate) : vres A :=
  match m with
  | Ret a => VOk a st
  | Look k => run (k (hd_error (v_rest st))) st
  | Next k => let '(t, st) := vnext st in run (k t) st
  | Emit t k => run k (mk_vstate (v_rest st) (v_line st) (v_result st ++ [t])%list)
  | Fail => VErr (mk_verror (v_line st) (tok (hd_error (v_rest st)))) (* validator.go:94-96 *)
  | Panic => VPanic
  | OutOfFuel => VOutOfFuel
  end.

(** validator.go:44-53 [init]. *)
Definition vinit (tokens : list string) : vstate :=
  let st := mk_vstate tokens 1 [] in
  match tokens with
  | t :: _ => if t =? NL then snd (vnext st) else st
  | [] => st
  end.

(** Elementary operations as programs. *)
Definition token : V string := Look (fun o => Ret (tok o)).
Definition isOutOfRange : V bool := Look (fun o => Ret (match o with None => true | Some _ => false end)).
Definition next : V unit := Next (fun _ => Ret tt).
Definition ret {A} (a : A) : V A := Ret a.
Definition set_token (t : string) : V unit := Emit t (Ret tt).
Definition syntaxError {A} : V A := Fail.

(** [v.set(v.next())] or [v.next()], depending on [set]. *)
Definition next_set (set : bool) : V unit :=
  Next (fun t => if set then Emit t (Ret tt) else Ret tt).

(** validator.go:99-105 [matchToken]. *)
Definition matchToken (keywords : list string) : V bool :=
  Look (fun o => Ret (matches keywords (tok o))).

(** validator.go:108-118 [matchTokenNext]. *)
Definition matchTokenNext (set : bool) (keywords : list string) : V bool :=
  If matchToken keywords Then next_set set ;; ret true Else ret false.

(** A call of [matchTokenNext] whose result is not used. *)
Definition skipOpt (set : bool) (keywords : list string) : V unit :=
  matchTokenNext set keywords ;; ret tt.

(** validator.go:121-134 [validateToken]. *)
Definition validateToken (set : bool) (keywords : list string) : V unit :=
  If isOutOfRange Then syntaxError
  Else If matchToken keywords Then next_set set
  Else syntaxError.

(** validator.go:137-148 [validateBrackets], with the call of [validateBracketsAux] as
    argument (the two functions are mutually recursive). *)
Definition brackets_around (set : bool) (aux : V unit) : V unit :=
  validateToken set ["("] ;;
  aux ;;
  validateToken set [")"].

(** validator.go:151-167 [validateBracketsAux]. *)
Fixpoint validateBracketsAux (fuel : nat) (set : bool) : V unit :=
  match fuel with
  | O => OutOfFuel
  | S fuel =>
    If matchToken [")"] Then ret tt
    Else If matchToken ["("] Then
      brackets_around set (validateBracketsAux fuel set) ;;
      validateBracketsAux fuel set
    Else
      next_set set ;;
      validateBracketsAux fuel set
  end.

(** validator.go:137-148 [validateBrackets]. *)
Definition validateBrackets (fuel : nat) (set : bool) : V unit :=
  brackets_around set (validateBracketsAux fuel set).

(** [v.isStringValue(v.token())] etc.: a test on the first byte of the current token;
    [token[0:1]] panics on the empty string. *)
Definition first_byte_in (cs : list string) (t : string) : V bool :=
  match slice01 t with
  | None => Panic
  | Some c => Ret (contains cs c)
  end.

(** Result of [Validate]. *)
Inductive validate_result :=
| ValidateOk (tokens : list string) | ValidateErr (e : verror) | ValidatePanic | ValidateOutOfFuel.

(** [Validate] (validator_sqlite.go:19-25, validator_postgresql.go:19-25,
    validator_mysql.go:19-25), with the dialect's [validate] as argument. *)
Definition validate_with (p : V unit) (tokens : list string) : validate_result :=
  match run p (vinit tokens) with
  | VOk _ st => ValidateOk (v_result st)
  | VErr e => ValidateErr e
  | VPanic => ValidatePanic
  | VOutOfFuel => ValidateOutOfFuel
  end.

(** The skipping loop of [validateCreateOther] (validator_sqlite.go:151-169,
    validator_postgresql.go:159-177, validator_mysql.go:268-286; the three are identical). *)
Fixpoint skip_statement (fuel : nat) (begin : bool) : V unit :=
  match fuel with
  | O => OutOfFuel
  | S fuel =>
    If isOutOfRange Then syntaxError
    Else
      b <- matchToken ["BEGIN"] ;;
      let begin := if b then true else begin in
      if begin then
        If matchToken ["END"] Then next ;; skip_statement fuel false
        Else next ;; skip_statement fuel true
      else
        If matchToken [";"] Then ret tt
        Else next ;; skip_statement fuel false
  end.
