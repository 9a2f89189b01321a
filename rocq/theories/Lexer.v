(** internal/lexer/lexer.go *)
From Coq Require Import String Ascii NArith List Bool.
From Verif Require Import GoStr Types.
Import ListNotations.
Open Scope string_scope.
Open Scope N_scope.

(** lexer.go:47-54 [type lexer struct].  Simplification: [ddlr], [size] and [i] are
    represented by the remaining runes [ddlr[i:]]; the index only moves forward except for
    [l.i -= 1] in lexAsterisk, which is followed at once by an error return. *)
Record lstate := mk_lstate { l_rest : list rune; l_line : nat; l_result : list string }.

(** Outcome of a lexer method: normal return, error return, or out of fuel. *)
Inductive lres (A : Type) :=
| LOk (a : A) (st : lstate)
| LErr (e : verror)
| LOutOfFuel.
Arguments LOk {A}. Arguments LErr {A}. Arguments LOutOfFuel {A}.

(** The characters the lexer knows. *)
Definition c_nl : rune := 10.      (* "\n" *)
Definition c_tab : rune := 9.      (* "\t" *)
Definition c_space : rune := 32.   (* " " *)
Definition c_dquote : rune := 34.  (* double quote *)
Definition c_sharp : rune := 35.   (* "#" *)
Definition c_squote : rune := 39.  (* single quote *)
Definition c_lpar : rune := 40.    (* "(" *)
Definition c_rpar : rune := 41.    (* ")" *)
Definition c_star : rune := 42.    (* "*" *)
Definition c_comma : rune := 44.   (* "," *)
Definition c_minus : rune := 45.   (* "-" *)
Definition c_dot : rune := 46.     (* "." *)
Definition c_slash : rune := 47.   (* "/" *)
Definition c_semi : rune := 59.    (* ";" *)
Definition c_bquote : rune := 96.  (* back quote *)
Definition c_wide : rune := 12288. (* full-width space, lexer.go:163 *)

Definition NL : string := String "010" "".

(** lexer.go:80-87 [next] for its effect on the state (at the end of the text it does nothing). *)
Definition lnext (st : lstate) : lstate :=
  mk_lstate (tl (l_rest st)) (l_line st) (l_result st).

(** lexer.go:90-95 [char]: [None] stands for the string "<EOF>", which differs from every
    one-character string. *)
Definition lchar (st : lstate) : option rune := hd_error (l_rest st).

(** lexer.go:98-102 [appendToken]. *)
Definition append_token (token : string) (st : lstate) : lstate :=
  if (token =? "")%string then st
  else mk_lstate (l_rest st) (l_line st) (l_result st ++ [token])%list.

Definition add_line (st : lstate) : lstate :=
  mk_lstate (l_rest st) (S (l_line st)) (l_result st).

(** lexer.go:110-112 [lexError]. *)
Definition lex_error (st : lstate) : verror :=
  mk_verror (l_line st) (match lchar st with None => EOF | Some c => utf8_rune c end).

Definition char_is (st : lstate) (c : rune) : bool :=
  match lchar st with Some c' => c' =? c | None => false end.

(** lexer.go:326-338 [skipComment]: the loop, entered after the first [l.next()]. *)
Fixpoint skip_comment_loop (fuel : nat) (st : lstate) : lres unit :=
  match fuel with
  | O => LOutOfFuel
  | S fuel =>
    match lchar st with
    | None => LOk tt (lnext st)
    | Some c =>
      if c =? c_nl then LOk tt (lnext (append_token NL (add_line st)))
      else skip_comment_loop fuel (lnext st)
    end
  end.
Definition skip_comment (fuel : nat) (st : lstate) : lres unit :=
  skip_comment_loop fuel (lnext st).

(** lexer.go:341-364 [skipMultiLineComment]: the loop, entered after the first [l.next()];
    the self call of line 358 is a jump to the start of the function. *)
Fixpoint skip_ml_loop (fuel : nat) (st : lstate) : lres unit :=
  match fuel with
  | O => LOutOfFuel
  | S fuel =>
    match lchar st with
    | None => LErr (lex_error st)
    | Some c =>
      if c =? c_nl then skip_ml_loop fuel (lnext (append_token NL (add_line st)))
      else if c =? c_star then
        let st := lnext st in
        if char_is st c_slash then LOk tt (lnext st)
        else skip_ml_loop fuel (lnext st)
      else if c =? c_slash then
        let st := lnext st in
        if char_is st c_star
        then skip_ml_loop fuel (lnext st) (* return l.skipMultiLineComment() *)
        else skip_ml_loop fuel (lnext st)
      else skip_ml_loop fuel (lnext st)
    end
  end.
Definition skip_multi_line_comment (fuel : nat) (st : lstate) : lres unit :=
  skip_ml_loop fuel (lnext st).

Definition is_quote (c : rune) : bool := (c =? c_dquote) || (c =? c_squote) || (c =? c_bquote).

(** lexer.go:367-397, 400-430, 433-463 [lexStringDoubleQuote], [lexStringSingleQuote],
    [lexStringBackQuote].  The three functions are the same up to the roles of the three
    quote characters, so they are modelled by one function with the quote [q] as parameter.
    [lex_string_loop q str st] is the loop, entered after [l.next()] and [str := q]. *)
Fixpoint lex_string_loop (fuel : nat) (q : rune) (str : string) (st : lstate) : lres string :=
  match fuel with
  | O => LOutOfFuel
  | S fuel =>
    match lchar st with
    | None => LErr (lex_error st)
    | Some c =>
      if c =? c_nl then lex_string_loop fuel q str (lnext (append_token NL (add_line st)))
      else if c =? q then LOk (str ++ utf8_rune c) (lnext st)
      else if is_quote c then
        match lex_string_loop fuel c (utf8_rune c) (lnext st) with
        | LOk s st => lex_string_loop fuel q (str ++ s) (lnext st)
        | LErr e => LErr e
        | LOutOfFuel => LOutOfFuel
        end
      else lex_string_loop fuel q (str ++ utf8_rune c) (lnext st)
    end
  end.
Definition lex_string (fuel : nat) (q : rune) (st : lstate) : lres string :=
  lex_string_loop fuel q (utf8_rune q) (lnext st).

(** lexer.go:176-190 [lexHyphen]; the result is the new value of [*token]. *)
Definition lex_hyphen (fuel : nat) (token : string) (st : lstate) : lres string :=
  let st := lnext st in
  if char_is st c_minus then
    match skip_comment fuel (append_token token st) with
    | LOk _ st => LOk "" st
    | LErr e => LErr e
    | LOutOfFuel => LOutOfFuel
    end
  else LOk (token ++ utf8_rune c_minus) st.

(** lexer.go:193-208 [lexSlash]. *)
Definition lex_slash (fuel : nat) (token : string) (st : lstate) : lres string :=
  let st := lnext st in
  if char_is st c_star then
    match skip_multi_line_comment fuel (append_token token st) with
    | LOk _ st => LOk "" st
    | LErr e => LErr e
    | LOutOfFuel => LOutOfFuel
    end
  else LOk (token ++ utf8_rune c_slash) st.

(** lexer.go:211-223 [lexAsterisk]; on error the index is moved back to the asterisk, so
    the error is that of the state before [l.next()]. *)
Definition lex_asterisk (token : string) (st : lstate) : lres string :=
  if char_is (lnext st) c_slash then LErr (lex_error st)
  else LOk (token ++ utf8_rune c_star) (lnext st).

(** lexer.go:226-253 [lexDoubleQuote], [lexSingleQuote], and 260-270 of [lexBackQuote]. *)
Definition lex_quote (fuel : nat) (q : rune) (token : string) (st : lstate) : lres string :=
  match lex_string fuel q (append_token token st) with
  | LOk str st => LOk "" (append_token str st)
  | LErr e => LErr e
  | LOutOfFuel => LOutOfFuel
  end.

(** lexer.go:256-271 [lexBackQuote]. *)
Definition lex_back_quote (fuel : nat) (d : rdbms) (token : string) (st : lstate) : lres string :=
  match d with
  | PostgreSQL => LErr (lex_error st)
  | _ => lex_quote fuel c_bquote token st
  end.

(** lexer.go:274-287 [lexSharp]. *)
Definition lex_sharp (fuel : nat) (d : rdbms) (token : string) (st : lstate) : lres string :=
  match d with
  | MySQL =>
    match skip_comment fuel (append_token token st) with
    | LOk _ st => LOk "" st
    | LErr e => LErr e
    | LOutOfFuel => LOutOfFuel
    end
  | _ => LOk (token ++ utf8_rune c_sharp) (lnext st)
  end.

(** lexer.go:290-300 [lexEOL]. *)
Definition lex_eol (token : string) (st : lstate) : lres string :=
  LOk "" (lnext (append_token NL (append_token token (add_line st)))).

(** lexer.go:303-311 [lexSpace]. *)
Definition lex_space (token : string) (st : lstate) : lres string :=
  LOk "" (lnext (append_token token st)).

(** lexer.go:314-323 [lexSymbol]. *)
Definition lex_symbol (c : rune) (token : string) (st : lstate) : lres string :=
  LOk "" (lnext (append_token (utf8_rune c) (append_token token st))).

Definition is_symbol (c : rune) : bool :=
  (c =? c_lpar) || (c =? c_rpar) || (c =? c_comma) || (c =? c_dot) || (c =? c_semi).

(** lexer.go:118-132, first half of the loop body of [lex]: comments, '-', '/', '*'. *)
Definition lex_phase1 (fuel : nat) (token : string) (st : lstate) : lres string :=
  match lchar st with
  | None => LOk token st
  | Some c =>
    if c =? c_minus then lex_hyphen fuel token st
    else if c =? c_slash then lex_slash fuel token st
    else if c =? c_star then lex_asterisk token st
    else LOk token st
  end.

(** lexer.go:138-169, second half of the loop body of [lex]. *)
Definition lex_phase2 (fuel : nat) (d : rdbms) (token : string) (st : lstate) : lres string :=
  match lchar st with
  | None => LOk token st
  | Some c =>
    if c =? c_dquote then lex_quote fuel c_dquote token st
    else if c =? c_squote then lex_quote fuel c_squote token st
    else if c =? c_bquote then lex_back_quote fuel d token st
    else if c =? c_sharp then lex_sharp fuel d token st
    else if (c =? c_space) || (c =? c_tab) then lex_space token st
    else if c =? c_nl then lex_eol token st
    else if is_symbol c then lex_symbol c token st
    else if c =? c_wide then LErr (lex_error st)
    else LOk (token ++ utf8_rune c) (lnext st)
  end.

(** lexer.go:115-173 [lex]: the loop; the [break] of line 135 and the loop exit both lead to
    line 171. *)
Fixpoint lex_loop (fuel : nat) (d : rdbms) (token : string) (st : lstate) : lres unit :=
  match fuel with
  | O => LOutOfFuel
  | S fuel =>
    match l_rest st with
    | [] => LOk tt (append_token token st)
    | _ :: _ =>
      match lex_phase1 fuel token st with
      | LOk token st =>
        match l_rest st with
        | [] => LOk tt (append_token token st)
        | _ :: _ =>
          match lex_phase2 fuel d token st with
          | LOk token st => lex_loop fuel d token st
          | LErr e => LErr e
          | LOutOfFuel => LOutOfFuel
          end
        end
      | LErr e => LErr e
      | LOutOfFuel => LOutOfFuel
      end
    end
  end.

(** lexer.go:71-77 [init]. *)
Definition lex_init (rs : list rune) : lstate := mk_lstate rs 1 [].

(** Result of [Lex]: the token list or the error. *)
Inductive lex_result := LexOk (tokens : list string) | LexErr (e : verror) | LexOutOfFuel.

(** lexer.go:62-68 [Lex], on the runes of the text. *)
Definition lex_runes (fuel : nat) (d : rdbms) (rs : list rune) : lex_result :=
  match lex_loop fuel d "" (lex_init rs) with
  | LOk _ st => LexOk (l_result st)
  | LErr e => LexErr e
  | LOutOfFuel => LexOutOfFuel
  end.

(** lexer.go:62-77 [Lex]. *)
Definition Lex (fuel : nat) (d : rdbms) (ddl : string) : lex_result :=
  lex_runes fuel d (runes_of ddl).
