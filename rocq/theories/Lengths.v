(** The numbers of the reported types. *)
From Coq Require Import String Ascii NArith ZArith List Bool Arith Lia.
From Verif Require Import GoStr GoNum Types Ast Sources Spec Pipe Numbers Values Seen ListedFacts.
From Verif Require SourcesFacts ValuesFacts.
Import ListNotations.
Open Scope nat_scope.
Open Scope string_scope.
Open Scope list_scope.

(** What a Go int of 64 bits can hold. *)
Definition int64 (n : Z) : Prop := (- 2 ^ 63 <= n < 2 ^ 63)%Z.
(** No length, or a length and perhaps a second number. *)
Definition sensible (ty : data_type) : Prop :=
  dt_n ty = 0%Z /\ dt_m ty = 0%Z \/ (0 < dt_n ty < 2 ^ 63)%Z /\ (0 <= dt_m ty < 2 ^ 63)%Z.

Lemma atoi_int64 : forall t, int64 (atoi_value t).
Proof.
  intros t. unfold atoi_value, atoi, int64. change (2 ^ 63)%Z with 9223372036854775808%Z.
  destruct (match t with String "-" s => _ | String "+" s => _ | _ => _ end) as [neg u].
  destruct u as [n| |]; [|lia|destruct neg; lia]. destruct neg.
  - destruct (N.ltb_spec 9223372036854775808 n); lia.
  - destruct (N.leb_spec 9223372036854775808 n); lia.
Qed.
Theorem lengths_int64 : forall ddl d ts c, accepted ddl d ts -> In c (result_columns ts) -> int64 (dt_n (col_type c)) /\ int64 (dt_m (col_type c)).
Proof.
  intros ddl d ts c A I. apply in_flat_map in I as (t & I & J). destruct (SourcesFacts.sources d ddl ts A) as (l & out & _ & _ & F & _).
  rewrite Forall_forall in F. destruct (F _ I) as (_ & _ & C & _). rewrite Forall_forall in C. destruct (C _ J) as (_ & (w & _ & _ & N & M) & _).
  split; [destruct N as [->|(x & _ & ->)]|destruct M as [->|(x & _ & ->)]]; auto using atoi_int64; unfold int64; lia.
Qed.
Theorem lengths_sensible : forall ddl d stmts ts c, says d ddl stmts -> readable stmts = true -> accepted ddl d ts -> In c (result_columns ts) -> sensible (col_type c).
Proof.
  intros ddl d stmts ts c S R A I. destruct (ValuesFacts.digits_reported d ddl stmts S R) as (ts' & A' & F).
  assert (ts' = ts) by (eapply accepted_det; eauto). subst ts'. clear A A' S R.
  induction F as [|a r l l' H F IH]; [contradiction|]. destruct I as [->|I]; [|auto]. unfold sensible. unfold digits_as_written in H.
  destruct (at_digits (ac_type a)) as [[s [s'|]]|].
  - destruct H as [(? & ? & _ & _ & _ & N) (? & ? & _ & _ & _ & M)]. lia.
  - destruct H as [(? & ? & _ & _ & _ & N) ->]. lia.
  - destruct H as [-> ->]. lia.
Qed.
