(** Vocabulary of C93 and C94: the coefficients of the RBJ filters in floating point
    against the ideal ones. *)
From Coq Require Import ZArith Reals.
From Flocq Require Import Core.Core.
From Verif Require Import Num FloatSpec.
Open Scope R_scope.

(** Each of the five coefficients is within [e] of its counterpart. *)
Definition each_within (e : R) (c c' : R * R * R * R * R) : Prop :=
  let '(b0, b1, b2, a1, a2) := c in
  let '(b0', b1', b2', a1', a2') := c' in
  Rabs (b0 - b0') <= e /\ Rabs (b1 - b1') <= e /\ Rabs (b2 - b2') <= e
  /\ Rabs (a1 - a1') <= e /\ Rabs (a2 - a2') <= e.

(** A sample rate of 1 Hz to 2^50 Hz, and a frequency up to half of it. *)
Definition audible {T} (V : float_view T) (sr f : T) : Prop :=
  (fin V sr = true /\ 1 <= val V sr <= bpow radix2 50)
  /\ (fin V f = true /\ 0 <= val V f <= val V sr / 2).

(** The error of the coefficients of a filter with a Q. *)
Definition q_error {T} (V : float_view T) (q : R) : R := (115 + 85 / q) * bpow radix2 (- fprec V).
