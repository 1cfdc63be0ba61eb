(** Vocabulary of C119: fixed-point signals. *)
From Coq Require Import ZArith Reals List.
From Flocq Require Import Core.Core.
From Verif Require Import Num NumF FloatSpec Signal.
Open Scope R_scope.

(** [r] is a whole multiple of 2^q (16-bit audio scaled to [-1, 1): q = -15). *)
Definition fixed (q : Z) (r : R) : Prop := exists k : Z, r = IZR k * bpow radix2 q.

(** Forward coefficients that are multiples of 2^p, feedback coefficients that are integers. *)
Definition fixed_coeffs (p : Z) (c : R * R * R * R * R) : Prop :=
  let '(b0, b1, b2, a1, a2) := c in
  fixed p b0 /\ fixed p b1 /\ fixed p b2 /\ fixed 0 a1 /\ fixed 0 a2.

(** The sum of the magnitudes of the five terms of the difference equation at sample [n]. *)
Definition swing (c : R * R * R * R * R) (x y : signal) (n : nat) : R :=
  let '(b0, b1, b2, a1, a2) := c in
  Rabs (b0 * x n) + Rabs (b1 * back 1 x n) + Rabs (b2 * back 2 x n)
  + Rabs (a1 * back 1 y n) + Rabs (a2 * back 2 y n).
