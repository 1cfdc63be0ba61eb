(** Property C113: rounding noise follows the present level of the signal, and
    the tail of a floating-point filter dies away to a few of the tiniest
    numbers.

    Vocabulary: [Signal], [FloatSpec], [TrackSpec.half_tiny] (half the smallest
    positive number) and [FltFilterSpec]. *)
From Coq Require Import ZArith Reals List Lra.
From Flocq Require Import Core.Core IEEE754.BinarySingleNaN.
From Verif Require Import Base Num NumR NumF Witness FilterM RbjM Device Signal FloatSpec TrackSpec FltFilterSpec
  FadeLemmas.
Import ListNotations.
Open Scope R_scope.

(** C113: the filter is stable, its input was finite and bounded with head room
    (as in C81) and from sample [N0] on it is silent. From some sample [N] on
    every output is within 9 [G] halves of the smallest positive number of
    zero, whatever happened before. *)
Theorem C113_tail_fades :
  forall (T : Type) (O : num_ops T) (V : float_view T), ieee O V ->
  forall (S K : Type) (D : device S K T) (k : K) (c : T * T * T * T * T),
    has_coeffs O D k c -> all_finite V c ->
  forall (b0 b1 b2 a1 a2 G M A L : R) (x : nat -> T) (N0 : nat),
    vals V c = (b0, b1, b2, a1, a2) ->
    A = Rabs a1 + Rabs a2 ->
    L = (Rabs b0 + Rabs b1 + Rabs b2) * M + fmin V ->
    stable a1 a2 -> peak_gain a1 a2 G ->
    (forall n, fin V (x n) = true /\ Rabs (val V (x n)) <= M) ->
    A * G <= bpow radix2 (fprec V - 5) ->
    4 * (1 + 4 * A * G) * L <= fmax V ->
    (forall n, (N0 <= n)%nat -> val V (x n) = 0) ->
    exists N : nat, forall n, (N <= n)%nat ->
      fin V (stream D k x n) = true /\ Rabs (val V (stream D k x n)) <= 9 * G * half_tiny V.
Proof. exact C113_tail_fades_thm. Qed.
Print Assumptions C113_tail_fades.

(** C113: when the input has magnitude at most [m] from sample [N0] on, the
    distance to the exact solution [z] is from some sample [N] on bounded in
    terms of [m] alone; the loud past is forgotten. *)
Theorem C113_noise_follows_level :
  forall (T : Type) (O : num_ops T) (V : float_view T), ieee O V ->
  forall (S K : Type) (D : device S K T) (k : K) (c : T * T * T * T * T),
    has_coeffs O D k c -> all_finite V c ->
  forall (b0 b1 b2 a1 a2 G M A L m : R) (x : nat -> T) (N0 : nat) (z : signal),
    vals V c = (b0, b1, b2, a1, a2) ->
    A = Rabs a1 + Rabs a2 ->
    L = (Rabs b0 + Rabs b1 + Rabs b2) * M + fmin V ->
    stable a1 a2 -> peak_gain a1 a2 G ->
    (forall n, fin V (x n) = true /\ Rabs (val V (x n)) <= M) ->
    A * G <= bpow radix2 (fprec V - 5) ->
    4 * (1 + 4 * A * G) * L <= fmax V ->
    (forall n, (N0 <= n)%nat -> Rabs (val V (x n)) <= m) ->
    obeys (b0, b1, b2, a1, a2) (fun n => val V (x n)) z ->
    exists N : nat, forall n, (N <= n)%nat ->
      fin V (stream D k x n) = true
      /\ Rabs (val V (stream D k x n) - z n)
         <= bpow radix2 (3 - fprec V) * G * (1 + 2 * A * G) * ((Rabs b0 + Rabs b1 + Rabs b2) * m + fmin V).
Proof. exact C113_noise_follows_level_thm. Qed.
Print Assumptions C113_noise_follows_level.

(** The hypotheses hold, for example, for the f32 one-pole y = x + 0.5 y[n-1]
    on five ones followed by silence, with G = 2 and M = 1. *)
Example C113_hyps :
  let c := (fl32 1 0, n_zero O32, n_zero O32, fl32 (-1) (-1), n_zero O32) in
  let V := ieee_view 24 128 in
  let x n := if (n <? 5)%nat then fl32 1 0 else n_zero O32 in
  has_coeffs O32 (dev_one_pole O32) (fl32 1 0, fl32 (-1) (-1)) c /\ all_finite V c
  /\ vals V c = (1, 0, 0, - (1 / 2), 0)
  /\ stable (- (1 / 2)) 0 /\ peak_gain (- (1 / 2)) 0 2
  /\ (forall n, fin V (x n) = true /\ Rabs (val V (x n)) <= 1)
  /\ 1 / 2 * 2 <= bpow radix2 (fprec V - 5)
  /\ 4 * (1 + 4 * (1 / 2) * 2) * (1 * 1 + fmin V) <= fmax V
  /\ (forall n, (5 <= n)%nat -> val V (x n) = 0).
Proof. exact C113_hyps_aux. Qed.
