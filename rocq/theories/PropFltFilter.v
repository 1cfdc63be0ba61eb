(** Property C81: the floating-point filters against the exact difference
    equation, over unbounded runs.

    Vocabulary: [Signal], [FloatSpec] and [FltFilterSpec]. *)
From Coq Require Import ZArith Reals List Lra.
From Flocq Require Import Core.Core IEEE754.BinarySingleNaN.
From Verif Require Import Base Num NumR NumF Witness FilterM RbjM Device Signal FloatSpec FltFilterSpec
  FltFilterLemmas.
Import ListNotations.
Open Scope R_scope.

(** C81: with finite coefficients [c], feedback gain at most [G] and finite
    samples of magnitude at most [M], leaving head room below T::MAX, every
    output is finite and stays, for ever, within a fixed distance of the exact
    solution [z] for the same coefficients and samples. *)
Theorem C81_float_tracks_exact :
  forall (T : Type) (O : num_ops T) (V : float_view T), ieee O V ->
  forall (S K : Type) (D : device S K T) (k : K) (c : T * T * T * T * T),
    has_coeffs O D k c -> all_finite V c ->
  forall (b0 b1 b2 a1 a2 G M A L : R) (x : nat -> T) (z : signal),
    vals V c = (b0, b1, b2, a1, a2) ->
    A = Rabs a1 + Rabs a2 ->
    L = (Rabs b0 + Rabs b1 + Rabs b2) * M + fmin V ->
    peak_gain a1 a2 G ->
    (forall n, fin V (x n) = true /\ Rabs (val V (x n)) <= M) ->
    A * G <= bpow radix2 (fprec V - 5) ->
    4 * (1 + 4 * A * G) * L <= fmax V ->
    obeys (b0, b1, b2, a1, a2) (fun n => val V (x n)) z ->
    forall n, fin V (stream D k x n) = true
      /\ Rabs (val V (stream D k x n) - z n) <= bpow radix2 (3 - fprec V) * G * (1 + 4 * A * G) * L.
Proof. exact C81_float_tracks_exact_thm. Qed.
Print Assumptions C81_float_tracks_exact.

(** C81: every stable pair of feedback coefficients has such a [G]. *)
Theorem C81_stable_has_gain :
  forall a1 a2 : R, stable a1 a2 -> exists G, peak_gain a1 a2 G.
Proof. exact C81_stable_has_gain_thm. Qed.
Print Assumptions C81_stable_has_gain.

(** C81: for coefficients with |a1| + |a2| < 1 it is explicit; without feedback
    it is 1. *)
Theorem C81_explicit_gain :
  forall a1 a2 : R, Rabs a1 + Rabs a2 < 1 -> peak_gain a1 a2 (1 / (1 - (Rabs a1 + Rabs a2))).
Proof. exact C81_explicit_gain_thm. Qed.
Print Assumptions C81_explicit_gain.

(** The hypotheses hold, for example, for the f32 one-pole y = x + 0.5 y[n-1]
    on the input 1, 1, 1, ..., with G = 2 and M = 1. *)
Example C81_hyps :
  let c := (fl32 1 0, n_zero O32, n_zero O32, fl32 (-1) (-1), n_zero O32) in
  let V := ieee_view 24 128 in
  has_coeffs O32 (dev_one_pole O32) (fl32 1 0, fl32 (-1) (-1)) c /\ all_finite V c
  /\ vals V c = (1, 0, 0, - (1 / 2), 0)
  /\ peak_gain (- (1 / 2)) 0 2
  /\ (fin V (fl32 1 0) = true /\ Rabs (val V (fl32 1 0)) <= 1)
  /\ 1 / 2 * 2 <= bpow radix2 (fprec V - 5)
  /\ 4 * (1 + 4 * (1 / 2) * 2) * (1 * 1 + fmin V) <= fmax V.
Proof. exact C81_hyps_aux. Qed.
