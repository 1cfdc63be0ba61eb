(** Properties C93 and C94: the RBJ filters in [f32] and [f64] against the ideal filters.

    Vocabulary: [RbjAccSpec], [RbjFltSpec], [FltFilterSpec], [FloatSpec], [Signal]. *)
From Coq Require Import ZArith Reals List Bool Lra Lia.
From Flocq Require Import Core.Core IEEE754.BinarySingleNaN.
From Verif Require Import Base Num NumR NumF FloatSpec FloatFacts Witness CrLibm FilterM RbjM Device Signal FltFilterSpec
  RbjFltSpec RbjAccSpec RbjAccLemmas.
Import ListNotations.
Open Scope R_scope.

(** C93: the setters of the six filters with a Q (from 1/64 to 1024) compute, at any
    frequency from 0 to half the sample rate, five finite coefficients, each within
    (115 + 85 / Q) rounding units of the coefficient of the ideal filter. *)
Theorem C93_coefficients_accurate :
  forall (T : Type) (O : num_ops T) (V : float_view T), ieee O V -> trig_close O V ->
  forall kind sr f q ch, audible V sr f -> fin V q = true -> / 64 <= val V q <= 1024 ->
    rbj_coeffs O kind (RbjQ sr f q) = Some ch ->
    exists c, rbj_coeffs R_ops kind (RbjQ (val V sr) (val V f) (val V q)) = Some c
      /\ all_finite V ch /\ each_within (q_error V (val V q)) (vals V ch) c.
Proof. exact C93_coefficients_accurate_thm. Qed.
Print Assumptions C93_coefficients_accurate.

(** C94: any filter whose five coefficients are within [d] of ideal coefficients follows
    the ideal output [z], for ever: with feedback gain at most [G], finite samples up
    to [M] and |z| up to [Y], and head room below T::MAX. *)
Theorem C94_filter_tracks_ideal :
  forall (T : Type) (O : num_ops T) (V : float_view T), ieee O V ->
  forall (S K : Type) (D : device S K T) (k : K) (ch : T * T * T * T * T),
    has_coeffs O D k ch -> all_finite V ch ->
  forall (b0 b1 b2 a1 a2 d G M Y A B E : R) (x : nat -> T) (z : signal),
    each_within d (vals V ch) (b0, b1, b2, a1, a2) ->
    peak_gain a1 a2 G ->
    (forall n, fin V (x n) = true /\ Rabs (val V (x n)) <= M) ->
    obeys (b0, b1, b2, a1, a2) (fun n => val V (x n)) z -> (forall n, Rabs (z n) <= Y) ->
    A = Rabs a1 + Rabs a2 + 2 * d -> B = Rabs b0 + Rabs b1 + Rabs b2 + 3 * d ->
    E = 2 * G * (d * (3 * M + 2 * Y) + bpow radix2 (3 - fprec V) * (B * M + A * Y + fmin V)) ->
    G * (2 * d + bpow radix2 (3 - fprec V) * A) <= / 2 ->
    4 * (B * M + A * (Y + E) + fmin V) <= fmax V ->
    forall n, fin V (stream D k x n) = true /\ Rabs (val V (stream D k x n) - z n) <= E.
Proof. exact C94_filter_tracks_ideal_thm. Qed.
Print Assumptions C94_filter_tracks_ideal.

(** C94: the six filters with a Q follow their ideal counterpart.  [G] bounds the gain
    of the ideal feedback (next theorem); samples are up to [M], the ideal output is
    up to [Y]. *)
Theorem C94_rbj_tracks_ideal :
  forall (T : Type) (O : num_ops T) (V : float_view T), ieee O V -> trig_close O V ->
  forall kind sr f q, audible V sr f -> fin V q = true -> / 64 <= val V q <= 1024 ->
  forall b0 b1 b2 a1 a2 G M Y (x : nat -> T),
    let k := RbjQ (val V sr) (val V f) (val V q) in
    let y := out (dev_rbj R_ops kind) (configured (dev_rbj R_ops kind) k) (fun n => val V (x n)) in
    rbj_coeffs R_ops kind k = Some (b0, b1, b2, a1, a2) -> peak_gain a1 a2 G ->
    5 * q_error V (val V q) * G <= 1 ->
    (forall n, fin V (x n) = true /\ Rabs (val V (x n)) <= M) -> (forall n, Rabs (y n) <= Y) ->
    64 * (M + Y) <= fmax V ->
    forall n, fin V (stream (dev_rbj O kind) (RbjQ sr f q) x n) = true
      /\ Rabs (val V (stream (dev_rbj O kind) (RbjQ sr f q) x n) - y n)
         <= 7 * q_error V (val V q) * G * (M + Y + fmin V).
Proof. exact C94_rbj_tracks_ideal_thm. Qed.
Print Assumptions C94_rbj_tracks_ideal.

(** C94: with w = 2 pi f / sample rate, the feedback gain of the ideal filters with a Q
    is at most (1 + 2 Q / sin w)^2 for Q >= 1/2 (resonant), and at most
    (1 + sin w / (2 Q)) / (sin w)^2 for Q <= 1/2. *)
Theorem C94_rbj_gain :
  forall kind sr f q b0 b1 b2 a1 a2, 0 < q -> 0 < sin (2 * PI * f / sr) ->
  rbj_coeffs R_ops kind (RbjQ sr f q) = Some (b0, b1, b2, a1, a2) ->
  (/ 2 <= q -> peak_gain a1 a2 ((1 + 2 * q / sin (2 * PI * f / sr)) ^ 2))
  /\ (q <= / 2 -> peak_gain a1 a2 ((1 + sin (2 * PI * f / sr) / (2 * q)) / (sin (2 * PI * f / sr)) ^ 2)).
Proof. exact C94_rbj_gain_thm. Qed.
Print Assumptions C94_rbj_gain.

(** C94: the feedback gain of any stable pair of coefficients: complex poles, and real
    poles. *)
Theorem C94_stable_gain :
  forall a1 a2, stable a1 a2 ->
  (a1 * a1 <= 4 * a2 -> peak_gain a1 a2 (1 / ((1 - sqrt a2) * (1 - Rabs a1 / 2))))
  /\ (4 * a2 <= a1 * a1 -> peak_gain a1 a2 (1 / (1 - Rabs a1 + a2))).
Proof. exact C94_stable_gain_thm. Qed.
Print Assumptions C94_stable_gain.

(** C93 and C94 are met by a library with correctly rounded functions in [f32]: a
    [LowPass] at 44100 Hz with a cutoff of 1 kHz and Q = 0.6875, on the input 1, 1, 1, ... *)
Example C94_hyps : let O := f32_ops (cr_libm 24 128) false in let V := ieee_view 24 128 in
  let sr := fl32 44100 0 in let f := fl32 1000 0 in let q := fl32 11 (-4) in let x := fun _ : nat => fl32 1 0 in
  let k := RbjQ (val V sr) (val V f) (val V q) in
  let y := out (dev_rbj R_ops LowPass) (configured (dev_rbj R_ops LowPass) k) (fun n => val V (x n)) in
  ieee O V /\ trig_close O V /\ audible V sr f /\ fin V q = true /\ / 64 <= val V q <= 1024
  /\ (exists b0 b1 b2 a1 a2, rbj_coeffs R_ops LowPass k = Some (b0, b1, b2, a1, a2) /\ peak_gain a1 a2 300)
  /\ 5 * q_error V (val V q) * 300 <= 1
  /\ (forall n, fin V (x n) = true /\ Rabs (val V (x n)) <= 1) /\ (forall n, Rabs (y n) <= 1200)
  /\ 64 * (1 + 1200) <= fmax V.
Proof. exact C94_hyps_aux. Qed.
