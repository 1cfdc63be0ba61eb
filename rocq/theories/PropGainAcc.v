(** Property C97: in [f32] and [f64], [Peak], [LowShelf] and [HighShelf] are as good as
    the ideal filters.

    Vocabulary: [GainAccSpec]; [trig_close] is in [RbjFltSpec], [pow10_close] in [DbSpec],
    [audible], [each_within] in [RbjAccSpec]; [peak_gain], [stream], [vals], [all_finite] in
    [FltFilterSpec]; [none_finite], [only_used] in [PoisonSpec]. *)
From Coq Require Import ZArith Reals Lra List.
From Flocq Require Import Core.Core IEEE754.BinarySingleNaN.
From Verif Require Import Base Num NumR NumF FloatSpec Witness CrLibm Device Signal FilterM RbjM FltFilterSpec RbjFltSpec RbjAccSpec
  DbSpec PoisonSpec GainAccSpec GainAccLemmas.
Import ListNotations.
Open Scope R_scope.

(** C97: the setters of the three filters with a gain compute, at any frequency from 0 to
    half the sample rate, five finite coefficients, each within [gain_error] of the
    coefficient of the ideal filter. *)
Theorem C97_coefficients_accurate :
  forall (T : Type) (O : num_ops T) (V : float_view T), ieee O V -> trig_close O V -> pow10_close O V ->
  forall kind sr f g x ch, audible V sr f -> gain_setting V kind g x ->
    rbj_coeffs O kind (RbjGain sr f g x) = Some ch ->
    exists c, rbj_coeffs R_ops kind (RbjGain (val V sr) (val V f) (val V g) (val V x)) = Some c
      /\ all_finite V ch /\ each_within (gain_error V kind (val V x)) (vals V ch) c.
Proof. exact C97_coefficients_accurate_thm. Qed.
Print Assumptions C97_coefficients_accurate.

(** C97: and they follow the ideal filter for ever.  [G] bounds the gain of the ideal
    feedback (next theorem); samples are up to [M], the ideal output is up to [Y]. *)
Theorem C97_tracks_ideal :
  forall (T : Type) (O : num_ops T) (V : float_view T), ieee O V -> trig_close O V -> pow10_close O V ->
  forall kind sr f g q, audible V sr f -> gain_setting V kind g q ->
  forall b0 b1 b2 a1 a2 G M Y (x : nat -> T),
    let k := RbjGain (val V sr) (val V f) (val V g) (val V q) in
    let y := out (dev_rbj R_ops kind) (configured (dev_rbj R_ops kind) k) (fun n => val V (x n)) in
    rbj_coeffs R_ops kind k = Some (b0, b1, b2, a1, a2) -> peak_gain a1 a2 G ->
    5 * gain_error V kind (val V q) * G <= 1 ->
    (forall n, fin V (x n) = true /\ Rabs (val V (x n)) <= M) -> (forall n, Rabs (y n) <= Y) ->
    256 * (M + Y) <= fmax V ->
    forall n, fin V (stream (dev_rbj O kind) (RbjGain sr f g q) x n) = true
      /\ Rabs (val V (stream (dev_rbj O kind) (RbjGain sr f g q) x n) - y n)
         <= 11 * gain_error V kind (val V q) * G * (M + Y + fmin V).
Proof. exact C97_tracks_ideal_thm. Qed.
Print Assumptions C97_tracks_ideal.

(** C97: with w = 2 pi f / sample rate, the feedback gain of the ideal [Peak] is at most
    (1 + 2 Q A / sin w)^2 where Q A >= 1/2, and (1 + sin w / (2 Q A)) / (sin w)^2 where
    Q A <= 1/2, for A = 10^(gain/40); that of the ideal shelves, for gains of up to 12 dB
    and slopes from 1/4 to 1, is at most 25 / (sin w)^2. *)
Theorem C97_feedback_gain :
  forall kind sr f g x b0 b1 b2 a1 a2, 0 < x -> 0 < sin (2 * PI * f / sr) ->
  rbj_coeffs R_ops kind (RbjGain sr f g x) = Some (b0, b1, b2, a1, a2) ->
  (kind = Peak -> / 2 <= x * Rpower 10 (g / 40) ->
     peak_gain a1 a2 ((1 + 2 * (x * Rpower 10 (g / 40)) / sin (2 * PI * f / sr)) ^ 2))
  /\ (kind = Peak -> x * Rpower 10 (g / 40) <= / 2 ->
     peak_gain a1 a2 ((1 + sin (2 * PI * f / sr) / (2 * (x * Rpower 10 (g / 40)))) / (sin (2 * PI * f / sr)) ^ 2))
  /\ (kind = LowShelf \/ kind = HighShelf -> Rabs g <= 12 -> / 4 <= x <= 1 ->
     peak_gain a1 a2 (25 / (sin (2 * PI * f / sr)) ^ 2)).
Proof. exact C97_feedback_gain_thm. Qed.
Print Assumptions C97_feedback_gain.

(** C97: a shelf that is too steep for its gain is accepted, but from the first sample on
    the filter never returns a finite sample. *)
Theorem C97_steep_shelf_never_finite :
  forall (T : Type) (O : num_ops T) (V : float_view T), ieee O V -> pow10_close O V ->
  forall kind sr f g x, kind = LowShelf \/ kind = HighShelf -> too_steep V g x ->
  forall before x1 calls, only_used calls ->
    none_finite V (returns (dev_rbj O kind) (before ++ [CSet (RbjGain sr f g x)]) (CProcess x1 :: calls)).
Proof. exact C97_steep_shelf_never_finite_thm. Qed.
Print Assumptions C97_steep_shelf_never_finite.

(** The hypotheses of C97 hold, for example, in [f64] with correctly rounded functions: a
    [Peak] or [LowShelf] at 44100 Hz with a frequency of 1 kHz, 6 dB and a Q or slope of 1,
    on the input 1, 1, 1, ...; a slope of 4 is too steep for 20 dB. *)
Example C97_hyps : let O := f64_ops (cr_libm 53 1024) false in let V := ieee_view 53 1024 in
  let sr := fl64 44100 0 in let f := fl64 1000 0 in let g := fl64 6 0 in let q := fl64 1 0 in let x := fun _ : nat => fl64 1 0 in
  let k := RbjGain (val V sr) (val V f) (val V g) (val V q) in
  let y := out (dev_rbj R_ops LowShelf) (configured (dev_rbj R_ops LowShelf) k) (fun n => val V (x n)) in
  ieee O V /\ trig_close O V /\ pow10_close O V /\ audible V sr f
  /\ gain_setting V Peak g q /\ gain_setting V LowShelf g q
  /\ 0 < val V q /\ 0 < sin (2 * PI * val V f / val V sr) /\ / 2 <= val V q * Rpower 10 (val V g / 40)
  /\ (exists b0 b1 b2 a1 a2, rbj_coeffs R_ops LowShelf k = Some (b0, b1, b2, a1, a2) /\ peak_gain a1 a2 3100)
  /\ 5 * gain_error V LowShelf (val V q) * 3100 <= 1
  /\ (forall n, fin V (x n) = true /\ Rabs (val V (x n)) <= 1) /\ (forall n, Rabs (y n) <= 105400)
  /\ 256 * (1 + 105400) <= fmax V
  /\ too_steep V (fl64 20 0) (fl64 4 0)
  /\ only_used (K := rbj_args f64) [CLastOut; CProcess (fl64 2 0)].
Proof. exact C97_hyps_aux. Qed.
