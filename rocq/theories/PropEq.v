(** Properties C76-C80 of the RBJ filters at every frequency, exact arithmetic.

    Vocabulary: [Signal], [RbjSpec] and [EqSpec] (the Cookbook's analog
    prototypes, the warped frequency, gains, energy).  Settings that meet the
    hypotheses: [valid_settings] in [PropRbj] and [C77_hyps] below. *)
From Coq Require Import Reals List Lra.
From Coquelicot Require Import Coquelicot.
From Verif Require Import Num NumR FilterM RbjM Device Signal RbjSpec EqSpec EqLemmas.
Import ListNotations.
Open Scope R_scope.

(** C76: at every frequency the filter has the gain and the phase shift of the
    Cookbook's prototype at the warped frequency. *)
Theorem C76_analog_response :
  forall (kind : rbj_kind) (args : rbj_args R) (w g theta : R),
    valid kind args -> 0 <= w < PI ->
    analog_response kind args w = (g * cos theta, g * sin theta) ->
    rbj_passes kind args w g theta.
Proof. exact C76_analog_response_thm. Qed.
Print Assumptions C76_analog_response.

(** C76: the gain is the prototype's magnitude and nothing else. *)
Theorem C76_analog_gain :
  forall (kind : rbj_kind) (args : rbj_args R) (w g : R),
    valid kind args -> 0 < w < PI ->
    (gain kind args w g <-> g = Cmod (analog_response kind args w)).
Proof. exact C76_analog_gain_thm. Qed.
Print Assumptions C76_analog_gain.

(** C77: an equaliser section never leaves the range between unity and its own
    gain: at every frequency, the gain of a Peak lies between 1 and
    10^(dB/20). *)
Theorem C77_peak_range :
  forall sr f db q w g, valid Peak (RbjGain sr f db q) -> 0 < w < PI ->
    gain Peak (RbjGain sr f db q) w g ->
    Rmin 1 (db_factor db) <= g <= Rmax 1 (db_factor db).
Proof. exact C77_peak_range_thm. Qed.
Print Assumptions C77_peak_range.

(** C77: and so does the gain of a shelf whose slope is at most 1. *)
Theorem C77_shelf_range :
  forall kind sr f db slope w g, kind = LowShelf \/ kind = HighShelf ->
    valid kind (RbjGain sr f db slope) -> slope <= 1 -> 0 < w < PI ->
    gain kind (RbjGain sr f db slope) w g ->
    Rmin 1 (db_factor db) <= g <= Rmax 1 (db_factor db).
Proof. exact C77_shelf_range_thm. Qed.
Print Assumptions C77_shelf_range.

(** C77: a slope above 1 does overshoot: whatever the gain (a boost), some
    frequency is amplified by more than the shelf's gain. *)
Theorem C77_steep_shelf_overshoots :
  forall kind sr f db slope, kind = LowShelf \/ kind = HighShelf ->
    valid kind (RbjGain sr f db slope) -> 1 < slope -> 0 < db ->
    exists w g, 0 < w < PI /\ gain kind (RbjGain sr f db slope) w g /\ db_factor db < g.
Proof. exact C77_steep_shelf_overshoots_thm. Qed.
Print Assumptions C77_steep_shelf_overshoots.

(** C78: with q = 1/sqrt 2 LowPass and HighPass are the second-order Butterworth
    filters: at the warped frequency O (1 at the corner) their gains are
    1 / sqrt (1 + O^4) and O^2 / sqrt (1 + O^4). *)
Theorem C78_butterworth :
  forall sr f w g, valid_band sr f -> 0 < w < PI ->
    let O := warped (omega sr f) w in
    (gain LowPass (RbjQ sr f (1 / sqrt 2)) w g -> g = 1 / sqrt (1 + O ^ 4))
    /\ (gain HighPass (RbjQ sr f (1 / sqrt 2)) w g -> g = O ^ 2 / sqrt (1 + O ^ 4)).
Proof. exact C78_butterworth_thm. Qed.
Print Assumptions C78_butterworth.

(** C78: with q up to 1/sqrt 2 there is no resonance: the gain of LowPass
    strictly falls and the gain of HighPass strictly rises with the frequency,
    and both stay below 1. *)
Theorem C78_monotone :
  forall sr f q w w' g g', valid_band sr f -> 0 < q -> q * q <= 1 / 2 ->
    0 < w -> w < w' -> w' < PI ->
    (gain LowPass (RbjQ sr f q) w g -> gain LowPass (RbjQ sr f q) w' g' -> g' < g < 1)
    /\ (gain HighPass (RbjQ sr f q) w g -> gain HighPass (RbjQ sr f q) w' g' -> g < g' < 1).
Proof. exact C78_monotone_thm. Qed.
Print Assumptions C78_monotone.

(** C78: with a larger q both filters resonate: some frequency is amplified. *)
Theorem C78_resonance :
  forall sr f q, valid_band sr f -> 0 < q -> 1 / 2 < q * q ->
    (exists w g, 0 < w < PI /\ gain LowPass (RbjQ sr f q) w g /\ 1 < g)
    /\ (exists w g, 0 < w < PI /\ gain HighPass (RbjQ sr f q) w g /\ 1 < g).
Proof. exact C78_resonance_thm. Qed.
Print Assumptions C78_resonance.

(** C79: BandPass2 and BandStop share the power at every frequency; BandPass2
    never exceeds unity, which it reaches at its centre only, and its half-power
    (-3 dB) frequencies are the solutions of |O - 1/O| = 1/q. *)
Theorem C79_band :
  forall sr f q w gb gs, valid_band sr f -> 0 < q -> 0 < w < PI ->
    gain BandPass2 (RbjQ sr f q) w gb -> gain BandStop (RbjQ sr f q) w gs ->
    let O := warped (omega sr f) w in
    gb ^ 2 + gs ^ 2 = 1
    /\ gb <= 1 /\ (gb = 1 <-> w = omega sr f)
    /\ gs < 1 /\ (gs = 0 <-> w = omega sr f)
    /\ (gb ^ 2 = 1 / 2 <-> Rabs (O - 1 / O) = 1 / q).
Proof. exact C79_band_thm. Qed.
Print Assumptions C79_band.

(** C79: q is the quality of BandPass2: it passes at least half of the power
    exactly on the band between two edges around the centre, whose warped
    frequencies are reciprocal and 1/q apart. *)
Theorem C79_pass_band :
  forall sr f q, valid_band sr f -> 0 < q ->
    exists w1 w2, 0 < w1 < omega sr f /\ omega sr f < w2 < PI
      /\ warped (omega sr f) w1 * warped (omega sr f) w2 = 1
      /\ warped (omega sr f) w2 - warped (omega sr f) w1 = 1 / q
      /\ forall w g, 0 < w < PI -> gain BandPass2 (RbjQ sr f q) w g ->
           (1 / 2 <= g ^ 2 <-> w1 <= w <= w2).
Proof. exact C79_pass_band_thm. Qed.
Print Assumptions C79_pass_band.

(** A shelf with slope at most 1, one with a larger slope, and a steep and a
    gentle q; the gains exist by C76. *)
Example C77_hyps :
  valid LowShelf (RbjGain 48000 1000 6 0.5) /\ valid HighShelf (RbjGain 48000 1000 6 1.1)
  /\ (exists g, gain LowShelf (RbjGain 48000 1000 6 0.5) 1 g)
  /\ 1 / sqrt 2 * (1 / sqrt 2) <= 1 / 2 < 3 * 3.
Proof.
  assert (Hb : valid_band 48000 1000) by (unfold valid_band; lra).
  assert (Hs : valid_slope 6 0.5).
  { unfold valid_slope. cbv zeta. split; [lra|].
    assert (H : 0 < Rpower 10 (6 / 40)) by apply exp_pos.
    assert (0 < 1 / Rpower 10 (6 / 40)) by (apply Rdiv_lt_0_compat; lra). lra. }
  assert (Ht : valid_slope 6 1.1).
  { unfold valid_slope. cbv zeta. split; [lra|].
    assert (H1 : 1 <= Rpower 10 (6 / 40)) by (rewrite <- (Rpower_O 10) by lra; apply Rle_Rpower; lra).
    assert (H2 : Rpower 10 (6 / 40) <= 10) by (rewrite <- (Rpower_1 10) at 2 by lra; apply Rle_Rpower; lra).
    set (a := Rpower 10 (6 / 40)) in *.
    assert (1 / a <= 1) by (apply Rmult_le_reg_r with a; [lra|]; replace (1 / a * a) with 1 by (field; lra); lra).
    lra. }
  assert (HV : valid LowShelf (RbjGain 48000 1000 6 0.5)) by (split; assumption).
  split; [exact HV|]. split; [split; assumption|]. split.
  - eexists. apply (C76_analog_gain_thm _ _ _ _ HV); [assert (P := PI2_3_2); lra|reflexivity].
  - assert (S2 : sqrt 2 * sqrt 2 = 2) by (apply sqrt_sqrt; lra).
    assert (0 < sqrt 2) by (apply sqrt_lt_R0; lra).
    replace (1 / sqrt 2 * (1 / sqrt 2)) with (1 / (sqrt 2 * sqrt 2)) by (field; lra).
    rewrite S2. lra.
Qed.

(** C80: AllPass creates no energy: at any moment its output has had no more
    energy than its input. *)
Theorem C80_allpass_passive :
  forall sr f q (x : signal) (n : nat), valid AllPass (RbjQ sr f q) ->
    energy (rbj_out AllPass (RbjQ sr f q) x) n <= energy x n.
Proof. exact C80_allpass_passive_thm. Qed.
Print Assumptions C80_allpass_passive.

(** C80: and it loses none: for an input that dies away, all the energy comes
    out in the end. *)
Theorem C80_allpass_lossless :
  forall sr f q (x : signal), valid AllPass (RbjQ sr f q) -> is_lim_seq x 0 ->
    is_lim_seq (fun n => energy x n - energy (rbj_out AllPass (RbjQ sr f q) x) n) 0.
Proof. exact C80_allpass_lossless_thm. Qed.
Print Assumptions C80_allpass_lossless.

(** C80: BandStop and BandPass2 together put out no more energy than they are
    given, and exactly the input's energy in the end. *)
Theorem C80_band_energy :
  forall sr f q (x : signal), valid_band sr f -> 0 < q ->
    let rest n := energy x n - (energy (rbj_out BandStop (RbjQ sr f q) x) n
                                + energy (rbj_out BandPass2 (RbjQ sr f q) x) n) in
    (forall n, 0 <= rest n) /\ (is_lim_seq x 0 -> is_lim_seq rest 0).
Proof. exact C80_band_energy_thm. Qed.
Print Assumptions C80_band_energy.
