(** Properties C37-C46 of the RBJ filters, exact arithmetic.

    Vocabulary: [Signal] and [RbjSpec]. *)
From Coq Require Import Reals List Lra.
From Coquelicot Require Import Coquelicot.
From Verif Require Import Num NumR FilterM RbjM Device Signal RbjSpec RbjLemmas.
Import ListNotations.
Open Scope R_scope.

(** Settings meeting the hypothesis of every theorem below. *)
Example valid_settings :
  valid_band 48000 1000
  /\ (forall kind, In kind [LowPass; HighPass; BandPass1; BandPass2; BandStop; AllPass] ->
        valid kind (RbjQ 48000 1000 0.7))
  /\ valid Peak (RbjGain 48000 1000 (-6) 2)
  /\ valid LowShelf (RbjGain 48000 1000 12 1) /\ valid HighShelf (RbjGain 48000 1000 12 1).
Proof.
  assert (Hb : valid_band 48000 1000) by (unfold valid_band; lra).
  assert (Hs : valid_slope 12 1).
  { unfold valid_slope. replace (1 / 1 - 1) with 0 by field. rewrite Rmult_0_r. lra. }
  split; [exact Hb|]. split; [|repeat split; (apply Hb || apply Hs || lra)].
  intros kind Hk. cbn in Hk.
  decompose [or] Hk; subst; try contradiction; (split; [exact Hb|lra]).
Qed.

(** C37: every valid setting gives coefficients in the stability region. *)
Theorem C37_rbj_stable :
  forall (kind : rbj_kind) (args : rbj_args R), valid kind args ->
  exists b0 b1 b2 a1 a2,
    rbj_coeffs R_ops kind args = Some (b0, b1, b2, a1, a2) /\ stable a1 a2.
Proof. exact C37_rbj_stable_thm. Qed.
Print Assumptions C37_rbj_stable.

(** C37: hence bounded input gives bounded output, ... *)
Theorem C37_rbj_bounded :
  forall (kind : rbj_kind) (args : rbj_args R), valid kind args ->
  exists G : R, forall (x : signal) (M : R), (forall n, Rabs (x n) <= M) ->
    forall n, Rabs (rbj_out kind args x n) <= G * M.
Proof. exact C37_rbj_bounded_thm. Qed.
Print Assumptions C37_rbj_bounded.

(** C37: ... and a sinusoid of any frequency is turned into a sinusoid of the same
    frequency. *)
Theorem C37_rbj_sinusoid :
  forall (kind : rbj_kind) (args : rbj_args R) (w : R), valid kind args ->
  exists g theta, 0 <= g /\ rbj_passes kind args w g theta.
Proof. exact C37_rbj_sinusoid_thm. Qed.
Print Assumptions C37_rbj_sinusoid.

(** C37: every shelf slope in (0,1] is valid whatever the gain; above 1 the valid
    range depends on the gain. *)
Theorem C37_slope_range :
  (forall g slope, 0 < slope <= 1 -> valid_slope g slope)
  /\ (forall slope, 1 < slope -> exists g, ~ valid_slope g slope).
Proof. exact C37_slope_range_thm. Qed.
Print Assumptions C37_slope_range.

(** C38: LowPass. *)
Theorem C38_lowpass :
  forall sr f q, valid LowPass (RbjQ sr f q) ->
    dc_gain LowPass (RbjQ sr f q) 1
    /\ nyquist_gain LowPass (RbjQ sr f q) 0
    /\ rbj_passes LowPass (RbjQ sr f q) (omega sr f) q (- (PI / 2)).
Proof. exact C38_lowpass_thm. Qed.
Print Assumptions C38_lowpass.

(** C39: HighPass. *)
Theorem C39_highpass :
  forall sr f q, valid HighPass (RbjQ sr f q) ->
    dc_gain HighPass (RbjQ sr f q) 0
    /\ nyquist_gain HighPass (RbjQ sr f q) 1
    /\ rbj_passes HighPass (RbjQ sr f q) (omega sr f) q (PI / 2).
Proof. exact C39_highpass_thm. Qed.
Print Assumptions C39_highpass.

(** C40: the two band passes. *)
Theorem C40_bandpass :
  forall sr f q, valid BandPass1 (RbjQ sr f q) ->
    rbj_passes BandPass1 (RbjQ sr f q) (omega sr f) q 0
    /\ rbj_passes BandPass2 (RbjQ sr f q) (omega sr f) 1 0
    /\ dc_gain BandPass1 (RbjQ sr f q) 0 /\ dc_gain BandPass2 (RbjQ sr f q) 0
    /\ nyquist_gain BandPass1 (RbjQ sr f q) 0 /\ nyquist_gain BandPass2 (RbjQ sr f q) 0.
Proof. exact C40_bandpass_thm. Qed.
Print Assumptions C40_bandpass.

(** C41: BandStop. *)
Theorem C41_bandstop :
  forall sr f q, valid BandStop (RbjQ sr f q) ->
    (forall A phi, is_lim_seq (rbj_out BandStop (RbjQ sr f q) (sinusoid A (omega sr f) phi)) 0)
    /\ dc_gain BandStop (RbjQ sr f q) 1 /\ nyquist_gain BandStop (RbjQ sr f q) 1.
Proof. exact C41_bandstop_thm. Qed.
Print Assumptions C41_bandstop.

(** C42: AllPass, at every frequency. *)
Theorem C42_allpass :
  forall sr f q w, valid AllPass (RbjQ sr f q) ->
    exists theta, rbj_passes AllPass (RbjQ sr f q) w 1 theta.
Proof. exact C42_allpass_thm. Qed.
Print Assumptions C42_allpass.

(** C43: Peak. *)
Theorem C43_peak :
  forall sr f g q, valid Peak (RbjGain sr f g q) ->
    rbj_passes Peak (RbjGain sr f g q) (omega sr f) (db_factor g) 0
    /\ dc_gain Peak (RbjGain sr f g q) 1 /\ nyquist_gain Peak (RbjGain sr f g q) 1.
Proof. exact C43_peak_thm. Qed.
Print Assumptions C43_peak.

(** C44: the shelves. *)
Theorem C44_shelves :
  forall sr f g slope, valid LowShelf (RbjGain sr f g slope) ->
    dc_gain LowShelf (RbjGain sr f g slope) (db_factor g)
    /\ nyquist_gain LowShelf (RbjGain sr f g slope) 1
    /\ dc_gain HighShelf (RbjGain sr f g slope) 1
    /\ nyquist_gain HighShelf (RbjGain sr f g slope) (db_factor g)
    /\ (exists theta, rbj_passes LowShelf (RbjGain sr f g slope) (omega sr f) (db_factor (g / 2)) theta)
    /\ (exists theta, rbj_passes HighShelf (RbjGain sr f g slope) (omega sr f) (db_factor (g / 2)) theta).
Proof. exact C44_shelves_thm. Qed.
Print Assumptions C44_shelves.

(** C45: complementary filters, sample for sample on every input, for every setting whose
    normalising coefficient does not vanish (frequencies beyond the valid band and negative
    q included). *)
Theorem C45_complementary :
  forall sr f q (x : signal) (n : nat),
    sr <> 0 -> q <> 0 -> 1 + sin (omega sr f) / (2 * q) <> 0 ->
    let o kind := rbj_out kind (RbjQ sr f q) x n in
    o LowPass + o HighPass = o BandStop
    /\ o BandStop + o BandPass2 = x n
    /\ o AllPass = o BandStop - o BandPass2
    /\ o BandPass1 = q * o BandPass2.
Proof. exact C45_complementary_thm. Qed.
Print Assumptions C45_complementary.

(* a valid setting, and one above half the sample rate with a negative q *)
Example C45_complementary_hyps :
  1 + sin (omega 48000 12000) / (2 * 2) <> 0 /\ 1 + sin (omega 48000 36000) / (2 * -2) <> 0.
Proof.
  unfold omega. replace (2 * PI * 12000 / 48000) with (PI / 2) by field.
  replace (2 * PI * 36000 / 48000) with (3 * (PI / 2)) by field.
  rewrite sin_PI2, sin_3PI2. lra.
Qed.

(** C46: the filter with the opposite gain undoes the filter. *)
Theorem C46_opposite_gains_cancel :
  forall (kind : rbj_kind) sr f g y (x : signal) (n : nat),
    kind = Peak \/ kind = LowShelf \/ kind = HighShelf ->
    valid kind (RbjGain sr f g y) ->
    rbj_out kind (RbjGain sr f (- g) y) (rbj_out kind (RbjGain sr f g y) x) n = x n.
Proof. exact C46_opposite_gains_cancel_thm. Qed.
Print Assumptions C46_opposite_gains_cancel.

(** C46: zero gain changes nothing. *)
Theorem C46_zero_gain :
  forall (kind : rbj_kind) sr f y (x : signal) (n : nat),
    kind = Peak \/ kind = LowShelf \/ kind = HighShelf ->
    valid kind (RbjGain sr f 0 y) -> rbj_out kind (RbjGain sr f 0 y) x n = x n.
Proof. exact C46_zero_gain_thm. Qed.
Print Assumptions C46_zero_gain.
