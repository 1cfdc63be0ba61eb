(** Property C90: the integrator and the detectors in [f32] and [f64] stay close to
    the ideal ones, over any history of calls.

    Vocabulary: [ieee O V] says that [O] is the arithmetic of [f32] or [f64] and [V]
    reads it as numbers ([FloatSpec]); [after D cs] is a new object after the calls
    [cs] ([Device]); the ideal integrator and detectors are in [TrackSpec]. *)
From Coq Require Import ZArith Reals List Lra Lia.
From Flocq Require Import Core.Core IEEE754.BinarySingleNaN.
From Verif Require Import Base Num NumF Witness FloatSpec AnalysisM Device AnaSpec CrLibm TrackSpec TrackLemmas.
Import ListNotations.
Open Scope R_scope.

(** C90: over any history of samples up to [M] in magnitude and gains up to [g] < 1,
    the last output of [LeakyIntegrator] is a number within 9 (2^-p M + tiny) / (1 - g)
    of the exact integrator's, where p is the precision of the type. *)
Theorem C90_leaky_tracks :
  forall (T : Type) (O : num_ops T) (V : float_view T), ieee O V ->
  forall (M g : R) (history : list (call T T)), 0 <= M -> 2 * M <= fmax V -> 0 <= g < 1 ->
    leaky_calls V M g history ->
    let y := leaky_last_out (after (dev_leaky O) history) in
    fin V y = true
    /\ Rabs (val V y - ideal_leaky V history) <= 9 * (half_ulp V * M + half_tiny V) / (1 - g).
Proof. exact C90_leaky_tracks_thm. Qed.
Print Assumptions C90_leaky_tracks.

(** C90: over any history of samples up to [M] in magnitude and lengths from 1 to [L]
    samples, the envelope of [PeakEnvDetector] is a number within
    8 (L + 1) (2^-p M + tiny) of the ideal one.  The exponential is correctly rounded. *)
Theorem C90_peak_tracks :
  forall (T : Type) (O : num_ops T) (V : float_view T), ieee O V -> exp_rounded O V ->
  forall (M L : R) (history : list (call (det_set T) T)), 0 <= M <= fmax V -> 1 <= L <= bpow radix2 (fprec V - 2) ->
    detector_calls V M L history ->
    let y := peak_last_out (after (dev_peak O) history) in
    fin V y = true
    /\ Rabs (val V y - ideal_envelope V Rabs history) <= 8 * (L + 1) * (half_ulp V * M + half_tiny V).
Proof. exact C90_peak_tracks_thm. Qed.
Print Assumptions C90_peak_tracks.

(** C90: the same for the square of the output of [RmsEnvDetector]. *)
Theorem C90_rms_tracks :
  forall (T : Type) (O : num_ops T) (V : float_view T), ieee O V -> exp_rounded O V ->
  forall (M L : R) (history : list (call (det_set T) T)), M * M <= fmax V -> 1 <= L <= bpow radix2 (fprec V - 2) ->
    detector_calls V M L history ->
    let y := rms_last_out O (after (dev_rms O) history) in
    fin V y = true
    /\ Rabs (val V y * val V y - ideal_envelope V Rsqr history) <= 16 * (L + 1) * (half_ulp V * (M * M) + half_tiny V).
Proof. exact C90_rms_tracks_thm. Qed.
Print Assumptions C90_rms_tracks.

(** Beside the theorems: histories that meet every hypothesis, in [f32] with a
    correctly rounded exponential, and the bound they get ([TrackSpec] has the
    definitions; 48000 samples is one second at 48 kHz). *)
Example C90_hypotheses_met :
  ieee O90 V90 /\ exp_rounded O90 V90 /\ 0 <= 1 <= fmax V90 /\ 1 <= 48000 <= bpow radix2 (fprec V90 - 2)
  /\ detector_calls V90 1 48000 history90
  /\ 8 * (48000 + 1) * (half_ulp V90 * 1 + half_tiny V90) < 23 / 1000
  /\ 0 < ideal_envelope V90 Rabs history90.
Proof. exact track_met. Qed.
Example C90_leaky_hypotheses_met :
  2 * 1 <= fmax V90
  /\ leaky_calls V90 1 (3/4) [CSet (fl32 3 (-2)); CProcess (fl32 1 0); CProcess (fl32 (-1) (-1)); CClear; CProcess (fl32 1 (-1))]
  /\ ideal_leaky V90 [CSet (fl32 3 (-2)); CProcess (fl32 1 0); CProcess (fl32 (-1) (-1)); CClear; CProcess (fl32 1 (-1))] = 1 / 8.
Proof. exact leaky_track_met. Qed.
