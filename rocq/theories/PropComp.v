(** Property C136: a compressor built on an envelope detector and the level helpers.

    Vocabulary: [compressor], [gain_curve] ([CompSpec]); [decibels], [amplitude], [log10_close],
    [pow10_close], [unit_off], [tiny_off] ([DbSpec]); [instant_attack] ([LimitSpec]);
    [lib_detector O D]: [D] is a [PeakEnvDetector] or an [RmsEnvDetector]; [calls_ok O V P cs]: the
    samples satisfy [P] and every accepted length gives a gain in [0, 1) ([AnaSpec]). *)
From Coq Require Import ZArith Reals List Bool Lra Lia.
From Flocq Require Import Core.Core IEEE754.BinarySingleNaN.
From Verif Require Import Base Num NumR NumF FloatSpec CrLibm Witness UtilM AnalysisM Device AnaSpec DbSpec DbFacts DbLemmas
  LimitSpec CompSpec CompLemmas.
Import ListNotations.
Open Scope R_scope.

(** C136: in exact arithmetic, with either detector, the compressor never panics, never makes
    a sample louder and never changes its sign.  A sample passes unchanged while the envelope is
    at or below the threshold.  Above it the sample is turned down by [slope] dB for every dB of
    the excess (down to silence when that would be 120 dB or more). *)
Theorem C136_exact_curve :
  forall (S : Type) (D : detector S R) (p : profile) (threshold slope : R) (cs : list (call (det_set R) R)),
    lib_detector R_ops D -> -120 <= threshold -> slope <= 0 ->
    exists r, compressor R_ops p (det_dev D) threshold slope (d_new (det_dev D)) cs = Ok r
      /\ Forall (fun xey : R * R * R => let '(x, e, y) := xey in
           0 <= e /\ Rabs y <= Rabs x /\ 0 <= x * y
           /\ (e <= amplitude threshold -> y = x)
           /\ (amplitude threshold < e -> -120 < slope * (decibels e - threshold) ->
                 y = x * gain_curve threshold slope e)
           /\ (amplitude threshold < e -> slope * (decibels e - threshold) <= -120 -> y = 0)) r.
Proof. exact C136_exact_curve_thm. Qed.
Print Assumptions C136_exact_curve.

(* threshold -20 dB, ratio 2: an envelope of 1 (0 dB) asks for -10 dB *)
Example C136_exact_curve_hyps :
  lib_detector R_ops (peak_detector R_ops) /\ lib_detector R_ops (rms_detector R_ops)
  /\ -120 <= -20 /\ -1 / 2 <= 0 /\ amplitude (-20) < 1 /\ -120 < -1 / 2 * (decibels 1 - -20)
  /\ gain_curve (-20) (-1 / 2) 1 = amplitude (-10).
Proof.
  split; [constructor|]. split; [constructor|]. split; [lra|]. split; [lra|].
  assert (A : amplitude (-20) < 1).
  { replace (-20) with (- (20 * INR 1)) by (cbn; lra). rewrite amplitude_neg. lra. }
  assert (B : decibels 1 = 0) by (rewrite <- amplitude_0; apply decibels_amplitude).
  split; [exact A|]. rewrite B. split; [lra|]. unfold gain_curve. destruct Rle_dec; [lra|]. f_equal. rewrite B. lra.
Qed.

(** C136: with a [PeakEnvDetector] whose attack is instantaneous, no sample above the threshold
    comes out above the static curve threshold + (level - threshold) / ratio, and no other
    sample comes out above the threshold.  With ratio infinity (slope -1) nothing ever comes out
    above the threshold. *)
Theorem C136_exact_ratio :
  forall (p : profile) (threshold slope : R) (cs : list (call (det_set R) R)),
    -120 <= threshold -> -1 <= slope <= 0 -> instant_attack cs ->
    exists r, compressor R_ops p (dev_peak R_ops) threshold slope (peak_new R_ops) cs = Ok r
      /\ Forall (fun xey : R * R * R => let '(x, e, y) := xey in
           (Rabs x <= amplitude threshold -> Rabs y <= amplitude threshold)
           /\ (amplitude threshold < Rabs x ->
                 Rabs y <= amplitude (threshold + (1 + slope) * (decibels (Rabs x) - threshold)))
           /\ (slope = -1 -> Rabs y <= amplitude threshold)) r.
Proof. exact C136_exact_ratio_thm. Qed.
Print Assumptions C136_exact_ratio.

Example C136_exact_ratio_hyps :
  -120 <= -20 /\ -1 <= -3 / 4 <= 0
  /\ instant_attack [CSet (SetRelease 441); CProcess 1; CProcess (-1 / 2); CClear; CProcess 3].
Proof. split; [lra|]. split; [lra|]. repeat constructor. Qed.

(** C136: fed with a constant above the threshold, after any history and [set_attack(L)] or
    [set_release(L)] as the case requires, the compressor settles on the static curve: the level
    of its output approaches threshold + (level - threshold) / ratio. *)
Theorem C136_exact_settles :
  forall (p : profile) (history : list (call (det_set R) R)) (ph : phase) (L c threshold slope eps : R),
    0 < L -> -120 <= threshold -> -1 <= slope <= 0 -> 0 < eps ->
    amplitude threshold < Rabs c -> -120 < slope * (decibels (Rabs c) - threshold) ->
    let s := after (dev_peak R_ops) (history ++ [CSet (set_phase ph L)]) in
    let e0 := d_last_out (dev_peak R_ops) s in
    match ph with Attack => e0 < Rabs c | AnaSpec.Release => Rabs c < e0 end ->
    exists N, forall n, (N <= n)%nat ->
      exists r e y, compressor R_ops p (dev_peak R_ops) threshold slope s (repeat (CProcess c) (n + 1)) = Ok (r ++ [(c, e, y)])
        /\ Rabs (decibels (Rabs y) - (threshold + (1 + slope) * (decibels (Rabs c) - threshold))) < eps.
Proof. exact C136_exact_settles_thm. Qed.
Print Assumptions C136_exact_settles.

(* a new detector, set_attack(100), then ones; threshold -20 dB, ratio 4 *)
Example C136_exact_settles_hyps :
  0 < 100 /\ -120 <= -20 /\ -1 <= -3 / 4 <= 0 /\ amplitude (-20) < Rabs 1 /\ -120 < -3 / 4 * (decibels (Rabs 1) - -20)
  /\ d_last_out (dev_peak R_ops) (after (dev_peak R_ops) ([] ++ [CSet (set_phase Attack 100)])) < Rabs 1.
Proof.
  rewrite Rabs_R1. assert (B : decibels 1 = 0) by (rewrite <- amplitude_0; apply decibels_amplitude).
  split; [lra|]. split; [lra|]. split; [lra|]. split.
  { replace (-20) with (- (20 * INR 1)) by (cbn; lra). rewrite amplitude_neg. lra. }
  split; [rewrite B; lra|]. cbn. unfold peak_set_attack. cbn. destruct (_ && _); cbn; lra.
Qed.

(** C136: in [f32] and [f64], with either detector, for samples up to [loudest] (from 0.001 to
    10^6, at most 100 dB above the threshold), a threshold from -119 to 120 dB and a slope from
    -1 to 0, the compressor never panics.  Every output is the sample times the gain of the static
    curve up to 128 * 2^-p of the sample (p is the number of bits of the type).  While the
    envelope is at least 0.0001 dB below the threshold the sample passes unchanged. *)
Theorem C136_float :
  forall (T : Type) (O : num_ops T) (V : float_view T) (S : Type) (D : detector S T) (p : profile)
         (threshold slope loudest : T) (cs : list (call (det_set T) T)),
    ieee O V -> log10_close O V -> pow10_close O V -> lib_detector O D ->
    fin V threshold = true -> -119 <= val V threshold <= 120 ->
    fin V slope = true -> -1 <= val V slope <= 0 ->
    let m := Rabs (val V loudest) in
    1 / 1000 <= m <= 1000000 -> decibels m <= val V threshold + 100 ->
    calls_ok O V (within V (- m) m) cs ->
    exists r, compressor O p (det_dev D) threshold slope (d_new (det_dev D)) cs = Ok r
      /\ Forall (fun xey : T * T * T => let '(x, e, y) := xey in
           within V 0 m e /\ fin V y = true
           /\ Rabs (val V y - val V x * gain_curve (val V threshold) (val V slope) (val V e))
              <= 128 * unit_off V * Rabs (val V x) + tiny_off V
           /\ (val V e <= amplitude (val V threshold - 1 / 10000) -> val V y = val V x)) r.
Proof. exact C136_float_thm. Qed.
Print Assumptions C136_float.

(* threshold -20 dB, ratio 2, samples up to 1, the correctly rounded library *)
Example C136_float_hyps :
  let O := f32_ops (cr_libm 24 128) false in
  let V := ieee_view 24 128 in
  log10_close O V /\ pow10_close O V /\ lib_detector O (rms_detector O)
  /\ -119 <= val V (fl32 (-20) 0) <= 120 /\ -1 <= val V (fl32 (-1) (-1)) <= 0
  /\ 1 / 1000 <= Rabs (val V (fl32 1 0)) <= 1000000
  /\ decibels (Rabs (val V (fl32 1 0))) <= val V (fl32 (-20) 0) + 100
  /\ calls_ok O V (within V (-1) 1)
       [CSet (SetRelease B754_nan); CProcess (fl32 (-3) (-2)); CLastOut; CClear; CProcess (fl32 1 0)].
Proof.
  intros O V. assert (E : Rabs (val V (fl32 1 0)) = 1).
  { cbn. unfold F2R; cbn. rewrite Rabs_pos_eq; lra. }
  assert (B : decibels 1 = 0) by (rewrite <- amplitude_0; apply decibels_amplitude).
  split; [apply rounded_close_log; [constructor|apply cr_log10_32]|]. split; [apply cr_pow10_32|]. split; [constructor|].
  rewrite E, B. split; [cbn; unfold F2R; cbn; lra|]. split; [cbn; unfold F2R; cbn; lra|]. split; [lra|].
  split; [cbn; unfold F2R; cbn; lra|].
  repeat (apply Forall_cons || apply Forall_nil); try exact I;
    try (intros [H _]; discriminate); (split; [reflexivity|]); cbn; unfold F2R; cbn; lra.
Qed.
