(** Property C111: the reading of [RmsEnvDetector] against that of [PeakEnvDetector].

    Vocabulary: [after D cs] is a new object after the calls [cs] ([Device]); [R_ops]
    is exact arithmetic; [ieee O V]: [f32] or [f64] ([FloatSpec]); [exp_rounded],
    [detector_calls], [half_ulp], [half_tiny]: as in C90 ([TrackSpec]). *)
From Coq Require Import ZArith Reals List Bool Lra Lia.
From Flocq Require Import Core.Core IEEE754.BinarySingleNaN.
From Verif Require Import Base Num NumR NumF Witness FloatSpec AnalysisM Device AnaSpec CrLibm TrackSpec CrestLemmas.
Import ListNotations.
Open Scope R_scope.

(** C111: a [PeakEnvDetector] and an [RmsEnvDetector] that get the same calls: the
    RMS reading is never below the peak reading, whatever the signal, the times and
    the calls in between. *)
Theorem C111_rms_at_least_peak :
  forall history : list (call (det_set R) R),
    0 <= peak_last_out (after (dev_peak R_ops) history) <= rms_last_out R_ops (after (dev_rms R_ops) history).
Proof. exact C111_rms_at_least_peak_thm. Qed.
Print Assumptions C111_rms_at_least_peak.

(* samples 1 and 0 through detectors with unequal times: both readings are positive *)
Example C111_rms_at_least_peak_hyps :
  let history := [CSet (SetAttack 10); CSet (SetRelease 100); CProcess 1; CProcess 0] in
  0 < peak_last_out (after (dev_peak R_ops) history).
Proof. exact C111_wit. Qed.

(** C111: and its square is at most the peak reading times the largest sample fed. *)
Theorem C111_rms_at_most :
  forall (M : R) (history : list (call (det_set R) R)),
    (forall x, In (CProcess x) history -> Rabs x <= M) ->
    (rms_last_out R_ops (after (dev_rms R_ops) history))²
    <= M * peak_last_out (after (dev_peak R_ops) history).
Proof. exact C111_rms_at_most_thm. Qed.
Print Assumptions C111_rms_at_most.

Example C111_rms_at_most_hyps :
  let history := [CSet (SetAttack 10); CSet (SetRelease 100); CProcess 1; CProcess 0; CProcess (-1 / 2)] in
  forall x : R, In (CProcess x) history -> Rabs x <= 1.
Proof.
  intros history x H. cbn in H. repeat (destruct H as [H|H]; [try discriminate H; injection H as <-; apply Rabs_le; lra|]). destruct H.
Qed.

(** C111 in [f32] and [f64]: the same up to the rounding errors of C90. *)
Theorem C111_float :
  forall (T : Type) (O : num_ops T) (V : float_view T), ieee O V -> exp_rounded O V ->
  forall (M L : R) (history : list (call (det_set T) T)),
    0 <= M <= fmax V -> M * M <= fmax V -> 1 <= L <= bpow radix2 (fprec V - 2) ->
    detector_calls V M L history ->
    let peak := val V (peak_last_out (after (dev_peak O) history)) in
    let rms := val V (rms_last_out O (after (dev_rms O) history)) in
    let slack := 8 * (L + 1) * (half_ulp V * M + half_tiny V) in
    let slack2 := 16 * (L + 1) * (half_ulp V * (M * M) + half_tiny V) in
    peak <= sqrt (rms * rms + slack2) + slack
    /\ rms * rms <= M * (peak + slack) + slack2.
Proof. exact C111_float_thm. Qed.
Print Assumptions C111_float.

(* [f32], a correctly rounded exponential, one second at 48 kHz *)
Example C111_float_hyps :
  ieee O90 V90 /\ exp_rounded O90 V90 /\ 0 <= 1 <= fmax V90 /\ 1 * 1 <= fmax V90
  /\ 1 <= 48000 <= bpow radix2 (fprec V90 - 2) /\ detector_calls V90 1 48000 history90.
Proof. exact C111_float_wit. Qed.

(** C111: without that slack the claim fails in [f32] and [f64]: the square of a very
    small sample underflows, so a new RMS detector reads zero where a new peak
    detector reads the sample. *)
Theorem C111_float_refuted :
  (forall (lm : libm f32) (b : bool), let O := f32_ops lm b in
     exists history : list (call (det_set f32) f32),
       n_lt O (rms_last_out O (after (dev_rms O) history)) (peak_last_out (after (dev_peak O) history)) = true)
  /\ (forall (lm : libm f64) (b : bool), let O := f64_ops lm b in
     exists history : list (call (det_set f64) f64),
       n_lt O (rms_last_out O (after (dev_rms O) history)) (peak_last_out (after (dev_peak O) history)) = true).
Proof. exact C111_float_refuted_thm. Qed.
Print Assumptions C111_float_refuted.
