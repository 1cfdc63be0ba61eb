(** Property C133: the same program with another sample type.

    Vocabulary ([MapSpec]): [map_call h], [map_answer h]: the same call or answer with [h x] for every sample [x]; [answers]: what
    the calls of a session return, or that one panics; [moves_only]: not an [add_to]; [allocates size]: the length asked for can be
    allocated; [same_number V V' x x']: [x] and [x'] denote the same number in two float types; [stream D k x n]: what a new filter
    configured with [k] returns for sample [n] of [x]; [has_coeffs]: the coefficients it works with ([FltFilterSpec]). *)
From Coq Require Import ZArith Reals List Bool Lia Lra.
From Flocq Require Import IEEE754.BinarySingleNaN Core.Core.
From Verif Require Import Base Num NumR NumF FloatSpec FilterM RbjM AnalysisM Device Signal FltFilterSpec AnaSpec TrackSpec DelayM LinDelayM DelaySpec
  DelayRun LinRun MapSpec CrLibm Witness MapLemmas.
Import ListNotations.
Open Scope R_scope.

(** C133: a delay line only moves samples.  Let [h] be any function between two sample types that keeps zero: widening f32 to f64,
    a gain, a wave shaper.  Then a line of the second type given [h] of every sample gives [h] of every answer of the line of the
    first type, for the same calls and in the same build profile, panics included.  The exception is [add_to], the only call that
    computes: with it, [h] must also respect addition.  Lengths must be small enough to allocate in both types. *)

Theorem C133_delay_moves_samples :
  forall (T T' : Type) (O : num_ops T) (O' : num_ops T') (p : profile) (h : T -> T'), h (n_zero O) = n_zero O' ->
  forall (d m : Z) (ops : list (dl_op Z T)), is_usize m -> Forall op_usize ops ->
    alloc_ok (n_size_of O) (m + 1) = true -> alloc_ok (n_size_of O') (m + 1) = true ->
    Forall (allocates (n_size_of O)) ops -> Forall (allocates (n_size_of O')) ops ->
    (Forall moves_only ops \/ forall x y, h (n_add O x y) = n_add O' (h x) (h y)) ->
    answers (dl_session O' p d m (map (map_call h) ops)) = map_answers h (answers (dl_session O p d m ops)).
Proof. exact C133_delay_moves_samples_thm. Qed.
Print Assumptions C133_delay_moves_samples.

(** C133: [LinearDelay] computes weighted means.  In exact arithmetic, multiplying every sample by [k] multiplies every answer by
    [k], for every delay time, history, build profile, panics included. *)

Theorem C133_linear_scales :
  forall (p : profile) (k : R) (d : R) (m : Z) (ops : list (dl_op R R)),
    answers (lin_session R_ctl R_ops p d m (map (map_call (Rmult k)) ops)) = map_answers (Rmult k) (answers (lin_session R_ctl R_ops p d m ops)).
Proof. exact C133_linear_scales_thm. Qed.
Print Assumptions C133_linear_scales.

(** C133: filters in two float types.  [D] and [D'] are filters of the library in float types with the same coefficients: the same
    filter in f32 and f64, or two structures for one transfer function, such as the two biquads.  Given the same samples, their
    outputs stay for ever within a fixed distance, the sum of the errors of the two types. *)

Theorem C133_filters_agree :
  forall (T T' : Type) (O : num_ops T) (V : float_view T) (O' : num_ops T') (V' : float_view T'), ieee O V -> ieee O' V' ->
  forall (S K S' K' : Type) (D : device S K T) (D' : device S' K' T') (k : K) (k' : K') (c : T * T * T * T * T) (c' : T' * T' * T' * T' * T'),
    has_coeffs O D k c -> has_coeffs O' D' k' c' -> all_finite V c -> all_finite V' c' ->
  forall (b0 b1 b2 a1 a2 G M A L L' : R) (x : nat -> T) (x' : nat -> T'),
    vals V c = (b0, b1, b2, a1, a2) -> vals V' c' = (b0, b1, b2, a1, a2) ->
    A = Rabs a1 + Rabs a2 ->
    L = (Rabs b0 + Rabs b1 + Rabs b2) * M + fmin V -> L' = (Rabs b0 + Rabs b1 + Rabs b2) * M + fmin V' ->
    peak_gain a1 a2 G ->
    (forall n, fin V (x n) = true /\ fin V' (x' n) = true /\ same_number V V' (x n) (x' n) /\ Rabs (val V (x n)) <= M) ->
    A * G <= bpow radix2 (fprec V - 5) -> A * G <= bpow radix2 (fprec V' - 5) ->
    4 * (1 + 4 * A * G) * L <= fmax V -> 4 * (1 + 4 * A * G) * L' <= fmax V' ->
    forall n, fin V (stream D k x n) = true /\ fin V' (stream D' k' x' n) = true
      /\ Rabs (val V (stream D k x n) - val V' (stream D' k' x' n))
         <= bpow radix2 (3 - fprec V) * G * (1 + 4 * A * G) * L + bpow radix2 (3 - fprec V') * G * (1 + 4 * A * G) * L'.
Proof. exact C133_filters_agree_thm. Qed.
Print Assumptions C133_filters_agree.

(** C133: envelope detectors in two float types.  After the same history of samples, clears and lengths, the envelopes of two
    [PeakEnvDetector]s, and the mean squares of two [RmsEnvDetector]s, differ at most by the errors of the two types. *)

Theorem C133_detectors_agree :
  forall (T T' : Type) (O : num_ops T) (V : float_view T) (O' : num_ops T') (V' : float_view T'),
    ieee O V -> ieee O' V' -> exp_rounded O V -> exp_rounded O' V' ->
  forall (M L : R) (history : list (call (det_set T) T)) (history' : list (call (det_set T') T')),
    Forall2 (same_detector_call V V') history history' ->
    detector_calls V M L history -> detector_calls V' M L history' ->
    1 <= L <= bpow radix2 (fprec V - 2) -> L <= bpow radix2 (fprec V' - 2) ->
    let near := fun m => half_ulp V * m + half_tiny V + (half_ulp V' * m + half_tiny V') in
    (0 <= M <= fmax V -> M <= fmax V' ->
     let y := peak_last_out (after (dev_peak O) history) in let y' := peak_last_out (after (dev_peak O') history') in
     Rabs (val V y - val V' y') <= 8 * (L + 1) * near M)
    /\ (M * M <= fmax V -> M * M <= fmax V' ->
        let y := rms_last_out O (after (dev_rms O) history) in let y' := rms_last_out O' (after (dev_rms O') history') in
        Rabs (val V y * val V y - val V' y' * val V' y') <= 16 * (L + 1) * near (M * M)).
Proof. exact C133_detectors_agree_thm. Qed.
Print Assumptions C133_detectors_agree.

(** C133: the same for two [LeakyIntegrator]s with gains up to [g] < 1. *)

Theorem C133_leaky_agree :
  forall (T T' : Type) (O : num_ops T) (V : float_view T) (O' : num_ops T') (V' : float_view T'), ieee O V -> ieee O' V' ->
  forall (M g : R) (history : list (call T T)) (history' : list (call T' T')),
    Forall2 (same_leaky_call V V') history history' ->
    leaky_calls V M g history -> leaky_calls V' M g history' ->
    0 <= M -> 2 * M <= fmax V -> 2 * M <= fmax V' -> 0 <= g < 1 ->
    let y := leaky_last_out (after (dev_leaky O) history) in let y' := leaky_last_out (after (dev_leaky O') history') in
    Rabs (val V y - val V' y') <= 9 * (half_ulp V * M + half_tiny V) / (1 - g) + 9 * (half_ulp V' * M + half_tiny V') / (1 - g).
Proof. exact C133_leaky_agree_thm. Qed.
Print Assumptions C133_leaky_agree.

(** C133: widening an f32 sample to f64 keeps zero, finiteness and the number, so the theorems above apply to [x] and [widen x]. *)

Theorem C133_widen :
  forall (lm : libm f32) (b : bool) (lm' : libm f64) (b' : bool), widen (n_zero (f32_ops lm b)) = n_zero (f64_ops lm' b')
  /\ forall x : f32, fin (ieee_view 53 1024) (widen x) = fin (ieee_view 24 128) x /\ same_number (ieee_view 24 128) (ieee_view 53 1024) x (widen x).
Proof. exact C133_widen_thm. Qed.
Print Assumptions C133_widen.

(** Beside the theorems: a session with growth, taps and a clear on a line of f32 and on the widened line of f64. *)
Example C133_delay_hypotheses_met :
  forall a b c e : f32,
  let ops := [DProcess a; DProcess b; DSetMaxDelay 4; DTapIn c 1; DTapOut 0; DProcess e; DLastOut; DClear; DNextOut] in
  Forall op_usize ops /\ Forall (allocates 4) ops /\ Forall (allocates 8) ops /\ Forall moves_only ops
  /\ n_size_of O32 = 4%Z /\ n_size_of O64 = 8%Z /\ alloc_ok 4 (2 + 1) = true /\ alloc_ok 8 (2 + 1) = true
  /\ answers (dl_session O32 Debug 1 2 ops)
     = Ok [OSample (n_zero O32); OSample a; ONone; ONone; OSample b; OSample b; OSample b; ONone; OSample (n_zero O32)].
Proof.
  intros a b c e ops. split; [repeat (constructor; [cbn; unfold is_usize, usize_max, two64; try exact I; lia|]); constructor|].
  split; [repeat (constructor; [first [exact I|reflexivity]|]); constructor|]. split; [repeat (constructor; [first [exact I|reflexivity]|]); constructor|].
  split; [repeat (constructor; [intros ? ?; discriminate|]); constructor|]. repeat (split; [reflexivity|]). vm_compute. reflexivity.
Qed.
(** ... a one-pole filter in f32 and a biquad in f64 with the same coefficients stay within 10^-5 of each other for ever ... *)
Example C133_filters_example :
  forall n, Rabs (val V90 (stream (dev_one_pole O90) (fl32 1 0, fl32 (-1) (-1)) (fun _ => fl32 1 0) n)
                  - val V133 (stream (dev_biquad2 O133) (fl64 1 0, fl64 0 0, fl64 0 0, fl64 (-1) (-1), fl64 0 0) (fun _ => fl64 1 0) n)) <= 1 / 100000.
Proof. exact filters_example. Qed.
(** ... and a peak detector with times of one second at 48 kHz gives the same envelope in both types up to 0.023. *)
Example C133_detectors_example :
  Rabs (val V90 (peak_last_out (after (dev_peak O90) history90)) - val V133 (peak_last_out (after (dev_peak O133) history133))) <= 23 / 1000.
Proof. exact detectors_example. Qed.
