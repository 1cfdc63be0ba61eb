(** Property C98 in [f32] and [f64]: the detectors as level meters for periodic signals.

    Vocabulary: [ieee O V] ([FloatSpec]); [exp_rounded]: the exponential is correctly
    rounded; [detector_calls], [half_ulp], [half_tiny] ([TrackSpec]); [periodic], [mean]
    ([MeterSpec]); [after] ([Device]). *)
From Coq Require Import ZArith Reals List Bool Lra Lia.
From Flocq Require Import Core.Core IEEE754.BinarySingleNaN.
From Verif Require Import Base Num NumF Witness FloatSpec AnalysisM Device Signal AnaSpec CrLibm TrackSpec MeterSpec MeterFLemmas.
Import ListNotations.
Open Scope R_scope.

(** C98: after any earlier calls, set to attack and release times of [len] samples and fed a
    signal that repeats every [P] samples, the detectors read, at sample [n], the mean
    magnitude resp. the mean power of the signal up to the ripple, the run-in and the
    rounding error. *)

Theorem C98_float_meter :
  forall (T : Type) (O : num_ops T) (V : float_view T), ieee O V -> exp_rounded O V ->
  forall (M L : R) (history : list (call (det_set T) T)) (len : T) (P : nat) (x : nat -> T) (n : nat),
    1 <= L <= bpow radix2 (fprec V - 2) ->
    detector_calls V M L history -> fin V len = true -> 1 <= val V len <= L ->
    periodic P (fun i => val V (x i)) -> (forall i, fin V (x i) = true /\ Rabs (val V (x i)) <= M) ->
    let calls := history ++ [CSet (SetAttack len); CSet (SetRelease len)] ++ map (fun i => CProcess (x i)) (seq 0 (n + 1)) in
    let off := (INR P - 1) / (2 * val V len) + exp (- (INR n / val V len)) in
    (M <= fmax V ->
     let y := peak_last_out (after (dev_peak O) calls) in
     fin V y = true
     /\ Rabs (val V y - mean P (fun i => Rabs (val V (x i))) 0)
        <= off * M + 8 * (L + 1) * (half_ulp V * M + half_tiny V))
    /\ (M * M <= fmax V ->
     let y := rms_last_out O (after (dev_rms O) calls) in
     fin V y = true
     /\ Rabs (val V y * val V y - mean P (fun i => val V (x i) * val V (x i)) 0)
        <= off * (M * M) + 16 * (L + 1) * (half_ulp V * (M * M) + half_tiny V)).
Proof. exact C98_float_meter_thm. Qed.
Print Assumptions C98_float_meter.

(** [f32], a correctly rounded exponential, one second at 48 kHz, a square wave. *)
Example C98_float_meter_hyps :
  let x := fun i : nat => if Nat.even i then fl32 1 0 else fl32 (-1) 0 in
  ieee O90 V90 /\ exp_rounded O90 V90 /\ 1 <= 48000 <= bpow radix2 (fprec V90 - 2)
  /\ detector_calls V90 1 48000 history90
  /\ fin V90 one_second = true /\ 1 <= val V90 one_second <= 48000
  /\ periodic 2 (fun i => val V90 (x i)) /\ (forall i, fin V90 (x i) = true /\ Rabs (val V90 (x i)) <= 1)
  /\ 1 <= fmax V90 /\ 1 * 1 <= fmax V90.
Proof. exact C98_float_wit. Qed.
