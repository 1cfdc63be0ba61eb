(** Property C98: the detectors as level meters for periodic signals, in exact
    arithmetic.

    Vocabulary: [meters D level] says what detector [D] meters, magnitude
    ([PeakEnvDetector]) or power ([RmsEnvDetector]); [periodic], [mean], [levels],
    [with_times] are in [MeterSpec]; [after], [out], [approaches] in [Device] and
    [Signal]. *)
From Coq Require Import ZArith Reals List Bool Lra Lia.
From Coquelicot Require Import Coquelicot.
From Verif Require Import Base Num NumR AnalysisM Device Signal AnaSpec MeterSpec MeterLemmas.
Import ListNotations.
Open Scope R_scope.

(** C98: with attack and release times equal to [L], after any earlier calls, the
    mean level of the readings over a period converges to the mean level of the
    signal: the difference shrinks by exactly exp(-1/L) per sample. *)
Theorem C98_mean_reading :
  forall (S : Type) (D : detector S R) (level : R -> R) (history : list (call (det_set R) R))
         (L : R) (P : nat) (x : signal) (n : nat),
    meters D level -> 0 < L -> periodic P x ->
    let y := out (det_dev D) (after (det_dev D) (with_times history L L)) x in
    mean P (levels level y) n - mean P (levels level x) 0
    = exp (- (INR n / L)) * (mean P (levels level y) 0 - mean P (levels level x) 0).
Proof. exact C98_mean_reading_thm. Qed.
Print Assumptions C98_mean_reading.

(** C98: hence every single reading comes within the ripple (P-1)/(2L) of the mean
    level, relative to the loudest level. *)
Theorem C98_reading_error :
  forall (S : Type) (D : detector S R) (level : R -> R) (history : list (call (det_set R) R))
         (L M : R) (P : nat) (x : signal) (n : nat),
    meters D level -> 0 < L -> periodic P x ->
    let s := after (det_dev D) (with_times history L L) in
    (forall i, Rabs (x i) <= M) -> d_last_out (det_dev D) s <= M ->
    Rabs (level (out (det_dev D) s x n) - mean P (levels level x) 0)
    <= ((INR P - 1) / (2 * L) + exp (- (INR n / L))) * level M.
Proof. exact C98_reading_error_thm. Qed.
Print Assumptions C98_reading_error.

(** C98: with an attack at most as long as the release, the mean reading ends up at
    or above the mean level; with an attack at least as long, at or below it. *)
Theorem C98_attack_bias :
  forall (S : Type) (D : detector S R) (level : R -> R) (history : list (call (det_set R) R))
         (La Lr : R) (P : nat) (x : signal) (n : nat),
    meters D level -> 0 < La -> 0 < Lr -> periodic P x ->
    let y := out (det_dev D) (after (det_dev D) (with_times history La Lr)) x in
    let excess k := mean P (levels level y) k - mean P (levels level x) 0 in
    (La <= Lr -> exp (- (INR n / Lr)) * excess 0%nat <= excess n)
    /\ (Lr <= La -> excess n <= exp (- (INR n / Lr)) * excess 0%nat).
Proof. exact C98_attack_bias_thm. Qed.
Print Assumptions C98_attack_bias.

(** C98: whatever was fed before, the difference to the readings after another past
    shrinks at least by exp(-1/max(La, Lr)) per sample. *)
Theorem C98_forgets :
  forall (S : Type) (D : detector S R) (level : R -> R) (history history' : list (call (det_set R) R))
         (La Lr : R) (x : signal) (n : nat),
    meters D level -> 0 < La -> 0 < Lr ->
    let s := after (det_dev D) (with_times history La Lr) in
    let s' := after (det_dev D) (with_times history' La Lr) in
    Rabs (level (out (det_dev D) s x n) - level (out (det_dev D) s' x n))
    <= exp (- (INR (n + 1) / Rmax La Lr))
       * Rabs (level (d_last_out (det_dev D) s) - level (d_last_out (det_dev D) s')).
Proof. exact C98_forgets_thm. Qed.
Print Assumptions C98_forgets.

(** C98: the readings of a periodic signal settle into one periodic pattern, the same
    after every past. *)
Theorem C98_settles :
  forall (S : Type) (D : detector S R) (level : R -> R) (La Lr : R) (P : nat) (x : signal),
    meters D level -> 0 < La -> 0 < Lr -> periodic P x ->
    exists z, periodic P z /\
      forall history : list (call (det_set R) R),
        approaches (levels level (out (det_dev D) (after (det_dev D) (with_times history La Lr)) x)) z.
Proof. exact C98_settles_thm. Qed.
Print Assumptions C98_settles.

(** C98: a detector whose attack was never set holds peaks: a reading is never below
    the level of any earlier sample decayed by exp(-1/L) per sample since. *)
Theorem C98_peak_hold :
  forall (S : Type) (D : detector S R) (level : R -> R) (history : list (call (det_set R) R))
         (L : R) (x : signal) (k j : nat),
    meters D level -> 0 < L -> (forall l, ~ In (CSet (SetAttack l)) history) ->
    let s := after (det_dev D) (history ++ [CSet (SetRelease L)]) in
    exp (- (INR j / L)) * level (x k) <= level (out (det_dev D) s x (k + j)%nat).
Proof. exact C98_peak_hold_thm. Qed.
Print Assumptions C98_peak_hold.

(** C98: so [RmsEnvDetector] reads A/sqrt 2 for a sinusoid of amplitude A making m
    whole cycles in P samples, up to the ripple. *)
Theorem C98_rms_of_sinusoid :
  forall (history : list (call (det_set R) R)) (L A phi : R) (m P n : nat),
    0 < L -> 0 <= A -> (0 < 2 * m < P)%nat ->
    let s := after (dev_rms R_ops) (with_times history L L) in
    let x := sinusoid A (2 * PI * INR m / INR P) phi in
    d_last_out (dev_rms R_ops) s <= A ->
    Rabs ((out (dev_rms R_ops) s x n)² - A² / 2)
    <= ((INR P - 1) / (2 * L) + exp (- (INR n / L))) * A².
Proof. exact C98_rms_of_sinusoid_thm. Qed.
Print Assumptions C98_rms_of_sinusoid.

(** C98: a case that meets the hypotheses: 441 Hz at 44.1 kHz (one cycle in 100
    samples), a meter of 4410 samples (100 ms), set on a new detector. *)
Example C98_hyps :
  meters (peak_detector R_ops) Rabs /\ meters (rms_detector R_ops) Rsqr
  /\ periodic 2 (sinusoid 1 PI 0)
  /\ (0 < 2 * 1 < 100)%nat
  /\ d_last_out (dev_rms R_ops) (after (dev_rms R_ops) (with_times [] 4410 4410)) <= 1
  /\ (forall l : R, ~ In (CSet (SetAttack l)) ([CProcess 1; CClear] : list (call (det_set R) R))).
Proof. exact C98_wit. Qed.
