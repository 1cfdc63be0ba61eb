(** Property C119: fixed-point signals pass through the filters and delay lines without any
    rounding, as long as they fit.

    Vocabulary: [fixed], [fixed_coeffs], [swing] ([FixedSpec]); [has_coeffs], [all_finite], [vals],
    [stream] ([FltFilterSpec]); [obeys] ([Signal]); [ieee_line], [on_grid] ([OrderLineSpec]);
    [modulated], [heard], [earlier] ([ModSpec]); [lin_session] ([LinRun]). *)
From Coq Require Import ZArith Reals List Bool Lra Lia.
From Flocq Require Import Core.Core IEEE754.BinarySingleNaN.
From Verif Require Import Base Num NumR NumF Witness FloatSpec FilterM RbjM AnalysisM Device Signal FltFilterSpec FltFilterLemmas
  DelayM LinDelayM DelaySpec LinRun ModSpec OrderLineSpec FixedSpec FixedLemmas.
Import ListNotations.
Open Scope R_scope.

(** C119: samples that are multiples of 2^q, forward coefficients that are multiples of 2^p and
    integer feedback coefficients.  As long as the five terms of the exact difference equation add
    up to at most 2^(24 + p + q) in magnitude (2^53 for [f64]), what the filter returns is exactly
    what the exact equation says: not one rounding happens.  (For FIR filters that is for ever.) *)
Theorem C119_exact :
  forall (T : Type) (O : num_ops T) (V : float_view T), ieee O V ->
  forall (S K : Type) (D : device S K T) (k : K) (c : T * T * T * T * T),
    has_coeffs O D k c -> all_finite V c ->
  forall (x : nat -> T) (y : signal) (p q : Z) (N : nat),
    (-149 <= p + q <= 100)%Z ->
    fixed_coeffs p (vals V c) -> (forall n, fin V (x n) = true /\ fixed q (val V (x n))) ->
    obeys (vals V c) (fun n => val V (x n)) y ->
    (forall n, (n <= N)%nat -> swing (vals V c) (fun n => val V (x n)) y n <= bpow radix2 (fprec V + (p + q))) ->
    forall n, (n <= N)%nat -> fin V (stream D k x n) = true /\ val V (stream D k x n) = y n.
Proof. exact C119_exact_thm. Qed.
Print Assumptions C119_exact.

(** An accumulator (y[n] = x[n] + y[n-1]) fed with the integers 3, 3, 3, ... is exact for at
    least a million samples. *)
Example C119_exact_hyps :
  let V := ieee_view 24 128 in let c := (fl32 1 0, n_zero O32, n_zero O32, fl32 (-1) 0, n_zero O32) in
  has_coeffs O32 (dev_one_pole O32) (fl32 1 0, fl32 (-1) 0) c /\ all_finite V c /\ (-149 <= 0 + 0 <= 100)%Z
  /\ fixed_coeffs 0 (vals V c) /\ fixed 0 (val V (fl32 3 0))
  /\ obeys (vals V c) (fun n => val V ((fun _ => fl32 3 0) n)) (fun n => 3 * INR (n + 1))
  /\ forall n : nat, INR n <= 1000000 -> swing (vals V c) (fun n => val V ((fun _ => fl32 3 0) n)) (fun n => 3 * INR (n + 1)) n <= bpow radix2 (24 + (0 + 0)).
Proof.
  intros V c.
  assert (E1 : B2R (fl32 1 0) = 1) by (lit; lra). assert (E2 : B2R (fl32 (-1) 0) = -1) by (lit; lra).
  assert (E3 : B2R (fl32 3 0) = 3) by (lit; lra). assert (E0 : B2R (n_zero O32) = 0) by reflexivity.
  split; [apply hc_one_pole|]. split; [repeat split|]. split; [lia|].
  cbn [vals c V val ieee_view]. rewrite E1, E2, E3, E0.
  split; [repeat split; [exists 1%Z|exists 0%Z|exists 0%Z|exists (-1)%Z|exists 0%Z]; cbn; ring|].
  split; [exists 3%Z; cbn; ring|].
  assert (Bk : forall n, back 1 (fun n => 3 * INR (n + 1)) n = 3 * INR n).
  { intros [|n]; unfold back; cbn [Nat.leb]; [cbn; ring|]. do 2 f_equal. lia. }
  split.
  - intros n. rewrite Bk, plus_INR. cbn [INR]. ring.
  - intros n Hn. unfold swing. rewrite Bk, !Rmult_0_l, !Rabs_R0.
    rewrite Rabs_pos_eq by lra. replace (-1 * (3 * INR n)) with (- (3 * INR n)) by ring. rewrite Rabs_Ropp, Rabs_pos_eq by (assert (P := pos_INR n); lra).
    apply Rle_trans with 3000003; [lra|]. change (24 + (0 + 0))%Z with 24%Z. cbn. lra.
Qed.

(** C119: an FIR filter (TwoZero, OneZero, or a biquad without feedback) with coefficients that are
    multiples of 2^p, fed with multiples of 2^q not exceeding [M], is exact for ever if the sum of
    the coefficients' magnitudes times [M] is at most 2^(24 + p + q) (2^(53 + p + q) for [f64]). *)
Theorem C119_fir :
  forall (T : Type) (O : num_ops T) (V : float_view T), ieee O V ->
  forall (S K : Type) (D : device S K T) (k : K) (c : T * T * T * T * T),
    has_coeffs O D k c -> all_finite V c ->
  forall (x : nat -> T) (b0 b1 b2 M : R) (p q : Z),
    vals V c = (b0, b1, b2, 0, 0) -> (-149 <= p + q <= 100)%Z ->
    fixed p b0 -> fixed p b1 -> fixed p b2 ->
    (forall n, fin V (x n) = true /\ fixed q (val V (x n)) /\ Rabs (val V (x n)) <= M) ->
    (Rabs b0 + Rabs b1 + Rabs b2) * M <= bpow radix2 (fprec V + (p + q)) ->
    forall n, fin V (stream D k x n) = true
      /\ val V (stream D k x n) = b0 * val V (x n) + b1 * back 1 (fun i => val V (x i)) n + b2 * back 2 (fun i => val V (x i)) n.
Proof. exact C119_fir_thm. Qed.
Print Assumptions C119_fir.

(** 16-bit audio through the smoothing filter 1/4, 1/2, 1/4 in [f32]. *)
Example C119_fir_hyps :
  let V := ieee_view 24 128 in let c := (fl32 1 (-2), fl32 1 (-1), fl32 1 (-2), n_zero O32, n_zero O32) in
  has_coeffs O32 (dev_two_zero O32) (fl32 1 (-2), fl32 1 (-1), fl32 1 (-2)) c /\ all_finite V c
  /\ vals V c = (1 / 4, 1 / 2, 1 / 4, 0, 0) /\ (-149 <= -2 + -15 <= 100)%Z
  /\ fixed (-2) (1 / 4) /\ fixed (-2) (1 / 2)
  /\ fixed (-15) (val V (fl32 32767 (-15))) /\ Rabs (val V (fl32 32767 (-15))) <= 1
  /\ (Rabs (1 / 4) + Rabs (1 / 2) + Rabs (1 / 4)) * 1 <= bpow radix2 (24 + (-2 + -15)).
Proof.
  assert (E1 : B2R (fl32 1 (-2)) = 1 / 4) by (lit; lra). assert (E2 : B2R (fl32 1 (-1)) = 1 / 2) by (lit; lra).
  assert (E3 : B2R (fl32 32767 (-15)) = 32767 / 32768) by (lit; lra).
  split; [apply hc_two_zero|]. split; [repeat split|]. cbn [vals val ieee_view]. rewrite E1, E2, E3. split; [reflexivity|]. split; [lia|].
  split; [exists 1%Z; cbn; lra|]. split; [exists 2%Z; cbn; lra|]. split; [exists 32767%Z; cbn; lra|].
  split; [rewrite Rabs_pos_eq; lra|]. rewrite !Rabs_pos_eq by lra. cbn. lra.
Qed.

(** C119: a [LinearDelay] whose delay is moved before every sample in steps of 2^-j samples, fed
    with multiples of 2^q not exceeding [M] <= 2^(24 + q - j): every output is exactly the linear
    interpolation of the input the (clipped) delay earlier. *)
Theorem C119_linear_delay :
  forall (T : Type) (K : ctl_ops f32 T) (O : num_ops T) (V : float_view T), ieee_line K O V ->
  forall (p : profile) (d0 : f32) (m j q : Z) (d : nat -> f32) (x : nat -> T) (M : R) (n : nat),
    (0 <= m)%Z -> (0 <= j)%Z -> ((m + 1) * 2 ^ j <= 2 ^ 24)%Z -> (forall i, on_grid j (d i)) ->
    (-149 <= q - j <= 100)%Z ->
    (forall i, fin V (x i) = true /\ fixed q (val V (x i)) /\ Rabs (val V (x i)) <= M) ->
    M <= bpow radix2 (fprec V + (q - j)) ->
    exists s y, lin_session K O p d0 m (modulated d x n) = Ok (s, heard y n)
      /\ forall i, fin V (y i) = true
           /\ val V (y i) = earlier (fun k => val V (x k)) (Rmax 0 (Rmin (B2R (d i)) (IZR m))) i.
Proof. exact C119_linear_delay_thm. Qed.
Print Assumptions C119_linear_delay.

(** 16-bit audio through a line of 4096 slots in steps of 1/512 sample, in [f32]. *)
Example C119_linear_delay_hyps :
  let V := ieee_view 24 128 in
  ieee_line f32_ctl_f32 O32 V /\ ((4095 + 1) * 2 ^ 9 <= 2 ^ 24)%Z /\ on_grid 9 (fl32 1025 (-9)) /\ (-149 <= -15 - 9 <= 100)%Z
  /\ fixed (-15) (val V (fl32 32767 (-15))) /\ Rabs (val V (fl32 32767 (-15))) <= 1 /\ 1 <= bpow radix2 (24 + (-15 - 9)).
Proof.
  assert (E3 : B2R (fl32 32767 (-15)) = 32767 / 32768) by (lit; lra).
  split; [constructor|]. split; [lia|]. split; [split; [reflexivity|]; exists 1025%Z; lit; simpl; lra|]. split; [lia|].
  cbn [val ieee_view]. rewrite E3. split; [exists 32767%Z; cbn; lra|]. split; [rewrite Rabs_pos_eq; lra|cbn; lra].
Qed.

(** C119: the limit is sharp.  A [OnePole] used as an accumulator (b0 = 1, a1 = -1) and fed with
    ones counts 1, 2, 3, ... up to 2^24 = 16777216 in [f32] (2^53 in [f64]) and stays there for ever,
    silently, although every sample is finite; the sum it should hold goes on growing. *)
Theorem C119_accumulator_stalls :
  forall (T : Type) (O : num_ops T) (V : float_view T), ieee O V ->
  forall (b0 a1 : T) (x : nat -> T),
    fin V b0 = true -> fin V a1 = true -> (forall n, fin V (x n) = true) ->
    val V b0 = 1 -> val V a1 = -1 -> (forall n, val V (x n) = 1) ->
  forall n, fin V (stream (dev_one_pole O) (b0, a1) x n) = true
    /\ val V (stream (dev_one_pole O) (b0, a1) x n) = Rmin (INR (n + 1)) (bpow radix2 (fprec V)).
Proof. exact C119_accumulator_stalls_thm. Qed.
Print Assumptions C119_accumulator_stalls.

Example C119_accumulator_stalls_hyps :
  let V := ieee_view 24 128 in val V (fl32 1 0) = 1 /\ val V (fl32 (-1) 0) = -1 /\ fin V (fl32 1 0) = true /\ fin V (fl32 (-1) 0) = true.
Proof. cbn [val fin ieee_view]. split; [lit; lra|]. split; [lit; lra|]. split; reflexivity. Qed.

Theorem C119_accumulator_refuted :
  ~ (forall (x : nat -> f32) (y : signal),
       (forall n, is_finite (x n) = true /\ fixed 0 (B2R (x n)) /\ Rabs (B2R (x n)) <= 1) ->
       obeys (vals (ieee_view 24 128) (fl32 1 0, n_zero O32, n_zero O32, fl32 (-1) 0, n_zero O32)) (fun n => B2R (x n)) y ->
       forall n, B2R (stream (dev_one_pole O32) (fl32 1 0, fl32 (-1) 0) x n) = y n).
Proof. exact C119_accumulator_refuted_thm. Qed.
Print Assumptions C119_accumulator_refuted.
