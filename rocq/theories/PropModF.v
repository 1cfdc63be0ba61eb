(** Property C108, [LinearDelay<f32>] and [LinearDelay<f64>]: delay lines whose delay changes
    with every sample.

    Vocabulary: [ModSpec] ([modulated], [heard], [earlier]); [lin_session K O p d0 m ops] is
    [LinearDelay::new(d0, m)] followed by the calls [ops] ([LinRun]);
    [float_line K O val fin rnd] stands for [LinearDelay<f32>] and [LinearDelay<f64>], whose
    delay is an [f32] in both cases; [clip32 d m] is the request [d] clipped to [0, m],
    [pos32 len w c] the read position w - c modulo the line length as computed with two [f32]
    roundings ([LinFloatSpec]). *)
From Coq Require Import ZArith Reals List Bool Lia Lra.
From Flocq Require Import Core.Core IEEE754.BinarySingleNaN.
From Verif Require Import Base Num NumR NumF Witness DelayM LinDelayM DelaySpec DelayRun
  LinSpec LinRun LinFloatSpec ModSpec ModFLemmas.
Import ListNotations.
Open Scope R_scope.

(** C108, floating point: a modulated [LinearDelay] of at most 2^24 slots never fails,
    whatever the requested delays (even NaN).  At every step [i] with a delay that is not NaN
    and whose read position does not round up to the line length, the output is finite and
    within (m + 2) 2^-22 M (plus the rounding of the very smallest numbers) of the input
    signal the clipped delay earlier, [M] bounding the samples: no matter what was requested
    in the steps before. *)

Theorem C108_float :
  forall (T : Type) (K : ctl_ops f32 T) (O : num_ops T) (val : T -> R) (fin : T -> bool) (rnd : R -> R)
         (p : profile) (d0 : f32) (m : Z) (d : nat -> f32) (x : nat -> T) (M : R) (n : nat),
    float_line K O val fin rnd -> (0 <= m)%Z -> short (2 ^ 24) m ->
    exists s y, lin_session K O p d0 m (modulated d x n) = Ok (s, heard y n)
      /\ ((forall i, fin (x i) = true /\ Rabs (val (x i)) <= M) -> M <= bpow radix2 126 ->
          forall i, let c := clip32 (d i) (IZR m) in
            d i <> B754_nan -> pos32 (m + 1) (Z.of_nat i mod (m + 1)) c < IZR (m + 1) ->
            fin (y i) = true
            /\ Rabs (val (y i) - earlier (fun k => val (x k)) c i)
               <= IZR (m + 2) * bpow radix2 (-22) * M + bpow radix2 (-148)).
Proof. exact C108_float_thm. Qed.
Print Assumptions C108_float.

(** A sweep of whole-sample delays on 8 slots of [f32]: no position rounds up. *)
Example C108_float_hyps :
  let d := fun i : nat => fl32 (Z.of_nat (i mod 4)) 0 in
  short (2 ^ 24) 7 /\ (forall i, d i <> B754_nan)
  /\ pos32 (7 + 1) (Z.of_nat 3 mod (7 + 1)) 1 < IZR (7 + 1)
  /\ is_finite (fl32 1 0) = true /\ Rabs (B2R (fl32 1 0)) <= 1 /\ 1 <= bpow radix2 126.
Proof.
  intros d. unfold d. split; [unfold short; lia|]. split; [|split].
  { intros i. assert (H : (i mod 4 < 4)%nat) by (apply Nat.mod_upper_bound; lia).
    destruct (i mod 4)%nat as [|[|[|[|k]]]]; try discriminate; lia. }
  { change (Z.of_nat 3 mod (7 + 1))%Z with 3%Z. unfold pos32. replace (3 - 1) with (IZR 2) by (simpl; ring).
    rewrite (LinCtlF.RN32_small 2) by lia. rewrite Rlt_bool_false by (simpl; lra). simpl; lra. }
  replace (B2R (fl32 1 0)) with 1 by (cbn; unfold F2R; cbn; lra).
  split; [reflexivity|]. split; [rewrite Rabs_R1; lra|].
  change 1 with (bpow radix2 0). apply bpow_le. lia.
Qed.

(** C108, delays on a grid: if every requested delay is a multiple of 2^-j samples with
    (m + 1) 2^j <= 2^24, every step is finite and accurate to 2^-22 of full scale: the error
    then depends neither on the length of the line nor on time. *)

Theorem C108_float_grid :
  forall (T : Type) (K : ctl_ops f32 T) (O : num_ops T) (val : T -> R) (fin : T -> bool) (rnd : R -> R)
         (p : profile) (d0 : f32) (m j : Z) (d : nat -> f32) (x : nat -> T) (M : R) (n : nat),
    float_line K O val fin rnd -> (0 <= m)%Z -> (0 <= j)%Z -> ((m + 1) * 2 ^ j <= 2 ^ 24)%Z ->
    (forall i, is_finite (d i) = true /\ exists k, B2R (d i) = IZR k / IZR (2 ^ j)) ->
    (forall i, fin (x i) = true /\ Rabs (val (x i)) <= M) -> M <= bpow radix2 126 ->
    exists s y, lin_session K O p d0 m (modulated d x n) = Ok (s, heard y n)
      /\ forall i, fin (y i) = true
           /\ Rabs (val (y i) - earlier (fun k => val (x k)) (Rmax 0 (Rmin (B2R (d i)) (IZR m))) i)
              <= bpow radix2 (-22) * M + bpow radix2 (-148).
Proof. exact C108_float_grid_thm. Qed.
Print Assumptions C108_float_grid.

(** Delays in steps of 1/4 sample on a line of 8 slots, sweeping between 0 and 7.75. *)
Example C108_float_grid_hyps :
  let d := fun i : nat => fl32 (Z.of_nat (i mod 32)) (-2) in
  (0 <= 7)%Z /\ (0 <= 2)%Z /\ ((7 + 1) * 2 ^ 2 <= 2 ^ 24)%Z
  /\ forall i, is_finite (d i) = true /\ exists k, B2R (d i) = IZR k / IZR (2 ^ 2).
Proof.
  intros d. unfold d. split; [lia|]. split; [lia|]. split; [lia|].
  intros i. assert (H : (i mod 32 < 32)%nat) by (apply Nat.mod_upper_bound; lia).
  set (r := (i mod 32)%nat) in *. clearbody r.
  do 32 (destruct r as [|r]; [split; [reflexivity|]; match goal with |- exists k, B2R (fl32 ?z _) = _ => exists z end; cbn; unfold F2R; cbn; lra|]). lia.
Qed.

(** C108, refuted without the grid: on every line of 5 to 2^24 slots, a sweep that passes
    through the delay 1 + 2^-23 at its second step returns there - m times the first sample
    plus m + 1 times the second, where the signal about one sample earlier was asked for. *)

Theorem C108_sweep_blows_up_refuted :
  forall (T : Type) (K : ctl_ops f32 T) (O : num_ops T) (val : T -> R) (fin : T -> bool) (rnd : R -> R)
         (p : profile) (d0 : f32) (m : Z) (d : nat -> f32) (x : nat -> T) (n : nat),
    float_line K O val fin rnd -> (4 <= m < 2 ^ 24)%Z -> d 1%nat = fl32 8388609 (-23) ->
    B2R (d 1%nat) = 1 + bpow radix2 (-23)
    /\ exists s y wo wn, lin_session K O p d0 m (modulated d x n) = Ok (s, heard y n)
      /\ y 1%nat = n_add O (n_mul O (x 0%nat) wo) (n_mul O (x 1%nat) wn)
      /\ fin wo = true /\ val wo = - IZR m
      /\ fin wn = true /\ val wn = IZR (m + 1).
Proof. exact C108_sweep_blows_up_refuted_thm. Qed.
Print Assumptions C108_sweep_blows_up_refuted.

Example C108_sweep_blows_up_refuted_hyps :
  (4 <= 4095 < 2 ^ 24)%Z /\ (fun _ : nat => fl32 8388609 (-23)) 1%nat = fl32 8388609 (-23).
Proof. split; [lia|reflexivity]. Qed.
