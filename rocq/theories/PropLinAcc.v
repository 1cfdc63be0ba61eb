(** Property C96: streams through a floating-point [LinearDelay].

    Vocabulary: [lin_session K O p d m ops] is [LinearDelay::new(d, m)] followed by
    the calls [ops] ([LinRun]); [float_line K O val fin rnd] stands for
    [LinearDelay<f32>] and [LinearDelay<f64>], whose delay is an [f32] in both cases
    ([LinFloatSpec]); [behind zero x k i] is sample [i - k] of [x], zero before the
    start ([LinRun]). *)
From Coq Require Import ZArith Reals List Bool Lia Lra.
From Flocq Require Import Core.Core IEEE754.BinarySingleNaN.
From Verif Require Import Base Num NumR NumF Witness DelayM LinDelayM DelaySpec DelayRun
  LinSpec LinRun LinFloatSpec LinAccLemmas.
Import ListNotations.
Open Scope R_scope.

(** C96: [LinearDelay::new(d, m)] for [f32] or [f64] samples, on any stream of
    finite samples of size at most [M] and for a delay [d] = k + f between
    (m + 1) * 2^-23 and [m] (or exactly 0): [process] never fails, every output is
    finite, and it differs from the ideal interpolation
    (1 - f) x[i - k] + f x[i - k - 1] by at most (m + 2) * 2^-22 * M (plus the
    rounding of the very smallest numbers): the error grows with the length of the
    line, not with time. *)
Theorem C96_tracks_ideal :
  forall (T : Type) (K : ctl_ops f32 T) (O : num_ops T) (val : T -> R) (fin : T -> bool) (rnd : R -> R)
         (p : profile) (d : f32) (m : Z) (x : nat -> T) (M : R) (n : nat),
    float_line K O val fin rnd ->
    (0 <= m)%Z -> short (2 ^ 24) m -> is_finite d = true ->
    B2R d = 0 \/ IZR (m + 1) * bpow radix2 (-23) <= B2R d <= IZR m ->
    (forall i, fin (x i) = true /\ Rabs (val (x i)) <= M) -> M <= bpow radix2 126 ->
    let k := Z.to_nat (Zfloor (B2R d)) in
    let f := B2R d - IZR (Zfloor (B2R d)) in
    let X i := val (x i) in
    exists s y, lin_session K O p d m (map (fun i => DProcess (x i)) (seq 0 n))
        = Ok (s, map OSample (map y (seq 0 n)))
      /\ forall i, (i < n)%nat -> fin (y i) = true
         /\ Rabs (val (y i) - ((1 - f) * behind 0 X k i + f * behind 0 X (S k) i))
            <= IZR (m + 2) * bpow radix2 (-22) * M + bpow radix2 (-148).
Proof. exact C96_tracks_ideal_thm. Qed.
Print Assumptions C96_tracks_ideal.

(* LinearDelay::new(2.5, 7) on a stream of full-scale samples *)
Example C96_tracks_ideal_hyps :
  short (2 ^ 24) 7 /\ is_finite (fl32 5 (-1)) = true
  /\ IZR (7 + 1) * bpow radix2 (-23) <= B2R (fl32 5 (-1)) <= IZR 7
  /\ is_finite (fl32 1 0) = true /\ Rabs (B2R (fl32 1 0)) <= 1 /\ 1 <= bpow radix2 126.
Proof.
  split; [unfold short; lia|]. split; [reflexivity|].
  replace (B2R (fl32 5 (-1))) with (5 / 2) by (cbn; unfold F2R; cbn; lra).
  replace (B2R (fl32 1 0)) with 1 by (cbn; unfold F2R; cbn; lra).
  split; [cbn; lra|]. split; [reflexivity|]. split; [rewrite Rabs_R1; lra|].
  change 1 with (bpow radix2 0). apply bpow_le. lia.
Qed.

(** C96: what one bad sample can spoil.  For a delay of at least (m + 1) * 2^-23,
    output [i] depends only on the inputs from [i - ceil d] to [i - floor d + 1]:
    two streams, of any bits whatever, that agree there give the same output bits.
    A NaN or an infinity at time [j] is therefore gone for good after output
    [j + ceil d]. *)
Theorem C96_contained :
  forall (T : Type) (K : ctl_ops f32 T) (O : num_ops T) (val : T -> R) (fin : T -> bool) (rnd : R -> R)
         (p : profile) (d : f32) (m : Z) (x x' : nat -> T) (n : nat),
    float_line K O val fin rnd ->
    (0 <= m)%Z -> short (2 ^ 24) m -> is_finite d = true ->
    IZR (m + 1) * bpow radix2 (-23) <= B2R d <= IZR m ->
    exists s y s' y',
      lin_session K O p d m (map (fun i => DProcess (x i)) (seq 0 n)) = Ok (s, map OSample (map y (seq 0 n)))
      /\ lin_session K O p d m (map (fun i => DProcess (x' i)) (seq 0 n)) = Ok (s', map OSample (map y' (seq 0 n)))
      /\ forall i, (i < n)%nat ->
           (forall j, (j <= i)%nat ->
              (Z.of_nat i - Zceil (B2R d) <= Z.of_nat j <= Z.of_nat i - Zfloor (B2R d) + 1)%Z -> x j = x' j) ->
           y i = y' i.
Proof. exact C96_contained_thm. Qed.
Print Assumptions C96_contained.

Example C96_contained_hyps :
  short (2 ^ 24) 7 /\ is_finite (fl32 5 (-1)) = true
  /\ IZR (7 + 1) * bpow radix2 (-23) <= B2R (fl32 5 (-1)) <= IZR 7.
Proof.
  split; [unfold short; lia|]. split; [reflexivity|].
  replace (B2R (fl32 5 (-1))) with (5 / 2) by (cbn; unfold F2R; cbn; lra). cbn; lra.
Qed.

(** C96, refuted for a delay of exactly 0: the line then multiplies the sample
    [m] steps back by a zero weight, so an infinity or NaN that went through turns
    output [j + m] into NaN although the current sample is fine (with a
    delay of 0 the output ought to be the current sample). *)
Theorem C96_zero_delay_ghost_refuted :
  forall (T : Type) (K : ctl_ops f32 T) (O : num_ops T) (val : T -> R) (fin : T -> bool) (rnd : R -> R)
         (p : profile) (d : f32) (m : Z) (x : nat -> T) (j : nat) (n : nat),
    float_line K O val fin rnd ->
    (0 <= m)%Z -> short (2 ^ 24) m -> is_finite d = true -> B2R d = 0 ->
    fin (x j) = false ->
    exists s y, lin_session K O p d m (map (fun i => DProcess (x i)) (seq 0 n))
        = Ok (s, map OSample (map y (seq 0 n)))
      /\ ((j + Z.to_nat m < n)%nat -> fin (y (j + Z.to_nat m)%nat) = false).
Proof. exact C96_zero_delay_ghost_refuted_thm. Qed.
Print Assumptions C96_zero_delay_ghost_refuted.

Example C96_zero_delay_ghost_refuted_hyps :
  short (2 ^ 24) 7 /\ is_finite (fl32 0 0) = true /\ B2R (fl32 0 0) = 0
  /\ is_finite (B754_infinity false : f32) = false.
Proof. repeat split; try reflexivity. unfold short; lia. Qed.
