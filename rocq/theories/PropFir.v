(** Property C121: FIR filters of any length built from a delay line and its taps.

    Vocabulary: [delay_fir], [lin_fir], [weighted], [convolved], [loudness] ([FirSpec]);
    [at_ zero l n] is the [n]-th sample of the list [l] ([EchoSpec]); [behind zero x k n] is
    x[n - k], zero before the start ([LinRun]); [stream D k x n] is what a new filter configured
    with [k] returns for sample [n] of [x] ([FltFilterSpec]); [fixed q r]: [r] is a multiple of
    2^q ([FixedSpec]). *)
From Coq Require Import ZArith Reals List Bool Lra Lia.
From Flocq Require Import Core.Core IEEE754.BinarySingleNaN.
From Verif Require Import Base Num NumR NumF Witness FloatSpec FilterM RbjM AnalysisM Device Signal FltFilterSpec FltFilterLemmas
  DelayM LinDelayM DelaySpec DelayRun LinSpec LinRun EchoSpec FixedSpec FirSpec FirLemmas.
Import ListNotations.
Open Scope R_scope.

(** C121: on [Delay::new(d, m)], any [d], with at most m + 1 coefficients, the program never
    panics; in every arithmetic output [n] is h0 x[n] + h1 x[n-1] + ..., added in this order, and
    the line ends as if the input had only been processed. *)

Theorem C121_delay :
  forall (T : Type) (O : num_ops T) (p : profile) (h0 : T) (h : list T) (d m : Z) (xs : list T),
    (1 <= n_size_of O)%Z -> is_usize d -> is_usize m -> fits O m -> (Z.of_nat (length h) <= m)%Z ->
    exists e ys os, delay_fir O p h0 h d m xs = Ok (e, ys) /\ dl_session O p d m (map DProcess xs) = Ok (e, os)
      /\ length ys = length xs
      /\ forall n, (n < length xs)%nat -> at_ (n_zero O) ys n = weighted O h0 h (at_ (n_zero O) xs) n.
Proof. exact C121_delay_thm. Qed.
Print Assumptions C121_delay.

Example C121_delay_hyps : (1 <= n_size_of O32)%Z /\ is_usize 0 /\ is_usize 63 /\ fits O32 63 /\ (Z.of_nat (length (repeat (fl32 1 (-6)) 63)) <= 63)%Z.
Proof. repeat split; easy. Qed.

(** C121: the same on [LinearDelay::new(d, m)], whatever the delay [d]. *)

Theorem C121_linear_delay :
  forall (T : Type) (cast : f32 -> T) (O : num_ops T) (p : profile) (h0 : T) (h : list T) (d : f32) (m : Z) (xs : list T),
    (1 <= n_size_of O)%Z -> (n_size_of O * 2 ^ 24 <= isize_max)%Z -> is_usize m -> short (2 ^ 24) m -> (Z.of_nat (length h) <= m)%Z ->
    exists e ys os, lin_fir (f32_ctl_gen cast) O p h0 h d m xs = Ok (e, ys)
      /\ lin_session (f32_ctl_gen cast) O p d m (map DProcess xs) = Ok (e, os)
      /\ length ys = length xs
      /\ forall n, (n < length xs)%nat -> at_ (n_zero O) ys n = weighted O h0 h (at_ (n_zero O) xs) n.
Proof. exact C121_linear_delay_thm. Qed.
Print Assumptions C121_linear_delay.

Example C121_linear_delay_hyps : (1 <= n_size_of O64)%Z /\ (n_size_of O64 * 2 ^ 24 <= isize_max)%Z /\ is_usize 63 /\ short (2 ^ 24) 63
  /\ (Z.of_nat (length (repeat (fl64 1 (-6)) 63)) <= 63)%Z.
Proof. repeat split; easy. Qed.

(** C121: with two or three coefficients it is [OneZero] or [TwoZero], bit for bit, in every
    arithmetic. *)

Theorem C121_short :
  forall (T : Type) (O : num_ops T) (h0 h1 h2 : T) (x : nat -> T) (n : nat),
    weighted O h0 [h1] x n = stream (dev_one_zero O) (h0, h1) x n
    /\ weighted O h0 [h1; h2] x n = stream (dev_two_zero O) (h0, h1, h2) x n.
Proof. exact C121_short_thm. Qed.
Print Assumptions C121_short.

(** C121: the output forgets: in every arithmetic, whatever came before the last
    [length h] + 1 samples (infinities and NaN included) makes no difference. *)

Theorem C121_forgets :
  forall (T : Type) (O : num_ops T) (h0 : T) (h : list T) (x x' : nat -> T) (n n' : nat),
    (length h <= n)%nat -> (length h <= n')%nat ->
    (forall k, (k <= length h)%nat -> x (n - k)%nat = x' (n' - k)%nat) ->
    weighted O h0 h x n = weighted O h0 h x' n'.
Proof. exact C121_forgets_thm. Qed.
Print Assumptions C121_forgets.

(** Two signals that differ in an infinite sample at the start. *)
Example C121_forgets_hyps :
  let x i := match i with O => B754_infinity false | _ => fl32 1 0 end in let x' (_ : nat) := fl32 1 0 in
  (length [fl32 1 0; fl32 1 0] <= 3)%nat
  /\ (forall k, (k <= length [fl32 1 0; fl32 1 0])%nat -> x (3 - k)%nat = x' (3 - k)%nat) /\ x 0%nat <> x' 0%nat.
Proof.
  split; [cbn; lia|]. split; [|discriminate]. intros k Hk. cbn [length] in Hk.
  destruct k as [|[|[|k]]]; try reflexivity. lia.
Qed.

(** C121, exact arithmetic: the output is the convolution of the input with the coefficients. *)

Theorem C121_convolution :
  forall (h0 : R) (h : list R) (x : signal) (n : nat), weighted R_ops h0 h x n = convolved (h0 :: h) 0 x n.
Proof. exact C121_convolution_thm. Qed.
Print Assumptions C121_convolution.

(** C121, [f32] and [f64]: with N finite coefficients and finite samples, output [n] is finite and
    within ((1 + u)^N - 1) S + N (1 + u)^N eta of the exact convolution, where S is the sum of
    |h_k x[n-k]|, u = 2^-24 (2^-53) and eta half the smallest positive number, unless S is so
    large that the sum could overflow. *)

Theorem C121_accurate :
  forall (T : Type) (O : num_ops T) (V : float_view T), ieee O V ->
  forall (h0 : T) (h : list T) (x : nat -> T) (n : nat),
    (forall a, In a (h0 :: h) -> fin V a = true) -> (forall i, fin V (x i) = true) ->
    let N := Datatypes.S (length h) in
    let u := bpow radix2 (- fprec V) in
    let eta := u * fmin V in
    let X i := val V (x i) in
    let S := loudness (map (val V) (h0 :: h)) 0 X n in
    (1 + u) ^ N * (S + INR N * eta) <= fmax V ->
    fin V (weighted O h0 h x n) = true
    /\ Rabs (val V (weighted O h0 h x n) - convolved (map (val V) (h0 :: h)) 0 X n)
       <= ((1 + u) ^ N - 1) * S + INR N * (1 + u) ^ N * eta.
Proof. exact C121_accurate_thm. Qed.
Print Assumptions C121_accurate.

(** A smoother over four samples in [f32], on full-scale samples: S = 1. *)
Example C121_accurate_hyps :
  let V := ieee_view 24 128 in let h := [fl32 1 (-2); fl32 1 (-2); fl32 1 (-2)] in let x (_ : nat) := fl32 1 0 in
  (forall a, In a (fl32 1 (-2) :: h) -> fin V a = true) /\ (forall i, fin V (x i) = true)
  /\ loudness (map (val V) (fl32 1 (-2) :: h)) 0 (fun i => val V (x i)) 5 = 1
  /\ (1 + bpow radix2 (-24)) ^ 4 * (1 + INR 4 * (bpow radix2 (-24) * fmin V)) <= fmax V.
Proof.
  cbv zeta. split; [intros a Ha; cbn in Ha; intuition (subst; reflexivity)|]. split; [reflexivity|]. split.
  - cbn [map val ieee_view loudness]. unfold back. cbn [Nat.leb].
    assert (E1 : B2R (fl32 1 (-2)) = 1 / 4) by (lit; lra). assert (E2 : B2R (fl32 1 0) = 1) by (lit; lra).
    rewrite E1, E2, !Rabs_pos_eq by lra. lra.
  - cbn [fmin fmax ieee_view]. assert (A : bpow radix2 (-24) <= 1) by (cbn; lra). assert (A0 := bpow_gt_0 radix2 (-24)).
    assert (B : bpow radix2 (2 - 128) <= 1) by (apply (bpow_le radix2 _ 0); lia). assert (B0 := bpow_gt_0 radix2 (2 - 128)).
    apply Rle_trans with (2 ^ 4 * (1 + 4 * (1 * 1))).
    + apply Rmult_le_compat.
      * apply pow_le. lra.
      * assert (0 <= INR 4 * (bpow radix2 (-24) * bpow radix2 (2 - 128))) by (apply Rmult_le_pos; [apply pos_INR|apply Rmult_le_pos; lra]). lra.
      * apply pow_incr. lra.
      * apply Rplus_le_compat_l. apply Rmult_le_compat; [apply pos_INR|apply Rmult_le_pos; lra|cbn; lra|]. apply Rmult_le_compat; lra.
    + apply Rle_trans with (/ 2 * bpow radix2 8); [cbn; lra|]. apply Rmult_le_compat; [lra|apply bpow_ge_0|cbn; lra|apply bpow_le; lia].
Qed.

(** C121: exact for fixed-point signals: coefficients multiples of 2^p, samples multiples of 2^q,
    and S at most 2^(24 + p + q) (2^(53 + p + q) in [f64]). *)

Theorem C121_fixed :
  forall (T : Type) (O : num_ops T) (V : float_view T), ieee O V ->
  forall (h0 : T) (h : list T) (x : nat -> T) (p q : Z) (n : nat), (-149 <= p + q <= 100)%Z ->
    (forall a, In a (h0 :: h) -> fin V a = true /\ fixed p (val V a)) ->
    (forall i, fin V (x i) = true /\ fixed q (val V (x i))) ->
    loudness (map (val V) (h0 :: h)) 0 (fun i => val V (x i)) n <= bpow radix2 (fprec V + (p + q)) ->
    fin V (weighted O h0 h x n) = true
    /\ val V (weighted O h0 h x n) = convolved (map (val V) (h0 :: h)) 0 (fun i => val V (x i)) n.
Proof. exact C121_fixed_thm. Qed.
Print Assumptions C121_fixed.

Example C121_fixed_hyps :
  let V := ieee_view 24 128 in let h := [fl32 1 (-2); fl32 1 (-2); fl32 1 (-2)] in let x (_ : nat) := fl32 32767 (-15) in
  (-149 <= -2 + -15 <= 100)%Z /\ (forall a, In a (fl32 1 (-2) :: h) -> fin V a = true /\ fixed (-2) (val V a))
  /\ (forall i, fin V (x i) = true /\ fixed (-15) (val V (x i)))
  /\ loudness (map (val V) (fl32 1 (-2) :: h)) 0 (fun i => val V (x i)) 5 <= bpow radix2 (24 + (-2 + -15)).
Proof.
  assert (E1 : B2R (fl32 1 (-2)) = 1 / 4) by (lit; lra). assert (E2 : B2R (fl32 32767 (-15)) = 32767 / 32768) by (lit; lra).
  assert (Q : fixed (-2) (B2R (fl32 1 (-2)))) by (rewrite E1; exists 1%Z; cbn; lra).
  cbv zeta. split; [lia|]. split; [intros a Ha; cbn in Ha; intuition (subst; auto)|].
  split; [intros _; split; [reflexivity|]; cbn [val ieee_view]; rewrite E2; exists 32767%Z; cbn; lra|].
  cbn [map val ieee_view loudness]. unfold back. cbn [Nat.leb]. rewrite E1, E2, !Rabs_pos_eq by lra.
  change (24 + (-2 + -15))%Z with 7%Z. cbn. lra.
Qed.
