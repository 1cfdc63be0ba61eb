(** Property C127: an FIR filter that writes ahead with [add_to].

    Vocabulary: [scatter], [piled] ([ScatterSpec]); [weighted], [convolved], [loudness]: the FIR filter of
    C121 and its exact value ([FirSpec]); [fixed q r]: [r] is a multiple of 2^q ([FixedSpec]);
    [dl_history], [timing_trusted] ([DelayRun]). *)
From Coq Require Import ZArith Reals List Bool Lia Lra.
From Flocq Require Import Core.Core IEEE754.BinarySingleNaN.
From Verif Require Import Base Num NumR NumF Witness FloatSpec Signal DelayM DelaySpec DelayRun DelayLemmas EchoSpec FixedSpec
  FltFilterLemmas FirSpec ScatterSpec ScatterLemmas.
Import ListNotations.
Open Scope Z_scope.

Ltac sane := repeat constructor; unfold op_sane, is_usize, op_usize; repeat split;
  try discriminate; try (intros; discriminate); easy.
Ltac history := unfold dl_history, is_usize; split; [easy|];
  split; [easy|]; split; [discriminate|]; split; [sane|];
  eexists; vm_compute; reflexivity.

(** C127: on a [Delay] with any history, write-ahead filtering never panics, and output [n] is, bit for bit
    and in every arithmetic, what the line already held for that moment plus the products of the coefficients
    with the recent input, the oldest sample's product added first. *)
Theorem C127_scatter :
  forall (T : Type) (O : num_ops T) (p : profile) (d m : Z) (ops : list (dl_op Z T)) (s : delay T) (h xs : list T),
    1 <= n_size_of O -> dl_history O p d m ops s -> timing_trusted ops -> 1 <= delay_get_delay s ->
    let D := delay_get_delay s in Z.of_nat (length h) <= D ->
    exists s' ys, scatter O p h s xs = Ok (s', ys) /\ length ys = length xs /\ delay_get_delay s' = D
      /\ forall n, (n < length xs)%nat -> exists v,
           (Z.of_nat n < D -> delay_tap_out p s (D - 1 - Z.of_nat n) = Ok v) /\ (D <= Z.of_nat n -> v = n_zero O)
           /\ at_ (n_zero O) ys n = piled O v 0 h (at_ (n_zero O) xs) n.
Proof. exact C127_scatter_thm. Qed.
Print Assumptions C127_scatter.

(* a line holding 0, a, b (b newest) and two coefficients *)
Example C127_scatter_hyps (a b f g : f64) :
  exists s, dl_history O64 Debug 3 7 [DProcess a; DProcess b] s
    /\ timing_trusted (T := f64) [DProcess a; DProcess b] /\ delay_get_delay s = 3 /\ Z.of_nat (length [f; g]) <= 3.
Proof. eexists. split; [history|]. split; [reflexivity|]. split; [reflexivity|cbn; lia]. Qed.

(** C127: so a new [Delay::new(d, m)] with at most [d] coefficients is an FIR filter. *)
Theorem C127_new :
  forall (T : Type) (O : num_ops T) (p : profile) (d m : Z) (h xs : list T),
    1 <= n_size_of O -> 1 <= d <= m -> is_usize m -> fits O m -> Z.of_nat (length h) <= d ->
    exists line s' ys, delay_new O p d m = Ok line /\ scatter O p h line xs = Ok (s', ys) /\ length ys = length xs
      /\ forall n, (n < length xs)%nat -> at_ (n_zero O) ys n = piled O (n_zero O) 0 h (at_ (n_zero O) xs) n.
Proof. exact C127_new_thm. Qed.
Print Assumptions C127_new.

Example C127_new_hyps : 1 <= n_size_of O32 /\ 1 <= 64 <= 100 /\ is_usize 100 /\ fits O32 100 /\ Z.of_nat (length (repeat (fl32 1 (-6)) 64)) <= 64.
Proof. repeat split; easy. Qed.

(** C127, exact arithmetic: the products add up to the convolution of the input with the coefficients. *)
Theorem C127_convolution :
  forall (v : R) (h : list R) (x : signal) (n : nat), piled R_ops v 0 h x n = (v + convolved h 0 x n)%R.
Proof. exact C127_convolution_thm. Qed.
Print Assumptions C127_convolution.

(** C127, [f32] and [f64]: the N products are added with an error of at most
    ((1 + u)^(N+1) - 1) S + N (1 + u)^(N+1) eta, as in C121. *)
Theorem C127_accurate :
  forall (T : Type) (O : num_ops T) (V : float_view T), ieee O V ->
  forall (h : list T) (x : nat -> T) (n : nat),
    (forall a, In a h -> fin V a = true) -> (forall i, fin V (x i) = true) ->
    let N := length h in
    let u := bpow radix2 (- fprec V) in
    let eta := (u * fmin V)%R in
    let X i := val V (x i) in
    let S := loudness (map (val V) h) 0 X n in
    ((1 + u) ^ (N + 1) * (S + INR N * eta) <= fmax V)%R ->
    fin V (piled O (n_zero O) 0 h x n) = true
    /\ (Rabs (val V (piled O (n_zero O) 0 h x n) - convolved (map (val V) h) 0 X n)
       <= ((1 + u) ^ (N + 1) - 1) * S + INR N * (1 + u) ^ (N + 1) * eta)%R.
Proof. exact C127_accurate_thm. Qed.
Print Assumptions C127_accurate.

(* two coefficients 1/2 on full-scale samples: S = 1 *)
Example C127_accurate_hyps :
  let V := ieee_view 24 128 in let h := [fl32 1 (-1); fl32 1 (-1)] in let x (_ : nat) := fl32 1 0 in
  (forall a, In a h -> fin V a = true) /\ (forall i, fin V (x i) = true)
  /\ (loudness (map (val V) h) 0 (fun i => val V (x i)) 5 = 1
      /\ (1 + bpow radix2 (-24)) ^ (2 + 1) * (1 + INR 2 * (bpow radix2 (-24) * fmin V)) <= fmax V)%R.
Proof.
  cbv zeta. split; [intros a Ha; cbn in Ha; intuition (subst; reflexivity)|]. split; [reflexivity|]. split.
  - cbn [map val ieee_view loudness]. unfold back. cbn [Nat.leb].
    assert (E1 : B2R (fl32 1 (-1)) = (1 / 2)%R) by (lit; lra). assert (E2 : B2R (fl32 1 0) = 1%R) by (lit; lra).
    rewrite E1, E2, !Rabs_pos_eq by lra. lra.
  - cbn [fmin fmax ieee_view]. assert (A : (bpow radix2 (-24) <= 1)%R) by (cbn; lra). assert (A0 := bpow_gt_0 radix2 (-24)).
    assert (B : (bpow radix2 (2 - 128) <= 1)%R) by (apply (bpow_le radix2 _ 0); lia). assert (B0 := bpow_gt_0 radix2 (2 - 128)).
    apply Rle_trans with (2 ^ 3 * (1 + 2 * (1 * 1)))%R.
    + apply Rmult_le_compat.
      * apply pow_le. lra.
      * assert (0 <= INR 2 * (bpow radix2 (-24) * bpow radix2 (2 - 128)))%R by (apply Rmult_le_pos; [apply pos_INR|apply Rmult_le_pos; lra]). lra.
      * apply pow_incr. lra.
      * apply Rplus_le_compat_l. apply Rmult_le_compat; [apply pos_INR|apply Rmult_le_pos; lra|cbn; lra|]. apply Rmult_le_compat; lra.
    + apply Rle_trans with (/ 2 * bpow radix2 8)%R; [cbn; lra|]. apply Rmult_le_compat; [lra|apply bpow_ge_0|cbn; lra|apply bpow_le; lia].
Qed.

(** C127: on fixed-point signals and coefficients the write-ahead filter and the tap-reading filter of C121
    return the same numbers. *)
Theorem C127_fixed :
  forall (T : Type) (O : num_ops T) (V : float_view T), ieee O V ->
  forall (h0 : T) (h : list T) (x : nat -> T) (p q : Z) (n : nat), (-149 <= p + q <= 100)%Z ->
    (forall a, In a (h0 :: h) -> fin V a = true /\ fixed p (val V a)) ->
    (forall i, fin V (x i) = true /\ fixed q (val V (x i))) ->
    (loudness (map (val V) (h0 :: h)) 0 (fun i => val V (x i)) n <= bpow radix2 (fprec V + (p + q)))%R ->
    fin V (piled O (n_zero O) 0 (h0 :: h) x n) = true
    /\ val V (piled O (n_zero O) 0 (h0 :: h) x n) = convolved (map (val V) (h0 :: h)) 0 (fun i => val V (x i)) n
    /\ val V (piled O (n_zero O) 0 (h0 :: h) x n) = val V (weighted O h0 h x n).
Proof. exact C127_fixed_thm. Qed.
Print Assumptions C127_fixed.

(* 16-bit samples, coefficients 1/4 *)
Example C127_fixed_hyps :
  let V := ieee_view 24 128 in let x (_ : nat) := fl32 32767 (-15) in
  (-149 <= -2 + -15 <= 100)%Z /\ (forall a, In a [fl32 1 (-2); fl32 1 (-2)] -> fin V a = true /\ fixed (-2) (val V a))
  /\ (forall i, fin V (x i) = true /\ fixed (-15) (val V (x i)))
  /\ (loudness (map (val V) [fl32 1 (-2); fl32 1 (-2)]) 0 (fun i => val V (x i)) 5 <= bpow radix2 (24 + (-2 + -15)))%R.
Proof.
  cbv zeta. cbn [val fin ieee_view]. assert (E1 : B2R (fl32 1 (-2)) = (1 / 4)%R) by (lit; lra).
  assert (E2 : B2R (fl32 32767 (-15)) = (32767 / 32768)%R) by (lit; lra).
  split; [lia|]. split; [|split].
  - intros a Ha. cbn in Ha. assert (a = fl32 1 (-2)) as -> by intuition. split; [reflexivity|]. exists 1%Z. rewrite E1. cbn. lra.
  - intros _. split; [reflexivity|]. exists 32767%Z. rewrite E2. cbn. lra.
  - cbn [map loudness]. unfold back. cbn [Nat.leb]. rewrite E1, E2, !Rabs_pos_eq by lra. cbn. lra.
Qed.

(** C127: beyond fixed point the two programs are different filters: their sums are rounded in different
    orders. *)
Theorem C127_same_rounding_refuted :
  ~ (forall (h0 : f32) (h : list f32) (x : nat -> f32) (n : nat),
       (forall a, In a (h0 :: h) -> a = fl32 1 0) -> (forall i, is_finite (x i) = true) ->
       B2R (piled O32 (n_zero O32) 0 (h0 :: h) x n) = B2R (weighted O32 h0 h x n)).
Proof. exact C127_same_rounding_refuted_thm. Qed.
Print Assumptions C127_same_rounding_refuted.
