(** Property C122: scaling a signal by a power of two scales what filters and detectors return,
    bit for bit.

    Vocabulary: [louder], [zero_or], [normal_terms], [reading] ([ScaleSpec]); [has_coeffs],
    [all_finite], [vals], [stream] ([FltFilterSpec]). *)
From Coq Require Import ZArith Reals List Bool Lra Lia.
From Flocq Require Import Core.Core IEEE754.BinarySingleNaN.
From Verif Require Import Base Num NumR NumF Witness FloatSpec FilterM RbjM AnalysisM Device Signal FltFilterSpec FltFilterLemmas
  ScaleSpec ScaleLemmas.
Import ListNotations.
Open Scope R_scope.

(** C122: every filter.  Feed it once [x], once 2^e times [x].  Where the louder output is
    finite, and while none of the products of the quieter run is subnormal, the louder output is
    exactly 2^e times the quieter one: gain staging in steps of 6.02 dB costs no accuracy at all. *)

Theorem C122_filters :
  forall (T : Type) (O : num_ops T) (V : float_view T), ieee O V ->
  forall (S K : Type) (D : device S K T) (k : K) (c : T * T * T * T * T), has_coeffs O D k c ->
  forall (x x' : nat -> T) (e : Z) (N : nat), (0 <= e)%Z -> louder V e x x' ->
    (forall n, (n <= N)%nat -> normal_terms V (vals V c) (fun i => val V (x i)) (fun i => val V (stream D k x i)) n) ->
    forall n, (n <= N)%nat -> fin V (stream D k x' n) = true -> fin V (stream D k x n) = true
      /\ val V (stream D k x' n) = val V (stream D k x n) * bpow radix2 e.
Proof. exact C122_filters_thm. Qed.
Print Assumptions C122_filters.

(** Averaging two samples, 18 dB (2^3) louder. *)
Example C122_filters_hyps :
  let V := ieee_view 24 128 in let c := (fl32 1 (-1), fl32 1 (-1), n_zero O32, n_zero O32, n_zero O32) in
  let x (_ : nat) := fl32 1 0 in
  has_coeffs O32 (dev_one_zero O32) (fl32 1 (-1), fl32 1 (-1)) c /\ louder V 3 x (fun _ => fl32 8 0)
  /\ (forall n y, normal_terms V (vals V c) (fun i => val V (x i)) y n)
  /\ fin V (stream (dev_one_zero O32) (fl32 1 (-1), fl32 1 (-1)) (fun _ => fl32 8 0) 5) = true.
Proof.
  assert (E1 : B2R (fl32 1 (-1)) = 1 / 2) by (lit; lra). assert (E2 : B2R (fl32 1 0) = 1) by (lit; lra).
  assert (E3 : B2R (fl32 8 0) = 8) by (lit; lra). assert (E0 : B2R (n_zero O32) = 0) by reflexivity.
  cbv zeta. split; [apply hc_one_zero|]. split.
  { intros n. split; [reflexivity|]. split; [reflexivity|]. cbn [val ieee_view]. rewrite E2, E3. cbn. lra. }
  split; [|reflexivity]. intros n y. unfold normal_terms. cbn [vals val fmin ieee_view]. rewrite E0, E1.
  assert (B : bpow radix2 (2 - 128) <= 1 / 2) by (apply Rle_trans with (bpow radix2 (-1)); [apply bpow_le; lia|cbn; lra]).
  assert (G : forall r, r = 0 \/ r = 1 -> zero_or (bpow radix2 (2 - 128)) (1 / 2 * r)).
  { intros r [->| ->]; [left; lra|right]. rewrite Rmult_1_r, Rabs_pos_eq by lra. exact B. }
  split; [apply G; right; exact E2|]. split; [apply G; unfold back; destruct (1 <=? n)%nat; [right; exact E2|left; reflexivity]|].
  repeat split; left; apply Rmult_0_l.
Qed.

(** C122: the proviso is needed: halving the smallest positive [f32] gives 0 (ties go to even), halving
    twice that number gives the smallest positive number. *)

Theorem C122_subnormal_refuted :
  let V := ieee_view 24 128 in
  let x (_ : nat) := fl32 1 (-149) in let x' (_ : nat) := fl32 1 (-148) in
  louder V 1 x x'
  /\ fin V (stream (dev_one_zero O32) (fl32 1 (-1), n_zero O32) x' 0) = true
  /\ val V (stream (dev_one_zero O32) (fl32 1 (-1), n_zero O32) x' 0)
     <> val V (stream (dev_one_zero O32) (fl32 1 (-1), n_zero O32) x 0) * bpow radix2 1.
Proof. exact C122_subnormal_refuted_thm. Qed.
Print Assumptions C122_subnormal_refuted.

(** C122: LeakyIntegrator.  [2^l] is a floor for the non-zero samples and readings of the quieter run,
    [2^g] for the gain; in [f32], [g + l >= -103]: for [g = -24], non-zero samples and readings
    not below 2^-79 (-475 dB). *)

Theorem C122_leaky :
  forall (T : Type) (O : num_ops T) (V : float_view T), ieee O V ->
  forall (ks : list T) (x x' : nat -> T) (e l g : Z) (N : nat),
    let D := dev_leaky O in let s := after D (map CSet ks) in
    (0 <= e)%Z -> (g <= 0)%Z -> fmin V <= bpow radix2 (g + l + 1 - fprec V) -> louder V e x x' ->
    zero_or (bpow radix2 g) (val V (leaky_get_alpha s)) ->
    (forall n, zero_or (bpow radix2 l) (val V (x n))) ->
    (forall n, (n < N)%nat -> zero_or (bpow radix2 l) (val V (reading D s x n))) ->
    forall n, (n <= N)%nat -> fin V (reading D s x' n) = true ->
      fin V (reading D s x n) = true /\ val V (reading D s x' n) = val V (reading D s x n) * bpow radix2 e.
Proof. exact C122_leaky_thm. Qed.
Print Assumptions C122_leaky.

(** A gain of 1/2, a constant signal, 6 dB louder, the first two readings. *)
Example C122_leaky_hyps :
  let V := ieee_view 24 128 in let D := dev_leaky O32 in let s := after D (map CSet [fl32 1 (-1)]) in
  let x (_ : nat) := fl32 1 0 in let x' (_ : nat) := fl32 2 0 in
  (0 <= 1)%Z /\ (-1 <= 0)%Z /\ fmin V <= bpow radix2 (-1 + -40 + 1 - fprec V) /\ louder V 1 x x'
  /\ zero_or (bpow radix2 (-1)) (val V (leaky_get_alpha s)) /\ (forall n, zero_or (bpow radix2 (-40)) (val V (x n)))
  /\ zero_or (bpow radix2 (-40)) (val V (reading D s x 0)) /\ fin V (reading D s x' 1) = true /\ val V (reading D s x' 1) = 3 / 2.
Proof.
  assert (E1 : B2R (fl32 1 (-1)) = 1 / 2) by (lit; lra). assert (E2 : B2R (fl32 1 0) = 1) by (lit; lra).
  assert (E3 : B2R (fl32 2 0) = 2) by (lit; lra). assert (E4 : B2R (fl32 3 (-1)) = 3 / 2) by (lit; lra).
  assert (B : bpow radix2 (-40) <= 1 / 2) by (apply Rle_trans with (bpow radix2 (-1)); [apply bpow_le; lia|cbn; lra]).
  set (D := dev_leaky O32). set (s := after D (map CSet [fl32 1 (-1)])).
  assert (A : leaky_get_alpha s = fl32 1 (-1)) by (apply B2SF_inj; vm_compute; reflexivity).
  assert (R0 : reading D s (fun _ => fl32 1 0) 0 = fl32 1 (-1)) by (apply B2SF_inj; vm_compute; reflexivity).
  assert (R1 : reading D s (fun _ => fl32 2 0) 1 = fl32 3 (-1)) by (apply B2SF_inj; vm_compute; reflexivity).
  cbv zeta. fold D. fold s. rewrite A, R0, R1. cbn [val fin fmin fprec ieee_view]. rewrite E1, E2, E4.
  split; [lia|]. split; [lia|]. split; [apply bpow_le; lia|]. split.
  { intros n. split; [reflexivity|]. split; [reflexivity|]. cbn [val ieee_view]. rewrite E2, E3. change (bpow radix2 1) with 2. lra. }
  split; [right; rewrite Rabs_pos_eq by lra; cbn; lra|]. split; [intros _; right; rewrite Rabs_pos_eq by lra; lra|].
  split; [right; rewrite Rabs_pos_eq by lra; lra|]. split; reflexivity.
Qed.

(** C122: PeakEnvDetector with any settings; the same floors, for both gains. *)

Theorem C122_peak :
  forall (T : Type) (O : num_ops T) (V : float_view T), ieee O V ->
  forall (ks : list (@det_set T)) (x x' : nat -> T) (e l g : Z) (N : nat),
    let D := dev_peak O in let s := after D (map CSet ks) in
    (0 <= e)%Z -> (g <= 0)%Z -> fmin V <= bpow radix2 (g + l + 1 - fprec V) -> louder V e x x' ->
    zero_or (bpow radix2 g) (val V (peak_get_attack_gain s)) -> zero_or (bpow radix2 g) (val V (peak_get_release_gain s)) ->
    (forall n, zero_or (bpow radix2 l) (val V (x n))) ->
    (forall n, (n < N)%nat -> zero_or (bpow radix2 l) (val V (reading D s x n))) ->
    forall n, (n <= N)%nat -> fin V (reading D s x' n) = true ->
      fin V (reading D s x n) = true /\ val V (reading D s x' n) = val V (reading D s x n) * bpow radix2 e.
Proof. exact C122_peak_thm. Qed.
Print Assumptions C122_peak.

(** A mathematical library whose [exp] returns 1/2, to have simple gains in the examples. *)
Definition lm_half : libm f32 :=
  {| m_sin := fun x => x; m_cos := fun x => x; m_exp := fun _ => fl32 1 (-1); m_log10 := fun x => x; m_powf := fun x _ => x |}.

Example C122_peak_hyps :
  let V := ieee_view 24 128 in let O := f32_ops lm_half false in let D := dev_peak O in
  let s := after D (map CSet [SetAttack (fl32 2 0); SetRelease (fl32 2 0)]) in
  let x (_ : nat) := fl32 (-1) 0 in let x' (_ : nat) := fl32 (-2) 0 in
  fmin V <= bpow radix2 (-1 + -40 + 1 - fprec V) /\ louder V 1 x x'
  /\ zero_or (bpow radix2 (-1)) (val V (peak_get_attack_gain s)) /\ zero_or (bpow radix2 (-1)) (val V (peak_get_release_gain s))
  /\ (forall n, zero_or (bpow radix2 (-40)) (val V (x n)))
  /\ zero_or (bpow radix2 (-40)) (val V (reading D s x 0)) /\ fin V (reading D s x' 1) = true /\ val V (reading D s x' 1) = 3 / 2.
Proof.
  assert (E1 : B2R (fl32 1 (-1)) = 1 / 2) by (lit; lra). assert (E2 : B2R (fl32 (-1) 0) = -1) by (lit; lra).
  assert (E3 : B2R (fl32 (-2) 0) = -2) by (lit; lra). assert (E4 : B2R (fl32 3 (-1)) = 3 / 2) by (lit; lra).
  assert (B : bpow radix2 (-40) <= 1 / 2) by (apply Rle_trans with (bpow radix2 (-1)); [apply bpow_le; lia|cbn; lra]).
  set (D := dev_peak (f32_ops lm_half false)). set (s := after D (map CSet [SetAttack (fl32 2 0); SetRelease (fl32 2 0)])).
  assert (A : peak_get_attack_gain s = fl32 1 (-1)) by (apply B2SF_inj; vm_compute; reflexivity).
  assert (A2 : peak_get_release_gain s = fl32 1 (-1)) by (apply B2SF_inj; vm_compute; reflexivity).
  assert (R0 : reading D s (fun _ => fl32 (-1) 0) 0 = fl32 1 (-1)) by (apply B2SF_inj; vm_compute; reflexivity).
  assert (R1 : reading D s (fun _ => fl32 (-2) 0) 1 = fl32 3 (-1)) by (apply B2SF_inj; vm_compute; reflexivity).
  cbv zeta. fold D. fold s. rewrite A, A2, R0, R1. cbn [val fin fmin fprec ieee_view]. rewrite E1, E2, E4.
  assert (Q : zero_or (bpow radix2 (-40)) (1 / 2)) by (right; rewrite Rabs_pos_eq by lra; lra).
  assert (Q1 : zero_or (bpow radix2 (-1)) (1 / 2)) by (right; rewrite Rabs_pos_eq by lra; cbn; lra).
  split; [apply bpow_le; lia|]. split.
  { intros n. split; [reflexivity|]. split; [reflexivity|]. cbn [val ieee_view]. rewrite E2, E3. change (bpow radix2 1) with 2. lra. }
  repeat split; try assumption. intros _. right. rewrite Rabs_left by lra. lra.
Qed.

(** C122: RmsEnvDetector.  Squaring doubles the exponents: in [f32], [g + 2 l >= -102]: for
    [g = -24], non-zero samples and readings not below 2^-39 (-234 dB). *)

Theorem C122_rms :
  forall (T : Type) (O : num_ops T) (V : float_view T), ieee O V ->
  forall (ks : list (@det_set T)) (x x' : nat -> T) (e l g : Z) (N : nat),
    let D := dev_rms O in let s := after D (map CSet ks) in
    (0 <= e)%Z -> (g <= 0)%Z -> (l <= 0)%Z -> fmin V <= bpow radix2 (g + 2 * l - fprec V) -> louder V e x x' ->
    zero_or (bpow radix2 g) (val V (rms_get_attack_gain s)) -> zero_or (bpow radix2 g) (val V (rms_get_release_gain s)) ->
    (forall n, zero_or (bpow radix2 l) (val V (x n))) ->
    (forall n, (n < N)%nat -> zero_or (bpow radix2 l) (val V (reading D s x n))) ->
    (forall n, (n <= N)%nat -> fin V (reading D s x' n) = true) ->
    forall n, (n <= N)%nat ->
      fin V (reading D s x n) = true /\ val V (reading D s x' n) = val V (reading D s x n) * bpow radix2 e.
Proof. exact C122_rms_thm. Qed.
Print Assumptions C122_rms.

Example C122_rms_hyps :
  let V := ieee_view 24 128 in let O := f32_ops lm_half false in let D := dev_rms O in
  let s := after D (map CSet [SetAttack (fl32 2 0); SetRelease (fl32 2 0)]) in
  let x (_ : nat) := fl32 (-1) 0 in let x' (_ : nat) := fl32 (-4) 0 in
  fmin V <= bpow radix2 (-1 + 2 * -20 - fprec V) /\ louder V 2 x x'
  /\ zero_or (bpow radix2 (-1)) (val V (rms_get_attack_gain s)) /\ zero_or (bpow radix2 (-1)) (val V (rms_get_release_gain s))
  /\ (forall n, zero_or (bpow radix2 (-20)) (val V (x n)))
  /\ zero_or (bpow radix2 (-20)) (val V (reading D s x 0))
  /\ fin V (reading D s x' 0) = true /\ fin V (reading D s x' 1) = true.
Proof.
  assert (E1 : B2R (fl32 1 (-1)) = 1 / 2) by (lit; lra). assert (E2 : B2R (fl32 (-1) 0) = -1) by (lit; lra).
  assert (E3 : B2R (fl32 (-4) 0) = -4) by (lit; lra).
  assert (B : bpow radix2 (-20) <= 1 / 2) by (apply Rle_trans with (bpow radix2 (-1)); [apply bpow_le; lia|cbn; lra]).
  set (D := dev_rms (f32_ops lm_half false)). set (s := after D (map CSet [SetAttack (fl32 2 0); SetRelease (fl32 2 0)])).
  assert (A : rms_get_attack_gain s = fl32 1 (-1)) by (apply B2SF_inj; vm_compute; reflexivity).
  assert (A2 : rms_get_release_gain s = fl32 1 (-1)) by (apply B2SF_inj; vm_compute; reflexivity).
  assert (R0 : reading D s (fun _ => fl32 (-1) 0) 0 = fl32 11863283 (-24)) by (apply B2SF_inj; vm_compute; reflexivity).
  assert (E5 : 1 / 2 <= B2R (fl32 11863283 (-24))) by (lit; lra).
  cbv zeta. fold D. fold s. rewrite A, A2, R0. cbn [val fin fmin fprec ieee_view]. rewrite E1, E2.
  assert (Q1 : zero_or (bpow radix2 (-1)) (1 / 2)) by (right; rewrite Rabs_pos_eq by lra; cbn; lra).
  split; [apply bpow_le; lia|]. split.
  { intros n. split; [reflexivity|]. split; [reflexivity|]. cbn [val ieee_view]. rewrite E2, E3. change (bpow radix2 2) with 4. lra. }
  split; [assumption|]. split; [assumption|]. split; [intros _; right; rewrite Rabs_left by lra; lra|].
  split; [right; rewrite Rabs_pos_eq by lra; lra|]. split; vm_compute; reflexivity.
Qed.
