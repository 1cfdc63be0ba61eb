(** Property C123: a TwoPole with poles on the unit circle as oscillator and as spectrum meter.

    Vocabulary: [cos_part], [sin_part], [struck] ([OscSpec]); [filter_eq], [back], [sinusoid] ([Signal]);
    [response] ([SysSpec]); [stream] ([FltFilterSpec]). *)
From Coq Require Import ZArith Reals List Bool Lra Lia.
From Flocq Require Import Core.Core IEEE754.BinarySingleNaN.
From Verif Require Import Base Num NumR NumF Witness FloatSpec FilterM RbjM AnalysisM Device Signal SysSpec FltFilterSpec FltFilterLemmas
  OscSpec OscLemmas.
Import ListNotations.
Open Scope R_scope.

(** C123 (Goertzel's algorithm): the last two outputs of the resonator with coefficients
    (1, -2 cos w, 1) hold the Fourier transform of everything it was fed, at the frequency [w].
    [filter_eq]: TwoPole, or a biquad with these coefficients; exact arithmetic. *)

Theorem C123_goertzel :
  forall (S K : Type) (D : device S K R) (k : K) (w : R), filter_eq D k (1, 0, 0, - (2 * cos w), 1) ->
  forall (x : signal) (n : nat), let y := response D k x in
    cos_part w x n = cos (INR n * w) * (y n - cos w * back 1 y n) + sin (INR n * w) * (sin w * back 1 y n)
    /\ sin_part w x n = sin (INR n * w) * (y n - cos w * back 1 y n) - cos (INR n * w) * (sin w * back 1 y n)
    /\ cos_part w x n ^ 2 + sin_part w x n ^ 2 = y n ^ 2 + back 1 y n ^ 2 - 2 * cos w * y n * back 1 y n.
Proof. exact C123_goertzel_thm. Qed.
Print Assumptions C123_goertzel.

Example C123_goertzel_hyps : filter_eq (dev_two_pole R_ops) (1, - (2 * cos 1), 1) (1, 0, 0, - (2 * cos 1), 1).
Proof. apply fe_two_pole. Qed.

(** C123: struck once, it oscillates for ever with constant amplitude (exact arithmetic). *)

Theorem C123_oscillator :
  forall (S K : Type) (D : device S K R) (k : K) (w : R), filter_eq D k (1, 0, 0, - (2 * cos w), 1) -> sin w <> 0 ->
  forall (A : R) (n : nat), response D k (struck R_ops A) n = A * sin (INR (n + 1) * w) / sin w.
Proof. exact C123_oscillator_thm. Qed.
Print Assumptions C123_oscillator.

Example C123_oscillator_hyps : filter_eq (dev_two_pole R_ops) (1, - (2 * cos (PI / 2)), 1) (1, 0, 0, - (2 * cos (PI / 2)), 1) /\ sin (PI / 2) <> 0.
Proof. split; [apply fe_two_pole|]. rewrite sin_PI2. lra. Qed.

(** C123: and it resonates: fed with a bounded sinusoid of its own frequency it exceeds every bound. *)

Theorem C123_resonance :
  forall (S K : Type) (D : device S K R) (k : K) (w : R), filter_eq D k (1, 0, 0, - (2 * cos w), 1) -> sin w <> 0 ->
  forall B : R, exists n, B < Rabs (response D k (sinusoid 1 w 0) n).
Proof. exact C123_resonance_thm. Qed.
Print Assumptions C123_resonance.

Example C123_resonance_hyps : filter_eq (dev_biquad2 R_ops) (1, 0, 0, - (2 * cos (PI / 2)), 1) (1, 0, 0, - (2 * cos (PI / 2)), 1) /\ sin (PI / 2) <> 0.
Proof. split; [apply fe_biquad2|]. rewrite sin_PI2. lra. Qed.

(** C123, [f32] and [f64]: the struck oscillator drifts at most linearly: its [n]-th sample is within
    n (12 u |A| / sin w + 3 eta) / sin w of the ideal one, as long as that drift is below the amplitude
    |A| / sin w itself ([f32], A = 1: for about 2^24 sin w / 12 samples). [w] is the frequency that
    belongs to the stored coefficient, a1 = -2 cos w. *)

Theorem C123_float_oscillator :
  forall (T : Type) (O : num_ops T) (V : float_view T), ieee O V ->
  forall (A a1 : T) (w : R) (n : nat), fin V A = true -> fin V a1 = true ->
    val V a1 = - (2 * cos w) -> 0 < sin w ->
    let u := bpow radix2 (- fprec V) in
    let amp := Rabs (val V A) / sin w in
    let step := 12 * u * amp + 3 * (u * fmin V) in
    16 * amp <= fmax V -> INR n * step <= Rabs (val V A) ->
    let y := stream (dev_two_pole O) (n_one O, a1, n_one O) (struck O A) n in
    fin V y = true /\ Rabs (val V y - val V A * sin (INR (n + 1) * w) / sin w) <= INR n * step / sin w.
Proof. exact C123_float_oscillator_thm. Qed.
Print Assumptions C123_float_oscillator.

(** a1 = -1 is a sixth of the sampling rate (8 kHz at 48 kHz); a quarter of a million samples. *)
Example C123_float_oscillator_hyps :
  let V := ieee_view 24 128 in let u := bpow radix2 (- fprec V) in
  let amp := Rabs (val V (fl32 1 0)) / sin (PI / 3) in
  fin V (fl32 1 0) = true /\ fin V (fl32 (-1) 0) = true /\ val V (fl32 (-1) 0) = - (2 * cos (PI / 3)) /\ 0 < sin (PI / 3)
  /\ 16 * amp <= fmax V /\ forall n : nat, INR n <= 250000 -> INR n * (12 * u * amp + 3 * (u * fmin V)) <= Rabs (val V (fl32 1 0)).
Proof.
  cbv zeta. cbn [fin val fprec fmin fmax ieee_view]. change (Z.opp 24) with (-24)%Z.
  assert (E1 : B2R (fl32 1 0) = 1) by (lit; lra). assert (E2 : B2R (fl32 (-1) 0) = -1) by (lit; lra).
  assert (S3 : 3 / 2 <= sqrt 3) by (rewrite <- (sqrt_square (3 / 2)) by lra; apply sqrt_le_1_alt; lra).
  rewrite E1, E2, cos_PI3, sin_PI3, Rabs_R1.
  assert (P : 0 < sqrt 3 / 2) by lra.
  assert (Q : 1 / (sqrt 3 / 2) <= 4 / 3) by (apply Rmult_le_reg_r with (sqrt 3 / 2); [exact P|]; replace (1 / (sqrt 3 / 2) * (sqrt 3 / 2)) with 1 by (field; lra); lra).
  assert (Q0 : 0 <= 1 / (sqrt 3 / 2)) by (apply Rlt_le, Rdiv_lt_0_compat; lra).
  split; [reflexivity|]. split; [reflexivity|]. split; [lra|]. split; [exact P|]. split.
  - apply Rle_trans with (/ 2 * bpow radix2 8); [cbn; lra|]. apply Rmult_le_compat; [lra|apply bpow_ge_0|cbn; lra|apply bpow_le; lia].
  - intros n Hn. assert (N0 := pos_INR n).
    assert (U0 := bpow_gt_0 radix2 (-24)). assert (B0 := bpow_gt_0 radix2 (2 - 128)).
    assert (B1 : bpow radix2 (2 - 128) <= bpow radix2 (-24)) by (apply bpow_le; lia).
    assert (UE : bpow radix2 (-24) = / 16777216) by (cbn; lra).
    assert (UB : bpow radix2 (-24) * bpow radix2 (2 - 128) <= bpow radix2 (-24) * bpow radix2 (-24)) by (apply Rmult_le_compat_l; lra).
    assert (UQ : 12 * bpow radix2 (-24) * (1 / (sqrt 3 / 2)) <= 12 * bpow radix2 (-24) * (4 / 3)) by (apply Rmult_le_compat_l; lra).
    apply Rle_trans with (250000 * (12 * bpow radix2 (-24) * (4 / 3) + 3 * (bpow radix2 (-24) * bpow radix2 (-24)))); [|rewrite UE; lra].
    apply Rmult_le_compat; try lra. apply Rplus_le_le_0_compat; [apply Rmult_le_pos; lra|]. assert (0 < bpow radix2 (-24) * bpow radix2 (2 - 128)) by (apply Rmult_lt_0_compat; assumption). lra.
Qed.
