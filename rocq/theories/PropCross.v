(** Property C117: Linkwitz-Riley crossovers built from the RBJ filters, in exact arithmetic.

    Vocabulary: [rbj_out kind args x] is what a new filter of the given kind, configured with
    [args], makes of the signal [x]; [valid] settings ([RbjSpec]); [sinusoid], [approaches],
    [passes] ([Signal]); [energy] ([EqSpec]); [response] ([SysSpec]). *)
From Coq Require Import Reals List Lra.
From Coquelicot Require Import Coquelicot.
From Verif Require Import Num NumR FilterM RbjM Device Signal RbjSpec SysSpec EqSpec RbjLemmas CrossLemmas.
Import ListNotations.
Open Scope R_scope.

(** C117: two LowPass filters in series plus two HighPass filters in series, all with the same
    settings, are AllPass with these settings, plus (1/q^2 - 2) times LowPass and HighPass in
    series. *)
Theorem C117_sum :
  forall sr f q (x : signal) (n : nat),
    sr <> 0 -> q <> 0 -> 1 + sin (omega sr f) / (2 * q) <> 0 ->
    let low := rbj_out LowPass (RbjQ sr f q) in
    let high := rbj_out HighPass (RbjQ sr f q) in
    low (low x) n + high (high x) n
    = rbj_out AllPass (RbjQ sr f q) x n + (/ (q * q) - 2) * low (high x) n.
Proof. exact C117_sum_thm. Qed.
Print Assumptions C117_sum.

Example C117_sum_hyps : 1 + sin (omega 48000 12000) / (2 * (2 / 3)) <> 0.
Proof. unfold omega. replace (2 * PI * 12000 / 48000) with (PI / 2) by field. rewrite sin_PI2. lra. Qed.

(** C117: the fourth-order Linkwitz-Riley crossover, q = 1/sqrt 2: its two bands add up to
    AllPass, sample for sample, for every input. *)
Theorem C117_linkwitz_riley :
  forall sr f q (x : signal) (n : nat),
    sr <> 0 -> q * q = / 2 -> 1 + sin (omega sr f) / (2 * q) <> 0 ->
    let low := rbj_out LowPass (RbjQ sr f q) in
    let high := rbj_out HighPass (RbjQ sr f q) in
    low (low x) n + high (high x) n = rbj_out AllPass (RbjQ sr f q) x n.
Proof. exact C117_linkwitz_riley_thm. Qed.
Print Assumptions C117_linkwitz_riley.

Example C117_linkwitz_riley_hyps : / sqrt 2 * / sqrt 2 = / 2 /\ 1 + sin (omega 48000 12000) / (2 * / sqrt 2) <> 0.
Proof.
  assert (P : 0 < sqrt 2) by (apply sqrt_lt_R0; lra). split.
  - rewrite <- Rinv_mult, sqrt_sqrt by lra. reflexivity.
  - unfold omega. replace (2 * PI * 12000 / 48000) with (PI / 2) by field. rewrite sin_PI2.
    assert (0 < 1 / (2 * / sqrt 2)); [|lra]. apply Rdiv_lt_0_compat; [lra|]. apply Rmult_lt_0_compat; [lra|]. apply Rinv_0_lt_compat, P.
Qed.

(** C117: so the crossover is flat.  A sinusoid of any frequency comes out with its own
    amplitude, the two bands together never put out more energy than they were given, and for an
    input that dies away all of it comes out in the end. *)
Theorem C117_flat :
  forall sr f q, valid_band sr f -> 0 < q -> q * q = / 2 ->
    let low := rbj_out LowPass (RbjQ sr f q) in
    let high := rbj_out HighPass (RbjQ sr f q) in
    let both := fun (x : signal) n => low (low x) n + high (high x) n in
    (forall w, exists theta, forall A phi, approaches (both (sinusoid A w phi)) (sinusoid A w (phi + theta)))
    /\ (forall x n, energy (both x) n <= energy x n)
    /\ (forall x, is_lim_seq x 0 -> is_lim_seq (fun n => energy x n - energy (both x) n) 0).
Proof. exact C117_flat_thm. Qed.
Print Assumptions C117_flat.

Example C117_flat_hyps : valid_band 48000 1000 /\ 0 < / sqrt 2 /\ / sqrt 2 * / sqrt 2 = / 2.
Proof.
  assert (P : 0 < sqrt 2) by (apply sqrt_lt_R0; lra). split; [unfold valid_band; lra|]. split; [apply Rinv_0_lt_compat, P|].
  rewrite <- Rinv_mult, sqrt_sqrt by lra. reflexivity.
Qed.

(** C117: a three-way crossover.  Split at [f1]; split the high part again at [f2], and send the
    low part through the AllPass of [f2] to keep it in step.  The three bands add up to the two
    AllPass filters in series. *)
Theorem C117_three_way :
  forall sr f1 f2 q (x : signal) (n : nat),
    sr <> 0 -> q * q = / 2 -> 1 + sin (omega sr f1) / (2 * q) <> 0 -> 1 + sin (omega sr f2) / (2 * q) <> 0 ->
    let low f := rbj_out LowPass (RbjQ sr f q) in
    let high f := rbj_out HighPass (RbjQ sr f q) in
    let all f := rbj_out AllPass (RbjQ sr f q) in
    let bass := all f2 (low f1 (low f1 x)) in
    let rest := high f1 (high f1 x) in
    bass n + low f2 (low f2 rest) n + high f2 (high f2 rest) n = all f2 (all f1 x) n.
Proof. exact C117_three_way_thm. Qed.
Print Assumptions C117_three_way.

Example C117_three_way_hyps : 1 + sin (omega 48000 12000) / (2 * / sqrt 2) <> 0 /\ 1 + sin (omega 48000 4000) / (2 * / sqrt 2) <> 0.
Proof.
  assert (P : 0 < sqrt 2) by (apply sqrt_lt_R0; lra).
  assert (I : 0 < 2 * / sqrt 2) by (apply Rmult_lt_0_compat; [lra|]; apply Rinv_0_lt_compat, P).
  unfold omega. replace (2 * PI * 12000 / 48000) with (PI / 2) by field. replace (2 * PI * 4000 / 48000) with (PI / 6) by field.
  rewrite sin_PI2, sin_PI6. assert (A : 0 < 1 / (2 * / sqrt 2)) by (apply Rdiv_lt_0_compat; lra).
  assert (B : 0 < 1 / 2 / (2 * / sqrt 2)) by (apply Rdiv_lt_0_compat; lra). lra.
Qed.

(** C117: the second-order Linkwitz-Riley crossover, q = 1/2.  Here one band must be turned over:
    the difference of the two is the first-order all-pass (p + z^-1) / (1 + p z^-1), with
    p = (tan (w/2) - 1) / (tan (w/2) + 1), that is -cos w / (1 + sin w). *)
Theorem C117_second_order :
  forall sr f (x : signal) (n : nat),
    sr <> 0 -> 1 + sin (omega sr f) <> 0 ->
    let p := - cos (omega sr f) / (1 + sin (omega sr f)) in
    rbj_out LowPass (RbjQ sr f (/ 2)) x n - rbj_out HighPass (RbjQ sr f (/ 2)) x n
    = response (dev_biquad1 R_ops) (p, 1, 0, p, 0) x n.
Proof. exact C117_second_order_thm. Qed.
Print Assumptions C117_second_order.

Example C117_second_order_hyps : 1 + sin (omega 48000 12000) <> 0.
Proof. unfold omega. replace (2 * PI * 12000 / 48000) with (PI / 2) by field. rewrite sin_PI2. lra. Qed.

(** C117: two filters in series, the second one stable: the gains multiply and the phases add. *)
Theorem C117_series_gain :
  forall (S K S' K' : Type) (D : device S K R) (k : K) (D' : device S' K' R) (k' : K') (b0 b1 b2 a1 a2 : R),
    filter_eq D' k' (b0, b1, b2, a1, a2) -> stable a1 a2 ->
    forall w g theta g' theta',
    passes D (configured D k) w g theta -> passes D' (configured D' k') w g' theta' ->
    forall A phi, approaches (response D' k' (response D k (sinusoid A w phi)))
                             (sinusoid (g' * g * A) w (phi + (theta + theta'))).
Proof. exact C117_series_gain_thm. Qed.
Print Assumptions C117_series_gain.

Example C117_series_gain_hyps :
  filter_eq (dev_biquad1 R_ops) (1, 0, 0, - / 2, 0) (1, 0, 0, - / 2, 0) /\ stable (- / 2) 0
  /\ passes (dev_rbj R_ops LowPass) (configured (dev_rbj R_ops LowPass) (RbjQ 48000 1000 1)) (omega 48000 1000) 1 (- (PI / 2)).
Proof.
  split; [constructor|]. split; [unfold stable; rewrite Rabs_R0; split; [lra|]; apply Rabs_def1; lra|].
  apply (C38_lowpass_thm 48000 1000 1). split; [unfold valid_band|]; lra.
Qed.

(** C117: the value of q matters.  At the corner frequency each of the two bands has the gain
    q^2 and both are turned over, so that the crossover has the gain 2 q^2 there: 1 only for
    q = 1 / sqrt 2. *)
Theorem C117_corner :
  forall sr f q, valid_band sr f -> 0 < q ->
    let low := rbj_out LowPass (RbjQ sr f q) in
    let high := rbj_out HighPass (RbjQ sr f q) in
    forall A phi, approaches (fun n => low (low (sinusoid A (omega sr f) phi)) n + high (high (sinusoid A (omega sr f) phi)) n)
                             (sinusoid (2 * (q * q) * A) (omega sr f) (phi + PI)).
Proof. exact C117_corner_thm. Qed.
Print Assumptions C117_corner.

Example C117_corner_hyps : valid_band 48000 1000 /\ 0 < 1 /\ 2 * (1 * 1) = 2.
Proof. unfold valid_band. lra. Qed.
