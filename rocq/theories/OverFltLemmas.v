(** Lemmas behind property C139.  The [@PROP] blocks are copied into [PropOverFlt.v]. *)
(*@PROP
(** Property C139: a [LowPass] that does not overshoot, and that preserves order, in [f32] and
    [f64].

    Vocabulary: [stream D k x n]: what a new object configured with [k] returns for sample [n] of
    [x] ([FltFilterSpec]); [audible], [q_error]: the range of the sample rate and the frequency,
    and the accuracy of the coefficients ([RbjAccSpec]); [trig_close]: sine and cosine of the
    platform ([RbjFltSpec]); [below], [raised], [answers_below] ([OrderSpec]). *)
From Coq Require Import ZArith Reals List Bool Lra Lia.
From Flocq Require Import Core.Core IEEE754.BinarySingleNaN.
From Verif Require Import Base Num NumR NumF FloatSpec FloatFacts Witness CrLibm FilterM RbjM Device Signal FltFilterSpec
  RbjFltSpec RbjAccSpec OrderSpec OverFltLemmas.
Import ListNotations.
Open Scope R_scope.
@*)
From Coq Require Import ZArith Reals List Bool Lra Lia.
From Flocq Require Import Core.Core IEEE754.BinarySingleNaN.
From Verif Require Import Base Num NumR NumF FloatSpec FloatFacts Witness CrLibm FilterM RbjM Device Signal FltFilterSpec
  RbjSpec RbjFacts RbjFltSpec RbjAccSpec RbjFltLemmas RbjAccLemmas FltFilterLemmas SysSpec OrderSpec OrderLemmas OverSpec OverLemmas.
Import ListNotations.
Open Scope R_scope.

(** C139: with Q at most 1/2 and a corner at or below a quarter of the sample rate, what a
    [LowPass] in floating point returns for samples from 0 to [m] stays, for ever, between 0 and
    [m] up to a margin that is a number of rounding units given by the settings; all of it is
    finite. *)
Lemma C139_no_overshoot_thm :
  forall (T : Type) (O : num_ops T) (V : float_view T), ieee O V -> trig_close O V ->
  forall (sr f q : T) (G m : R) (x : nat -> T),
    audible V sr f -> 0 < val V f <= val V sr / 4 -> fin V q = true -> / 64 <= val V q <= / 2 ->
    let s := sin (2 * PI * val V f / val V sr) in
    G = (1 + s / (2 * val V q)) / s ^ 2 -> 5 * q_error V (val V q) * G <= 1 ->
    (forall n, fin V (x n) = true /\ 0 <= val V (x n) <= m) -> 128 * m <= fmax V ->
    let E := 7 * q_error V (val V q) * G * (2 * m + fmin V) in
    forall n, fin V (stream (dev_rbj O LowPass) (RbjQ sr f q) x n) = true
      /\ - E <= val V (stream (dev_rbj O LowPass) (RbjQ sr f q) x n) <= m + E.
Proof.
  intros T O V HO HT sr f q G m x Ha Hf Fq Hq s EG Hs Hx Hm E n.
  assert (Hb : valid_band (val V sr) (val V f)).
  { destruct Ha as [[_ H1] _]. unfold valid_band. lra. }
  destruct (C138_lowpass_thm (val V sr) (val V f) (val V q) Hb ltac:(lra)) as [No _]. cbv zeta in No.
  assert (N := proj2 No ltac:(split; lra)).
  assert (X : exists b0 b1 b2 a1 a2, rbj_coeffs R_ops LowPass (RbjQ (val V sr) (val V f) (val V q)) = Some (b0, b1, b2, a1, a2)) by (repeat eexists).
  destruct X as [b0 [b1 [b2 [a1 [a2 Ek]]]]].
  destruct (band_trig (val V sr) (val V f) Hb) as [S0 _]. fold s in S0.
  destruct (C94_rbj_gain_thm LowPass (val V sr) (val V f) (val V q) b0 b1 b2 a1 a2 ltac:(lra) S0 Ek) as [_ Pg].
  specialize (Pg ltac:(lra)). fold s in Pg. rewrite <- EG in Pg.
  assert (Ny := N (fun n => val V (x n)) m (fun n => proj2 (Hx n))).
  destruct (C94_rbj_tracks_ideal_thm T O V HO HT LowPass sr f q Ha Fq ltac:(lra) b0 b1 b2 a1 a2 G m m x Ek Pg Hs) with (n := n) as [F B].
  - intros i. destruct (Hx i) as [Fx Bx]. split; [exact Fx|]. rewrite Rabs_pos_eq; lra.
  - intros i. specialize (Ny i). unfold response in Ny. rewrite Rabs_pos_eq; lra.
  - lra.
  - split; [exact F|]. specialize (Ny n). unfold response in Ny. apply Rabs_le_inv in B. unfold E.
    replace (2 * m + fmin V) with (m + m + fmin V) by ring. lra.
Qed.

(** ** Order *)
Lemma low_pushing (T : Type) (O : num_ops T) (V : float_view T) (HO : ieee O V) (HT : trig_close O V) sr f q ch :
  audible V sr f -> fin V q = true -> / 64 <= val V q <= 1024 ->
  let w := 2 * PI * val V f / val V sr in
  let a := sin w / (2 * val V q) in
  let e := q_error V (val V q) in
  e * (1 + a) <= a - 1 -> e * (1 + a) <= 2 * cos w -> 2 * (e * (1 + a)) <= 1 - cos w ->
  rbj_coeffs O LowPass (RbjQ sr f q) = Some ch -> pushing V ch.
Proof.
  intros Ha Fq Hq w a e H1 H2 H3 Ek.
  destruct (C93_coefficients_accurate_thm T O V HO HT LowPass sr f q ch Ha Fq Hq Ek) as [c [Ec [_ Wc]]].
  destruct ch as [[[[b0 b1] b2] a1] a2]. cbn [vals] in Wc. fold e in Wc.
  assert (E0 : 0 <= e).
  { unfold e, q_error. apply Rmult_le_pos; [|apply bpow_ge_0]. assert (0 < 85 / val V q) by (apply Rdiv_lt_0_compat; lra). lra. }
  assert (A1 : 1 <= a).
  { assert (0 <= sin w).
    { destruct Ha as [[_ Hr] [_ Hf]]. assert (P := PI_RGT_0).
      assert (W : 0 <= val V f * / val V sr <= / 2).
      { split; [apply Rmult_le_pos; [lra|apply Rlt_le, Rinv_0_lt_compat; lra]|].
        apply Rmult_le_reg_r with (val V sr); [lra|]. replace (val V f * / val V sr * val V sr) with (val V f) by (field; lra). lra. }
      replace w with (2 * PI * (val V f * / val V sr)) by (unfold w; field; lra). apply sin_ge_0.
      - apply Rmult_le_pos; lra.
      - apply Rle_trans with (2 * PI * / 2); [apply Rmult_le_compat_l; lra|lra]. }
    assert (0 <= a) by (unfold a; apply Rmult_le_pos; [assumption|apply Rlt_le, Rinv_0_lt_compat; lra]).
    assert (0 <= e * (1 + a)) by (apply Rmult_le_pos; lra). lra. }
  assert (Hb : valid_band (val V sr) (val V f)).
  { destruct Ha as [[_ Hr] [_ Hf]]. unfold valid_band. split; [lra|].
    assert (S0 : sin w <> 0) by (intros Z; unfold a in A1; rewrite Z in A1; unfold Rdiv in A1; rewrite Rmult_0_l in A1; lra).
    split.
    - destruct (Req_dec (val V f) 0) as [Z|Z]; [|lra]. exfalso. apply S0. unfold w. rewrite Z.
      replace (2 * PI * 0 / val V sr) with 0 by (field; lra). exact sin_0.
    - destruct (Req_dec (val V f) (val V sr / 2)) as [Z|Z]; [|lra]. exfalso. apply S0. unfold w. rewrite Z.
      replace (2 * PI * (val V sr / 2) / val V sr) with PI by (field; lra). exact sin_PI. }
  assert (Q0 : 0 < val V q) by lra.
  assert (Ex := raw_coeffs LowPass (RbjQ (val V sr) (val V f) (val V q)) (conj Hb Q0)).
  cbn [raw raw_q norm6] in Ex. unfold alpha_q, omega in Ex. fold w in Ex. fold a in Ex.
  rewrite Ex in Ec. injection Ec as <-. cbn [each_within] in Wc. destruct Wc as [B0 [B1 [B2 [B3 B4]]]].
  apply Rabs_le_inv in B0, B1, B2, B3, B4.
  assert (D : forall u v, u * (1 + a) <= v -> u <= v / (1 + a)).
  { intros u v H. apply Rmult_le_reg_r with (1 + a); [lra|]. replace (v / (1 + a) * (1 + a)) with v by (field; lra). exact H. }
  assert (D1 := D e ((1 - cos w) / 2) ltac:(lra)). assert (D2 := D e (1 - cos w) ltac:(nra)).
  assert (D3 := D e (2 * cos w) H2). assert (D4 := D e (a - 1) H1).
  replace (-2 * cos w / (1 + a)) with (- (2 * cos w / (1 + a))) in B3 by (field; lra).
  replace ((1 - a) / (1 + a)) with (- ((a - 1) / (1 + a))) in B4 by (field; lra).
  unfold pushing. repeat split; lra.
Qed.

(** C139: where the corner is below a quarter of the sample rate and Q below (sin w) / 2, both by
    more than the error of the coefficients, the [LowPass] preserves the order of signals exactly,
    rounding included: of two objects configured and used in the same way, the one that is fed
    samples that are not smaller never returns anything smaller. *)
Lemma C139_order_thm :
  forall (T : Type) (O : num_ops T) (V : float_view T), ieee O V -> trig_close O V ->
  forall (sr f q : T), audible V sr f -> fin V q = true -> / 64 <= val V q <= 1024 ->
  let w := 2 * PI * val V f / val V sr in
  let a := sin w / (2 * val V q) in
  let e := q_error V (val V q) in
  e * (1 + a) <= a - 1 -> e * (1 + a) <= 2 * cos w -> 2 * (e * (1 + a)) <= 1 - cos w ->
  forall calls calls' : list (call (rbj_args T) T),
    List.Forall (fun c => forall k, c = CSet k -> k = RbjQ sr f q) calls -> List.Forall2 (raised V) calls calls' ->
    List.Forall2 (answers_below V) (returns (dev_rbj O LowPass) [] calls) (returns (dev_rbj O LowPass) [] calls').
Proof.
  intros T O V HO HT sr f q Ha Fq Hq w a e H1 H2 H3 calls calls' Hk Hr.
  apply (C118_order_thm T O V HO _ _ _ _ (or_rbj O V LowPass)); [|exact Hr].
  unfold sets_ok. refine (Forall_impl _ _ Hk). intros cl Hc. destruct cl as [y| |k|]; try exact I.
  intros c Ec. rewrite (Hc k eq_refl) in Ec. exact (low_pushing T O V HO HT sr f q c Ha Fq Hq H1 H2 H3 Ec).
Qed.

(** C139: and a signal that starts at or above zero and never falls comes out as one that never
    falls. *)
Lemma C139_rising_thm :
  forall (T : Type) (O : num_ops T) (V : float_view T), ieee O V -> trig_close O V ->
  forall (sr f q : T) (x : nat -> T), audible V sr f -> fin V q = true -> / 64 <= val V q <= 1024 ->
  let w := 2 * PI * val V f / val V sr in
  let a := sin w / (2 * val V q) in
  let e := q_error V (val V q) in
  e * (1 + a) <= a - 1 -> e * (1 + a) <= 2 * cos w -> 2 * (e * (1 + a)) <= 1 - cos w ->
  (forall n, fin V (x n) = true) -> 0 <= val V (x 0%nat) -> (forall n, val V (x n) <= val V (x (S n))) ->
  forall n, below V (stream (dev_rbj O LowPass) (RbjQ sr f q) x n) (stream (dev_rbj O LowPass) (RbjQ sr f q) x (S n)).
Proof.
  intros T O V HO HT sr f q x Ha Fq Hq w a e H1 H2 H3 Fx H0 Hx.
  apply (C118_rising_thm T O V HO _ _ _ _ (or_rbj O V LowPass)).
  - intros c Ec. exact (low_pushing T O V HO HT sr f q c Ha Fq Hq H1 H2 H3 Ec).
  - intros _ _. replace (val V (n_zero O)) with 0 by (destruct HO; reflexivity). exact H0.
  - intros i _ _. apply Hx.
Qed.

Lemma C139_hyps_aux : let O := f32_ops (cr_libm 24 128) false in let V := ieee_view 24 128 in
  let sr := fl32 48000 0 in let f := fl32 8000 0 in let q := fl32 1 (-2) in let x := fun _ : nat => fl32 1 0 in
  let w := 2 * PI * val V f / val V sr in
  let a := sin w / (2 * val V q) in
  let e := q_error V (val V q) in
  ieee O V /\ trig_close O V /\ audible V sr f /\ 0 < val V f <= val V sr / 4 /\ fin V q = true /\ / 64 <= val V q <= / 2
  /\ 5 * e * ((1 + a) / (sin w) ^ 2) <= 1
  /\ e * (1 + a) <= a - 1 /\ e * (1 + a) <= 2 * cos w /\ 2 * (e * (1 + a)) <= 1 - cos w
  /\ (forall n, fin V (x n) = true /\ 0 <= val V (x n) <= 1) /\ 128 * 1 <= fmax V.
Proof.
  intros O V sr f q x w a e.
  assert (E1 : val V sr = 48000) by (unfold V, sr; cbn [val ieee_view]; lit; lra).
  assert (E2 : val V f = 8000) by (unfold V, f; cbn [val ieee_view]; lit; lra).
  assert (E3 : val V q = / 4) by (unfold V, q; cbn [val ieee_view]; lit; lra).
  assert (E4 : val V (fl32 1 0) = 1) by (unfold V; cbn [val ieee_view]; lit; lra).
  assert (HO : ieee O V) by constructor.
  destruct (fmin_small _ O V HO) as [_ [Fx [Up _]]].
  split; [exact HO|]. split; [apply rounded_close; [constructor|apply cr_trig; lia]|].
  split.
  { unfold audible. rewrite E1, E2. split; (split; [vm_compute; reflexivity|]); [|lra].
    split; [lra|]. apply Rle_trans with (bpow radix2 17); [cbn; lra|apply bpow_le; lia]. }
  split; [lra|]. split; [vm_compute; reflexivity|]. split; [lra|].
  assert (W : w = PI / 3) by (unfold w; rewrite E1, E2; field).
  assert (Q : 17 / 10 <= sqrt 3 <= 18 / 10).
  { split.
    - rewrite <- (sqrt_pow2 (17 / 10)) by lra. apply sqrt_le_1; lra.
    - rewrite <- (sqrt_pow2 (18 / 10)) by lra. apply sqrt_le_1; lra. }
  assert (A : a = sqrt 3) by (unfold a; rewrite W, sin_PI3, E3; field).
  assert (Ee : 0 <= e <= / 1000).
  { unfold e, q_error. rewrite E3. cbn [fprec ieee_view V] in *. cbn in Up |- *. lra. }
  rewrite A, W, sin_PI3, cos_PI3.
  assert (X : e * (1 + sqrt 3) <= / 1000 * 3) by (apply Rmult_le_compat; lra).
  split.
  { replace ((sqrt 3 / 2) ^ 2) with (3 / 4) by (assert (Y := sqrt_sqrt 3 ltac:(lra)); nra). lra. }
  split; [lra|]. split; [lra|]. split; [lra|]. split; [|lra].
  intros n. unfold x. rewrite E4. split; [reflexivity|lra].
Qed.

(*@PROP
(** C139 is met in [f32] by a library with correctly rounded functions: a [LowPass] at 48 kHz
    with its corner at 8 kHz and Q = 1/4, on the input 1, 1, 1, ... *)
Example C139_hyps : let O := f32_ops (cr_libm 24 128) false in let V := ieee_view 24 128 in
  let sr := fl32 48000 0 in let f := fl32 8000 0 in let q := fl32 1 (-2) in let x := fun _ : nat => fl32 1 0 in
  let w := 2 * PI * val V f / val V sr in
  let a := sin w / (2 * val V q) in
  let e := q_error V (val V q) in
  ieee O V /\ trig_close O V /\ audible V sr f /\ 0 < val V f <= val V sr / 4 /\ fin V q = true /\ / 64 <= val V q <= / 2
  /\ 5 * e * ((1 + a) / (sin w) ^ 2) <= 1
  /\ e * (1 + a) <= a - 1 /\ e * (1 + a) <= 2 * cos w /\ 2 * (e * (1 + a)) <= 1 - cos w
  /\ (forall n, fin V (x n) = true /\ 0 <= val V (x n) <= 1) /\ 128 * 1 <= fmax V.
Proof. exact C139_hyps_aux. Qed.
@*)
