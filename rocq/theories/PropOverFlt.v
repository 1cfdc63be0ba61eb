(** Property C139: a [LowPass] that does not overshoot, and that preserves order, in [f32] and
    [f64].

    Vocabulary: [stream D k x n]: what a new object configured with [k] returns for sample [n] of
    [x] ([FltFilterSpec]); [audible], [q_error]: the range of the sample rate and the frequency,
    and the accuracy of the coefficients ([RbjAccSpec]); [trig_close]: sine and cosine of the
    platform ([RbjFltSpec]); [below], [raised], [answers_below] ([OrderSpec]). *)
From Coq Require Import ZArith Reals List Bool Lra Lia.
From Flocq Require Import Core.Core IEEE754.BinarySingleNaN.
From Verif Require Import Base Num NumR NumF FloatSpec FloatFacts Witness CrLibm FilterM RbjM Device Signal FltFilterSpec
  RbjFltSpec RbjAccSpec OrderSpec OverFltLemmas.
Import ListNotations.
Open Scope R_scope.

(** C139: with Q at most 1/2 and a corner at or below a quarter of the sample rate, what a
    [LowPass] in floating point returns for samples from 0 to [m] stays, for ever, between 0 and
    [m] up to a margin that is a number of rounding units given by the settings; all of it is
    finite. *)
Theorem C139_no_overshoot :
  forall (T : Type) (O : num_ops T) (V : float_view T), ieee O V -> trig_close O V ->
  forall (sr f q : T) (G m : R) (x : nat -> T),
    audible V sr f -> 0 < val V f <= val V sr / 4 -> fin V q = true -> / 64 <= val V q <= / 2 ->
    let s := sin (2 * PI * val V f / val V sr) in
    G = (1 + s / (2 * val V q)) / s ^ 2 -> 5 * q_error V (val V q) * G <= 1 ->
    (forall n, fin V (x n) = true /\ 0 <= val V (x n) <= m) -> 128 * m <= fmax V ->
    let E := 7 * q_error V (val V q) * G * (2 * m + fmin V) in
    forall n, fin V (stream (dev_rbj O LowPass) (RbjQ sr f q) x n) = true
      /\ - E <= val V (stream (dev_rbj O LowPass) (RbjQ sr f q) x n) <= m + E.
Proof. exact C139_no_overshoot_thm. Qed.
Print Assumptions C139_no_overshoot.

(** C139: where the corner is below a quarter of the sample rate and Q below (sin w) / 2, both by
    more than the error of the coefficients, the [LowPass] preserves the order of signals exactly,
    rounding included: of two objects configured and used in the same way, the one that is fed
    samples that are not smaller never returns anything smaller. *)
Theorem C139_order :
  forall (T : Type) (O : num_ops T) (V : float_view T), ieee O V -> trig_close O V ->
  forall (sr f q : T), audible V sr f -> fin V q = true -> / 64 <= val V q <= 1024 ->
  let w := 2 * PI * val V f / val V sr in
  let a := sin w / (2 * val V q) in
  let e := q_error V (val V q) in
  e * (1 + a) <= a - 1 -> e * (1 + a) <= 2 * cos w -> 2 * (e * (1 + a)) <= 1 - cos w ->
  forall calls calls' : list (call (rbj_args T) T),
    List.Forall (fun c => forall k, c = CSet k -> k = RbjQ sr f q) calls -> List.Forall2 (raised V) calls calls' ->
    List.Forall2 (answers_below V) (returns (dev_rbj O LowPass) [] calls) (returns (dev_rbj O LowPass) [] calls').
Proof. exact C139_order_thm. Qed.
Print Assumptions C139_order.

(** C139: and a signal that starts at or above zero and never falls comes out as one that never
    falls. *)
Theorem C139_rising :
  forall (T : Type) (O : num_ops T) (V : float_view T), ieee O V -> trig_close O V ->
  forall (sr f q : T) (x : nat -> T), audible V sr f -> fin V q = true -> / 64 <= val V q <= 1024 ->
  let w := 2 * PI * val V f / val V sr in
  let a := sin w / (2 * val V q) in
  let e := q_error V (val V q) in
  e * (1 + a) <= a - 1 -> e * (1 + a) <= 2 * cos w -> 2 * (e * (1 + a)) <= 1 - cos w ->
  (forall n, fin V (x n) = true) -> 0 <= val V (x 0%nat) -> (forall n, val V (x n) <= val V (x (S n))) ->
  forall n, below V (stream (dev_rbj O LowPass) (RbjQ sr f q) x n) (stream (dev_rbj O LowPass) (RbjQ sr f q) x (S n)).
Proof. exact C139_rising_thm. Qed.
Print Assumptions C139_rising.

(** C139 is met in [f32] by a library with correctly rounded functions: a [LowPass] at 48 kHz
    with its corner at 8 kHz and Q = 1/4, on the input 1, 1, 1, ... *)
Example C139_hyps : let O := f32_ops (cr_libm 24 128) false in let V := ieee_view 24 128 in
  let sr := fl32 48000 0 in let f := fl32 8000 0 in let q := fl32 1 (-2) in let x := fun _ : nat => fl32 1 0 in
  let w := 2 * PI * val V f / val V sr in
  let a := sin w / (2 * val V q) in
  let e := q_error V (val V q) in
  ieee O V /\ trig_close O V /\ audible V sr f /\ 0 < val V f <= val V sr / 4 /\ fin V q = true /\ / 64 <= val V q <= / 2
  /\ 5 * e * ((1 + a) / (sin w) ^ 2) <= 1
  /\ e * (1 + a) <= a - 1 /\ e * (1 + a) <= 2 * cos w /\ 2 * (e * (1 + a)) <= 1 - cos w
  /\ (forall n, fin V (x n) = true /\ 0 <= val V (x n) <= 1) /\ 128 * 1 <= fmax V.
Proof. exact C139_hyps_aux. Qed.
