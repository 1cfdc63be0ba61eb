(** Properties C29-C36 of the basic filters.

    Vocabulary: [Signal] (signals, the difference equation, stability), [Device]
    (objects seen through their API) and [FilterSpec] (finite signals and
    untouched coefficients in floating point). *)
From Coq Require Import ZArith Reals List Lra.
From Coquelicot Require Import Coquelicot.
From Flocq Require Import IEEE754.BinarySingleNaN.
From Verif Require Import Base Num NumR NumF Witness FilterM RbjM Device Signal FloatFacts FilterSpec FilterLemmas.
Import ListNotations.
Open Scope R_scope.

(** C29: in exact arithmetic every filter of the library (the transposed
    [Biquad2] and the RBJ filters built on it included) obeys the documented
    difference equation, for every input. *)
Theorem C29_filters_obey_equation :
  forall (S K : Type) (D : device S K R) (k : K) (c : R * R * R * R * R) (x : signal),
    filter_eq D k c -> obeys c x (out D (configured D k) x).
Proof. exact C29_filters_obey_equation_thm. Qed.
Print Assumptions C29_filters_obey_equation.

(** C29: [Biquad1] and [Biquad2] with equal coefficients return the same samples
    for every sequence of process, clear and last_out calls. *)
Theorem C29_biquads_agree :
  forall (k : R * R * R * R * R) (cs : list (call (R * R * R * R * R) R)),
    no_set cs ->
    returns (dev_biquad1 R_ops) [CSet k] cs = returns (dev_biquad2 R_ops) [CSet k] cs.
Proof. exact C29_biquads_agree_thm. Qed.
Print Assumptions C29_biquads_agree.

Example C29_hyps :
  filter_eq (dev_biquad2 R_ops) (1, 2, 3, 4, 5) (1, 2, 3, 4, 5)
  /\ (exists c, filter_eq (dev_rbj R_ops LowPass) (RbjQ 48000 1000 1) c)
  /\ no_set (K := R * R * R * R * R) [CProcess 1; CLastOut; CClear; CProcess 2].
Proof.
  split; [constructor|]. split; [eexists; apply fe_rbj; reflexivity|]. repeat constructor.
Qed.

(** C30: after a coefficient change on a filter in use the two biquads differ in
    general: with coefficients [k1] a first sample [x0], then [k2] and a sample
    [x1], [Biquad1] weighs the past with the new coefficients and [Biquad2] with
    the old ones. *)
Theorem C30_mid_stream_change :
  forall b0 b1 b2 a1 a2 b0' b1' b2' a1' a2' x0 x1 : R,
    let k1 := (b0, b1, b2, a1, a2) in let k2 := (b0', b1', b2', a1', a2') in
    let cs := [CSet k1; CProcess x0; CSet k2] in
    returns (dev_biquad1 R_ops) cs [CProcess x1] = [Some (b0' * x1 + (b1' * x0 - a1' * (b0 * x0)))]
    /\ returns (dev_biquad2 R_ops) cs [CProcess x1] = [Some (b0' * x1 + (b1 * x0 - a1 * (b0 * x0)))].
Proof. exact C30_mid_stream_change_thm. Qed.
Print Assumptions C30_mid_stream_change.

(** C30: so there are histories on which they disagree. *)
Theorem C30_biquads_disagree :
  exists (cs : list (call (R * R * R * R * R) R)) (x : R),
    returns (dev_biquad1 R_ops) cs [CProcess x] <> returns (dev_biquad2 R_ops) cs [CProcess x].
Proof. exact C30_biquads_disagree_thm. Qed.
Print Assumptions C30_biquads_disagree.

(** C31: superposition. *)
Theorem C31_linear :
  forall (S K : Type) (D : device S K R) (k : K) (c : R * R * R * R * R),
    filter_eq D k c -> forall (a b : R) (u v : signal) (n : nat),
    out D (configured D k) (fun m => a * u m + b * v m) n
    = a * out D (configured D k) u n + b * out D (configured D k) v n.
Proof. exact C31_linear_thm. Qed.
Print Assumptions C31_linear.

(** C31: time invariance. *)
Theorem C31_time_invariant :
  forall (S K : Type) (D : device S K R) (k : K) (c : R * R * R * R * R),
    filter_eq D k c -> forall (j : nat) (x : signal) (n : nat),
    out D (configured D k) (back j x) n = back j (out D (configured D k) x) n.
Proof. exact C31_time_invariant_thm. Qed.
Print Assumptions C31_time_invariant.

(** C36: filters with the same equation are the same filter; in particular each
    basic filter is the biquad with the missing coefficients zero. *)
Theorem C36_equation_determines_output :
  forall (S K S' K' : Type) (D : device S K R) (k : K) (D' : device S' K' R) (k' : K')
         (c : R * R * R * R * R),
    filter_eq D k c -> filter_eq D' k' c -> forall (x : signal) (n : nat),
    out D (configured D k) x n = out D' (configured D' k') x n.
Proof. exact C36_equation_determines_output_thm. Qed.
Print Assumptions C36_equation_determines_output.

Theorem C36_embed_in_biquad :
  forall (b0 b1 b2 a1 a2 : R) (x : signal) (n : nat),
    let biquad k := out (dev_biquad1 R_ops) (configured (dev_biquad1 R_ops) k) x n in
    out (dev_one_pole R_ops) (configured (dev_one_pole R_ops) (b0, a1)) x n
      = biquad (b0, 0, 0, a1, 0)
    /\ out (dev_one_zero R_ops) (configured (dev_one_zero R_ops) (b0, b1)) x n
      = biquad (b0, b1, 0, 0, 0)
    /\ out (dev_two_pole R_ops) (configured (dev_two_pole R_ops) (b0, a1, a2)) x n
      = biquad (b0, 0, 0, a1, a2)
    /\ out (dev_two_zero R_ops) (configured (dev_two_zero R_ops) (b0, b1, b2)) x n
      = biquad (b0, b1, b2, 0, 0).
Proof. exact C36_embed_in_biquad_thm. Qed.
Print Assumptions C36_embed_in_biquad.

(** C34: stable coefficients, bounded input, bounded output: the factor depends
    on the coefficients only. *)
Theorem C34_bounded :
  forall (S K : Type) (D : device S K R) (k : K) (b0 b1 b2 a1 a2 : R),
    filter_eq D k (b0, b1, b2, a1, a2) -> stable a1 a2 ->
    exists G : R, forall (x : signal) (M : R), (forall n, Rabs (x n) <= M) ->
      forall n, Rabs (out D (configured D k) x n) <= G * M.
Proof. exact C34_bounded_thm. Qed.
Print Assumptions C34_bounded.

(** C34: explicit factors for the simplest filters. *)
Theorem C34_one_pole_gain :
  forall (b0 a1 : R) (x : signal) (M : R),
    Rabs a1 < 1 -> (forall n, Rabs (x n) <= M) ->
    forall n, Rabs (out (dev_one_pole R_ops) (configured (dev_one_pole R_ops) (b0, a1)) x n)
              <= Rabs b0 / (1 - Rabs a1) * M.
Proof. exact C34_one_pole_gain_thm. Qed.
Print Assumptions C34_one_pole_gain.

Theorem C34_fir_gain :
  forall (b0 b1 b2 : R) (x : signal) (M : R),
    (forall n, Rabs (x n) <= M) -> forall n,
    Rabs (out (dev_one_zero R_ops) (configured (dev_one_zero R_ops) (b0, b1)) x n)
      <= (Rabs b0 + Rabs b1) * M
    /\ Rabs (out (dev_two_zero R_ops) (configured (dev_two_zero R_ops) (b0, b1, b2)) x n)
      <= (Rabs b0 + Rabs b1 + Rabs b2) * M.
Proof. exact C34_fir_gain_thm. Qed.
Print Assumptions C34_fir_gain.

(** C34 is sharp: outside the stability region boundedness fails.  [OnePole] with
    |a1| >= 1 has a bounded input whose response exceeds every bound. *)
Theorem C34_one_pole_unstable :
  forall a1 : R, 1 <= Rabs a1 ->
  exists x : signal, (forall n, Rabs (x n) <= 1) /\
    forall B, exists n,
      B < Rabs (out (dev_one_pole R_ops) (configured (dev_one_pole R_ops) (1, a1)) x n).
Proof. exact C34_one_pole_unstable_thm. Qed.
Print Assumptions C34_one_pole_unstable.

Example C34_hyps :
  stable (-1.8) 0.9 /\ stable 0.5 0 /\ ~ stable 2 0
  /\ filter_eq (dev_two_pole R_ops) (1, -1.8, 0.9) (1, 0, 0, -1.8, 0.9).
Proof.
  unfold stable. split; [split; unfold Rabs; destruct Rcase_abs; lra|].
  split; [split; unfold Rabs; destruct Rcase_abs; lra|]. split; [|constructor].
  intros [_ H]. revert H. unfold Rabs. destruct Rcase_abs; lra.
Qed.

(** C35: with stable coefficients, whatever the filter has been through, an input
    that dies away (silence included) gives an output that dies away. *)
Theorem C35_ring_down :
  forall (S K : Type) (D : device S K R) (k : K) (b0 b1 b2 a1 a2 : R)
         (before since : list (call K R)) (x : signal),
    filter_eq D k (b0, b1, b2, a1, a2) -> stable a1 a2 -> no_set since ->
    is_lim_seq x 0 ->
    is_lim_seq (out D (after D (before ++ [CSet k] ++ since)) x) 0.
Proof. exact C35_ring_down_thm. Qed.
Print Assumptions C35_ring_down.

(** C35: the past is forgotten: two filters with the same stable coefficients
    and different pasts, fed the same input, end up agreeing. *)
Theorem C35_past_fades :
  forall (S K : Type) (D : device S K R) (k : K) (b0 b1 b2 a1 a2 : R)
         (before since before' since' : list (call K R)) (x : signal),
    filter_eq D k (b0, b1, b2, a1, a2) -> stable a1 a2 -> no_set since -> no_set since' ->
    approaches (out D (after D (before ++ [CSet k] ++ since)) x)
               (out D (after D (before' ++ [CSet k] ++ since')) x).
Proof. exact C35_past_fades_thm. Qed.
Print Assumptions C35_past_fades.

Example C35_hyps :
  filter_eq (dev_biquad1 R_ops) (1, 2, 1, -1.8, 0.9) (1, 2, 1, -1.8, 0.9) /\ stable (-1.8) 0.9
  /\ no_set (K := R * R * R * R * R) [CProcess 1; CProcess (-3)] /\ is_lim_seq (fun _ => 0) 0.
Proof.
  split; [constructor|]. split.
  { unfold stable. split; unfold Rabs; destruct Rcase_abs; lra. }
  split; [repeat constructor|apply is_lim_seq_const].
Qed.

(** C32: a filter straight from [new()] returns a value equal to each finite
    input, after any history of finite samples, clears and reads (no coefficient
    set); [f32] and [f64]. *)
Theorem C32_new_is_transparent_f32 :
  forall (lm : libm f32) (nn : bool) (S K : Type) (D : device S K f32)
         (history : list (call K f32)) (x : f32),
    filter_device (f32_ops lm nn) D -> finite_calls history -> is_finite x = true ->
    exists y, returns D history [CProcess x] = [Some y]
              /\ is_finite y = true /\ B2R y = B2R x.
Proof. exact C32_new_is_transparent_f32_thm. Qed.
Print Assumptions C32_new_is_transparent_f32.

Theorem C32_new_is_transparent_f64 :
  forall (lm : libm f64) (nn : bool) (S K : Type) (D : device S K f64)
         (history : list (call K f64)) (x : f64),
    filter_device (f64_ops lm nn) D -> finite_calls history -> is_finite x = true ->
    exists y, returns D history [CProcess x] = [Some y]
              /\ is_finite y = true /\ B2R y = B2R x.
Proof. exact C32_new_is_transparent_f64_thm. Qed.
Print Assumptions C32_new_is_transparent_f64.

(** C32: the exception.  One infinite sample makes a new recursive filter return
    NaN for every later sample, whatever it is. *)
Theorem C32_infinity_poisons_refuted :
  forall (lm : libm f64) (nn : bool) (S K : Type) (D : device S K f64)
         (history : list (call K f64)) (sign : bool) (xs : list f64),
    iir_filter_device (f64_ops lm nn) D -> finite_calls history ->
    returns D (history ++ [CProcess (B754_infinity sign)]) (map CProcess xs)
    = map (fun _ => Some B754_nan) xs.
Proof. exact C32_infinity_poisons_refuted_thm. Qed.
Print Assumptions C32_infinity_poisons_refuted.

Theorem C32_infinity_poisons_f32_refuted :
  forall (lm : libm f32) (nn : bool) (S K : Type) (D : device S K f32)
         (history : list (call K f32)) (sign : bool) (xs : list f32),
    iir_filter_device (f32_ops lm nn) D -> finite_calls history ->
    returns D (history ++ [CProcess (B754_infinity sign)]) (map CProcess xs)
    = map (fun _ => Some B754_nan) xs.
Proof. exact C32_infinity_poisons_f32_refuted_thm. Qed.
Print Assumptions C32_infinity_poisons_f32_refuted.

Example C32_hyps (a b : f64) : is_finite a = true -> is_finite b = true ->
  filter_device O64 (dev_two_zero O64) /\ filter_device O64 (dev_rbj O64 Peak)
  /\ iir_filter_device O64 (dev_biquad2 O64)
  /\ finite_calls (K := f64 * f64 * f64) [CProcess a; CClear; CProcess b; CLastOut].
Proof.
  intros Ha Hb. split; [constructor|]. split; [constructor|]. split; [constructor|].
  repeat constructor; assumption.
Qed.
