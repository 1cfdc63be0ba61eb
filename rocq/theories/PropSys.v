(** Properties C82-C84 of the filters as systems, and the converse of C34.

    Vocabulary: [Signal] and [SysSpec]. *)
From Coq Require Import Reals List Lra.
From Coquelicot Require Import Coquelicot.
From Verif Require Import Num NumR FilterM RbjM Device Signal RbjSpec SysSpec SysLemmas.
Import ListNotations.
Open Scope R_scope.

(** C82: the output is the convolution of the input with the impulse response:
    a filter is determined by what it makes of 1, 0, 0, ... *)
Theorem C82_convolution :
  forall (S K : Type) (D : device S K R) (k : K) (c : R * R * R * R * R),
    filter_eq D k c -> forall (x : signal) (n : nat),
    response D k x n = convolve (response D k impulse) x n.
Proof. exact C82_convolution_thm. Qed.
Print Assumptions C82_convolution.

(** C82: the largest output that samples of magnitude at most [M] can cause is
    exactly [M] times the absolute sum of the impulse response. *)
Theorem C82_worst_case :
  forall (S K : Type) (D : device S K R) (k : K) (c : R * R * R * R * R),
    filter_eq D k c -> forall (M : R) (n : nat), 0 <= M ->
    let total := sum_f_R0 (fun j => Rabs (response D k impulse j)) n in
    (forall x : signal, (forall i, Rabs (x i) <= M) -> Rabs (response D k x n) <= M * total)
    /\ (exists x : signal, (forall i, Rabs (x i) <= M) /\ response D k x n = M * total).
Proof. exact C82_worst_case_thm. Qed.
Print Assumptions C82_worst_case.

(** C82: so for stable coefficients the absolute sum of the impulse response is
    finite, and the gain of a constant input is its plain sum. *)
Theorem C82_summable :
  forall (S K : Type) (D : device S K R) (k : K) (b0 b1 b2 a1 a2 : R),
    filter_eq D k (b0, b1, b2, a1, a2) -> stable a1 a2 ->
    exists G, is_lim_seq (fun n => sum_f_R0 (fun j => Rabs (response D k impulse j)) n) (Finite G)
      /\ (forall x M, (forall n, Rabs (x n) <= M) -> forall n, Rabs (response D k x n) <= G * M)
      /\ is_lim_seq (fun n => sum_f_R0 (response D k impulse) n) (Finite ((b0 + b1 + b2) / (1 + a1 + a2))).
Proof. exact C82_summable_thm. Qed.
Print Assumptions C82_summable.

(** C83: filters in series can be exchanged. *)
Theorem C83_series_commutes :
  forall (S K S' K' : Type) (D : device S K R) (k : K) (D' : device S' K' R) (k' : K')
         (c c' : R * R * R * R * R),
    filter_eq D k c -> filter_eq D' k' c' -> forall (x : signal) (n : nat),
    response D' k' (response D k x) n = response D k (response D' k' x) n.
Proof. exact C83_series_commutes_thm. Qed.
Print Assumptions C83_series_commutes.

(** C83: and parallel filters before or after a third one make no difference. *)
Theorem C83_series_of_sum :
  forall (S K S1 K1 S2 K2 : Type) (D : device S K R) (k : K)
         (D1 : device S1 K1 R) (k1 : K1) (D2 : device S2 K2 R) (k2 : K2) (c c1 c2 : R * R * R * R * R),
    filter_eq D k c -> filter_eq D1 k1 c1 -> filter_eq D2 k2 c2 -> forall (x : signal) (n : nat),
    response D k (fun m => response D1 k1 x m + response D2 k2 x m) n
    = response D1 k1 (response D k x) n + response D2 k2 (response D k x) n.
Proof. exact C83_series_of_sum_thm. Qed.
Print Assumptions C83_series_of_sum.

(** C34: for [TwoPole] stability is exactly what boundedness needs: the response
    to every bounded input is bounded if and only if the coefficients are in the
    stability triangle. *)
Theorem C34_two_pole_iff :
  forall b0 a1 a2 : R, b0 <> 0 ->
    (stable a1 a2 <-> forall x, bounded x -> bounded (response (dev_two_pole R_ops) (b0, a1, a2) x)).
Proof. exact C34_two_pole_iff_thm. Qed.
Print Assumptions C34_two_pole_iff.

(** C84: the settings of [TwoPole] and of the biquads must not be swept
    carelessly: switching between two stable settings, (a1, a2) and (-a1, a2)
    with a2 > 0 and |a1| > 1 - a2, at every sample, makes a single impulse grow
    beyond every bound, although nothing but zeros follows. *)
Theorem C84_sweep_diverges_refuted :
  forall (S K : Type) (D : device S K R) (k : R -> R -> K), swept D k ->
  forall a1 a2 : R, stable a1 a2 -> stable (- a1) a2 -> 0 < a2 -> 1 - a2 < Rabs a1 ->
  forall B, exists n y,
    In (Some y) (returns D [CSet (k a1 a2); CProcess 1] (alternate (k (- a1) a2) (k a1 a2) n))
    /\ B < Rabs y.
Proof. exact C84_sweep_diverges_refuted_thm. Qed.
Print Assumptions C84_sweep_diverges_refuted.

(** C84: the RBJ filters cannot be driven to that: their setter forgets the past,
    so for every choice of valid presets there is one bound that holds for all
    sequences of calls that switch among them in any way. *)
Theorem C84_rbj_sweep_bounded :
  forall (kind : rbj_kind) (presets : list (rbj_args R)), List.Forall (valid kind) presets ->
  exists G, forall (calls : list (call (rbj_args R) R)) (M y : R),
    0 <= M -> (forall x, In (CProcess x) calls -> Rabs x <= M) ->
    (forall a, In (CSet a) calls -> In a presets) ->
    In (Some y) (returns (dev_rbj R_ops kind) [] calls) -> Rabs y <= G * M.
Proof. exact C84_rbj_sweep_bounded_thm. Qed.
Print Assumptions C84_rbj_sweep_bounded.

Example C84_hyps :
  swept (dev_biquad2 R_ops) (fun a1 a2 => (1, 0, 0, a1, a2))
  /\ stable (-1.8) 0.9 /\ stable (- -1.8) 0.9 /\ 1 - 0.9 < Rabs (-1.8)
  /\ filter_eq (dev_two_zero R_ops) (1, 2, 3) (1, 2, 3, 0, 0)
  /\ List.Forall (valid LowPass) [RbjQ 48000 1000 1; RbjQ 48000 2000 0.5].
Proof.
  unfold stable. split; [constructor|].
  split; [split; unfold Rabs; destruct Rcase_abs; lra|]. split; [split; unfold Rabs; destruct Rcase_abs; lra|].
  split; [unfold Rabs; destruct Rcase_abs; lra|]. split; [constructor|].
  repeat constructor; cbn; lra.
Qed.
