(** Property C124: steps settle exactly in [f32] and [f64], and which of the two orders of a DC blocker
    (a difference [OneZero (1, -1)] and a leaky [OnePole (1, -r)]) removes a constant exactly.

    Vocabulary: [below], [orderly] ([OrderSpec]); [stream D k x n]: what a new object configured with [k]
    returns for sample [n] of [x] ([FltFilterSpec]); so [stream D' k' (stream D k x)] is the output of the
    chain of the two. *)
From Coq Require Import ZArith Reals List Bool Lra Lia.
From Flocq Require Import Core.Core IEEE754.BinarySingleNaN.
From Verif Require Import Base Num NumF Witness FloatSpec FilterM RbjM AnalysisM Device FltFilterSpec FltFilterLemmas OrderSpec DcLemmas.
Import ListNotations.
Open Scope R_scope.

(** C124: fed with a signal that starts at or above zero and never falls (a step, say), a newly
    configured filter with pushing coefficients either overflows or, from some sample on, returns
    exactly the same number for ever. *)
Theorem C124_settles :
  forall (T : Type) (O : num_ops T) (V : float_view T), ieee O V ->
  forall (S K : Type) (D : device S K T) (ok : K -> Prop), orderly O V D ok ->
  forall (k : K) (x : nat -> T), ok k ->
    below V (n_zero O) (x 0%nat) -> (forall n, below V (x n) (x (Datatypes.S n))) ->
    (exists n, fin V (stream D k x n) = false)
    \/ exists N : nat, forall n, (N <= n)%nat -> fin V (stream D k x n) = true /\ val V (stream D k x n) = val V (stream D k x N).
Proof. exact C124_settles_thm. Qed.
Print Assumptions C124_settles.

Example C124_settles_hyps :
  let O := O32 in let V := ieee_view 24 128 in
  ieee O V /\ pushing V (fl32 1 0, fl32 1 1, fl32 1 0, fl32 (-1) (-1), fl32 (-1) (-2))
  /\ below V (n_zero O) (fl32 3 0) /\ forall n : nat, below V ((fun _ => fl32 3 0) n) ((fun _ => fl32 3 0) (S n)).
Proof.
  split; [constructor|]. split; [repeat split; cbn [val ieee_view]; lit; lra|].
  split; [intros _ _; cbn [val ieee_view]; lit; lra|]. intros n _ _. apply Rle_refl.
Qed.

(** C124: a DC blocker with the leaky integrator first, y = [OnePole (1, -r)] and then
    [OneZero (1, -1)] with 0 <= r < 1, answers a constant (or any rising signal) with exactly zero from some
    sample on, rounding included. *)
Theorem C124_integrator_first :
  forall (T : Type) (O : num_ops T) (V : float_view T), ieee O V ->
  forall (r1 m1 : T) (k : Z) (x : nat -> T),
    fin V r1 = true -> -1 < val V r1 <= 0 -> fin V m1 = true -> val V m1 = -1 ->
    (0 <= k)%Z -> bpow radix2 k <= fmax V ->
    (forall n, fin V (x n) = true /\ 0 <= val V (x n) <= (1 + val V r1) * bpow radix2 k) ->
    (forall n, val V (x n) <= val V (x (S n))) ->
    exists N : nat, forall n, (N <= n)%nat ->
      let y := stream (dev_one_zero O) (n_one O, m1) (stream (dev_one_pole O) (n_one O, r1) x) n in
      fin V y = true /\ val V y = 0.
Proof. exact C124_integrator_first_thm. Qed.
Print Assumptions C124_integrator_first.

(* r = 15/16, k = 4 and a step of 1 *)
Example C124_integrator_first_hyps :
  let V := ieee_view 24 128 in let r1 := fl32 (-15) (-4) in let m1 := fl32 (-1) 0 in let x := fun _ : nat => fl32 1 0 in
  fin V r1 = true /\ -1 < val V r1 <= 0 /\ fin V m1 = true /\ val V m1 = -1
  /\ bpow radix2 4 <= fmax V
  /\ (forall n, fin V (x n) = true /\ 0 <= val V (x n) <= (1 + val V r1) * bpow radix2 4)
  /\ (forall n, val V (x n) <= val V (x (S n))).
Proof.
  cbv zeta. cbn [val fin ieee_view fmax].
  assert (E1 : B2R (fl32 (-15) (-4)) = -15/16) by (lit; lra). assert (E2 : B2R (fl32 (-1) 0) = -1) by (lit; lra).
  assert (E3 : B2R (fl32 1 0) = 1) by (lit; lra). rewrite E1, E2, E3.
  split; [reflexivity|]. split; [lra|]. split; [reflexivity|]. split; [reflexivity|]. split.
  - assert (A : bpow radix2 (-24) <= bpow radix2 (-1)) by (apply bpow_le; lia).
    assert (B : bpow radix2 5 <= bpow radix2 128) by (apply bpow_le; lia).
    change (bpow radix2 (-1)) with (/ 2) in A. change (bpow radix2 5) with 32 in B. change (bpow radix2 4) with 16.
    assert (C : 1/2 * 32 <= (1 - bpow radix2 (-24)) * bpow radix2 128) by (apply Rmult_le_compat; lra). change (- (24))%Z with (-24)%Z. lra.
  - split; intros n; [|lra]. split; [reflexivity|]. change (bpow radix2 4) with 16. lra.
Qed.

(** C124: with the same two filters in the other order (the difference first) and any r above 1/2, a
    constant other than zero is never removed: every output is a number other than zero. *)
Theorem C124_difference_first_refuted :
  forall (T : Type) (O : num_ops T) (V : float_view T), ieee O V ->
  forall (r1 m1 c : T),
    fin V r1 = true -> / 2 < Rabs (val V r1) <= 1 -> fin V m1 = true -> val V m1 = -1 ->
    fin V c = true -> val V c <> 0 ->
    forall n,
      let y := stream (dev_one_pole O) (n_one O, r1) (stream (dev_one_zero O) (n_one O, m1) (fun _ => c)) n in
      fin V y = true /\ 0 < Rabs (val V y) <= Rabs (val V c).
Proof. exact C124_difference_first_refuted_thm. Qed.
Print Assumptions C124_difference_first_refuted.

(* the same r, the same step *)
Example C124_difference_first_hyps :
  let V := ieee_view 24 128 in
  fin V (fl32 (-15) (-4)) = true /\ / 2 < Rabs (val V (fl32 (-15) (-4))) <= 1 /\ fin V (fl32 (-1) 0) = true /\ val V (fl32 (-1) 0) = -1
  /\ fin V (fl32 1 0) = true /\ val V (fl32 1 0) <> 0.
Proof.
  cbv zeta. cbn [val fin ieee_view fmax].
  assert (E1 : B2R (fl32 (-15) (-4)) = -15/16) by (lit; lra). assert (E2 : B2R (fl32 (-1) 0) = -1) by (lit; lra).
  assert (E3 : B2R (fl32 1 0) = 1) by (lit; lra). rewrite E1, E2, E3. rewrite Rabs_left by lra. repeat split; lra.
Qed.

(** C124: what the difference does remove exactly is any offset: two signals that differ by a constant
    leave [OneZero (1, -1)] as the same numbers from the second sample on, rounding included. *)
Theorem C124_offset_removed :
  forall (T : Type) (O : num_ops T) (V : float_view T), ieee O V ->
  forall (m1 : T) (x x' : nat -> T) (offset : R),
    fin V m1 = true -> val V m1 = -1 ->
    (forall n, fin V (x n) = true /\ Rabs (val V (x n)) <= fmax V / 2) ->
    (forall n, fin V (x' n) = true /\ Rabs (val V (x' n)) <= fmax V / 2) ->
    (forall n, val V (x' n) = val V (x n) + offset) ->
    forall n, let y := stream (dev_one_zero O) (n_one O, m1) in
      fin V (y x' (S n)) = true /\ val V (y x' (S n)) = val V (y x (S n)).
Proof. exact C124_offset_removed_thm. Qed.
Print Assumptions C124_offset_removed.

(* 1, 1, 1, ... and the same with 1/2 more *)
Example C124_offset_removed_hyps :
  let V := ieee_view 24 128 in let x := fun _ : nat => fl32 1 0 in let x' := fun _ : nat => fl32 3 (-1) in
  (forall n, fin V (x n) = true /\ Rabs (val V (x n)) <= fmax V / 2)
  /\ (forall n, fin V (x' n) = true /\ Rabs (val V (x' n)) <= fmax V / 2)
  /\ (forall n, val V (x' n) = val V (x n) + / 2).
Proof.
  cbv zeta. cbn [val fin ieee_view fmax].
  assert (E1 : B2R (fl32 1 0) = 1) by (lit; lra). assert (E2 : B2R (fl32 3 (-1)) = 3/2) by (lit; lra). rewrite E1, E2.
  assert (A : bpow radix2 (-24) <= bpow radix2 (-1)) by (apply bpow_le; lia).
  assert (B : bpow radix2 5 <= bpow radix2 128) by (apply bpow_le; lia).
  change (bpow radix2 (-1)) with (/ 2) in A. change (bpow radix2 5) with 32 in B.
  assert (C : 1/2 * 32 <= (1 - bpow radix2 (-24)) * bpow radix2 128) by (apply Rmult_le_compat; lra). change (- (24))%Z with (-24)%Z.
  rewrite !Rabs_pos_eq by lra. split; [|split]; intros n; [split; [reflexivity|lra]|split; [reflexivity|lra]|lra].
Qed.
