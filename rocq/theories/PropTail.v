(** Property C85: what [OnePole], [LeakyIntegrator] and the detectors do in [f32]
    and [f64] when the input falls silent.

    Vocabulary: [TailSpec], [AnaSpec], [FloatSpec]. *)
From Coq Require Import ZArith Reals List Bool Lra Lia.
From Flocq Require Import Core.Core IEEE754.BinarySingleNaN.
From Verif Require Import Base Num NumF FloatSpec Witness CrLibm FilterM AnalysisM Device AnaSpec AnaLemmas TailSpec TailLemmas.
Import ListNotations.
Open Scope R_scope.

(** C85: in [f32] and [f64], when the input stops, the output of [OnePole] with
    |a1| > 1/2, of [LeakyIntegrator] with alpha > 1/2, and of the detectors with a
    release gain above 1/2, never reaches zero again, although the exact response
    tends to zero: it stays a non-zero number for ever (and ends up in the
    subnormal numbers, which many processors handle slowly). *)
Theorem C85_tail_never_ends_refuted :
  forall (T : Type) (O : num_ops T) (V : float_view T) (S K : Type) (D : device S K T) (k : K) (g : T)
         (history : list (call K T)) (samples : list T),
    ieee O V -> fin V g = true -> / 2 < Rabs (val V g) <= 1 ->
    let before := configured_and_fed history k samples in
    let y0 := d_last_out D (after D before) in
    decays O V D k g y0 -> fin V y0 = true -> val V y0 <> 0 ->
    forall n, Forall (fun r => exists y, r = Some y /\ fin V y = true /\ 0 < Rabs (val V y) <= Rabs (val V y0))
                (returns D before (silence O n)).
Proof. exact C85_tail_never_ends_refuted_thm. Qed.
Print Assumptions C85_tail_never_ends_refuted.

(** C85: with a gain of 1/2 or less the output is exactly zero after a number of
    samples that depends on the float type only. *)
Theorem C85_tail_ends :
  forall (T : Type) (O : num_ops T) (V : float_view T), ieee O V ->
  exists N : nat,
  forall (S K : Type) (D : device S K T) (k : K) (g : T) (history : list (call K T)) (samples : list T),
    fin V g = true -> Rabs (val V g) <= / 2 ->
    let before := configured_and_fed history k samples in
    let y0 := d_last_out D (after D before) in
    decays O V D k g y0 -> fin V y0 = true ->
    forall n, Forall (fun r => exists y, r = Some y /\ fin V y = true /\ val V y = 0)
                (returns D (before ++ silence O N) (silence O n)).
Proof. exact C85_tail_ends_thm. Qed.
Print Assumptions C85_tail_ends.

(** C85: with a correctly rounded exponential, every release of two samples or more
    has such a gain. *)
Theorem C85_release_gain :
  forall (T : Type) (O : num_ops T) (V : float_view T) (len : T),
    ieee O V -> exp_rounded O V -> fin V len = true -> 2 <= val V len ->
    fin V (gain_of O len) = true /\ / 2 < val V (gain_of O len) <= 1.
Proof. exact C85_release_gain_thm. Qed.
Print Assumptions C85_release_gain.

(* OnePole with a1 = -3/4 and LeakyIntegrator with alpha = 3/4, fed one sample of 1;
   a release of two samples *)
Example C85_hyps :
  let V := ieee_view 24 128 in
  let y1 := d_last_out (dev_one_pole O32) (after (dev_one_pole O32) (configured_and_fed [CClear] (fl32 1 0, fl32 (-3) (-2)) [fl32 1 0])) in
  let y2 := d_last_out (dev_leaky O32) (after (dev_leaky O32) (configured_and_fed [CProcess (fl32 1 0)] (fl32 3 (-2)) [fl32 1 0])) in
  decays O32 V (dev_one_pole O32) (fl32 1 0, fl32 (-3) (-2)) (fl32 (-3) (-2)) y1
  /\ fin V y1 = true /\ val V y1 <> 0
  /\ decays O32 V (dev_leaky O32) (fl32 3 (-2)) (fl32 3 (-2)) y2
  /\ fin V y2 = true /\ val V y2 <> 0
  /\ / 2 < Rabs (val V (fl32 (-3) (-2))) <= 1
  /\ 2 <= val V (fl32 1 1).
Proof.
  cbv zeta. split; [constructor; reflexivity|]. split; [reflexivity|].
  split; [vm_compute; unfold F2R; cbn; lra|].
  split; [constructor; split; [reflexivity|]; cbn; unfold F2R; cbn; lra|]. split; [reflexivity|].
  split; [vm_compute; unfold F2R; cbn; lra|].
  split; cbn; unfold F2R; cbn; [|lra]. rewrite Rabs_left; lra.
Qed.
