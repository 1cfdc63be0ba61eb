(** Property C92: how accurate the level conversions are in [f32] and [f64], and
    how well they undo each other.

    Vocabulary: [decibels] and [amplitude] are the conversions of numbers, and
    [log10_close], [log10_rounded], [pow10_close] say how good the maths library is
    ([DbSpec]); [ieee O V] says that [O] is the arithmetic of [f32] or [f64], which [V]
    reads as numbers ([FloatSpec]). *)
From Coq Require Import ZArith Reals List Bool Lra Lia.
From Flocq Require Import Core.Core IEEE754.BinarySingleNaN.
From Verif Require Import Base Num NumF FloatSpec CrLibm Witness UtilM UtilLemmas DbSpec DbLemmas.
Import ListNotations.
Open Scope R_scope.

(** C92: for every finite sample above 10^-6, [to_db] answers its level up to a
    relative error of 4 * 2^-p.  The logarithm of the maths library is off by at most
    2^(1-p) of its value. *)
Theorem C92_to_db_accurate :
  forall (T : Type) (O : num_ops T) (V : float_view T) (p : profile) (x : T),
    ieee O V -> log10_close O V -> fin V x = true -> 1 / 1000000 < val V x ->
    exists y, to_db O p x = Ok y /\ fin V y = true
      /\ Rabs (val V y - decibels (val V x)) <= 4 * unit_off V * Rabs (decibels (val V x)) + 22 * tiny_off V.
Proof. exact C92_to_db_accurate_thm. Qed.
Print Assumptions C92_to_db_accurate.

(** C92: for every level above -120 dB and up to 600 dB, [to_sample] answers its
    amplitude up to a relative error of (3 + |d|/8) * 2^-p.  The power of the maths library
    is off by at most 2^(1-p) of its value. *)
Theorem C92_to_sample_accurate :
  forall (T : Type) (O : num_ops T) (V : float_view T) (d : T),
    ieee O V -> pow10_close O V -> fin V d = true -> -120 < val V d <= 600 ->
    fin V (to_sample O d) = true
    /\ Rabs (val V (to_sample O d) - amplitude (val V d)) <= (3 + Rabs (val V d) / 8) * unit_off V * amplitude (val V d).
Proof. exact C92_to_sample_accurate_thm. Qed.
Print Assumptions C92_to_sample_accurate.

(** C92: a sample from 1.00001 * 10^-6 to 10^30 converted to dB and back is the sample up
    to a relative error of (3 + |D|) * 2^-p, where D is its level. *)
Theorem C92_round_trip :
  forall (T : Type) (O : num_ops T) (V : float_view T) (p : profile) (x : T),
    ieee O V -> log10_close O V -> pow10_close O V -> fin V x = true ->
    1.00001 * (1 / 1000000) <= val V x <= 10 ^ 30 ->
    exists y, to_db O p x = Ok y /\ fin V (to_sample O y) = true
      /\ Rabs (val V (to_sample O y) - val V x) <= (3 + Rabs (decibels (val V x))) * unit_off V * val V x.
Proof. exact C92_round_trip_thm. Qed.
Print Assumptions C92_round_trip.

(** C92: a level from -119.999 dB to 600 dB converted to a sample and back is the level
    up to (20 + 6 |d|) * 2^-p dB. *)
Theorem C92_round_trip_level :
  forall (T : Type) (O : num_ops T) (V : float_view T) (p : profile) (d : T),
    ieee O V -> log10_close O V -> pow10_close O V -> fin V d = true -> -119.999 <= val V d <= 600 ->
    exists y, to_db O p (to_sample O d) = Ok y /\ fin V y = true
      /\ Rabs (val V y - val V d) <= (20 + 6 * Rabs (val V d)) * unit_off V.
Proof. exact C92_round_trip_level_thm. Qed.
Print Assumptions C92_round_trip_level.

(** Beside the theorems: a correctly rounded library meets the hypotheses, in both
    types.  In [f32] a level of -60 dB comes back to within 0.00003 dB. *)
Example C92_hyps :
  log10_close (f32_ops (cr_libm 24 128) false) (ieee_view 24 128)
  /\ pow10_close (f32_ops (cr_libm 24 128) false) (ieee_view 24 128)
  /\ log10_close (f64_ops (cr_libm 53 1024) false) (ieee_view 53 1024)
  /\ pow10_close (f64_ops (cr_libm 53 1024) false) (ieee_view 53 1024)
  /\ 1.00001 * (1 / 1000000) <= val (ieee_view 24 128) (fl32 3 (-10)) <= 10 ^ 30
  /\ -119.999 <= val (ieee_view 24 128) (fl32 (-60) 0) <= 600
  /\ (20 + 6 * Rabs (-60)) * unit_off (ieee_view 24 128) < 3 / 100000.
Proof.
  split; [apply rounded_close_log; [constructor|apply cr_log10_32]|]. split; [apply cr_pow10_32|].
  split; [apply rounded_close_log; [constructor|apply cr_log10_64]|]. split; [apply cr_pow10_64|].
  cbn [val ieee_view]. split; [lit; lra|]. split; [lit; lra|].
  unfold unit_off. cbn [fprec ieee_view]. change (bpow radix2 (- (24))) with (/ 16777216). rewrite Rabs_left by lra. lra.
Qed.

(** C92: no farther down: in [f32], with a correctly rounded logarithm, there is a sample
    above 10^-6 whose level is answered as exactly -120 dB, and which comes back as 0. *)
Theorem C92_floor_round_trip_refuted :
  forall (lm : libm f32) (b : bool) (p : profile),
    log10_rounded (f32_ops lm b) (ieee_view 24 128) ->
    exists x y : f32,
      fin (ieee_view 24 128) x = true /\ 1 / 1000000 < val (ieee_view 24 128) x
      /\ to_db (f32_ops lm b) p x = Ok y /\ val (ieee_view 24 128) y = -120
      /\ to_sample (f32_ops lm b) y = n_zero (f32_ops lm b).
Proof. exact C92_floor_round_trip_refuted_thm. Qed.
Print Assumptions C92_floor_round_trip_refuted.

Example C92_floor_hyps : log10_rounded (f32_ops (cr_libm 24 128) false) (ieee_view 24 128).
Proof. exact (cr_log10_32 false). Qed.
