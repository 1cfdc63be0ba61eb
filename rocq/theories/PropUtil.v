(** Properties C65-C67, C75: level conversions.

    Vocabulary: [R_ops] is exact arithmetic; [ieee O V] says that [O] is the
    arithmetic of [f32] or [f64], which [V] reads as numbers ([FloatSpec]);
    [log10_sound], [pow10_sound], [level] are in [UtilSpec]. *)
From Coq Require Import ZArith Reals List Bool Lra Lia.
From Flocq Require Import Core.Core IEEE754.BinarySingleNaN.
From Verif Require Import Base Num NumR NumF FloatSpec CrLibm Witness UtilM UtilSpec UtilLemmas.
Import ListNotations.
Open Scope R_scope.

(** C65: in exact arithmetic, the conversions undo each other above the floor of
    10^-6, -120 dB. *)
Theorem C65_round_trip :
  forall (p : profile) (x d : R),
    (1 / 1000000 < x -> exists y, to_db R_ops p x = Ok y /\ -120 < y /\ to_sample R_ops y = x)
    /\ (-120 < d -> 1 / 1000000 < to_sample R_ops d /\ to_db R_ops p (to_sample R_ops d) = Ok d).
Proof. exact C65_round_trip_thm. Qed.
Print Assumptions C65_round_trip.

Example C65_hyps : 1 / 1000000 < 0.25 /\ -120 < -6.
Proof. lra. Qed.

(** C65: the conversions strictly increase above the floor, and never decrease. *)
Theorem C65_increasing :
  forall (p : profile) (x x' d d' : R),
    (0 <= x < x' -> exists y y', to_db R_ops p x = Ok y /\ to_db R_ops p x' = Ok y' /\ y <= y'
        /\ (1 / 1000000 < x' -> y < y'))
    /\ (d < d' -> to_sample R_ops d <= to_sample R_ops d' /\ (-120 < d' -> to_sample R_ops d < to_sample R_ops d')).
Proof. exact C65_increasing_thm. Qed.
Print Assumptions C65_increasing.

Example C65_increasing_hyps : 0 <= 0.0000001 < 0.5 /\ -150 < -6.
Proof. lra. Qed.

(** C66: in exact arithmetic, levels are at least -120 dB and samples at least 0;
    10^-6 and below convert to -120 dB, -120 dB and below to 0. *)
Theorem C66_clamp :
  forall (p : profile) (x d : R),
    (0 <= x -> exists y, to_db R_ops p x = Ok y /\ -120 <= y /\ (x <= 1 / 1000000 <-> y = -120))
    /\ 0 <= to_sample R_ops d /\ (d <= -120 <-> to_sample R_ops d = 0).
Proof. exact C66_clamp_thm. Qed.
Print Assumptions C66_clamp.

(** C75: in exact arithmetic, applying the gain of [d] dB to a sample raises its level by
    [d] dB, as long as both stay above the floor. *)
Theorem C75_gain_in_db :
  forall (p : profile) (x d y : R),
    1 / 1000000 < x -> -120 < d -> to_db R_ops p x = Ok y -> -120 < y + d ->
    exists x', apply_gain R_ops p x (to_sample R_ops d) = Ok x' /\ to_db R_ops p x' = Ok (y + d).
Proof. exact C75_gain_in_db_thm. Qed.
Print Assumptions C75_gain_in_db.

Example C75_hyps : exists y, 1 / 1000000 < 1 /\ -120 < -6 /\ to_db R_ops Debug 1 = Ok y /\ -120 < y + -6.
Proof.
  exists 0. split; [lra|]. split; [lra|]. split; [|lra]. rewrite to_db_R by lra. rewrite ln_1. f_equal. lra.
Qed.

(** C67: in every arithmetic, [apply_gain] multiplies; in debug builds it panics exactly
    when the gain is not finite or has its sign bit set, in release builds never. *)
Theorem C67_apply_gain :
  forall (T : Type) (O : num_ops T) (p : profile) (sample ratio : T),
    (apply_gain O p sample ratio = Panic <->
       p = Debug /\ (n_is_finite O ratio = false \/ n_is_sign_negative O ratio = true))
    /\ (apply_gain O p sample ratio <> Panic -> apply_gain O p sample ratio = Ok (n_mul O sample ratio)).
Proof. exact C67_apply_gain_thm. Qed.
Print Assumptions C67_apply_gain.

Example C67_cases :
  apply_gain O32 Debug (fl32 1 0) (fl32 1 (-1)) <> Panic
  /\ apply_gain O32 Debug (fl32 1 0) (fl32 (-1) (-1)) = Panic
  /\ apply_gain O32 Debug (fl32 1 0) (B754_infinity false) = Panic
  /\ apply_gain O32 Release (fl32 1 0) (B754_infinity false) <> Panic.
Proof. repeat split; try discriminate. Qed.

(** C66: in every arithmetic, [to_db] panics exactly on a sign bit in a debug build;
    [to_sample] never does. *)
Theorem C66_panics :
  forall (T : Type) (O : num_ops T) (p : profile) (x : T),
    (to_db O p x = Panic <-> p = Debug /\ n_is_sign_negative O x = true)
    /\ to_db O p x <> Hang.
Proof. exact C66_panics_thm. Qed.
Print Assumptions C66_panics.

(** Negative zero is refused too. *)
Example C66_panics_cases :
  to_db O32 Debug (B754_zero true) = Panic /\ to_db O32 Debug (B754_zero false) <> Panic
  /\ to_db O32 Release (B754_zero true) <> Panic.
Proof. repeat split; discriminate. Qed.

(** C66: in [f32] and [f64], where it does not panic, [to_db] answers exactly -120 for
    what is not a number above 10^-6, and 20 log10(x) (one rounding of the product)
    otherwise; [to_sample] answers exactly 0 for what is not a number above -120, and
    the power 10^(d/20) otherwise. *)
Theorem C66_clamp_float :
  forall (T : Type) (O : num_ops T) (V : float_view T) (p : profile) (x d : T),
    ieee O V ->
    (p = Release \/ n_is_sign_negative O x = false ->
      (fin V x = false \/ val V x <= 1 / 1000000 -> level V (to_db O p x) (-120))
      /\ (fin V x = true -> 1 / 1000000 < val V x ->
          exists twenty, fin V twenty = true /\ val V twenty = 20
            /\ to_db O p x = Ok (n_mul O twenty (n_log10 O x))))
    /\ (fin V d = false \/ val V d <= -120 -> to_sample O d = n_zero O)
    /\ (fin V d = true -> -120 < val V d ->
          exists ten twenty, fin V ten = true /\ val V ten = 10 /\ fin V twenty = true /\ val V twenty = 20
            /\ to_sample O d = n_powf O ten (n_div O d twenty)).
Proof. exact C66_clamp_float_thm. Qed.
Print Assumptions C66_clamp_float.

Example C66_float_hyps :
  n_is_sign_negative O32 (fl32 1 (-3)) = false /\ 1 / 1000000 < val (ieee_view 24 128) (fl32 1 (-3))
  /\ fin (ieee_view 24 128) (B754_infinity false : f32) = false
  /\ -120 < val (ieee_view 24 128) (fl32 (-6) 0).
Proof. repeat split; cbn; unfold F2R; cbn; lra. Qed.

(** C66: in [f32] and [f64], with a logarithm and a power that are right to within their
    rounding, the level of a sample that is not negative is a number of at least -120 dB,
    at most 0 dB if the sample is at most 1, and at least 0 dB if it is at least 1; a level of
    at most 0 dB converts to a sample in [0, 1]. *)
Theorem C66_range_float :
  forall (T : Type) (O : num_ops T) (V : float_view T) (p : profile) (x d : T),
    ieee O V ->
    (log10_sound O V -> p = Release \/ n_is_sign_negative O x = false ->
      exists y, to_db O p x = Ok y /\ fin V y = true /\ -120 <= val V y
        /\ (fin V x = true -> val V x <= 1 -> val V y <= 0)
        /\ (fin V x = true -> 1 <= val V x -> 0 <= val V y))
    /\ (pow10_sound O V -> fin V d = true -> val V d <= 0 ->
      fin V (to_sample O d) = true /\ 0 <= val V (to_sample O d) <= 1).
Proof. exact C66_range_float_thm. Qed.
Print Assumptions C66_range_float.

(** A correctly rounded library meets the hypotheses. *)
Example C66_range_float_hyps :
  log10_sound (f32_ops (cr_libm 24 128) false) (ieee_view 24 128)
  /\ pow10_sound (f64_ops (cr_libm 53 1024) false) (ieee_view 53 1024)
  /\ n_is_sign_negative O32 (fl32 1 (-3)) = false /\ val (ieee_view 24 128) (fl32 1 (-3)) <= 1.
Proof.
  split; [exact (cr_log_32 false)|]. split; [exact (cr_pow_64 false)|]. split; [reflexivity|].
  cbn. unfold F2R. cbn. lra.
Qed.
