(** Properties C87-C89: the setters of the RBJ filters in [f32] and [f64].

    Vocabulary: [RbjFltSpec], [FltFilterSpec], [FloatSpec]. *)
From Coq Require Import ZArith Reals List Bool Lra Lia.
From Flocq Require Import Core.Core IEEE754.BinarySingleNaN.
From Verif Require Import Base Num NumF FloatSpec FloatFacts Witness CrLibm FilterM RbjM Device Signal FltFilterSpec
  RbjFltSpec RbjFltLemmas.
Import ListNotations.
Open Scope R_scope.

(** C87: [LowPass] turns into a mute when its cutoff is below the 2^-15th part of the
    sample rate in [f32] (1.3 Hz at 44100 Hz; 2^-30 in [f64]): whatever happened before
    and whatever finite samples follow, it returns nothing but zeros.  (With real
    numbers a constant passes unchanged, C38.) *)
Theorem C87_low_cutoff_passes_refuted :
  forall (T : Type) (O : num_ops T) (V : float_view T), ieee O V -> trig_rounded O V ->
  forall sr f q, usual_rate V sr -> fin V f = true -> 0 <= val V f <= lost V * val V sr ->
    fin V q = true -> / 1024 <= val V q <= 1024 ->
  forall before calls,
    (forall k, ~ In (CSet k) calls) -> (forall x, In (CProcess x) calls -> fin V x = true) ->
    List.Forall (fun r => r = None \/ exists y, r = Some y /\ fin V y = true /\ val V y = 0)
      (returns (dev_rbj O LowPass) (before ++ [CSet (RbjQ sr f q)]) calls).
Proof. exact C87_low_cutoff_passes_refuted_thm. Qed.
Print Assumptions C87_low_cutoff_passes_refuted.

(** C88: an [f32] filter can be unstable.  At 48000 Hz with a cutoff of 1 Hz and
    Q = 1/sqrt 2 the six filters with a Q get feedback coefficients with
    1 + a1 + a2 < 0, so the exact difference equation with them has a growing
    solution.  (The ideal filter is stable, C37.) *)
Theorem C88_float_setting_stable_refuted :
  forall (lm : libm f32) (b : bool), let O := f32_ops lm b in let V := ieee_view 24 128 in trig_rounded O V ->
  forall kind b0 b1 b2 a1 a2,
    rbj_coeffs O kind (RbjQ (fl32 48000 0) (fl32 1 0) (fl32 11863283 (-24))) = Some (b0, b1, b2, a1, a2) ->
    fin V a1 = true /\ fin V a2 = true /\ 1 + val V a1 + val V a2 < 0 /\ ~ stable (val V a1) (val V a2).
Proof. exact C88_float_setting_stable_refuted_thm. Qed.
Print Assumptions C88_float_setting_stable_refuted.

(** C88: and it does grow in [f32] arithmetic: one sample of 1 followed by silence
    makes [HighPass] return more than 500 after 96000 samples (2 seconds). *)
Theorem C88_click_dies_out_refuted :
  forall (lm : libm f32) (b : bool), let O := f32_ops lm b in let V := ieee_view 24 128 in trig_rounded O V ->
  let y := stream (dev_rbj O HighPass) (RbjQ (fl32 48000 0) (fl32 1 0) (fl32 11863283 (-24))) (click O) in
  exists n, Z.of_nat n = 96000%Z /\ fin V (y n) = true /\ 500 <= val V (y n).
Proof. exact C88_click_dies_out_refuted_thm. Qed.
Print Assumptions C88_click_dies_out_refuted.

(** C89: in the safe band (2^-10 of the sample rate away from 0 and from half the
    sample rate in [f32], 2^-24 in [f64]) the six filters with a Q from 1/64 to 1024 get
    finite coefficients whose feedback is stable, although the setter rounds. *)
Theorem C89_float_setting_stable :
  forall (T : Type) (O : num_ops T) (V : float_view T), ieee O V -> trig_close O V ->
  forall kind sr f q b0 b1 b2 a1 a2, safe_band V sr f -> fin V q = true -> / 64 <= val V q <= 1024 ->
    rbj_coeffs O kind (RbjQ sr f q) = Some (b0, b1, b2, a1, a2) ->
    all_finite V (b0, b1, b2, a1, a2) /\ stable (val V a1) (val V a2).
Proof. exact C89_float_setting_stable_thm. Qed.
Print Assumptions C89_float_setting_stable.

(** C89, continued: [Peak] (Q from 1/16 to 256) and the shelves (slope from 1/16 to 1)
    with a gain of at most 24 dB either way. *)
Theorem C89_float_gain_setting_stable :
  forall (T : Type) (O : num_ops T) (V : float_view T), ieee O V -> trig_close O V -> pow10_rounded O V ->
  forall kind sr f g x b0 b1 b2 a1 a2, safe_band V sr f -> fin V g = true -> Rabs (val V g) <= 24 -> fin V x = true ->
    (kind = Peak /\ / 16 <= val V x <= 256 \/ (kind = LowShelf \/ kind = HighShelf) /\ / 16 <= val V x <= 1) ->
    rbj_coeffs O kind (RbjGain sr f g x) = Some (b0, b1, b2, a1, a2) ->
    all_finite V (b0, b1, b2, a1, a2) /\ stable (val V a1) (val V a2).
Proof. exact C89_float_gain_setting_stable_thm. Qed.
Print Assumptions C89_float_gain_setting_stable.

(** C87 is met by a library with correctly rounded functions, 44100 Hz, a cutoff of
    1 Hz and Q = 0.6875 in [f32]. *)
Example C87_hyps : let O := f32_ops (cr_libm 24 128) false in let V := ieee_view 24 128 in
  ieee O V /\ trig_rounded O V
  /\ usual_rate V (fl32 44100 0) /\ 0 <= val V (fl32 1 0) <= lost V * val V (fl32 44100 0)
  /\ fin V (fl32 11 (-4)) = true /\ / 1024 <= val V (fl32 11 (-4)) <= 1024.
Proof. exact C87_hyps_aux. Qed.

(** C89 is met by the same library, 44100 Hz, 1 kHz and 20 kHz, Q or slope 0.6875, -12 dB. *)
Example C89_hyps : let O := f32_ops (cr_libm 24 128) false in let V := ieee_view 24 128 in
  ieee O V /\ trig_close O V /\ pow10_rounded O V /\ safe_band V (fl32 44100 0) (fl32 1000 0)
  /\ safe_band V (fl32 44100 0) (fl32 20000 0)
  /\ fin V (fl32 11 (-4)) = true /\ / 16 <= val V (fl32 11 (-4)) <= 1
  /\ fin V (fl32 (-12) 0) = true /\ Rabs (val V (fl32 (-12) 0)) <= 24.
Proof. exact C89_hyps_aux. Qed.

(** C88 is met by a library with correctly rounded functions. *)
Example C88_hyps : trig_rounded (f32_ops (cr_libm 24 128) false) (ieee_view 24 128).
Proof. apply cr_trig. lia. Qed.
