(** Properties C47, C48, C50-C54, C56, C70: [LeakyIntegrator], [PeakEnvDetector] and
    [RmsEnvDetector] in [f32] and [f64] arithmetic.

    Vocabulary: [ieee O V] says that [O] is the arithmetic of [f32] or [f64] and
    [V] reads its values as numbers ([FloatSpec]); [after D cs] is a new object
    after the calls [cs], [returns D before cs] what the calls [cs] return after
    the calls [before] ([Device]); the rest is in [AnaSpec]. *)
From Coq Require Import ZArith Reals List Bool Lra Lia.
From Flocq Require Import Core.Core IEEE754.BinarySingleNaN.
From Verif Require Import Base Num NumR NumF Witness FloatSpec AnalysisM Device AnaSpec CrLibm AnaLemmas.
Import ListNotations.
Open Scope R_scope.

(** C47: after any calls, alpha is a number in [0, 1); a [set_alpha] with a number in
    [0, 1) sets it, any other argument (NaN and infinities included) leaves it. *)
Theorem C47_alpha :
  forall (T : Type) (O : num_ops T) (V : float_view T) (history : list (call T T)) (gain : T),
    ieee O V ->
    let alpha cs := leaky_get_alpha (after (dev_leaky O) cs) in
    unit_interval V (alpha history)
    /\ (unit_interval V gain -> alpha (history ++ [CSet gain]) = gain)
    /\ (~ unit_interval V gain -> alpha (history ++ [CSet gain]) = alpha history).
Proof. exact C47_alpha_thm. Qed.
Print Assumptions C47_alpha.

(* 0.3 as an f32 fraction, and what is not in the interval *)
Example C47_alpha_hyps :
  unit_interval (ieee_view 24 128) (fl32 5033165 (-24)) /\ ~ unit_interval (ieee_view 24 128) (fl32 1 0)
  /\ ~ unit_interval (ieee_view 53 1024) B754_nan.
Proof.
  split; [split; [reflexivity|]; cbn; unfold F2R; cbn; lra|]. split.
  - intros [_ H]. revert H. cbn. unfold F2R; cbn. lra.
  - intros [H _]. discriminate.
Qed.

(** C48: after any calls, if the last output [y0] and the new sample [x] are numbers
    and their difference does not overflow, [process(x)] returns a number between
    [y0] and [x]. *)
Theorem C48_no_overshoot :
  forall (T : Type) (O : num_ops T) (V : float_view T) (history : list (call T T)) (x : T),
    ieee O V ->
    let y0 := leaky_last_out (after (dev_leaky O) history) in
    fin V y0 = true -> fin V x = true -> fin V (n_sub O y0 x) = true ->
    exists y, returns (dev_leaky O) history [CProcess x] = [Some y] /\ fin V y = true
      /\ Rmin (val V y0) (val V x) <= val V y <= Rmax (val V y0) (val V x).
Proof. exact C48_no_overshoot_thm. Qed.
Print Assumptions C48_no_overshoot.

Example C48_no_overshoot_hyps (lm : libm f32) :
  let O := f32_ops lm false in
  let y0 := leaky_last_out (after (dev_leaky O) [CSet (fl32 1 (-1)); CProcess (fl32 3 0)]) in
  let x := fl32 (-7) 2 in
  fin (ieee_view 24 128) y0 = true /\ fin (ieee_view 24 128) x = true
  /\ fin (ieee_view 24 128) (n_sub O y0 x) = true.
Proof. vm_compute. repeat split. Qed.

(** C48: over any history of samples in an interval [lo, hi] around 0 that is not
    longer than MAX, everything returned is a number in [lo, hi]. *)
Theorem C48_range :
  forall (T : Type) (O : num_ops T) (V : float_view T) (lo hi : R) (history : list (call T T)),
    ieee O V -> lo <= 0 <= hi -> hi - lo <= fmax V ->
    samples_ok (within V lo hi) history ->
    all_returned (within V lo hi) (returns (dev_leaky O) [] history).
Proof. exact C48_range_thm. Qed.
Print Assumptions C48_range.

Example C48_range_hyps :
  -1 <= 0 <= 1 /\ 1 - -1 <= fmax (ieee_view 24 128)
  /\ samples_ok (K := f32) (within (ieee_view 24 128) (-1) 1)
       [CSet (fl32 1 (-1)); CProcess (fl32 (-3) (-2)); CClear; CProcess (fl32 1 0)].
Proof.
  split; [lra|]. split.
  - pose proof big32. lra.
  - repeat constructor; cbn; unfold F2R; cbn; lra.
Qed.

(** C48, the exception: if the difference of two finite values overflows, the output
    is infinite or NaN. *)
Theorem C48_overflow_refuted :
  forall (T : Type) (O : num_ops T) (V : float_view T) (history : list (call T T)) (x : T),
    ieee O V ->
    let y0 := leaky_last_out (after (dev_leaky O) history) in
    fin V y0 = true -> fin V x = true -> fin V (n_sub O y0 x) = false ->
    exists y, returns (dev_leaky O) history [CProcess x] = [Some y] /\ fin V y = false.
Proof. exact C48_overflow_refuted_thm. Qed.
Print Assumptions C48_overflow_refuted.

(* the largest f32 and its opposite *)
Example C48_overflow_refuted_hyps (lm : libm f32) :
  let O := f32_ops lm false in
  let y0 := leaky_last_out (after (dev_leaky O) [CProcess (Bmax_float : f32)]) in
  let x := Bopp (Bmax_float : f32) in
  fin (ieee_view 24 128) y0 = true /\ fin (ieee_view 24 128) x = true
  /\ fin (ieee_view 24 128) (n_sub O y0 x) = false.
Proof. vm_compute. repeat split. Qed.

(** C50: a [LeakyIntegrator] whose alpha was never set returns the value of each
    sample, for samples up to MAX/2 in magnitude. *)
Theorem C50_new_is_transparent :
  forall (T : Type) (O : num_ops T) (V : float_view T) (history : list (call T T)) (x : T),
    ieee O V -> (forall gain, ~ In (CSet gain) history) ->
    samples_ok (within V (- (fmax V / 2)) (fmax V / 2)) history ->
    within V (- (fmax V / 2)) (fmax V / 2) x ->
    exists y, returns (dev_leaky O) history [CProcess x] = [Some y] /\ fin V y = true /\ val V y = val V x.
Proof. exact C50_new_is_transparent_thm. Qed.
Print Assumptions C50_new_is_transparent.

Example C50_new_is_transparent_hyps :
  let h := fmax (ieee_view 24 128) / 2 in
  (forall gain : f32, ~ In (CSet gain) [CProcess (fl32 5 3); CClear; CProcess (fl32 (-9) 1)])
  /\ samples_ok (K := f32) (within (ieee_view 24 128) (- h) h) [CProcess (fl32 5 3); CClear; CProcess (fl32 (-9) 1)].
Proof.
  intros h. assert (100 <= h).
  { pose proof big32. unfold h. lra. }
  split.
  - intros gain [E|[E|[E|[]]]]; discriminate.
  - repeat constructor; cbn [val ieee_view]; cbn; unfold F2R; cbn; lra.
Qed.

(** C50, the exception: MAX followed by -MAX gives NaN. *)
Theorem C50_loud_signal_refuted :
  (forall (lm : libm f32) (b : bool),
     returns (dev_leaky (f32_ops lm b)) [] [CProcess (Bmax_float : f32); CProcess (Bopp (Bmax_float : f32))]
     = [Some (Bmax_float : f32); Some B754_nan])
  /\ (forall (lm : libm f64) (b : bool),
     returns (dev_leaky (f64_ops lm b)) [] [CProcess (Bmax_float : f64); CProcess (Bopp (Bmax_float : f64))]
     = [Some (Bmax_float : f64); Some B754_nan]).
Proof. exact C50_loud_signal_refuted_thm. Qed.
Print Assumptions C50_loud_signal_refuted.

(** C51: [set_attack(len)] and [set_release(len)] set their own gain to exp(-1/len)
    when [len] is a positive number, and do nothing otherwise (zero, negative,
    infinite and NaN lengths); the other gain and [last_out] never change. *)
Theorem C51_setters :
  forall (T : Type) (O : num_ops T) (V : float_view T) (S : Type) (D : detector S T)
         (history : list (call (det_set T) T)) (ph : phase) (len : T),
    ieee O V -> lib_detector O D ->
    let s := after (det_dev D) history in
    let s' := after (det_dev D) (history ++ [CSet (set_phase ph len)]) in
    (good_length V len -> det_gain D ph s' = gain_of O len)
    /\ (~ good_length V len -> det_gain D ph s' = det_gain D ph s)
    /\ det_gain D (other ph) s' = det_gain D (other ph) s
    /\ d_last_out (det_dev D) s' = d_last_out (det_dev D) s.
Proof. exact C51_setters_thm. Qed.
Print Assumptions C51_setters.

Example C51_setters_hyps :
  good_length (ieee_view 24 128) (fl32 441 1) /\ ~ good_length (ieee_view 24 128) (fl32 0 0)
  /\ ~ good_length (ieee_view 24 128) (fl32 (-5) 0) /\ ~ good_length (ieee_view 24 128) (B754_infinity false)
  /\ ~ good_length (ieee_view 24 128) B754_nan.
Proof.
  unfold good_length. cbn. unfold F2R; cbn.
  split; [split; [reflexivity|lra]|]. repeat split; intros [H1 H2]; try discriminate; lra.
Qed.

(** C51: if the exponential maps the floats up to zero into [0, 1], the two gains are
    numbers in [0, 1] after any calls. *)
Theorem C51_gains :
  forall (T : Type) (O : num_ops T) (V : float_view T) (S : Type) (D : detector S T)
         (history : list (call (det_set T) T)) (ph : phase),
    ieee O V -> exp_sound O V -> lib_detector O D ->
    let g := det_gain D ph (after (det_dev D) history) in
    fin V g = true /\ 0 <= val V g <= 1.
Proof. exact C51_gains_thm. Qed.
Print Assumptions C51_gains.

(* a correctly rounded exponential is sound *)
Example C51_gains_hyps : exp_sound (f32_ops (cr_libm 24 128) false) (ieee_view 24 128).
Proof. exact cr_exp_sound. Qed.

(** C52: for any history of samples of magnitude at most [m] with gains in [0, 1),
    everything a [PeakEnvDetector] returns is a number in [0, m]. *)
Theorem C52_peak_range :
  forall (T : Type) (O : num_ops T) (V : float_view T) (m : R) (history : list (call (det_set T) T)),
    ieee O V -> 0 <= m -> calls_ok O V (within V (- m) m) history ->
    all_returned (within V 0 m) (returns (dev_peak O) [] history).
Proof. exact C52_peak_range_thm. Qed.
Print Assumptions C52_peak_range.

(* set_attack(2), set_release(NaN), samples up to 1; [lm_half] has exp(-1/2) = 1/2 *)
Example C52_peak_range_hyps :
  calls_ok (f32_ops lm_half false) (ieee_view 24 128) (within (ieee_view 24 128) (-1) 1)
    [CSet (SetAttack (fl32 1 1)); CSet (SetRelease B754_nan); CProcess (fl32 (-3) (-2)); CLastOut; CClear; CProcess (fl32 1 0)].
Proof.
  repeat (apply Forall_cons || apply Forall_nil); try exact I; try (intros _); try reflexivity;
    (split; [reflexivity|]); cbn; unfold F2R; cbn; lra.
Qed.

(** C52: after such a history, with envelope [y0], [process(x)] returns a number
    between [y0] and |x|: it rises only towards a larger magnitude and falls only
    towards a smaller one. *)
Theorem C52_peak_no_overshoot :
  forall (T : Type) (O : num_ops T) (V : float_view T) (history : list (call (det_set T) T)) (x : T),
    ieee O V -> calls_ok O V (fun x => fin V x = true) history -> fin V x = true ->
    let y0 := d_last_out (dev_peak O) (after (dev_peak O) history) in
    exists y, returns (dev_peak O) history [CProcess x] = [Some y]
      /\ fin V y0 = true /\ fin V y = true /\ 0 <= val V y0
      /\ Rmin (val V y0) (Rabs (val V x)) <= val V y <= Rmax (val V y0) (Rabs (val V x)).
Proof. exact C52_peak_no_overshoot_thm. Qed.
Print Assumptions C52_peak_no_overshoot.

Example C52_peak_no_overshoot_hyps :
  calls_ok (f32_ops lm_half false) (ieee_view 24 128) (fun x => fin (ieee_view 24 128) x = true)
    [CSet (SetAttack (fl32 1 1)); CSet (SetRelease (fl32 1 0)); CProcess (fl32 (-3) (-2)); CProcess (Bmax_float : f32)].
Proof.
  repeat (apply Forall_cons || apply Forall_nil); try exact I; try (intros _); try reflexivity;
    (split; [reflexivity|]); cbn; unfold F2R; cbn; lra.
Qed.

(** C53: changing the signs of any samples changes nothing a detector returns, bit
    for bit, whatever the samples (NaN and infinities included). *)
Theorem C53_sign_blind :
  forall (T : Type) (O : num_ops T) (V : float_view T) (S : Type) (D : detector S T)
         (cs cs' : list (call (det_set T) T)),
    ieee O V -> lib_detector O D ->
    Forall2 (same_up_to_sign O) cs cs' ->
    returns (det_dev D) [] cs = returns (det_dev D) [] cs'.
Proof. exact C53_sign_blind_thm. Qed.
Print Assumptions C53_sign_blind.

Example C53_sign_blind_hyps (lm : libm f32) :
  Forall2 (same_up_to_sign (f32_ops lm false))
    [CSet (SetAttack (fl32 1 1)); CProcess (fl32 3 0); CProcess (B754_infinity true); CProcess (fl32 5 0)]
    [CSet (SetAttack (fl32 1 1)); CProcess (Bopp (fl32 3 0)); CProcess (Bopp (B754_infinity true)); CProcess (fl32 5 0)].
Proof.
  constructor; [apply sus_same|]. constructor; [apply (sus_neg (f32_ops lm false))|].
  constructor; [apply (sus_neg (f32_ops lm false))|]. constructor; [apply sus_same|]. constructor.
Qed.

(** C54: for any history of samples no louder than [loudest], whose square neither
    overflows nor leaves the normal range (or which is zero), with gains in [0, 1),
    everything an [RmsEnvDetector] returns is a number in [0, |loudest|]. *)
Theorem C54_rms_range :
  forall (T : Type) (O : num_ops T) (V : float_view T) (loudest : T) (history : list (call (det_set T) T)),
    ieee O V ->
    let m := Rabs (val V loudest) in
    fin V loudest = true -> m * m <= fmax V -> fmin V <= m * m \/ m = 0 ->
    calls_ok O V (within V (- m) m) history ->
    all_returned (within V 0 m) (returns (dev_rms O) [] history).
Proof. exact C54_rms_range_thm. Qed.
Print Assumptions C54_rms_range.

Example C54_rms_range_hyps :
  let m := Rabs (val (ieee_view 24 128) (fl32 1 0)) in
  fmin (ieee_view 24 128) <= m * m <= fmax (ieee_view 24 128)
  /\ calls_ok (f32_ops lm_half false) (ieee_view 24 128) (within (ieee_view 24 128) (- m) m)
    [CSet (SetAttack (fl32 1 1)); CProcess (fl32 (-3) (-2)); CLastOut; CClear; CProcess (fl32 1 0)].
Proof.
  intros m. assert (Em : m = 1).
  { unfold m. cbn [val ieee_view]. cbn. unfold F2R; cbn. rewrite Rabs_pos_eq; lra. }
  rewrite Em. split.
  - pose proof big32.
    assert (fmin (ieee_view 24 128) <= 1) by (change 1 with (bpow radix2 0); apply bpow_le; lia). lra.
  - repeat (apply Forall_cons || apply Forall_nil); try exact I; try (intros _);
      (split; [reflexivity|]); cbn; unfold F2R; cbn; lra.
Qed.

(** C56: a [PeakEnvDetector] whose times were never set returns |x| for every finite
    sample, after any finite samples. *)
Theorem C56_new_peak_rectifies :
  forall (T : Type) (O : num_ops T) (V : float_view T) (history : list (call (det_set T) T)) (x : T),
    ieee O V -> (forall k, ~ In (CSet k) history) ->
    samples_ok (fun x => fin V x = true) history -> fin V x = true ->
    exists y, returns (dev_peak O) history [CProcess x] = [Some y]
      /\ fin V y = true /\ val V y = Rabs (val V x).
Proof. exact C56_new_peak_rectifies_thm. Qed.
Print Assumptions C56_new_peak_rectifies.

Example C56_new_peak_rectifies_hyps :
  (forall k, ~ In (CSet k) [CProcess (fl32 (-5) 3); @CClear (det_set f32) f32])
  /\ samples_ok (K := det_set f32) (fun x => fin (ieee_view 24 128) x = true) [CProcess (fl32 (-5) 3); CClear].
Proof.
  split; [intros k [E|[E|[]]]; discriminate|]. repeat constructor.
Qed.

(** C56: an [RmsEnvDetector] whose times were never set returns |x| for every sample
    whose square neither overflows nor leaves the normal range (and for zero),
    after any samples whose squares do not overflow. *)
Theorem C56_new_rms_rectifies :
  forall (T : Type) (O : num_ops T) (V : float_view T) (history : list (call (det_set T) T)) (x : T),
    ieee O V -> (forall k, ~ In (CSet k) history) ->
    samples_ok (fun x => fin V (n_mul O x x) = true) history -> fin V (n_mul O x x) = true ->
    fmin V <= val V x * val V x \/ val V x = 0 ->
    exists y, returns (dev_rms O) history [CProcess x] = [Some y]
      /\ fin V y = true /\ val V y = Rabs (val V x).
Proof. exact C56_new_rms_rectifies_thm. Qed.
Print Assumptions C56_new_rms_rectifies.

Example C56_new_rms_rectifies_hyps (lm : libm f32) :
  let O := f32_ops lm false in let V := ieee_view 24 128 in let x := fl32 (-3) 0 in
  (forall k, ~ In (CSet k) [CProcess (fl32 (-5) 3); @CClear (det_set f32) f32])
  /\ samples_ok (K := det_set f32) (fun x => fin V (n_mul O x x) = true) [CProcess (fl32 (-5) 3); CClear]
  /\ fin V (n_mul O x x) = true /\ fmin V <= val V x * val V x.
Proof.
  intros O V x. split; [intros k [E|[E|[]]]; discriminate|]. split; [repeat constructor|].
  split; [reflexivity|]. unfold x, V. cbn [val fmin ieee_view].
  assert (bpow radix2 (2 - 128) <= 1) by (change 1 with (bpow radix2 0); apply bpow_le; lia).
  assert (E : B2R (fl32 (-3) 0) = -3) by (cbn; unfold F2R; cbn; lra). rewrite E. lra.
Qed.

(** C70: with a correctly rounded exponential, a length of 2^(p+1) samples or more (p
    bits of precision: 2^25 samples in [f32]) makes the gain exactly 1. *)
Theorem C70_long_gain_is_one :
  forall (T : Type) (O : num_ops T) (V : float_view T) (S : Type) (D : detector S T)
         (history : list (call (det_set T) T)) (ph : phase) (len : T),
    ieee O V -> exp_rounded O V -> lib_detector O D ->
    fin V len = true -> bpow radix2 (fprec V + 1) <= val V len ->
    let g := det_gain D ph (after (det_dev D) (history ++ [CSet (set_phase ph len)])) in
    fin V g = true /\ val V g = 1.
Proof. exact C70_long_gain_is_one_thm. Qed.
Print Assumptions C70_long_gain_is_one.

(** C70: and a new detector given such an attack never rises: it returns 0 whatever
    samples it is fed, as long as their squares do not overflow. *)
Theorem C70_long_attack_freezes :
  forall (T : Type) (O : num_ops T) (V : float_view T) (S : Type) (D : detector S T)
         (len : T) (cs : list (call (det_set T) T)),
    ieee O V -> exp_rounded O V -> lib_detector O D ->
    fin V len = true -> bpow radix2 (fprec V + 1) <= val V len ->
    (forall k, ~ In (CSet k) cs) -> samples_ok (fun x => fin V (n_mul O x x) = true) cs ->
    all_returned (within V 0 0) (returns (det_dev D) [CSet (SetAttack len)] cs).
Proof. exact C70_long_attack_freezes_thm. Qed.
Print Assumptions C70_long_attack_freezes.

(* the correctly rounded exponential, and 2^25 samples (about 12 minutes at 44100 Hz) *)
Example C70_hyps :
  exp_rounded (f32_ops (cr_libm 24 128) false) (ieee_view 24 128)
  /\ fin (ieee_view 24 128) (fl32 1 25) = true
  /\ bpow radix2 (fprec (ieee_view 24 128) + 1) <= val (ieee_view 24 128) (fl32 1 25).
Proof.
  split; [apply cr_exp_rounded|]. split; [reflexivity|]. cbn [fprec val ieee_view].
  cbn. unfold F2R; cbn. lra.
Qed.
