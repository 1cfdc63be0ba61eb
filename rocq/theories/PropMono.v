(** Property C99: in floating point a louder input can lower an envelope, but only
    by rounding errors (C71 is the exact statement).

    Vocabulary: [ieee O V] says that [O] is the arithmetic of [f32] or [f64] and [V]
    reads it as numbers ([FloatSpec]); [returns D [] cs] is what the calls [cs] on a
    new object return ([Device]); [gain_of O l] is the gain of the length [l]
    ([AnaSpec]); [detector_calls], [half_ulp], [half_tiny] are in [TrackSpec],
    [louder_float] in [MonoSpec];
    [fl32 m e] is the [f32] number m 2^e ([Witness]). *)
From Coq Require Import ZArith Reals List Bool Lra Lia.
From Flocq Require Import Core.Core IEEE754.BinarySingleNaN.
From Verif Require Import Base Num NumF Witness FixLibm FloatSpec AnalysisM Device AnaSpec CrLibm TrackSpec MonoSpec MonoLemmas.
Import ListNotations.
Open Scope R_scope.

(** C99: in [f32], with any math library and any release length whose gain is 1/2:
    after a sample of 1.5, a sample of 3/2^25 gives a lower envelope than a sample
    of 2/2^25. *)
Theorem C99_louder_lowers_refuted :
  forall (lm : libm f32) (b : bool) (l : f32),
    let O := f32_ops lm b in
    n_lt O (n_zero O) l && n_is_finite O l = true -> gain_of O l = fl32 1 (-1) ->
    exists y y' : f32,
      returns (dev_peak O) [] [CSet (SetRelease l); CProcess (fl32 3 (-1)); CProcess (fl32 2 (-25))]
        = [None; Some (fl32 3 (-1)); Some y]
      /\ returns (dev_peak O) [] [CSet (SetRelease l); CProcess (fl32 3 (-1)); CProcess (fl32 3 (-25))]
        = [None; Some (fl32 3 (-1)); Some y']
      /\ B2R y' < B2R y.
Proof. exact C99_louder_lowers_refuted_thm. Qed.
Print Assumptions C99_louder_lowers_refuted.

(** Such a length: 1.4427 with a computable math library; 1.5, 2/2^25 and 3/2^25 are
    the numbers they look like, and in increasing order. *)
Example C99_hyps :
  let O := f32_ops fix_libm false in
  let l := fl32 12102203 (-23) in
  n_lt O (n_zero O) l && n_is_finite O l = true /\ gain_of O l = fl32 1 (-1)
  /\ Bltb (fl32 2 (-25)) (fl32 3 (-25)) = true.
Proof. exact C99_wit. Qed.

(** C99: over any two histories that differ only in louder samples, up to [M] in
    magnitude, with lengths from 1 to [L] samples, the louder one's envelope is lower
    by at most 16 (L + 1) (2^-p M + tiny). *)
Theorem C99_almost_monotone :
  forall (T : Type) (O : num_ops T) (V : float_view T), ieee O V -> exp_rounded O V ->
  forall (M L : R) (history history' : list (call (det_set T) T)),
    1 <= L <= bpow radix2 (fprec V - 2) ->
    detector_calls V M L history -> detector_calls V M L history' ->
    Forall2 (louder_float V) history history' ->
    (0 <= M <= fmax V ->
     val V (peak_last_out (after (dev_peak O) history))
     <= val V (peak_last_out (after (dev_peak O) history')) + 16 * (L + 1) * (half_ulp V * M + half_tiny V))
    /\ (M * M <= fmax V ->
        (val V (rms_last_out O (after (dev_rms O) history)))²
        <= (val V (rms_last_out O (after (dev_rms O) history')))² + 32 * (L + 1) * (half_ulp V * (M * M) + half_tiny V)).
Proof. exact C99_almost_monotone_thm. Qed.
Print Assumptions C99_almost_monotone.

Example C99_almost_monotone_hyps :
  ieee O90 V90 /\ exp_rounded O90 V90
  /\ detector_calls V90 1 48000 [CSet (SetAttack one_second); CProcess (fl32 1 (-1)); CProcess (fl32 1 (-2))]
  /\ detector_calls V90 1 48000 [CSet (SetAttack one_second); CProcess (fl32 (-1) 0); CProcess (fl32 1 (-2))]
  /\ Forall2 (louder_float V90)
       [CSet (SetAttack one_second); CProcess (fl32 1 (-1)); CProcess (fl32 1 (-2))]
       [CSet (SetAttack one_second); CProcess (fl32 (-1) 0); CProcess (fl32 1 (-2))].
Proof. exact C99_wit2. Qed.
