(** Property C95: infinities and NaN.  In [f32] and [f64] one sample that is not finite
    poisons a recursive processor until [clear].

    Vocabulary: [PoisonSpec], [Device], [FloatSpec]. *)
From Coq Require Import ZArith Reals List Bool Lra Lia.
From Flocq Require Import Core.Core IEEE754.BinarySingleNaN.
From Verif Require Import Base Num NumF FloatSpec FloatFacts Witness CrLibm FilterM RbjM AnalysisM Device PoisonSpec PoisonLemmas.
Import ListNotations.
Open Scope R_scope.

(** C95: fed an infinity or NaN, every filter, integrator and detector returns an
    infinity or NaN, whatever happened before. *)
Theorem C95_passes_on :
  forall (T : Type) (O : num_ops T) (V : float_view T), ieee O V ->
  forall (S K : Type) (D : device S K T), library_device O D ->
  forall before x, fin V x = false -> none_finite V (returns D before [CProcess x]).
Proof. exact C95_passes_on_thm. Qed.
Print Assumptions C95_passes_on.

(** C95: and from then on no recursive processor returns a finite sample again, whatever
    it is fed, until [clear] or a setter is called. *)
Theorem C95_poisoned_for_ever :
  forall (T : Type) (O : num_ops T) (V : float_view T), ieee O V ->
  forall (S K : Type) (D : device S K T), recursive_device O D ->
  forall before x calls, fin V x = false -> only_used calls ->
    none_finite V (returns D (before ++ [CProcess x]) calls).
Proof. exact C95_poisoned_for_ever_thm. Qed.
Print Assumptions C95_poisoned_for_ever.

(** C95: the setters of the basic filters, the integrator and the detectors do not help;
    only [clear] does.  (The setters of the RBJ filters clear the filter.) *)
Theorem C95_setters_do_not_help :
  forall (T : Type) (O : num_ops T) (V : float_view T), ieee O V ->
  forall (S K : Type) (D : device S K T), memory_device O D ->
  forall before x calls, fin V x = false -> ~ In CClear calls ->
    none_finite V (returns D (before ++ [CProcess x]) calls).
Proof. exact C95_setters_do_not_help_thm. Qed.
Print Assumptions C95_setters_do_not_help.

(** C95: overflow is no different: once a filter, the integrator or the peak detector
    returned a sample that is not finite, all later ones are not finite either. *)
Theorem C95_overflow_lasts :
  forall (T : Type) (O : num_ops T) (V : float_view T), ieee O V ->
  forall (S K : Type) (D : device S K T), feedback_device O D ->
  forall before x calls, none_finite V (returns D before [CProcess x]) -> only_used calls ->
    none_finite V (returns D (before ++ [CProcess x]) calls).
Proof. exact C95_overflow_lasts_thm. Qed.
Print Assumptions C95_overflow_lasts.

(** C95: the filters without feedback recover by themselves: from the second sample
    after a bad one [OneZero], and from the third [TwoZero], return exactly what they
    would have returned if the bad sample [x] had been any other sample [x']. *)
Theorem C95_fir_recovers :
  forall (T : Type) (O : num_ops T) before before2 x x' u u' v calls calls2,
    returns (dev_one_zero O) (before ++ [CProcess x; CProcess u]) (CProcess v :: calls)
      = returns (dev_one_zero O) (before ++ [CProcess x'; CProcess u]) (CProcess v :: calls)
    /\ returns (dev_two_zero O) (before2 ++ [CProcess x; CProcess u; CProcess u']) (CProcess v :: calls2)
      = returns (dev_two_zero O) (before2 ++ [CProcess x'; CProcess u; CProcess u']) (CProcess v :: calls2).
Proof. exact C95_fir_recovers_thm. Qed.
Print Assumptions C95_fir_recovers.

(** C95: a zero q or shelf slope, or (with the usual sin and cos) a sample rate of zero or
    a frequency that is not finite, is accepted by the setters of all nine RBJ filters,
    and from the third sample on the filter never returns a finite sample. *)
Theorem C95_bad_setting :
  forall (T : Type) (O : num_ops T) (V : float_view T), ieee O V ->
  forall kind a c, rbj_coeffs O kind a = Some c -> zero_q V a \/ (trig_invalid O V /\ bad_frequency V a) ->
  forall before x1 x2 x3 calls, only_used calls ->
    none_finite V (returns (dev_rbj O kind) (before ++ [CSet a; CProcess x1; CProcess x2; CProcess x3]) calls).
Proof. exact C95_bad_setting_thm. Qed.
Print Assumptions C95_bad_setting.

(** The hypotheses of C95 hold, for example, in [f32] with a library with correctly
    rounded functions; 2 x + 2 y[n-1] overflows at
    2^127; a cutoff of 1 kHz at 44100 Hz with q = 0. *)
Example C95_hyps :
  let O := f32_ops (cr_libm 24 128) false in let V := ieee_view 24 128 in
  ieee O V /\ trig_invalid O V /\ fin V (B754_nan : f32) = false /\ fin V (B754_infinity true : f32) = false
  /\ recursive_device O (dev_biquad2 O) /\ memory_device O (dev_rms O) /\ feedback_device O (dev_rbj O Peak)
  /\ none_finite V (returns (dev_one_pole O) [CSet (fl32 2 0, fl32 (-2) 0); CProcess (fl32 1 127)] [CProcess (fl32 1 127)])
  /\ zero_q V (RbjQ (fl32 44100 0) (fl32 1000 0) (fl32 0 0)) /\ bad_frequency V (RbjQ (fl32 0 0) (fl32 1000 0) (fl32 1 0))
  /\ only_used (K := rbj_args f32) [CProcess (fl32 1 0); CLastOut; CProcess (fl32 2 0)].
Proof. exact C95_hyps_aux. Qed.
