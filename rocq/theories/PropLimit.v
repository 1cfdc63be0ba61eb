(** Property C115: a peak limiter built on [PeakEnvDetector].

    Vocabulary: [limiter], [instant_attack], [processed] ([LimitSpec]); [calls_ok O V P cs]: the
    samples satisfy [P] and every accepted length gives a gain in [0, 1) ([AnaSpec]);
    [within V lo hi x]: a finite float between [lo] and [hi]. *)
From Coq Require Import ZArith Reals List Bool Lra Lia.
From Flocq Require Import Core.Core IEEE754.BinarySingleNaN.
From Verif Require Import Base Num NumR NumF Witness FloatSpec AnalysisM Device AnaSpec AnaLemmas TrackSpec LimitSpec LimitLemmas.
Import ListNotations.
Open Scope R_scope.

(** C115: with an instantaneous attack the limited signal never exceeds the ceiling, is never
    louder than the input, never changes its sign, and is never turned down further than the
    loudest sample so far requires: if every sample is within [X], the gain is at least
    ceiling / X.  This holds whatever release lengths are set, and across [clear]. *)
Theorem C115_ceiling :
  forall (c X : R) (cs : list (call (det_set R) R)),
    0 < c -> c <= X -> instant_attack cs -> processed (fun x => Rabs x <= X) cs ->
    Forall (fun xy : R * R => let (x, y) := xy in
              Rabs y <= c /\ Rabs y <= Rabs x /\ 0 <= x * y /\ Rabs x * (c / X) <= Rabs y)
           (limiter R_ops c (peak_new R_ops) cs).
Proof. exact C115_ceiling_thm. Qed.
Print Assumptions C115_ceiling.

(* a burst of 4, then silence, under a ceiling of 1, with a release of 100 samples *)
Example C115_ceiling_hyps :
  instant_attack [CSet (SetRelease 100); CProcess 4; CProcess (-2); CClear; CProcess (/ 2); CLastOut]
  /\ processed (fun x => Rabs x <= 4) [CSet (SetRelease 100); CProcess 4; CProcess (-2); CClear; CProcess (/ 2); CLastOut].
Proof.
  split; repeat (apply Forall_cons || apply Forall_nil); try exact I; apply Rabs_le; lra.
Qed.

(** C115: recovery.  After any history, with a release of [L] samples and an envelope [e0], a
    passage that stays within [b], below the ceiling, is passed unchanged from the [n]-th sample
    on, once exp(-(n + 1)/L) (e0 - b) has fallen to the headroom c - b. *)
Theorem C115_recovers :
  forall (c b L : R) (history : list (call (det_set R) R)) (xs : list R) (n : nat) (x : R),
    b < c -> 0 < L -> instant_attack history -> Forall (fun x => Rabs x <= b) xs ->
    let s := after (dev_peak R_ops) (history ++ [CSet (SetRelease L)]) in
    let e0 := d_last_out (dev_peak R_ops) s in
    nth_error xs n = Some x ->
    exp (- (INR (n + 1) / L)) * (e0 - b) <= c - b ->
    nth_error (limiter R_ops c s (map CProcess xs)) n = Some (x, x).
Proof. exact C115_recovers_thm. Qed.
Print Assumptions C115_recovers.

(* release of one sample after a burst of 4: from the third quiet sample the limiter is open *)
Example C115_recovers_hyps :
  let s := after (dev_peak R_ops) ([CProcess 4] ++ [CSet (SetRelease 1)]) in
  exp (- (INR (2 + 1) / 1)) * (d_last_out (dev_peak R_ops) s - / 2) <= 1 - / 2.
Proof. exact burst_case. Qed.

(** C115: in [f32] and [f64], a signal that stays within the ceiling is passed bit for bit,
    whatever the release. *)
Theorem C115_transparent :
  forall (T : Type) (O : num_ops T) (V : float_view T) (c : T) (cs : list (call (det_set T) T)),
    ieee O V -> fin V c = true -> 0 <= val V c ->
    calls_ok O V (within V (- val V c) (val V c)) cs ->
    Forall (fun xy : T * T => snd xy = fst xy) (limiter O c (peak_new O) cs).
Proof. exact C115_transparent_thm. Qed.
Print Assumptions C115_transparent.

Example C115_transparent_hyps :
  calls_ok (f32_ops lm_half false) (ieee_view 24 128) (within (ieee_view 24 128) (- val (ieee_view 24 128) (fl32 3 (-2))) (val (ieee_view 24 128) (fl32 3 (-2))))
    [CSet (SetAttack (fl32 1 1)); CProcess (fl32 (-3) (-2)); CSet (SetRelease (fl32 1 1)); CProcess (fl32 1 (-1)); CLastOut; CClear].
Proof.
  repeat (apply Forall_cons || apply Forall_nil); try exact I; try (intros _); try reflexivity;
    (split; [reflexivity|]); cbn; unfold F2R; cbn; lra.
Qed.

(** C115: in [f32] and [f64] with an instantaneous attack, every limited sample is finite, never
    louder than the input sample and never of the opposite sign.  If the samples are within [X],
    and the ceiling is at least the smallest normal number and at least [X] times that, every
    limited sample is at most one unit in the last place above the ceiling. *)
Theorem C115_float_ceiling :
  forall (T : Type) (O : num_ops T) (V : float_view T) (c : T) (X : R) (cs : list (call (det_set T) T)),
    ieee O V -> fin V c = true -> 0 < val V c -> 0 <= X ->
    instant_attack cs -> calls_ok O V (within V (- X) X) cs ->
    Forall (fun xy : T * T => let (x, y) := xy in
              fin V y = true /\ Rabs (val V y) <= Rabs (val V x) /\ 0 <= val V x * val V y
              /\ (fmin V <= val V c -> fmin V * X <= val V c -> Rabs (val V y) <= val V c * (1 + 2 * half_ulp V)))
           (limiter O c (peak_new O) cs).
Proof. exact C115_float_ceiling_thm. Qed.
Print Assumptions C115_float_ceiling.

(* a ceiling of 3/4 and samples up to 2 *)
Example C115_float_ceiling_hyps :
  instant_attack [CSet (SetRelease (fl32 1 1)); CProcess (fl32 (-3) (-2)); CProcess (fl32 1 1); CClear; CProcess (fl32 1 0)]
  /\ calls_ok (f32_ops lm_half false) (ieee_view 24 128) (within (ieee_view 24 128) (-2) 2)
       [CSet (SetRelease (fl32 1 1)); CProcess (fl32 (-3) (-2)); CProcess (fl32 1 1); CClear; CProcess (fl32 1 0)].
Proof.
  split; repeat (apply Forall_cons || apply Forall_nil); try exact I; try (intros _); try reflexivity;
    (split; [reflexivity|]); cbn; unfold F2R; cbn; lra.
Qed.

(** C115: one unit is needed.  A limiter with ceiling 0.9f32 fed the single sample 5.875 returns the float
    after 0.9f32. *)
Theorem C115_float_exact_ceiling_refuted :
  exists y : f32, limiter O32 (fl32 15099494 (-24)) (peak_new O32) [CProcess (fl32 47 (-3))] = [(fl32 47 (-3), y)]
    /\ val (ieee_view 24 128) (fl32 15099494 (-24)) < val (ieee_view 24 128) y.
Proof. exact C115_float_exact_ceiling_refuted_thm. Qed.
Print Assumptions C115_float_exact_ceiling_refuted.
