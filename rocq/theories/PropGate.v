(** Property C130: a noise gate built on [PeakEnvDetector].

    Vocabulary: [gate] ([GateSpec]); [instant_attack]: [set_attack] is never called ([LimitSpec]); [calls_ok O V P cs]: the
    samples satisfy [P] and every accepted length gives a gain in [0, 1) ([AnaSpec]); [detector_calls V M L cs]:
    samples up to [M], lengths from 1 to [L] ([TrackSpec]); [exp_rounded]: the exponential is correctly rounded. *)
From Coq Require Import ZArith Reals List Bool Lra Lia.
From Flocq Require Import Core.Core IEEE754.BinarySingleNaN.
From Verif Require Import Base Num NumR NumF Witness CrLibm FloatSpec AnalysisM Device AnaSpec AnaLemmas TrackSpec LimitSpec LimitLemmas GateSpec GateLemmas.
Import ListNotations.
Open Scope R_scope.

(** C130: in [f32] and [f64] with an instantaneous attack, whatever the release: every sample is either passed bit for
    bit or muted, and a sample that reaches the threshold is always passed, from the very first one. *)
Theorem C130_loud_passes :
  forall (T : Type) (O : num_ops T) (V : float_view T) (c : T) (cs : list (call (det_set T) T)),
    ieee O V -> fin V c = true -> instant_attack cs -> calls_ok O V (fun x => fin V x = true) cs ->
    Forall (fun xy : T * T => let (x, y) := xy in (y = x \/ y = n_zero O) /\ (val V c <= Rabs (val V x) -> y = x))
           (gate O c (peak_new O) cs).
Proof. exact C130_loud_passes_thm. Qed.
Print Assumptions C130_loud_passes.

(* a threshold of 1/2; a loud sample, a quiet tail, a change of release, a clear *)
Example C130_loud_passes_hyps :
  let cs := [CProcess (fl32 3 (-2)); CProcess (fl32 1 (-2)); CSet (SetRelease (fl32 1 1)); CProcess (fl32 (-1) (-1)); CClear; CProcess (fl32 1 (-3))] in
  fin (ieee_view 24 128) (fl32 1 (-1)) = true /\ instant_attack cs
  /\ calls_ok (f32_ops lm_half false) (ieee_view 24 128) (fun x => fin (ieee_view 24 128) x = true) cs.
Proof.
  cbv zeta. split; [reflexivity|]. split; repeat (apply Forall_cons || apply Forall_nil); try exact I; try reflexivity; try (intros _);
    (split; [reflexivity|]); cbn; unfold F2R; cbn; lra.
Qed.

(** C130: a shut gate stays shut until a sample reaches the threshold, in [f32] and [f64], whatever attack and release
    are set before or meanwhile: no chatter. *)
Theorem C130_stays_shut :
  forall (T : Type) (O : num_ops T) (V : float_view T) (c : T) (history cs : list (call (det_set T) T)),
    ieee O V -> fin V c = true ->
    calls_ok O V (fun x => fin V x = true) history ->
    val V (d_last_out (dev_peak O) (after (dev_peak O) history)) < val V c ->
    calls_ok O V (fun x => fin V x = true /\ Rabs (val V x) < val V c) cs ->
    Forall (fun xy : T * T => snd xy = n_zero O) (gate O c (after (dev_peak O) history) cs).
Proof. exact C130_stays_shut_thm. Qed.
Print Assumptions C130_stays_shut.

(* the envelope of a sample of 1/4 under a threshold of 1/2, then samples up to 3/8, with slow attack and release *)
Example C130_stays_shut_hyps :
  let O := f32_ops lm_half false in let V := ieee_view 24 128 in
  calls_ok O V (fun x => fin V x = true) [CProcess (fl32 1 (-2))]
  /\ val V (d_last_out (dev_peak O) (after (dev_peak O) [CProcess (fl32 1 (-2))])) < val V (fl32 1 (-1))
  /\ calls_ok O V (fun x => fin V x = true /\ Rabs (val V x) < val V (fl32 1 (-1)))
       [CProcess (fl32 3 (-3)); CSet (SetAttack (fl32 1 1)); CProcess (fl32 1 (-2)); CClear; CProcess (fl32 3 (-3))].
Proof.
  cbv zeta. split; [|split].
  - repeat (apply Forall_cons || apply Forall_nil); reflexivity.
  - replace (d_last_out _ _) with (fl32 1 (-2)) by (apply B2SF_inj; vm_compute; reflexivity). cbn. unfold F2R. cbn. lra.
  - repeat (apply Forall_cons || apply Forall_nil); try exact I; try (intros _); (split; [reflexivity|]);
      cbn; unfold F2R; cbn; try (rewrite Rabs_pos_eq; lra); lra.
Qed.

(** C130: hold time.  After any history, with an instantaneous attack, a release of [L] samples and an envelope [e0],
    the gate passes every sample at least as long as exp(-(n + 1)/L) e0 has not fallen below the threshold; and a passage
    within [b], below the threshold, is muted as soon as exp(-(n + 1)/L) (e0 - b) < c - b. *)
Theorem C130_hold_time :
  forall (c b L : R) (history : list (call (det_set R) R)) (xs : list R) (n : nat) (x : R),
    0 < L -> instant_attack history ->
    let s := after (dev_peak R_ops) (history ++ [CSet (SetRelease L)]) in
    let e0 := d_last_out (dev_peak R_ops) s in
    nth_error xs n = Some x ->
    (c <= exp (- (INR (n + 1) / L)) * e0 ->
       nth_error (gate R_ops c s (map CProcess xs)) n = Some (x, x))
    /\ (b < c -> Forall (fun x => Rabs x <= b) xs -> exp (- (INR (n + 1) / L)) * (e0 - b) < c - b ->
       nth_error (gate R_ops c s (map CProcess xs)) n = Some (x, 0)).
Proof. exact C130_hold_time_thm. Qed.
Print Assumptions C130_hold_time.

(* a burst of 4 and a release of one sample: under a threshold of 1 the first sample after it is still passed, and from
   the third on a background of 1/2 is muted *)
Example C130_hold_time_hyps :
  let s := after (dev_peak R_ops) ([CProcess 4] ++ [CSet (SetRelease 1)]) in
  let e0 := d_last_out (dev_peak R_ops) s in
  1 <= exp (- (INR (0 + 1) / 1)) * e0 /\ exp (- (INR (2 + 1) / 1)) * (e0 - / 2) < 1 - / 2.
Proof. exact gate_case. Qed.

(** C130: in [f32] and [f64] too a quiet passage is muted once the exact bound for the envelope plus the rounding bound of
    C90 is below the threshold: the samples so far are within [M], the lengths from 1 to [L], the quiet ones within [b]. *)
Theorem C130_float_shuts :
  forall (T : Type) (O : num_ops T) (V : float_view T), ieee O V -> exp_rounded O V ->
  forall (c len : T) (M L b : R) (history : list (call (det_set T) T)) (xs : list T) (x : T),
    fin V c = true -> 0 <= M <= fmax V -> 1 <= L <= bpow radix2 (fprec V - 2) -> b <= M ->
    detector_calls V M L (history ++ [CSet (SetRelease len)]) ->
    Forall (fun x => fin V x = true /\ Rabs (val V x) <= b) (xs ++ [x]) ->
    b + exp (- (INR (length xs + 1) / val V len)) * (M - b) + 8 * (L + 1) * (half_ulp V * M + half_tiny V) < val V c ->
    gate O c (after (dev_peak O) (history ++ [CSet (SetRelease len)] ++ map CProcess xs)) [CProcess x] = [(x, n_zero O)].
Proof. exact C130_float_shuts_thm. Qed.
Print Assumptions C130_float_shuts.

(* a threshold of 1/2, a burst of 1, a release of one sample, and the second sample of a background of 1/4 *)
Example C130_float_shuts_hyps :
  ieee O90 V90 /\ exp_rounded O90 V90 /\ fin V90 (fl32 1 (-1)) = true /\ 0 <= 1 <= fmax V90 /\ 1 <= 1 <= bpow radix2 (fprec V90 - 2)
  /\ / 4 <= 1 /\ detector_calls V90 1 1 ([CProcess (fl32 1 0)] ++ [CSet (SetRelease (fl32 1 0))])
  /\ Forall (fun x => fin V90 x = true /\ Rabs (val V90 x) <= / 4) ([fl32 1 (-2)] ++ [fl32 (-1) (-2)])
  /\ / 4 + exp (- (INR (length [fl32 1 (-2)] + 1) / val V90 (fl32 1 0))) * (1 - / 4)
     + 8 * (1 + 1) * (half_ulp V90 * 1 + half_tiny V90) < val V90 (fl32 1 (-1)).
Proof. exact float_gate_case. Qed.

(** C130: in exact arithmetic a background below the threshold is always muted in the end (C130_hold_time); in [f32] it need
    not be.  Threshold 17/16, one sample of 17/16, then a hum of 1, with a release of 2^20 samples (24 s at 44.1 kHz): rounding
    holds the envelope at 17/16 and the gate passes the hum for ever. *)
Theorem C130_hum_is_muted_refuted :
  forall (lm : libm f32) (b : bool), let O := f32_ops lm b in exp_rounded O (ieee_view 24 128) ->
  forall n : nat,
    gate O (fl32 17 (-4)) (after (dev_peak O) [CSet (SetRelease (fl32 1 20)); CProcess (fl32 17 (-4))]) (repeat (CProcess (fl32 1 0)) n)
    = repeat (fl32 1 0, fl32 1 0) n.
Proof. exact C130_hum_is_muted_refuted_thm. Qed.
Print Assumptions C130_hum_is_muted_refuted.

Example C130_hum_is_muted_hyps :
  exp_rounded (f32_ops (cr_libm 24 128) false) (ieee_view 24 128) /\ val (ieee_view 24 128) (fl32 1 0) < val (ieee_view 24 128) (fl32 17 (-4)).
Proof. split; [apply cr_exp|]. cbn. unfold F2R. cbn. lra. Qed.
