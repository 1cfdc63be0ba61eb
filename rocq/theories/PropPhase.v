(** Property C137: the phases of the RBJ filters, and a phaser built from AllPass filters, in
    exact arithmetic.

    Vocabulary: [lean], [allpass_chain], [phaser] ([PhaseSpec]); [rbj_passes kind args w g theta]:
    sinusoids of [w] radians per sample come out with amplitude times [g] and phase plus [theta];
    [valid_band], [omega] ([RbjSpec]); [sinusoid], [approaches] ([Signal]). *)
From Coq Require Import Reals List Lra Lia ZArith.
From Coquelicot Require Import Coquelicot.
From Verif Require Import Num NumR FilterM RbjM Device Signal RbjSpec EqSpec PhaseSpec PhaseLemmas.
Import ListNotations.
Open Scope R_scope.

(** C137: one angle, [lean], gives gain and phase of all six filters at once.  (The gain of BandStop
    changes sign at the corner: below it the output lags by 90 degrees minus the angle, above it
    leads.) *)
Theorem C137_one_angle :
  forall sr f q w, valid_band sr f -> 0 < q -> 0 < w < PI ->
    let t := lean sr f q w in
    let O := warped (omega sr f) w in
    rbj_passes LowPass (RbjQ sr f q) w (q * cos t / O) (t - PI / 2)
    /\ rbj_passes HighPass (RbjQ sr f q) w (q * cos t * O) (t + PI / 2)
    /\ rbj_passes BandPass1 (RbjQ sr f q) w (q * cos t) t
    /\ rbj_passes BandPass2 (RbjQ sr f q) w (cos t) t
    /\ rbj_passes BandStop (RbjQ sr f q) w (sin t) (t - PI / 2)
    /\ rbj_passes AllPass (RbjQ sr f q) w 1 (2 * t - PI).
Proof. exact C137_one_angle_thm. Qed.
Print Assumptions C137_one_angle.

Example C137_one_angle_hyps : valid_band 48000 1000 /\ 0 < 7 / 10 /\ 0 < 1 / 2 < PI.
Proof. unfold valid_band. assert (X := PI2_1). lra. Qed.

(** C137: the angle: it lies strictly between -90 and 90 degrees, strictly decreases as the
    frequency rises, is 0 at the corner only, and takes every value in between.  So the phase of a
    LowPass falls from 0 to -180 degrees, that of a BandPass from 90 to -90, that of a HighPass from
    180 to 0 and that of an AllPass from 0 to -360. *)
Theorem C137_angle :
  forall sr f q, valid_band sr f -> 0 < q ->
    (forall w, - PI / 2 < lean sr f q w < PI / 2)
    /\ (forall w w', 0 < w -> w < w' -> w' < PI -> lean sr f q w' < lean sr f q w)
    /\ (forall w, 0 < w < PI -> (lean sr f q w = 0 <-> w = omega sr f))
    /\ (forall u, - PI / 2 < u < PI / 2 -> exists w, 0 < w < PI /\ lean sr f q w = u).
Proof. exact C137_angle_thm. Qed.
Print Assumptions C137_angle.

Example C137_angle_hyps : valid_band 48000 1000 /\ 0 < 7 / 10 /\ - PI / 2 < 1 < PI / 2 /\ omega 48000 12000 = PI / 2.
Proof. unfold valid_band, omega. assert (X := PI2_1). repeat split; lra. Qed.

(** C137: gain and phase of the Peak filter; the phase is always less than 90 degrees. *)
Theorem C137_peak :
  forall sr f db q w, valid_band sr f -> 0 < q -> 0 < w < PI ->
    let A := Rpower 10 (db / 40) in
    let t1 := lean sr f (q / A) w in
    let t2 := lean sr f (q * A) w in
    rbj_passes Peak (RbjGain sr f db q) w (A * A * cos t2 / cos t1) (t2 - t1)
    /\ Rabs (t2 - t1) < PI / 2 /\ 0 < cos t2 / cos t1.
Proof. exact C137_peak_thm. Qed.
Print Assumptions C137_peak.

Example C137_peak_hyps : valid_band 44100 440 /\ 0 < 2 /\ 0 < 1 < PI.
Proof. unfold valid_band. assert (X := PI2_1). lra. Qed.

(** C137: gain and phase are determined by the filter: the gain exactly, the phase up to whole
    turns. *)
Theorem C137_phase_unique :
  forall kind args w g th g' th', 0 < w < PI -> 0 < g -> 0 < g' ->
    rbj_passes kind args w g th -> rbj_passes kind args w g' th' ->
    g = g' /\ exists k : Z, th' = th + 2 * PI * IZR k.
Proof. exact C137_phase_unique_thm. Qed.
Print Assumptions C137_phase_unique.

Example C137_phase_unique_hyps :
  let t := lean 48000 1000 (7 / 10) 1 in
  0 < 1 < PI /\ 0 < cos t /\ rbj_passes BandPass2 (RbjQ 48000 1000 (7 / 10)) 1 (cos t) t.
Proof.
  intros t. assert (X := PI2_1). split; [lra|]. split.
  - apply cos_gt_0; assert (B := lean_bound 48000 1000 (7 / 10) 1); fold t in B; lra.
  - destruct (C137_one_angle_thm 48000 1000 (7 / 10) 1) as [_ [_ [_ [P _]]]]; [unfold valid_band; lra|lra|lra|].
    exact P.
Qed.

(** C137: AllPass filters in series keep the amplitude and add up their phases; the mean of the
    signal and the output of the chain has the gain cos (half of the total phase). *)
Theorem C137_chain :
  forall sr settings w, all_valid sr settings -> 0 < w < PI -> forall A phi,
    let t := half_turn sr settings w in
    approaches (allpass_chain sr settings (sinusoid A w phi)) (sinusoid A w (phi + 2 * t))
    /\ approaches (phaser sr settings (sinusoid A w phi)) (sinusoid (cos t * A) w (phi + t)).
Proof. exact C137_chain_thm. Qed.
Print Assumptions C137_chain.

Example C137_chain_hyps : all_valid 48000 [(300, 1); (1000, 7 / 10); (1000, 1 / 2); (5000, 3)] /\ 0 < 1 < PI.
Proof.
  assert (X := PI2_1). split; [|lra]. unfold all_valid, valid_band.
  repeat (apply List.Forall_cons || apply List.Forall_nil); cbn [fst snd]; lra.
Qed.

(** C137: a phaser of N AllPass filters has exactly N notches between 0 and Nyquist, wherever the
    corners are and whatever the q's. *)
Theorem C137_notches :
  forall sr settings, all_valid sr settings ->
    exists notches, length notches = length settings /\ NoDup notches
      /\ (forall w, In w notches -> 0 < w < PI)
      /\ forall w, 0 < w < PI ->
         (In w notches <-> forall A phi, approaches (phaser sr settings (sinusoid A w phi)) (fun _ => 0)).
Proof. exact C137_notches_thm. Qed.
Print Assumptions C137_notches.

(* one filter: the notch is at its corner *)
Example C137_notches_one :
  forall A phi, approaches (phaser 48000 [(12000, 1)] (sinusoid A (PI / 2) phi)) (fun _ => 0).
Proof.
  assert (X := PI2_1). assert (V : valid_band 48000 12000) by (unfold valid_band; lra).
  assert (W : omega 48000 12000 = PI / 2) by (unfold omega; field).
  assert (L := lean_corner 48000 12000 1 V). rewrite W in L.
  intros A phi. destruct (C137_chain_thm 48000 [(12000, 1)] (PI / 2)) with (A := A) (phi := phi) as [_ P].
  - apply List.Forall_cons; [split; [exact V|cbn; lra]|apply List.Forall_nil].
  - lra.
  - cbv zeta in P. unfold half_turn in P. cbn [fold_right fst snd] in P. rewrite L in P.
    replace (0 - PI / 2 + 0) with (- (PI / 2)) in P by field. rewrite cos_neg, cos_PI2 in P.
    unfold approaches in *. eapply is_lim_seq_ext; [|exact P]. intros n. cbv beta. unfold sinusoid. ring.
Qed.
