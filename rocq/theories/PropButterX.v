(** Property C140, continued: Linkwitz-Riley crossovers of any order, in exact arithmetic.

    Vocabulary: [butterworth] ([ButterSpec]); [allpass_chain] ([PhaseSpec]); [valid_band] ([RbjSpec]); [sinusoid], [approaches]
    ([Signal]). *)
From Coq Require Import Reals List Lra Lia.
From Coquelicot Require Import Coquelicot.
From Verif Require Import Num NumR FilterM RbjM Device Signal RbjSpec EqSpec PhaseSpec ButterSpec ButterXLemmas.
Import ListNotations.
Open Scope R_scope.

(** C140: Linkwitz-Riley crossovers of order 4 N.  Two Butterworth low passes of order 2 N in
    series and two high passes in series, all with one corner, add up to a signal with the
    amplitude of the input at every frequency, for every N; the two bands are in phase with each
    other, and their sum is in step with the AllPass filters of the same corner and the same q in
    series. *)
Theorem C140_linkwitz_riley :
  forall N sr f w, (0 < N)%nat -> valid_band sr f -> 0 < w < PI ->
    let low := butterworth LowPass N sr f in
    let high := butterworth HighPass N sr f in
    exists theta gl gh, 0 < gl /\ 0 < gh /\ gl + gh = 1 /\ forall A phi,
      let x := sinusoid A w phi in
      approaches (low (low x)) (sinusoid (gl * A) w (phi + theta))
      /\ approaches (high (high x)) (sinusoid (gh * A) w (phi + theta))
      /\ approaches (fun n => low (low x) n + high (high x) n) (sinusoid A w (phi + theta))
      /\ approaches (allpass_chain sr (map (fun k => (f, butter_q N k)) (seq 0 N)) x) (sinusoid A w (phi + theta)).
Proof. exact C140_linkwitz_riley_thm. Qed.
Print Assumptions C140_linkwitz_riley.

Example C140_linkwitz_riley_hyps : (0 < 2)%nat /\ valid_band 48000 1000 /\ 0 < 1 < PI.
Proof. assert (X := PI2_1). split; [lia|]. split; [unfold valid_band; lra|lra]. Qed.
