(** Property C140: Butterworth filters of any even order, in exact arithmetic.

    Vocabulary: [butter_q], [butterworth], [butter_gain] ([ButterSpec]); [valid_band], [omega]
    ([RbjSpec]); [warped w0 w]: the analog frequency of [w], 1 at the corner ([EqSpec]). *)
From Coq Require Import Reals List Lra Lia.
From Coquelicot Require Import Coquelicot.
From Verif Require Import Num NumR FilterM RbjM Device Signal RbjSpec EqSpec ButterSpec ButterLemmas.
Import ListNotations.
Open Scope R_scope.

(** C140: LowPass (HighPass) filters in series with one corner and the q of the Butterworth table
    have the maximally flat gain of order 2 N, for every N: at the warped frequency O it is
    1 / sqrt (1 + O^(4 N)), and O^(2 N) / sqrt (1 + O^(4 N)) for HighPass. *)
Theorem C140_gain :
  forall N sr f w g, (0 < N)%nat -> valid_band sr f -> 0 < w < PI ->
    let O := warped (omega sr f) w in
    (butter_gain LowPass N sr f w g <-> g = 1 / sqrt (1 + O ^ (4 * N)))
    /\ (butter_gain HighPass N sr f w g <-> g = O ^ (2 * N) / sqrt (1 + O ^ (4 * N))).
Proof. exact C140_gain_thm. Qed.
Print Assumptions C140_gain.

Example C140_gain_hyps : (0 < 3)%nat /\ valid_band 48000 1000 /\ 0 < 1 < PI.
Proof. assert (X := PI2_1). split; [lia|]. split; [unfold valid_band; lra|lra]. Qed.

(** C140: of whatever order, the low and the high pass with one corner share the power at every
    frequency; at the corner both have the gain 1 / sqrt 2 (-3 dB); the low pass stays strictly
    between -3 dB and unity below its corner, strictly under -3 dB above it, and its gain falls
    with the frequency. *)
Theorem C140_shape :
  forall N sr f w gl gh, (0 < N)%nat -> valid_band sr f -> 0 < w < PI ->
    butter_gain LowPass N sr f w gl -> butter_gain HighPass N sr f w gh ->
    gl ^ 2 + gh ^ 2 = 1
    /\ (w = omega sr f -> gl = 1 / sqrt 2 /\ gh = 1 / sqrt 2)
    /\ (w < omega sr f -> 1 / sqrt 2 < gl < 1)
    /\ (omega sr f < w -> 0 < gl < 1 / sqrt 2)
    /\ (forall w' gl', w < w' < PI -> butter_gain LowPass N sr f w' gl' -> gl' < gl).
Proof. exact C140_shape_thm. Qed.
Print Assumptions C140_shape.

Example C140_shape_hyps : exists gl gh, butter_gain LowPass 3 48000 1000 1 gl /\ butter_gain HighPass 3 48000 1000 1 gh.
Proof.
  assert (X := PI2_1). assert (V : valid_band 48000 1000) by (unfold valid_band; lra).
  eexists _, _. split.
  - destruct (C140_gain_thm 3 48000 1000 1 (1 / sqrt (1 + warped (omega 48000 1000) 1 ^ (4 * 3)))) as [[_ P] _]; [lia|exact V|lra|].
    exact (P eq_refl).
  - destruct (C140_gain_thm 3 48000 1000 1 (warped (omega 48000 1000) 1 ^ (2 * 3) / sqrt (1 + warped (omega 48000 1000) 1 ^ (4 * 3)))) as [_ [_ P]];
      [lia|exact V|lra|].
    exact (P eq_refl).
Qed.

(** C140: every further section brings the low pass nearer to the ideal one at every frequency
    but the corner, and in the limit it is ideal: unity below the corner, nothing above it. *)
Theorem C140_sharper :
  forall sr f w (g : nat -> R), valid_band sr f -> 0 < w < PI ->
    (forall N, (0 < N)%nat -> butter_gain LowPass N sr f w (g N)) ->
    (w < omega sr f -> (forall N N', (0 < N < N')%nat -> g N < g N') /\ is_lim_seq g 1)
    /\ (omega sr f < w -> (forall N N', (0 < N < N')%nat -> g N' < g N) /\ is_lim_seq g 0).
Proof. exact C140_sharper_thm. Qed.
Print Assumptions C140_sharper.

Example C140_sharper_hyps : valid_band 48000 1000 /\ 0 < 1 < PI
  /\ forall N, (0 < N)%nat -> butter_gain LowPass N 48000 1000 1 (1 / sqrt (1 + warped (omega 48000 1000) 1 ^ (4 * N))).
Proof.
  assert (X := PI2_1). assert (V : valid_band 48000 1000) by (unfold valid_band; lra). split; [exact V|]. split; [lra|].
  intros N HN.
  destruct (C140_gain_thm N 48000 1000 1 (1 / sqrt (1 + warped (omega 48000 1000) 1 ^ (4 * N)))) as [[_ P] _]; [exact HN|exact V|lra|].
  exact (P eq_refl).
Qed.
