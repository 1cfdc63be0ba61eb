(** Property C138: which filters preserve the order of signals, and which low-pass filters never
    overshoot, in exact arithmetic.

    Vocabulary: [keeps_order], [keeps_rising], [no_overshoot] ([OverSpec]); [filter_eq],
    [obeys] ([Signal]); [impulse], [response] ([SysSpec]); [valid_band] ([RbjSpec]). *)
From Coq Require Import Reals List Lra Lia.
From Coquelicot Require Import Coquelicot.
From Verif Require Import Num NumR FilterM RbjM Device Signal RbjSpec SysSpec OverSpec OverLemmas.
Import ListNotations.
Open Scope R_scope.

(** C138: three ways of saying the same: the filter preserves the order of signals; what rises from
    silence comes out rising; the impulse response is nowhere negative.  For stable coefficients
    with the gain 1 for constants a fourth one: no output leaves the range of the input. *)
Theorem C138_equivalent :
  forall (S K : Type) (D : device S K R) (k : K) (b0 b1 b2 a1 a2 : R), filter_eq D k (b0, b1, b2, a1, a2) ->
    (keeps_order D k <-> forall n, 0 <= response D k impulse n)
    /\ (keeps_rising D k <-> keeps_order D k)
    /\ (stable a1 a2 -> b0 + b1 + b2 = 1 + a1 + a2 -> (no_overshoot D k <-> keeps_order D k)).
Proof. exact C138_equivalent_thm. Qed.
Print Assumptions C138_equivalent.

Example C138_equivalent_hyps :
  filter_eq (dev_one_pole R_ops) (1 / 2, - (1 / 2)) (1 / 2, 0, 0, - (1 / 2), 0)
  /\ stable (- (1 / 2)) 0 /\ 1 / 2 + 0 + 0 = 1 + - (1 / 2) + 0.
Proof.
  split; [constructor|]. split; [|lra]. unfold stable. rewrite Rabs_R0, Rabs_Ropp, Rabs_pos_eq; lra.
Qed.

(** C138: the simple filters. *)
Theorem C138_simple :
  (forall b0 a1, keeps_order (dev_one_pole R_ops) (b0, a1) <-> b0 = 0 \/ (0 < b0 /\ a1 <= 0))
  /\ (forall b0 b1, keeps_order (dev_one_zero R_ops) (b0, b1) <-> 0 <= b0 /\ 0 <= b1)
  /\ (forall b0 a1 a2, keeps_order (dev_two_pole R_ops) (b0, a1, a2) <-> b0 = 0 \/ (0 < b0 /\ a1 <= 0 /\ 4 * a2 <= a1 * a1))
  /\ (forall b0 b1 b2, keeps_order (dev_two_zero R_ops) (b0, b1, b2) <-> 0 <= b0 /\ 0 <= b1 /\ 0 <= b2).
Proof. exact C138_simple_thm. Qed.
Print Assumptions C138_simple.

Example C138_simple_cases :
  keeps_order (dev_two_pole R_ops) (1, -1, 1 / 4) /\ ~ keeps_order (dev_two_pole R_ops) (1, -1, 1 / 2)
  /\ keeps_order (dev_one_pole R_ops) (1 / 2, - (1 / 2)) /\ ~ keeps_order (dev_one_zero R_ops) (1, - (1 / 2)).
Proof.
  destruct C138_simple_thm as [H1 [H2 [H3 _]]]. rewrite H1, H2, !H3. repeat split; try (right; repeat split; lra); lra.
Qed.

(** C138: a LowPass preserves the order of signals, and never overshoots, exactly for q at most 1/2
    and a corner at most a quarter of the sample rate. *)
Theorem C138_lowpass :
  forall sr f q, valid_band sr f -> 0 < q ->
    let D := dev_rbj R_ops LowPass in let k := RbjQ sr f q in
    (no_overshoot D k <-> q <= / 2 /\ f <= sr / 4)
    /\ (keeps_order D k <-> q <= / 2 /\ f <= sr / 4)
    /\ (keeps_rising D k <-> q <= / 2 /\ f <= sr / 4).
Proof. exact C138_lowpass_thm. Qed.
Print Assumptions C138_lowpass.

(* the usual q of about 0.7071 overshoots; so does a high corner whatever q *)
Example C138_lowpass_cases :
  no_overshoot (dev_rbj R_ops LowPass) (RbjQ 48000 1000 (/ 2))
  /\ ~ no_overshoot (dev_rbj R_ops LowPass) (RbjQ 48000 1000 (7071 / 10000))
  /\ ~ no_overshoot (dev_rbj R_ops LowPass) (RbjQ 48000 13000 (/ 10)).
Proof.
  assert (V1 : valid_band 48000 1000) by (unfold valid_band; lra).
  assert (V2 : valid_band 48000 13000) by (unfold valid_band; lra).
  destruct (C138_lowpass_thm 48000 1000 (/ 2) V1 ltac:(lra)) as [H1 _].
  destruct (C138_lowpass_thm 48000 1000 (7071 / 10000) V1 ltac:(lra)) as [H2 _].
  destruct (C138_lowpass_thm 48000 13000 (/ 10) V2 ltac:(lra)) as [H3 _].
  cbv zeta in H1, H2, H3. rewrite H1, H2, H3. repeat split; lra.
Qed.

(** C138: the other filters hardly ever preserve order: HighPass and the band passes never;
    BandStop only with its corner at exactly a quarter of the sample rate and q at most 1/2; AllPass
    only where it is a plain delay of two samples. *)
Theorem C138_others :
  forall sr f q, valid_band sr f -> 0 < q ->
    (forall kind, In kind [HighPass; BandPass1; BandPass2] -> ~ keeps_order (dev_rbj R_ops kind) (RbjQ sr f q))
    /\ (keeps_order (dev_rbj R_ops BandStop) (RbjQ sr f q) <-> q <= / 2 /\ f = sr / 4)
    /\ (keeps_order (dev_rbj R_ops AllPass) (RbjQ sr f q) <-> q = / 2 /\ f = sr / 4).
Proof. exact C138_others_thm. Qed.
Print Assumptions C138_others.

Example C138_others_cases :
  keeps_order (dev_rbj R_ops AllPass) (RbjQ 48000 12000 (/ 2)) /\ keeps_order (dev_rbj R_ops BandStop) (RbjQ 48000 12000 (/ 4))
  /\ ~ keeps_order (dev_rbj R_ops AllPass) (RbjQ 48000 12000 (/ 4)) /\ ~ keeps_order (dev_rbj R_ops HighPass) (RbjQ 48000 12000 (/ 2)).
Proof.
  assert (V : valid_band 48000 12000) by (unfold valid_band; lra).
  destruct (C138_others_thm 48000 12000 (/ 2) V ltac:(lra)) as [N [_ A]].
  destruct (C138_others_thm 48000 12000 (/ 4) V ltac:(lra)) as [_ [B A']].
  rewrite A, A', B. repeat split; try lra. apply N. left. reflexivity.
Qed.
