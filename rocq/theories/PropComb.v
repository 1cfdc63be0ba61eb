(** Property C131: the frequency responses of the delay lines and of the sections built on them, in exact arithmetic.

    Vocabulary: [sinusoid A w phi]: amplitude [A], [w] radians per sample, phase [phi] ([Signal]); [delay_echo], [feedback]: the
    feedback comb of C106 ([EchoSpec]); [diffuser]: Schroeder's section of C112 ([SchroederSpec]); [at_ 0 ys n]: the [n]-th
    sample of a list. *)
From Coq Require Import ZArith Reals List Bool Lia Lra.
From Flocq Require Import Core.Core IEEE754.BinarySingleNaN.
From Verif Require Import Base Num NumR NumF FloatSpec Signal DelayM DelaySpec DelayRun LinDelayM LinRun EchoSpec SchroederSpec Witness CombLemmas.
Import ListNotations.
Open Scope R_scope.

(** C131: a [LinearDelay] whose delay is k + f samples passes every sinusoid with the amplitude multiplied by
    sqrt (1 - 2 f (1 - f) (1 - cos w)) and a phase shift that depends on the delay and the frequency only, exactly, from the sample
    after the (k + 1)-st on.  The amplitude never grows, and never shrinks by more than |cos (w / 2)|; it is kept when the
    delay is a whole number. *)

Theorem C131_linear_response :
  forall (p : profile) (d : R) (m : Z) (w : R),
    is_usize m -> fits R_ops m -> 0 <= d <= IZR m ->
    let k := Z.to_nat (Zfloor d) in
    let f := d - IZR (Zfloor d) in
    let G := sqrt (1 - 2 * f * (1 - f) * (1 - cos w)) in
    (exists theta, forall A phi N, exists s ys,
       lin_session R_ctl R_ops p d m (map DProcess (map (sinusoid A w phi) (seq 0 N))) = Ok (s, map OSample ys)
       /\ length ys = N
       /\ forall n, (k < n < N)%nat -> at_ 0 ys n = sinusoid (G * A) w (phi + theta) n)
    /\ Rabs (cos (w / 2)) <= G <= 1
    /\ (f = 0 -> G = 1).
Proof. exact C131_linear_response_thm. Qed.
Print Assumptions C131_linear_response.

Example C131_linear_response_hyps : is_usize 3 /\ fits R_ops 3 /\ 0 <= 3 / 2 <= IZR 3.
Proof. repeat split; try easy; lra. Qed.

(** C131: half way between two samples the phase is linear as well: the output is the input of k + 1/2 samples ago, for every
    frequency, only weaker by cos (w / 2).  At the Nyquist frequency nothing is left. *)

Theorem C131_half_sample :
  forall (p : profile) (k : nat) (m : Z) (A w phi : R) (N : nat),
    is_usize m -> fits R_ops m -> (Z.of_nat k < m)%Z ->
    exists s ys,
      lin_session R_ctl R_ops p (INR k + / 2) m (map DProcess (map (sinusoid A w phi) (seq 0 N))) = Ok (s, map OSample ys)
      /\ length ys = N
      /\ forall n, (k < n < N)%nat ->
           at_ 0 ys n = cos (w / 2) * (A * cos ((INR n - (INR k + / 2)) * w + phi))
           /\ (w = PI -> at_ 0 ys n = 0).
Proof. exact C131_half_sample_thm. Qed.
Print Assumptions C131_half_sample.

Example C131_half_sample_hyps : is_usize 3 /\ fits R_ops 3 /\ (Z.of_nat 2 < 3)%Z.
Proof. repeat split; easy. Qed.

(** C131: the feedback comb y = x + g * line, |g| < 1, on a [Delay] of [d] samples settles, fed a sinusoid, on the same sinusoid with
    its amplitude multiplied by 1 / sqrt (1 - 2 g cos (d w) + g^2) and a phase shift depending on [d], [g] and the frequency only.
    What remains of the start dies out by |g| per round trip.  The gain lies between 1 / (1 + |g|) and 1 / (1 - |g|); for [g >= 0]
    the upper end is met where a whole number of periods fits into the delay, the lower end half way in between. *)

Theorem C131_comb_response :
  forall (p : profile) (d m : Z) (g w : R),
    (1 <= d <= m)%Z -> is_usize m -> fits R_ops m -> Rabs g < 1 ->
    let G := / sqrt (1 - 2 * g * cos (IZR d * w) + g * g) in
    (exists theta, forall A phi N, exists s ys,
       delay_echo R_ops p (feedback R_ops g) d m (map (sinusoid A w phi) (seq 0 N)) = Ok (s, ys)
       /\ length ys = N
       /\ forall n, (n < N)%nat ->
            Rabs (at_ 0 ys n - sinusoid (G * A) w (phi + theta) n) <= Rabs g ^ (n / Z.to_nat d + 1) * (G * Rabs A))
    /\ / (1 + Rabs g) <= G <= / (1 - Rabs g)
    /\ (cos (IZR d * w) = 1 -> G = / (1 - g))
    /\ (cos (IZR d * w) = -1 -> G = / (1 + g)).
Proof. exact C131_comb_response_thm. Qed.
Print Assumptions C131_comb_response.

Example C131_comb_response_hyps : (1 <= 2 <= 3)%Z /\ is_usize 3 /\ fits R_ops 3 /\ Rabs (1 / 2) < 1 /\ cos (IZR 2 * PI) = 1.
Proof.
  repeat split; try easy; [rewrite Rabs_pos_eq; lra|]. replace (IZR 2 * PI) with (2 * PI) by reflexivity. apply cos_2PI.
Qed.

(** C131: Schroeder's section, |g| < 1, settles on the same sinusoid at exactly the same amplitude, whatever the frequency, the
    length of the line and the coefficient: only the phase changes.  What remains of the start dies out by |g| per round trip. *)

Theorem C131_section_response :
  forall (p : profile) (d m : Z) (g w : R),
    (1 <= d <= m)%Z -> is_usize m -> fits R_ops m -> Rabs g < 1 ->
    exists theta, forall A phi N, exists s ys,
      diffuser R_ops p g d m (map (sinusoid A w phi) (seq 0 N)) = Ok (s, ys)
      /\ length ys = N
      /\ forall n, (n < N)%nat ->
           Rabs (at_ 0 ys n - sinusoid A w (phi + theta) n)
           <= Rabs g ^ (n / Z.to_nat d) * ((1 + g * g) / (1 - Rabs g) * Rabs A).
Proof. exact C131_section_response_thm. Qed.
Print Assumptions C131_section_response.

Example C131_section_response_hyps : (1 <= 2 <= 3)%Z /\ is_usize 3 /\ fits R_ops 3 /\ Rabs (-7 / 10) < 1.
Proof. repeat split; try easy. rewrite Rabs_left; lra. Qed.

(** C131, [f32] and [f64]: the feedforward comb [x - line.process(x)] on a [Delay] of one period removes a hum of any wave form bit
    for bit: after the first period every output is exactly the positive zero, however long it lasts. *)

Theorem C131_hum_removed :
  forall (T : Type) (O : num_ops T) (V : float_view T) (p : profile) (d m : Z) (hum : nat -> T) (N : nat),
    ieee O V -> (1 <= d <= m)%Z -> is_usize m -> fits O m ->
    (forall n, fin V (hum n) = true) -> (forall n, hum (n + Z.to_nat d)%nat = hum n) ->
    exists s vs, dl_session O p d m (map DProcess (map hum (seq 0 N))) = Ok (s, map OSample vs) /\ length vs = N
      /\ forall n, (Z.to_nat d <= n < N)%nat -> n_sub O (hum n) (at_ (n_zero O) vs n) = n_zero O.
Proof. exact C131_hum_removed_thm. Qed.
Print Assumptions C131_hum_removed.

Example C131_hum_removed_hyps :
  let hum n := if Nat.even n then fl32 3 (-5) else fl32 (-7) 2 in
  ieee O32 (ieee_view 24 128) /\ (1 <= 2 <= 3)%Z /\ is_usize 3 /\ fits O32 3
  /\ (forall n, fin (ieee_view 24 128) (hum n) = true) /\ (forall n, hum (n + Z.to_nat 2)%nat = hum n).
Proof.
  intros hum. split; [apply ieee_f32|]. do 3 (split; [easy|]). split.
  - intros n. unfold hum. destruct (Nat.even n); reflexivity.
  - intros n. unfold hum. change (Z.to_nat 2) with 2%nat. rewrite Nat.even_add. cbn [Nat.even]. destruct (Nat.even n); reflexivity.
Qed.
