(** Lemmas behind property C131.  The [@PROP] blocks are copied into [PropComb.v]. *)
(*@PROP
(** Property C131: the frequency responses of the delay lines and of the sections built on them, in exact arithmetic.

    Vocabulary: [sinusoid A w phi]: amplitude [A], [w] radians per sample, phase [phi] ([Signal]); [delay_echo], [feedback]: the
    feedback comb of C106 ([EchoSpec]); [diffuser]: Schroeder's section of C112 ([SchroederSpec]); [at_ 0 ys n]: the [n]-th
    sample of a list. *)
From Coq Require Import ZArith Reals List Bool Lia Lra.
From Flocq Require Import Core.Core IEEE754.BinarySingleNaN.
From Verif Require Import Base Num NumR NumF FloatSpec Signal DelayM DelaySpec DelayRun LinDelayM LinRun EchoSpec SchroederSpec Witness CombLemmas.
Import ListNotations.
Open Scope R_scope.
@*)
From Coq Require Import ZArith Reals List Bool Lia Lra.
From Flocq Require Import Core.Core IEEE754.BinarySingleNaN.
From Verif Require Import Base Num NumR NumF FloatSpec Signal DelayM DelaySpec DelayRun LinDelayM LinRun LinLemmas2 EchoSpec SchroederSpec
  RbjFacts DelayLemmas EchoLemmas SchroederLemmas.
Import ListNotations.
Open Scope R_scope.

(** ** Sinusoids *)
Lemma turn (P Q : R) : exists theta, forall psi, P * cos psi + Q * sin psi = sqrt (P * P + Q * Q) * cos (psi + theta).
Proof.
  assert (0 <= P * P) by apply Rle_0_sqr. assert (0 <= Q * Q) by apply Rle_0_sqr.
  destruct (phase_exists P (- Q) 1 0 (sqrt (P * P + Q * Q)) (sqrt_pos _)) as [th [H1 H2]].
  - rewrite sqrt_sqrt by lra. ring.
  - exists th. intros psi. rewrite cos_plus.
    replace (P * cos psi + Q * sin psi) with (P * cos psi - (- Q) * sin psi) by ring. rewrite H1 at 1. rewrite H2 at 1. ring.
Qed.

Lemma cos_sq_half w : cos w = 2 * (cos (w / 2) * cos (w / 2)) - 1.
Proof. replace w with (2 * (w / 2)) at 1 by field. rewrite cos_2a_cos. ring. Qed.

Lemma at_map_seq (x : nat -> R) N n : (n < N)%nat -> at_ 0 (map x (seq 0 N)) n = x n.
Proof.
  intros H. unfold at_. rewrite (nth_indep _ 0 (x 0%nat)) by (rewrite map_length, seq_length; exact H).
  rewrite map_nth, seq_nth by exact H. reflexivity.
Qed.

(** ** [LinearDelay] *)

(*@PROP
(** C131: a [LinearDelay] whose delay is k + f samples passes every sinusoid with the amplitude multiplied by
    sqrt (1 - 2 f (1 - f) (1 - cos w)) and a phase shift that depends on the delay and the frequency only, exactly, from the sample
    after the (k + 1)-st on.  The amplitude never grows, and never shrinks by more than |cos (w / 2)|; it is kept when the
    delay is a whole number. *)
@*)
Lemma C131_linear_response_thm :
  forall (p : profile) (d : R) (m : Z) (w : R),
    is_usize m -> fits R_ops m -> 0 <= d <= IZR m ->
    let k := Z.to_nat (Zfloor d) in
    let f := d - IZR (Zfloor d) in
    let G := sqrt (1 - 2 * f * (1 - f) * (1 - cos w)) in
    (exists theta, forall A phi N, exists s ys,
       lin_session R_ctl R_ops p d m (map DProcess (map (sinusoid A w phi) (seq 0 N))) = Ok (s, map OSample ys)
       /\ length ys = N
       /\ forall n, (k < n < N)%nat -> at_ 0 ys n = sinusoid (G * A) w (phi + theta) n)
    /\ Rabs (cos (w / 2)) <= G <= 1
    /\ (f = 0 -> G = 1).
Proof.
  intros p d m w Hm Hf Hd k f G.
  assert (F : 0 <= f < 1).
  { unfold f. pose proof (Zfloor_lb d). pose proof (Zfloor_ub d). lra. }
  assert (C := COS_bound w).
  assert (Q : 0 <= f * (1 - f) <= 1 / 4).
  { pose proof (Rle_0_sqr (f - 1 / 2)) as H2. unfold Rsqr in H2. split; [apply Rmult_le_pos; lra|lra]. }
  split; [|split].
  - set (P := (1 - f) * cos (INR k * w) + f * cos (INR (S k) * w)).
    set (Q' := (1 - f) * sin (INR k * w) + f * sin (INR (S k) * w)).
    assert (E : P * P + Q' * Q' = 1 - 2 * f * (1 - f) * (1 - cos w)).
    { unfold P, Q'. rewrite S_INR. replace ((INR k + 1) * w) with (INR k * w + w) by ring. rewrite cos_plus, sin_plus.
      assert (S1 := sin2_cos2 (INR k * w)). assert (S2 := sin2_cos2 w). unfold Rsqr in S1, S2.
      set (a := cos (INR k * w)) in *. set (b := sin (INR k * w)) in *. set (c := cos w) in *. set (e := sin w) in *. clearbody a b c e.
      replace (((1 - f) * a + f * (a * c - b * e)) * ((1 - f) * a + f * (a * c - b * e))
               + ((1 - f) * b + f * (b * c + a * e)) * ((1 - f) * b + f * (b * c + a * e)))
        with ((b * b + a * a) * ((1 - f) * (1 - f) + 2 * f * (1 - f) * c + f * f * (e * e + c * c))) by ring.
      rewrite S1, S2. ring. }
    destruct (turn P Q') as [theta T]. exists theta. intros A phi N.
    destruct (C22_interpolates_thm p d m (sinusoid A w phi) N Hm Hf Hd) as [s Es]. fold k in Es. fold f in Es.
    eexists s, _. rewrite map_map. split; [exact Es|]. split; [rewrite map_length, seq_length; reflexivity|].
    intros n Hn. rewrite at_map_seq by lia. unfold behind.
    destruct (Nat.leb_spec k n); [|lia]. destruct (Nat.leb_spec (S k) n); [|lia].
    unfold sinusoid. rewrite !minus_INR by lia.
    specialize (T (INR n * w + phi)). rewrite E in T. fold G in T.
    transitivity (A * (G * cos (INR n * w + phi + theta))); [|rewrite Rplus_assoc; ring]. rewrite <- T. unfold P, Q'.
    replace ((INR n - INR k) * w + phi) with (INR n * w + phi - INR k * w) by ring.
    replace ((INR n - INR (S k)) * w + phi) with (INR n * w + phi - INR (S k) * w) by ring.
    rewrite !cos_minus. ring.
  - split.
    + rewrite <- sqrt_Rsqr_abs. apply sqrt_le_1_alt. unfold Rsqr. rewrite (cos_sq_half w). rewrite (cos_sq_half w) in C.
      set (c := cos (w / 2)) in *. clearbody c. nra.
    + unfold G. replace 1 with (sqrt 1) at 4 by apply sqrt_1. apply sqrt_le_1_alt. nra.
  - intros E. unfold G. rewrite E. replace (1 - 2 * 0 * (1 - 0) * (1 - cos w)) with 1 by ring. apply sqrt_1.
Qed.

(*@PROP
Example C131_linear_response_hyps : is_usize 3 /\ fits R_ops 3 /\ 0 <= 3 / 2 <= IZR 3.
Proof. repeat split; try easy; lra. Qed.
@*)

(*@PROP
(** C131: half way between two samples the phase is linear as well: the output is the input of k + 1/2 samples ago, for every
    frequency, only weaker by cos (w / 2).  At the Nyquist frequency nothing is left. *)
@*)
Lemma C131_half_sample_thm :
  forall (p : profile) (k : nat) (m : Z) (A w phi : R) (N : nat),
    is_usize m -> fits R_ops m -> (Z.of_nat k < m)%Z ->
    exists s ys,
      lin_session R_ctl R_ops p (INR k + / 2) m (map DProcess (map (sinusoid A w phi) (seq 0 N))) = Ok (s, map OSample ys)
      /\ length ys = N
      /\ forall n, (k < n < N)%nat ->
           at_ 0 ys n = cos (w / 2) * (A * cos ((INR n - (INR k + / 2)) * w + phi))
           /\ (w = PI -> at_ 0 ys n = 0).
Proof.
  intros p k m A w phi N Hm Hf Hk.
  assert (Fl : Zfloor (INR k + / 2) = Z.of_nat k).
  { apply Zfloor_imp. rewrite plus_IZR, <- INR_IZR_INZ. lra. }
  destruct (C22_interpolates_thm p (INR k + / 2) m (sinusoid A w phi) N Hm Hf) as [s Es].
  { assert (IZR (Z.of_nat k) + 1 <= IZR m) by (rewrite <- plus_IZR; apply IZR_le; lia).
    rewrite <- INR_IZR_INZ in H. assert (0 <= INR k) by apply pos_INR. lra. }
  rewrite Fl, Nat2Z.id, <- INR_IZR_INZ in Es. replace (INR k + / 2 - INR k) with (/ 2) in Es by ring.
  eexists s, _. rewrite map_map. split; [exact Es|]. split; [rewrite map_length, seq_length; reflexivity|].
  intros n Hn. rewrite at_map_seq by lia. unfold behind.
  destruct (Nat.leb_spec k n); [|lia]. destruct (Nat.leb_spec (S k) n); [|lia].
  assert (E : (1 - / 2) * sinusoid A w phi (n - k)%nat + / 2 * sinusoid A w phi (n - S k)%nat
              = cos (w / 2) * (A * cos ((INR n - (INR k + / 2)) * w + phi))).
  { unfold sinusoid. rewrite !minus_INR, S_INR by lia.
    set (psi := (INR n - (INR k + / 2)) * w + phi).
    replace ((INR n - INR k) * w + phi) with (psi + w / 2) by (unfold psi; field).
    replace ((INR n - (INR k + 1)) * w + phi) with (psi - w / 2) by (unfold psi; field).
    rewrite cos_plus, cos_minus. field. }
  split; [exact E|]. intros ->. rewrite E, cos_PI2. ring.
Qed.

(*@PROP
Example C131_half_sample_hyps : is_usize 3 /\ fits R_ops 3 /\ (Z.of_nat 2 < 3)%Z.
Proof. repeat split; easy. Qed.
@*)

(** ** The feedback comb *)
Section Comb.
  Variables g delta : R.
  Hypothesis Hg : Rabs g < 1.
  Let D := 1 - 2 * g * cos delta + g * g.

  Lemma comb_den : (1 - Rabs g) * (1 - Rabs g) <= D <= (1 + Rabs g) * (1 + Rabs g).
  Proof.
    unfold D. assert (C := COS_bound delta). assert (G2 : g * g = Rabs g * Rabs g) by (rewrite <- Rabs_mult; symmetry; apply Rabs_pos_eq, Rle_0_sqr).
    assert (B : Rabs (g * cos delta) <= Rabs g).
    { rewrite Rabs_mult. rewrite <- (Rmult_1_r (Rabs g)) at 2. apply Rmult_le_compat_l; [apply Rabs_pos|]. apply Rabs_le, C. }
    assert (B' := Rabs_le_inv _ _ B). rewrite G2. lra.
  Qed.

  Lemma comb_den_pos : 0 < D.
  Proof using Hg. destruct comb_den as [H _]. nra. Qed.

  Definition comb_steady (psi : R) : R := ((1 - g * cos delta) * cos psi + g * sin delta * sin psi) / D.

  Lemma comb_steady_eq psi : comb_steady psi = cos psi + g * comb_steady (psi - delta).
  Proof using Hg.
    assert (P := comb_den_pos). unfold comb_steady. rewrite cos_minus, sin_minus.
    assert (S := sin2_cos2 delta). unfold Rsqr in S. unfold D in *.
    apply Rmult_eq_reg_r with (1 - 2 * g * cos delta + g * g); [|lra].
    field_simplify; [|lra|lra]. rewrite <- !Rsqr_pow2. unfold Rsqr.
    replace (sin delta * sin delta) with (1 - cos delta * cos delta) by lra. ring.
  Qed.

  Lemma comb_phase : exists theta, forall psi, comb_steady psi = / sqrt D * cos (psi + theta).
  Proof using Hg.
    assert (P := comb_den_pos). destruct (turn ((1 - g * cos delta) / D) (g * sin delta / D)) as [th T]. exists th. intros psi.
    transitivity ((1 - g * cos delta) / D * cos psi + g * sin delta / D * sin psi); [unfold comb_steady; field; lra|].
    rewrite T. f_equal.
    assert (S := sin2_cos2 delta). unfold Rsqr in S.
    replace ((1 - g * cos delta) / D * ((1 - g * cos delta) / D) + g * sin delta / D * (g * sin delta / D)) with (/ D).
    - apply sqrt_inv.
    - transitivity (((1 - g * cos delta) * (1 - g * cos delta) + g * g * (sin delta * sin delta)) / (D * D)); [|field; lra].
      replace (sin delta * sin delta) with (1 - cos delta * cos delta) by lra.
      replace ((1 - g * cos delta) * (1 - g * cos delta) + g * g * (1 - cos delta * cos delta)) with D by (unfold D; ring). field. lra.
  Qed.

  Lemma section_phase : exists theta, forall psi, comb_steady (psi - delta) - g * comb_steady psi = cos (psi + theta).
  Proof using Hg.
    assert (P := comb_den_pos). set (a := ((1 + g * g) * cos delta - 2 * g) / D). set (b := (1 - g * g) * sin delta / D).
    destruct (turn a b) as [th T]. exists th. intros psi.
    assert (S := sin2_cos2 delta). unfold Rsqr in S.
    transitivity (a * cos psi + b * sin psi).
    - unfold comb_steady, a, b. rewrite cos_minus, sin_minus.
      transitivity ((((1 - g * cos delta) * cos delta - g * (sin delta * sin delta) - g * (1 - g * cos delta)) * cos psi
                     + (((1 - g * cos delta) * sin delta + g * sin delta * cos delta) - g * g * sin delta) * sin psi) / D); [field; lra|].
      replace (sin delta * sin delta) with (1 - cos delta * cos delta) by lra. field. lra.
    - rewrite T. rewrite <- (Rmult_1_l (cos (psi + th))) at 2. f_equal. rewrite <- sqrt_1. f_equal. unfold a, b.
      transitivity ((((1 + g * g) * cos delta - 2 * g) * ((1 + g * g) * cos delta - 2 * g)
                     + (1 - g * g) * (1 - g * g) * (sin delta * sin delta)) / (D * D)); [field; lra|].
      replace (sin delta * sin delta) with (1 - cos delta * cos delta) by lra.
      apply Rmult_eq_reg_r with (D * D); [|nra]. field_simplify; [|lra]. unfold D. ring.
  Qed.

  Lemma comb_steady_le psi : Rabs (comb_steady psi) <= / sqrt D.
  Proof using Hg.
    destruct comb_phase as [th T]. rewrite T, Rabs_mult.
    assert (0 < / sqrt D) by (apply Rinv_0_lt_compat, sqrt_lt_R0, comb_den_pos). rewrite (Rabs_pos_eq (/ sqrt D)) by lra.
    rewrite <- (Rmult_1_r (/ sqrt D)) at 2. apply Rmult_le_compat_l; [lra|]. apply Rabs_le, COS_bound.
  Qed.

  Lemma comb_gain_range : / (1 + Rabs g) <= / sqrt D <= / (1 - Rabs g).
  Proof using Hg.
    assert (A0 := Rabs_pos g). destruct comb_den as [L U].
    assert (S0 : 0 < sqrt D) by apply sqrt_lt_R0, comb_den_pos. split.
    - apply Rinv_le_contravar; [exact S0|]. rewrite <- (sqrt_square (1 + Rabs g)) by lra. apply sqrt_le_1_alt, U.
    - apply Rinv_le_contravar; [lra|]. rewrite <- (sqrt_square (1 - Rabs g)) by lra. apply sqrt_le_1_alt, L.
  Qed.
End Comb.

Lemma comb_error g w d A phi N (ys : nat -> R) :
  Rabs g < 1 -> (1 <= d)%nat ->
  (forall n, (n < N)%nat -> ys n = sinusoid A w phi n + g * behind 0 ys d n) ->
  forall n, (n < N)%nat ->
    Rabs (ys n - A * comb_steady g (INR d * w) (INR n * w + phi))
    <= Rabs g ^ (n / d + 1) * (/ sqrt (1 - 2 * g * cos (INR d * w) + g * g) * Rabs A).
Proof.
  intros Hg Hd Hy n. induction n as [n IH] using lt_wf_ind. intros Hn. rewrite (Hy n Hn). unfold sinusoid.
  rewrite (comb_steady_eq g (INR d * w) Hg (INR n * w + phi)). unfold behind.
  set (St := comb_steady g (INR d * w)) in *. set (G := / sqrt _) in *.
  assert (GP := comb_steady_le g (INR d * w) Hg (INR n * w + phi - INR d * w)). fold St in GP. fold G in GP.
  destruct (Nat.leb_spec d n) as [L|L].
  - specialize (IH (n - d)%nat ltac:(lia) ltac:(lia)).
    replace (INR (n - d) * w + phi) with (INR n * w + phi - INR d * w) in IH by (rewrite minus_INR by exact L; ring).
    replace (A * cos (INR n * w + phi) + g * ys (n - d)%nat - A * (cos (INR n * w + phi) + g * St (INR n * w + phi - INR d * w)))
      with (g * (ys (n - d)%nat - A * St (INR n * w + phi - INR d * w))) by ring.
    rewrite Rabs_mult. replace (n / d)%nat with ((n - d) / d + 1)%nat.
    + rewrite Nat.add_1_r at 1. cbn [pow]. rewrite Rmult_assoc. apply Rmult_le_compat_l; [apply Rabs_pos|exact IH].
    + rewrite <- (Nat.div_add (n - d) 1 d) by lia. f_equal. lia.
  - rewrite Nat.div_small by exact L. cbn [Nat.add pow].
    replace (A * cos (INR n * w + phi) + g * 0 - A * (cos (INR n * w + phi) + g * St (INR n * w + phi - INR d * w)))
      with (- (g * (St (INR n * w + phi - INR d * w) * A))) by ring.
    rewrite Rabs_Ropp, !Rabs_mult, Rmult_1_r. apply Rmult_le_compat_l; [apply Rabs_pos|].
    apply Rmult_le_compat_r; [apply Rabs_pos|exact GP].
Qed.

(*@PROP
(** C131: the feedback comb y = x + g * line, |g| < 1, on a [Delay] of [d] samples settles, fed a sinusoid, on the same sinusoid with
    its amplitude multiplied by 1 / sqrt (1 - 2 g cos (d w) + g^2) and a phase shift depending on [d], [g] and the frequency only.
    What remains of the start dies out by |g| per round trip.  The gain lies between 1 / (1 + |g|) and 1 / (1 - |g|); for [g >= 0]
    the upper end is met where a whole number of periods fits into the delay, the lower end half way in between. *)
@*)
Lemma C131_comb_response_thm :
  forall (p : profile) (d m : Z) (g w : R),
    (1 <= d <= m)%Z -> is_usize m -> fits R_ops m -> Rabs g < 1 ->
    let G := / sqrt (1 - 2 * g * cos (IZR d * w) + g * g) in
    (exists theta, forall A phi N, exists s ys,
       delay_echo R_ops p (feedback R_ops g) d m (map (sinusoid A w phi) (seq 0 N)) = Ok (s, ys)
       /\ length ys = N
       /\ forall n, (n < N)%nat ->
            Rabs (at_ 0 ys n - sinusoid (G * A) w (phi + theta) n) <= Rabs g ^ (n / Z.to_nat d + 1) * (G * Rabs A))
    /\ / (1 + Rabs g) <= G <= / (1 - Rabs g)
    /\ (cos (IZR d * w) = 1 -> G = / (1 - g))
    /\ (cos (IZR d * w) = -1 -> G = / (1 + g)).
Proof.
  intros p d m g w Hd Hm Hf Hg G.
  assert (DE : IZR d = INR (Z.to_nat d)) by (rewrite INR_IZR_INZ, Z2Nat.id by lia; reflexivity).
  assert (G1 := Rabs_def2 g 1 Hg).
  split; [|split; [|split]].
  - destruct (comb_phase g (IZR d * w) Hg) as [th T]. exists th. intros A phi N.
    destruct (C106_delay_echo_thm R R_ops p (feedback R_ops g) d m (map (sinusoid A w phi) (seq 0 N))) as [s [s' [ys [E [_ [L Hn]]]]]]; try assumption.
    { cbn. lia. }
    rewrite map_length, seq_length in L, Hn. change (n_zero R_ops) with 0 in Hn.
    exists s, ys. split; [exact E|]. split; [exact L|]. intros n HN.
    assert (B := comb_error g w (Z.to_nat d) A phi N (at_ 0 ys) Hg ltac:(lia)).
    rewrite <- DE in B. fold G in B.
    replace (sinusoid (G * A) w (phi + th) n) with (A * comb_steady g (IZR d * w) (INR n * w + phi)).
    + apply B; [|exact HN]. intros i Hi. rewrite (Hn i Hi), at_map_seq by exact Hi. reflexivity.
    + rewrite T. fold G. unfold sinusoid. rewrite Rplus_assoc. ring.
  - apply comb_gain_range, Hg.
  - intros C. unfold G. rewrite C. replace (1 - 2 * g * 1 + g * g) with ((1 - g) * (1 - g)) by ring. rewrite sqrt_square by lra. reflexivity.
  - intros C. unfold G. rewrite C. replace (1 - 2 * g * -1 + g * g) with ((1 + g) * (1 + g)) by ring. rewrite sqrt_square by lra. reflexivity.
Qed.

(*@PROP
Example C131_comb_response_hyps : (1 <= 2 <= 3)%Z /\ is_usize 3 /\ fits R_ops 3 /\ Rabs (1 / 2) < 1 /\ cos (IZR 2 * PI) = 1.
Proof.
  repeat split; try easy; [rewrite Rabs_pos_eq; lra|]. replace (IZR 2 * PI) with (2 * PI) by reflexivity. apply cos_2PI.
Qed.
@*)

(*@PROP
(** C131: Schroeder's section, |g| < 1, settles on the same sinusoid at exactly the same amplitude, whatever the frequency, the
    length of the line and the coefficient: only the phase changes.  What remains of the start dies out by |g| per round trip. *)
@*)
Lemma C131_section_response_thm :
  forall (p : profile) (d m : Z) (g w : R),
    (1 <= d <= m)%Z -> is_usize m -> fits R_ops m -> Rabs g < 1 ->
    exists theta, forall A phi N, exists s ys,
      diffuser R_ops p g d m (map (sinusoid A w phi) (seq 0 N)) = Ok (s, ys)
      /\ length ys = N
      /\ forall n, (n < N)%nat ->
           Rabs (at_ 0 ys n - sinusoid A w (phi + theta) n)
           <= Rabs g ^ (n / Z.to_nat d) * ((1 + g * g) / (1 - Rabs g) * Rabs A).
Proof.
  intros p d m g w Hd Hm Hf Hg.
  assert (DE : IZR d = INR (Z.to_nat d)) by (rewrite INR_IZR_INZ, Z2Nat.id by lia; reflexivity).
  destruct (section_phase g (IZR d * w) Hg) as [th T]. exists th. intros A phi N.
  destruct (C112_section_thm R R_ops p g d m (map (sinusoid A w phi) (seq 0 N)) ltac:(cbn; lia) Hd Hm Hf) as [s [ws [ys [E [LW [LY Hn]]]]]].
  rewrite map_length, seq_length in LW, LY, Hn. change (n_zero R_ops) with 0 in Hn. cbv zeta in Hn.
  exists s, ys. split; [exact E|]. split; [exact LY|]. intros n HN.
  assert (B := comb_error g w (Z.to_nat d) A phi N (at_ 0 ws) Hg ltac:(lia)).
  rewrite <- DE in B.
  assert (HW : forall i, (i < N)%nat -> at_ 0 ws i = sinusoid A w phi i + g * behind 0 (at_ 0 ws) (Z.to_nat d) i).
  { intros i Hi. destruct (Hn i Hi) as [H1 _]. rewrite H1, at_map_seq by exact Hi. reflexivity. }
  specialize (B HW). destruct (Hn n HN) as [_ Hy]. cbn [n_sub n_mul R_ops] in Hy.
  assert (SL := comb_steady_le g (IZR d * w) Hg). assert (GR := comb_gain_range g (IZR d * w) Hg).
  set (St := comb_steady g (IZR d * w)) in *. set (G := / sqrt _) in *.
  replace (sinusoid A w (phi + th) n) with (A * (St (INR n * w + phi - IZR d * w) - g * St (INR n * w + phi))).
  2:{ rewrite T. unfold sinusoid. rewrite Rplus_assoc. reflexivity. }
  rewrite Hy. set (v := behind 0 (at_ 0 ws) (Z.to_nat d) n) in *. set (k := (n / Z.to_nat d)%nat) in *.
  assert (Ev : Rabs (v - A * St (INR n * w + phi - IZR d * w)) <= Rabs g ^ k * (G * Rabs A)).
  { unfold v, behind, k. destruct (Nat.leb_spec (Z.to_nat d) n) as [L|L].
    - specialize (B (n - Z.to_nat d)%nat ltac:(lia)).
      replace (INR (n - Z.to_nat d) * w + phi) with (INR n * w + phi - IZR d * w) in B by (rewrite minus_INR, <- DE by exact L; ring).
      replace (n / Z.to_nat d)%nat with ((n - Z.to_nat d) / Z.to_nat d + 1)%nat; [exact B|].
      rewrite <- (Nat.div_add (n - Z.to_nat d) 1 (Z.to_nat d)) by lia. f_equal. lia.
    - rewrite Nat.div_small by exact L. cbn [pow]. rewrite Rmult_1_l.
      replace (0 - A * St (INR n * w + phi - IZR d * w)) with (- (St (INR n * w + phi - IZR d * w) * A)) by ring.
      rewrite Rabs_Ropp, Rabs_mult. apply Rmult_le_compat_r; [apply Rabs_pos|apply SL]. }
  specialize (B n HN). fold k in B.
  assert (P0 : 0 <= Rabs g ^ k) by (apply pow_le, Rabs_pos).
  assert (GG : Rabs g * Rabs g = g * g) by (rewrite <- Rabs_mult; apply Rabs_pos_eq, Rle_0_sqr).
  replace (v - g * at_ 0 ws n - A * (St (INR n * w + phi - IZR d * w) - g * St (INR n * w + phi)))
    with ((v - A * St (INR n * w + phi - IZR d * w)) + - (g * (at_ 0 ws n - A * St (INR n * w + phi)))) by ring.
  eapply Rle_trans; [apply Rabs_triang|]. rewrite Rabs_Ropp, Rabs_mult.
  apply Rle_trans with (Rabs g ^ k * (G * Rabs A) + Rabs g * (Rabs g ^ (k + 1) * (G * Rabs A))).
  { apply Rplus_le_compat; [exact Ev|]. apply Rmult_le_compat_l; [apply Rabs_pos|exact B]. }
  rewrite Nat.add_1_r. cbn [pow].
  replace (Rabs g ^ k * (G * Rabs A) + Rabs g * (Rabs g * Rabs g ^ k * (G * Rabs A)))
    with (Rabs g ^ k * ((1 + Rabs g * Rabs g) * G * Rabs A)) by ring.
  rewrite GG. apply Rmult_le_compat_l; [exact P0|]. apply Rmult_le_compat_r; [apply Rabs_pos|].
  unfold Rdiv. apply Rmult_le_compat_l; [pose proof (Rle_0_sqr g); unfold Rsqr in *; lra|apply GR].
Qed.

(*@PROP
Example C131_section_response_hyps : (1 <= 2 <= 3)%Z /\ is_usize 3 /\ fits R_ops 3 /\ Rabs (-7 / 10) < 1.
Proof. repeat split; try easy. rewrite Rabs_left; lra. Qed.
@*)

(** ** Removing a hum *)
Section Hum.
  Context {prec emax : Z} {Hp : FLX.Prec_gt_0 prec} {Hm : Prec_lt_emax prec emax}.
  Lemma Gsub_self (x : binary_float prec emax) : is_finite x = true -> Bminus mode_NE x x = B754_zero false.
  Proof.
    intros Fx. assert (G := Bminus_correct prec emax Hp Hm mode_NE x x Fx Fx).
    rewrite Rminus_eq_0, round_0 in G by apply valid_rnd_N. rewrite Rlt_bool_true in G by (rewrite Rabs_R0; apply bpow_gt_0).
    destruct G as [V [F S]]. rewrite Rcompare_Eq in S by reflexivity.
    set (z := Bminus mode_NE x x) in *. clearbody z.
    assert (Sz : Bsign z = false) by (rewrite S; destruct (Bsign x); reflexivity).
    destruct z as [b| | |b m e He]; try discriminate.
    - cbn in Sz. rewrite Sz. reflexivity.
    - cbn [B2R] in V. exfalso. apply (F2R_neq_0 radix2 (Float radix2 (cond_Zopp b (Zpos m)) e)) in V; [exact V|].
      destruct b; discriminate.
  Qed.
End Hum.

(*@PROP
(** C131, [f32] and [f64]: the feedforward comb [x - line.process(x)] on a [Delay] of one period removes a hum of any wave form bit
    for bit: after the first period every output is exactly the positive zero, however long it lasts. *)
@*)
Lemma C131_hum_removed_thm :
  forall (T : Type) (O : num_ops T) (V : float_view T) (p : profile) (d m : Z) (hum : nat -> T) (N : nat),
    ieee O V -> (1 <= d <= m)%Z -> is_usize m -> fits O m ->
    (forall n, fin V (hum n) = true) -> (forall n, hum (n + Z.to_nat d)%nat = hum n) ->
    exists s vs, dl_session O p d m (map DProcess (map hum (seq 0 N))) = Ok (s, map OSample vs) /\ length vs = N
      /\ forall n, (Z.to_nat d <= n < N)%nat -> n_sub O (hum n) (at_ (n_zero O) vs n) = n_zero O.
Proof.
  intros T O V p d m hum N HO Hd Hm Hf Fh Ph.
  assert (Hs : (1 <= n_size_of O)%Z) by (destruct HO; cbn; lia).
  destruct (C07_delay_is_pure_delay_thm T O p d m (map hum (seq 0 N)) Hs) as [s E]; [unfold is_usize, usize_max, two63, two64 in *; lia|exact Hm|exact Hf|].
  rewrite map_length, seq_length, Z.min_l in E by lia.
  exists s, (firstn N (repeat (n_zero O) (Z.to_nat d) ++ map hum (seq 0 N))). split; [exact E|].
  split; [rewrite firstn_length, app_length, repeat_length, map_length, seq_length; lia|].
  intros n Hn.
  assert (H : at_ (n_zero O) (firstn N (repeat (n_zero O) (Z.to_nat d) ++ map hum (seq 0 N))) n = hum n).
  { unfold at_.
    transitivity (nth n (repeat (n_zero O) (Z.to_nat d) ++ map hum (seq 0 N)) (n_zero O)).
    - rewrite <- (firstn_skipn N (repeat (n_zero O) (Z.to_nat d) ++ map hum (seq 0 N))) at 2.
      rewrite app_nth1; [reflexivity|]. rewrite firstn_length, app_length, repeat_length, map_length, seq_length. lia.
    - rewrite app_nth2, repeat_length by (rewrite repeat_length; lia).
      rewrite (nth_indep _ _ (hum 0%nat)) by (rewrite map_length, seq_length; lia).
      rewrite map_nth, seq_nth by lia. rewrite <- Ph. f_equal. lia. }
  rewrite H. specialize (Fh n). destruct HO as [lm b|lm b]; cbn [n_sub n_zero f32_ops f64_ops ieee_ops]; apply (Gsub_self (hum n) Fh).
Qed.

(*@PROP
Example C131_hum_removed_hyps :
  let hum n := if Nat.even n then fl32 3 (-5) else fl32 (-7) 2 in
  ieee O32 (ieee_view 24 128) /\ (1 <= 2 <= 3)%Z /\ is_usize 3 /\ fits O32 3
  /\ (forall n, fin (ieee_view 24 128) (hum n) = true) /\ (forall n, hum (n + Z.to_nat 2)%nat = hum n).
Proof.
  intros hum. split; [apply ieee_f32|]. do 3 (split; [easy|]). split.
  - intros n. unfold hum. destruct (Nat.even n); reflexivity.
  - intros n. unfold hum. change (Z.to_nat 2) with 2%nat. rewrite Nat.even_add. cbn [Nat.even]. destruct (Nat.even n); reflexivity.
Qed.
@*)
