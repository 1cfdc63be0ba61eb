(** Proofs of C93 and C94: the RBJ filters in floating point against the ideal ones. *)
From Coq Require Import ZArith Reals Lra Lia List Psatz.
From Coquelicot Require Import Coquelicot.
From Flocq Require Import Core.Core IEEE754.BinarySingleNaN.
From Verif Require Import Base Num NumR NumF FloatSpec FloatFacts Witness CrLibm Device Signal SignalFacts FilterM FilterFacts RbjM
  FltFilterSpec FltFilterFacts FltFilterLemmas RbjFltSpec RbjFltFacts RbjFltLemmas RbjAccSpec RbjAccFacts.
Import ListNotations.
Open Scope R_scope.

(** ** Explicit gains of a feedback *)

Definition qf (a1 a2 y z : R) : R := y * y + a1 * y * z + a2 * (z * z).

Lemma qf_square a1 a2 y z : qf a1 a2 y z = (y + a1 / 2 * z) ^ 2 + (a2 - a1 * a1 / 4) * (z * z).
Proof. unfold qf. field. Qed.

Lemma qf_step a1 a2 y z : qf a1 a2 (- a1 * y - a2 * z) y = a2 * qf a1 a2 y z.
Proof. unfold qf. ring. Qed.

Lemma sq_le_abs a b : 0 <= b -> a ^ 2 <= b ^ 2 -> Rabs a <= b.
Proof. intros Hb H. rewrite <- (Rabs_pos_eq b) by exact Hb. apply Rsqr_le_abs_0. unfold Rsqr. lra. Qed.

Lemma qf_head a1 a2 y z B : a1 * a1 <= 4 * a2 -> 0 <= B -> qf a1 a2 y z <= B ^ 2 -> Rabs (y + a1 / 2 * z) <= B.
Proof.
  intros H HB Q. apply sq_le_abs; [exact HB|]. rewrite qf_square in Q.
  assert (0 <= (a2 - a1 * a1 / 4) * (z * z)) by (apply Rmult_le_pos; [lra|apply Rle_0_sqr]). lra.
Qed.

Lemma qf_input a1 a2 y z B x : a1 * a1 <= 4 * a2 -> 0 <= B -> qf a1 a2 y z <= B ^ 2 ->
  qf a1 a2 (x + y) z <= (B + Rabs x) ^ 2.
Proof.
  intros H HB Q. assert (P := qf_head _ _ _ _ _ H HB Q).
  replace (qf a1 a2 (x + y) z) with (qf a1 a2 y z + 2 * (x * (y + a1 / 2 * z)) + x * x) by (unfold qf; field).
  assert (x * (y + a1 / 2 * z) <= Rabs x * B).
  { eapply Rle_trans; [apply Rle_abs|]. rewrite Rabs_mult. apply Rmult_le_compat_l; [apply Rabs_pos|exact P]. }
  assert (x * x = Rabs x * Rabs x) by (rewrite <- Rabs_mult, Rabs_pos_eq; [reflexivity|apply Rle_0_sqr]).
  replace ((B + Rabs x) ^ 2) with (B ^ 2 + 2 * (Rabs x * B) + Rabs x * Rabs x) by ring. lra.
Qed.

Lemma feedback_step a1 a2 (x y : signal) n : obeys (1, 0, 0, a1, a2) x y ->
  y n = x n + (- a1 * back 1 y n - a2 * back 2 y n).
Proof. intros H. rewrite (H n). ring. Qed.

Lemma qf_bound a1 a2 (x y : signal) M : a1 * a1 <= 4 * a2 -> a2 < 1 ->
  obeys (1, 0, 0, a1, a2) x y -> (forall n, Rabs (x n) <= M) ->
  forall n, qf a1 a2 (y n) (back 1 y n) <= (M / (1 - sqrt a2)) ^ 2.
Proof.
  intros H1 H2 Ho Hx.
  assert (P2 : 0 <= a2) by (assert (0 <= a1 * a1) by apply Rle_0_sqr; lra).
  assert (R1 : sqrt a2 < 1) by (rewrite <- sqrt_1; apply sqrt_lt_1; lra).
  assert (R0 := sqrt_pos a2). assert (Rr := sqrt_sqrt a2 P2). set (r := sqrt a2) in *.
  assert (M0 : 0 <= M) by (eapply Rle_trans; [apply Rabs_pos|exact (Hx 0%nat)]).
  set (B := M / (1 - r)). assert (EB : r * B + M = B) by (unfold B; field; lra).
  assert (B0 : 0 <= B) by (apply Rmult_le_pos; [exact M0|left; apply Rinv_0_lt_compat; lra]).
  assert (Gen : forall n v w, qf a1 a2 v w <= B ^ 2 -> qf a1 a2 (x n + (- a1 * v - a2 * w)) v <= B ^ 2).
  { intros n v w Q. assert (Q2 : qf a1 a2 (- a1 * v - a2 * w) v <= (r * B) ^ 2).
    { rewrite qf_step, Rpow_mult_distr. replace (r ^ 2) with a2 by (rewrite <- Rr; ring). apply Rmult_le_compat_l; assumption. }
    assert (Q3 := qf_input _ _ _ _ (r * B) (x n) H1 ltac:(apply Rmult_le_pos; assumption) Q2).
    eapply Rle_trans; [exact Q3|]. assert (X := Hx n). assert (X0 := Rabs_pos (x n)).
    assert (0 <= r * B) by (apply Rmult_le_pos; assumption).
    apply pow_incr. lra. }
  intros n. induction n as [|n IH]; rewrite (feedback_step a1 a2 x y _ Ho); apply Gen.
  - rewrite !back_S0. unfold qf. assert (0 <= B ^ 2) by apply pow2_ge_0. lra.
  - rewrite back_SS. rewrite back_SS, back_0. exact IH.
Qed.

Lemma gain_complex a1 a2 : a1 * a1 <= 4 * a2 -> a2 < 1 ->
  peak_gain a1 a2 (1 / ((1 - sqrt a2) * (1 - Rabs a1 / 2))).
Proof.
  intros H1 H2 x y M Ho Hx. assert (Q := qf_bound a1 a2 x y M H1 H2 Ho Hx).
  assert (P2 : 0 <= a2) by (assert (0 <= a1 * a1) by apply Rle_0_sqr; lra).
  assert (R1 : sqrt a2 < 1) by (rewrite <- sqrt_1; apply sqrt_lt_1; lra).
  assert (M0 : 0 <= M) by (eapply Rle_trans; [apply Rabs_pos|exact (Hx 0%nat)]).
  set (B := M / (1 - sqrt a2)) in *.
  assert (B0 : 0 <= B) by (apply Rmult_le_pos; [exact M0|left; apply Rinv_0_lt_compat; lra]).
  assert (A0 := Rabs_pos a1).
  assert (A1 : Rabs a1 < 2).
  { apply Rabs_def1; apply Rnot_le_lt; intros C; nra. }
  set (h := Rabs a1 / 2) in *. assert (Hh : 0 <= h < 1) by (unfold h; lra).
  set (Z := B / (1 - h)). assert (EZ : B + h * Z = Z) by (unfold Z; field; lra).
  assert (Z0 : 0 <= Z) by (apply Rmult_le_pos; [exact B0|left; apply Rinv_0_lt_compat; lra]).
  replace (1 / ((1 - sqrt a2) * (1 - h)) * M) with Z by (unfold Z, B; field; lra).
  intros n. induction n as [|n IH].
  - assert (T := qf_head _ _ _ _ _ H1 B0 (Q 0%nat)). rewrite back_S0, Rmult_0_r, Rplus_0_r in T.
    assert (0 <= h * Z) by (apply Rmult_le_pos; lra). lra.
  - assert (T := qf_head _ _ _ _ _ H1 B0 (Q (S n))). rewrite back_SS, back_0 in T.
    replace (y (S n)) with ((y (S n) + a1 / 2 * y n) + - (a1 / 2 * y n)) by ring.
    eapply Rle_trans; [apply Rabs_triang|]. rewrite Rabs_Ropp, Rabs_mult.
    replace (Rabs (a1 / 2)) with h by (unfold h, Rdiv; rewrite Rabs_mult, (Rabs_pos_eq (/ 2)) by lra; reflexivity).
    assert (h * Rabs (y n) <= h * Z) by (apply Rmult_le_compat_l; lra). lra.
Qed.

(** One real pole: a bound on the first-order recursion. *)
Lemma first_order p (v w : signal) M : Rabs p < 1 -> 0 <= M -> (forall n, Rabs (w n) <= M) ->
  (forall n, v n = w n + p * back 1 v n) -> forall n, Rabs (v n) <= M / (1 - Rabs p).
Proof.
  intros Hp HM Hw Hv. assert (P0 := Rabs_pos p).
  set (Z := M / (1 - Rabs p)). assert (EZ : M + Rabs p * Z = Z) by (unfold Z; field; lra).
  assert (Z0 : 0 <= Z) by (apply Rmult_le_pos; [exact HM|left; apply Rinv_0_lt_compat; lra]).
  intros n. induction n as [|n IH]; rewrite Hv.
  - rewrite back_S0, Rmult_0_r, Rplus_0_r. assert (W := Hw 0%nat).
    assert (0 <= Rabs p * Z) by (apply Rmult_le_pos; lra). lra.
  - rewrite back_SS, back_0. eapply Rle_trans; [apply Rabs_triang|]. rewrite Rabs_mult.
    assert (W := Hw (S n)). assert (Rabs p * Rabs (v n) <= Rabs p * Z) by (apply Rmult_le_compat_l; lra). lra.
Qed.

Lemma gain_roots p q : Rabs p < 1 -> Rabs q < 1 ->
  peak_gain (- (p + q)) (p * q) (1 / ((1 - Rabs p) * (1 - Rabs q))).
Proof.
  intros Hp Hq x y M Ho Hx.
  assert (M0 : 0 <= M) by (eapply Rle_trans; [apply Rabs_pos|exact (Hx 0%nat)]).
  set (v := fun n => y n - p * back 1 y n).
  assert (Hv : forall n, v n = x n + q * back 1 v n).
  { intros n. unfold v at 1. rewrite (feedback_step _ _ x y n Ho). destruct n as [|n].
    - rewrite !back_S0. ring.
    - rewrite !back_SS, !back_0. unfold v. ring. }
  assert (Bv := first_order q v x M Hq M0 Hx Hv).
  assert (By : forall n, Rabs (y n) <= M / (1 - Rabs q) / (1 - Rabs p)).
  { apply (first_order p y v); [exact Hp|apply Rmult_le_pos; [exact M0|left; apply Rinv_0_lt_compat; lra]|exact Bv|].
    intros n. unfold v. ring. }
  intros n. eapply Rle_trans; [apply By|]. right. field. lra.
Qed.

Lemma gain_real a1 a2 : 4 * a2 <= a1 * a1 -> stable a1 a2 -> peak_gain a1 a2 (1 / (1 - Rabs a1 + a2)).
Proof.
  intros H [S1 S2]. apply Rabs_def2 in S1. assert (A0 := Rabs_pos a1).
  destruct (Rle_or_lt 0 a2) as [P|N].
  - assert (Sq := sqrt_sqrt (a1 * a1 - 4 * a2) ltac:(lra)). assert (S0 := sqrt_pos (a1 * a1 - 4 * a2)).
    set (d := sqrt (a1 * a1 - 4 * a2)) in *.
    assert (Dd : d <= Rabs a1).
    { rewrite <- (Rabs_pos_eq d) by exact S0. apply Rsqr_le_abs_0. unfold Rsqr. lra. }
    set (p := (- a1 + d) / 2). set (q := (- a1 - d) / 2).
    assert (E1 : a1 = - (p + q)) by (unfold p, q; field).
    assert (E2 : a2 = p * q) by (unfold p, q; nra).
    assert (E3 : Rabs p + Rabs q = Rabs a1).
    { unfold p, q. unfold Rabs in Dd |- *. repeat destruct Rcase_abs; lra. }
    assert (E4 : Rabs p * Rabs q = a2) by (rewrite <- Rabs_mult, <- E2; apply Rabs_pos_eq; exact P).
    assert (P0 := Rabs_pos p). assert (Q0 := Rabs_pos q).
    assert (L : Rabs p < 1 /\ Rabs q < 1).
    { assert (0 < (1 - Rabs p) * (1 - Rabs q)) by (replace ((1 - Rabs p) * (1 - Rabs q)) with (1 - (Rabs p + Rabs q) + Rabs p * Rabs q) by ring; rewrite E3, E4; lra).
      assert (Rabs p * Rabs q < 1) by lra. split; apply Rnot_le_lt; intros C; nra. }
    replace (1 - Rabs a1 + a2) with ((1 - Rabs p) * (1 - Rabs q)) by (rewrite <- E3, <- E4; ring).
    rewrite E1, E2. apply gain_roots; apply L.
  - assert (G := C81_explicit_gain_thm a1 a2). rewrite (Rabs_left a2 N) in G.
    replace (1 - Rabs a1 + a2) with (1 - (Rabs a1 + - a2)) by ring. apply G. lra.
Qed.

Lemma peak_gain_mono a1 a2 G G' : G <= G' -> peak_gain a1 a2 G -> peak_gain a1 a2 G'.
Proof.
  intros H P x y M Ho Hx n. eapply Rle_trans; [exact (P x y M Ho Hx n)|].
  apply Rmult_le_compat_r; [|exact H]. eapply Rle_trans; [apply Rabs_pos|exact (Hx 0%nat)].
Qed.

(** ** Inexact coefficients and inexact arithmetic together *)
Section Track.
  Context (prec emax : Z) {Hp : Prec_gt_0 prec} {Hm : Prec_lt_emax prec emax} (Hp5 : (5 <= prec)%Z).
  Notation F := (binary_float prec emax).
  Notation V := (ieee_view prec emax).
  Notation u := (uro prec).
  Notation fm := (bpow radix2 (2 - emax)).
  Context (Ops : num_ops F).
  Hypothesis Hadd : n_add Ops = f_add prec emax.
  Hypothesis Hsub : n_sub Ops = f_sub prec emax.
  Hypothesis Hmul : n_mul Ops = f_mul prec emax.
  Hypothesis Hzero : n_zero Ops = (B754_zero false : F).

  Lemma track_ideal {S K} (D : device S K F) k ch (x : nat -> F) b0 b1 b2 a1 a2 d G M Y E W :
    has_coeffs Ops D k ch -> all_finite V ch -> each_within d (vals V ch) (b0, b1, b2, a1, a2) ->
    peak_gain a1 a2 G ->
    (forall n, is_finite (x n) = true /\ Rabs (B2R (x n)) <= M) ->
    forall z, obeys (b0, b1, b2, a1, a2) (fun n => B2R (x n)) z -> (forall n, Rabs (z n) <= Y) ->
    0 <= E ->
    W = (Rabs b0 + Rabs b1 + Rabs b2 + 3 * d) * M + (Rabs a1 + Rabs a2 + 2 * d) * (Y + E) + fm ->
    G * (d * (3 * M + 2 * (Y + E)) + 8 * u * W) <= E -> 4 * W <= fmax V ->
    forall n, is_finite (stream D k x n) = true /\ Rabs (B2R (stream D k x n) - z n) <= E.
  Proof.
    destruct ch as [[[[c0 c1] c2] d1] d2].
    intros Hc Hf [W0 [W1 [W2 [V1 V2]]]] HG Hx z Hz HY HE HW HEW Hroom0. cbn [vals val ieee_view] in *.
    set (y := stream D k x).
    assert (G1 := peak_gain_ge1 _ _ _ HG).
    assert (d0 : 0 <= d) by (eapply Rle_trans; [apply Rabs_pos|exact W0]).
    assert (M0 : 0 <= M) by (destruct (Hx 0%nat) as [_ Q]; eapply Rle_trans; [apply Rabs_pos|exact Q]).
    assert (Y0 : 0 <= Y) by (eapply Rle_trans; [apply Rabs_pos|exact (HY 0%nat)]).
    assert (U := FltFilterLemmas.u_small prec Hp5). assert (FM : 0 < fm) by apply bpow_gt_0.
    set (B := Y + E) in *. assert (B0 : 0 <= B) by (unfold B; lra).
    set (s := sz prec emax c0 c1 c2 d1 d2 M B).
    assert (tri : forall p q, Rabs (p - q) <= d -> Rabs p <= Rabs q + d).
    { intros p q H. replace p with (q + (p - q)) by ring. eapply Rle_trans; [apply Rabs_triang|]. lra. }
    assert (Es : s + fm <= W).
    { unfold s, sz. rewrite HW. assert (T0 := tri _ _ W0). assert (T1 := tri _ _ W1). assert (T2 := tri _ _ W2).
      assert (T3 := tri _ _ V1). assert (T4 := tri _ _ V2).
      assert ((Rabs (B2R c0) + Rabs (B2R c1) + Rabs (B2R c2)) * M <= (Rabs b0 + Rabs b1 + Rabs b2 + 3 * d) * M) by (apply Rmult_le_compat_r; lra).
      assert ((Rabs (B2R d1) + Rabs (B2R d2)) * B <= (Rabs a1 + Rabs a2 + 2 * d) * B) by (apply Rmult_le_compat_r; lra).
      lra. }
    assert (S0 : 0 <= s).
    { unfold s, sz. assert (P0 := Rabs_pos (B2R c0)). assert (P1 := Rabs_pos (B2R c1)). assert (P2 := Rabs_pos (B2R c2)).
      assert (P3 := Rabs_pos (B2R d1)). assert (P4 := Rabs_pos (B2R d2)).
      repeat apply Rplus_le_le_0_compat; apply Rmult_le_pos; assumption. }
    set (m := bpow radix2 (emax - 1)).
    assert (Fm : generic_format radix2 (SpecFloat.fexp prec emax) m).
    { apply (format_bpow prec emax). unfold SpecFloat.emin, Prec_lt_emax, Prec_gt_0 in *. lia. }
    assert (Hmax : m < bpow radix2 emax) by (apply bpow_lt; lia).
    assert (Hfm : fmax V <= 2 * m).
    { cbn [fmax ieee_view]. unfold m. replace (bpow radix2 emax) with (2 * bpow radix2 (emax - 1)).
      - assert (0 < bpow radix2 (- prec)) by apply bpow_gt_0.
        assert (0 < bpow radix2 (emax - 1)) by apply bpow_gt_0. nra.
      - replace emax with (emax - 1 + 1)%Z at 2 by lia. rewrite (bpow_plus radix2 (emax - 1) 1). cbn. lra. }
    destruct (pow5 prec Hp5) as [w1 [w2 w3]].
    assert (Ee : eta prec emax = u * fm) by reflexivity.
    set (noise := 8 * u * W).
    assert (Nn : ((1 + u) ^ 5 - 1) * s + 5 * (1 + u) ^ 5 * eta prec emax <= noise).
    { rewrite Ee. unfold noise.
      assert (((1 + u) ^ 5 - 1) * s <= 8 * u * s) by (apply Rmult_le_compat_r; lra).
      assert (5 * (1 + u) ^ 5 * (u * fm) <= 8 * (u * fm)) by (apply Rmult_le_compat_r; [apply Rmult_le_pos|]; lra).
      assert (8 * u * (s + fm) <= 8 * u * W) by (apply Rmult_le_compat_l; lra). lra. }
    assert (N4 : noise <= / 4 * W).
    { unfold noise. apply Rmult_le_compat_r; lra. }
    assert (Hroom : (1 + u) ^ 5 * s + 5 * (1 + u) ^ 5 * eta prec emax <= m) by lra.
    assert (N0 : 0 <= noise) by (unfold noise; apply Rmult_le_pos; lra).
    assert (Step : forall n, (forall i, (i < n)%nat -> good prec emax B (y i)) ->
              is_finite (y n) = true
              /\ Rabs (B2R (y n) - target prec emax c0 c1 c2 d1 d2 x y n) <= noise).
    { intros n Hg.
      assert (Nr := device_step prec emax Ops Hadd Hsub Hmul Hzero x m M B Fm Hmax Hx B0
                      D k c0 c1 c2 d1 d2 n Hc Hf Hroom Hg).
      destruct Nr as [R1 [_ R3]]. split; [exact R1|]. eapply Rle_trans; [exact R3|exact Nn]. }
    set (X := fun n => B2R (x n)) in *. set (Yr := fun n => B2R (y n)).
    set (e := fun n => Yr n - target prec emax c0 c1 c2 d1 d2 x y n).
    assert (Et : forall n, target prec emax c0 c1 c2 d1 d2 x y n
        = B2R c0 * X n + B2R c1 * back 1 X n + B2R c2 * back 2 X n
          - B2R d1 * back 1 Yr n - B2R d2 * back 2 Yr n).
    { intros n. unfold target. rewrite !fb_val. reflexivity. }
    assert (Hb : forall j n, Rabs (back j X n) <= M).
    { intros j n. unfold back. destruct (j <=? n)%nat; [apply Hx|]. rewrite Rabs_R0. exact M0. }
    assert (P2 : forall p q r v, Rabs (p - q) <= d -> Rabs r <= v -> Rabs ((p - q) * r) <= d * v).
    { intros p q r v H1 H2. rewrite Rabs_mult. apply Rmult_le_compat; try apply Rabs_pos; assumption. }
    set (w := fun j => e j + ((B2R c0 - b0) * X j + (B2R c1 - b1) * back 1 X j + (B2R c2 - b2) * back 2 X j
                       + - ((B2R d1 - a1) * back 1 Yr j) + - ((B2R d2 - a2) * back 2 Yr j))).
    assert (All : forall n, is_finite (y n) = true /\ Rabs (Yr n - z n) <= E).
    { intros n. induction n as [n IH] using lt_wf_ind.
      assert (Gd : forall i, (i < n)%nat -> good prec emax B (y i)).
      { intros i Hi. destruct (IH i Hi) as [I1 I2]. split; [exact I1|]. fold (Yr i).
        replace (Yr i) with (z i + (Yr i - z i)) by ring. eapply Rle_trans; [apply Rabs_triang|].
        assert (Q := HY i). unfold B. lra. }
      destruct (Step n Gd) as [Fn En]. split; [exact Fn|].
      apply Rle_trans with (G * (d * (3 * M + 2 * B) + noise)); [|exact HEW].
      apply (prefix_bound a1 a2 G (fun j => Yr j - z j) w); [exact HG| | |].
      - apply Rplus_le_le_0_compat; [apply Rmult_le_pos|]; lra.
      - intros j _. unfold w, e. rewrite Et. rewrite (Hz j).
        replace (back 1 (fun i => Yr i - z i) j) with (back 1 Yr j - back 1 z j)
          by (unfold back; destruct (1 <=? j)%nat; ring).
        replace (back 2 (fun i => Yr i - z i) j) with (back 2 Yr j - back 2 z j)
          by (unfold back; destruct (2 <=? j)%nat; ring).
        ring.
      - intros j Hj.
        assert (Bk : forall i, Rabs (back (Datatypes.S i) Yr j) <= B).
        { intros i. unfold back. destruct (Datatypes.S i <=? j)%nat eqn:Q.
          - apply Nat.leb_le in Q. destruct (Gd (j - Datatypes.S i)%nat) as [_ Q2]; [lia|]. exact Q2.
          - rewrite Rabs_R0. exact B0. }
        destruct (Step j) as [_ Ej]; [intros i Hi; apply Gd; lia|]. fold (Yr j) (e j) in Ej.
        unfold w.
        assert (T0 := P2 _ _ (X j) M W0 ltac:(apply Hx)).
        assert (T1 := P2 _ _ (back 1 X j) M W1 ltac:(apply Hb)).
        assert (T2 := P2 _ _ (back 2 X j) M W2 ltac:(apply Hb)).
        assert (T3 := P2 _ _ (back 1 Yr j) B V1 ltac:(apply Bk)).
        assert (T4 := P2 _ _ (back 2 Yr j) B V2 ltac:(apply Bk)).
        rewrite <- Rabs_Ropp in T3. rewrite <- Rabs_Ropp in T4.
        eapply Rle_trans; [apply Rabs_triang|].
        eapply Rle_trans; [apply Rplus_le_compat_l; apply Rabs_triang|].
        eapply Rle_trans; [apply Rplus_le_compat_l, Rplus_le_compat_r; apply Rabs_triang|].
        eapply Rle_trans; [apply Rplus_le_compat_l, Rplus_le_compat_r, Rplus_le_compat_r; apply Rabs_triang|].
        eapply Rle_trans; [apply Rplus_le_compat_l, Rplus_le_compat_r, Rplus_le_compat_r, Rplus_le_compat_r; apply Rabs_triang|].
        fold noise. lra. }
    exact All.
  Qed.
End Track.

(** ** The ideal coefficients *)
Lemma quot_abs n d B : 0 < d -> Rabs n <= B * d -> Rabs (n / d) <= B.
Proof.
  intros Hd H. unfold Rdiv. rewrite Rabs_mult, (Rabs_pos_eq (/ d)) by (left; apply Rinv_0_lt_compat; exact Hd).
  apply (Rmult_le_reg_r d); [exact Hd|]. rewrite Rmult_assoc, Rinv_l, Rmult_1_r by lra. exact H.
Qed.

Lemma q_sums kind sr f q b0 b1 b2 a1 a2 : 0 < q -> 0 <= sin (2 * PI * f / sr) ->
  rbj_coeffs R_ops kind (RbjQ sr f q) = Some (b0, b1, b2, a1, a2) ->
  Rabs b0 + Rabs b1 + Rabs b2 <= 4 /\ Rabs a1 + Rabs a2 <= 3.
Proof.
  intros Hq Hs E.
  set (w := 2 * PI * f / sr) in *. assert (C := COS_bound w). assert (S := SIN_bound w).
  set (al := sin w / (2 * q)) in *.
  assert (A0 : 0 <= al) by (apply Rmult_le_pos; [exact Hs|left; apply Rinv_0_lt_compat; lra]).
  assert (Qa : q * al = sin w / 2) by (unfold al; field; lra).
  assert (Z : Rabs (0 / (1 + al)) <= 0) by (unfold Rdiv; rewrite Rmult_0_l, Rabs_R0; lra).
  assert (K1 : Rabs (- (2) * cos w / (1 + al)) <= 2) by (apply quot_abs; [lra|apply Rabs_le; lra]).
  assert (K2 : Rabs ((1 - al) / (1 + al)) <= 1) by (apply quot_abs; [lra|apply Rabs_le; lra]).
  destruct kind; try discriminate; injection E as <- <- <- <- <-;
    unfold lowpass_coeffs, highpass_coeffs, bandpass1_coeffs, bandpass2_coeffs, bandstop_coeffs, allpass_coeffs, normalised;
    cbn [R_ops n_one n_two n_zero n_pi n_add n_sub n_mul n_div n_neg n_sin n_cos]; fold w; fold al.
  - split; [|lra].
    assert (Rabs ((1 - cos w) / 2 / (1 + al)) <= 1) by (apply quot_abs; [lra|apply Rabs_le; lra]).
    assert (Rabs ((1 - cos w) / (1 + al)) <= 2) by (apply quot_abs; [lra|apply Rabs_le; lra]). lra.
  - split; [|lra].
    assert (Rabs ((1 + cos w) / 2 / (1 + al)) <= 1) by (apply quot_abs; [lra|apply Rabs_le; lra]).
    assert (Rabs ((- (1) - cos w) / (1 + al)) <= 2) by (apply quot_abs; [lra|apply Rabs_le; lra]). lra.
  - split; [|lra].
    assert (Rabs (q * al / (1 + al)) <= 1) by (apply quot_abs; [lra|apply Rabs_le; lra]).
    assert (Rabs (- q * al / (1 + al)) <= 1) by (apply quot_abs; [lra|apply Rabs_le; lra]). lra.
  - split; [|lra].
    assert (Rabs (al / (1 + al)) <= 1) by (apply quot_abs; [lra|apply Rabs_le; lra]).
    assert (Rabs (- al / (1 + al)) <= 1) by (apply quot_abs; [lra|apply Rabs_le; lra]). lra.
  - split; [|lra].
    assert (Rabs (1 / (1 + al)) <= 1) by (apply quot_abs; [lra|apply Rabs_le; lra]). lra.
  - split; [|lra].
    assert (Rabs ((1 + al) / (1 + al)) <= 1) by (apply quot_abs; [lra|apply Rabs_le; lra]). lra.
Qed.

Lemma q_feedback kind sr f q b0 b1 b2 a1 a2 : rbj_coeffs R_ops kind (RbjQ sr f q) = Some (b0, b1, b2, a1, a2) ->
  let w := 2 * PI * f / sr in let al := sin w / (2 * q) in
  a1 = - (2) * cos w / (1 + al) /\ a2 = (1 - al) / (1 + al).
Proof. intros E. destruct kind; try discriminate; injection E as <- <- <- <- <-; split; reflexivity. Qed.

Lemma q_gain_aux kind sr f q b0 b1 b2 a1 a2 : 0 < q -> 0 < sin (2 * PI * f / sr) ->
  rbj_coeffs R_ops kind (RbjQ sr f q) = Some (b0, b1, b2, a1, a2) ->
  (/ 2 <= q -> peak_gain a1 a2 ((1 + 2 * q / sin (2 * PI * f / sr)) ^ 2))
  /\ (q <= / 2 -> peak_gain a1 a2 ((1 + sin (2 * PI * f / sr) / (2 * q)) / (sin (2 * PI * f / sr)) ^ 2)).
Proof.
  intros Hq Hs E. destruct (q_feedback _ _ _ _ _ _ _ _ _ E) as [E1 E2]. clear E.
  set (w := 2 * PI * f / sr) in *. set (s := sin w) in *. set (c := cos w) in *.
  set (al := s / (2 * q)) in *. assert (C := COS_bound w). fold c in C.
  assert (SC : s * s + c * c = 1) by (assert (Q := sin2_cos2 w); unfold Rsqr in Q; exact Q).
  assert (S1 : s <= 1) by (apply SIN_bound).
  assert (A0 : 0 < al) by (apply Rdiv_lt_0_compat; lra).
  assert (Es : s = 2 * q * al) by (unfold al; field; lra).
  assert (Ea1 : Rabs a1 = 2 * Rabs c / (1 + al)).
  { rewrite E1. unfold Rdiv. rewrite !Rabs_mult, Rabs_Ropp, (Rabs_pos_eq 2), (Rabs_pos_eq (/ (1 + al))) by (try lra; left; apply Rinv_0_lt_compat; lra). reflexivity. }
  assert (Cc : Rabs c * Rabs c = c * c) by (rewrite <- Rabs_mult; apply Rabs_pos_eq, Rle_0_sqr).
  assert (C0 := Rabs_pos c). assert (C1 : Rabs c <= 1) by (apply Rabs_le; exact C).
  split; intros Hq2.
  - assert (al <= s) by (rewrite Es; assert (0 <= (2 * q - 1) * al) by (apply Rmult_le_pos; lra); lra).
    assert (D : a1 * a1 <= 4 * a2).
    { rewrite E1, E2. apply (Rmult_le_reg_r ((1 + al) * (1 + al))); [apply Rmult_lt_0_compat; lra|].
      replace (- (2) * c / (1 + al) * (- (2) * c / (1 + al)) * ((1 + al) * (1 + al))) with (4 * (c * c)) by (field; lra).
      replace (4 * ((1 - al) / (1 + al)) * ((1 + al) * (1 + al))) with (4 * (1 - al * al)) by (field; lra).
      assert (al * al <= s * s) by (apply Rmult_le_compat; lra). lra. }
    assert (L : a2 < 1).
    { rewrite E2. apply (Rmult_lt_reg_r (1 + al)); [lra|]. replace ((1 - al) / (1 + al) * (1 + al)) with (1 - al) by (field; lra). lra. }
    assert (P2 : 0 <= a2) by (assert (0 <= a1 * a1) by apply Rle_0_sqr; lra).
    eapply peak_gain_mono; [|apply (gain_complex a1 a2 D L)].
    assert (R1 : sqrt a2 < 1) by (rewrite <- sqrt_1; apply sqrt_lt_1; lra).
    assert (R0 := sqrt_pos a2). assert (Rr := sqrt_sqrt a2 P2). set (r := sqrt a2) in *.
    set (t := al / (1 + al)). assert (T0 : 0 < t) by (apply Rdiv_lt_0_compat; lra).
    assert (T1 : t <= 1 - r).
    { replace t with ((1 - a2) / 2) by (unfold t; rewrite E2; field; lra). rewrite <- Rr.
      replace ((1 - r * r) / 2) with (1 - r - (1 - r) * (1 - r) / 2) by field.
      assert (0 <= (1 - r) * (1 - r)) by apply Rle_0_sqr. lra. }
    assert (T2 : t <= 1 - Rabs a1 / 2).
    { rewrite Ea1. replace (1 - 2 * Rabs c / (1 + al) / 2) with (t + (1 - Rabs c) / (1 + al)) by (unfold t; field; lra).
      assert (0 <= (1 - Rabs c) / (1 + al)) by (apply Rmult_le_pos; [lra|left; apply Rinv_0_lt_compat; lra]). lra. }
    replace ((1 + 2 * q / s) ^ 2) with (1 / (t * t)).
    2: { unfold t. rewrite Es. field. lra. }
    unfold Rdiv. rewrite !Rmult_1_l. apply Rinv_le_contravar; [apply Rmult_lt_0_compat; lra|].
    apply Rmult_le_compat; lra.
  - assert (s <= al) by (rewrite Es; assert (0 <= (1 - 2 * q) * al) by (apply Rmult_le_pos; lra); lra).
    assert (D : 4 * a2 <= a1 * a1).
    { rewrite E1, E2. apply (Rmult_le_reg_r ((1 + al) * (1 + al))); [apply Rmult_lt_0_compat; lra|].
      replace (- (2) * c / (1 + al) * (- (2) * c / (1 + al)) * ((1 + al) * (1 + al))) with (4 * (c * c)) by (field; lra).
      replace (4 * ((1 - al) / (1 + al)) * ((1 + al) * (1 + al))) with (4 * (1 - al * al)) by (field; lra).
      assert (s * s <= al * al) by (apply Rmult_le_compat; lra). lra. }
    assert (Ss : 0 < s * s) by (apply Rmult_lt_0_compat; lra).
    assert (Cl : s * s / 2 <= 1 - Rabs c).
    { assert (s * s = (1 - Rabs c) * (1 + Rabs c)) by (replace ((1 - Rabs c) * (1 + Rabs c)) with (1 - Rabs c * Rabs c) by ring; lra).
      assert ((1 - Rabs c) * (1 + Rabs c) <= (1 - Rabs c) * 2) by (apply Rmult_le_compat_l; lra). lra. }
    assert (Eg : 1 - Rabs a1 + a2 = 2 * (1 - Rabs c) / (1 + al)) by (rewrite Ea1, E2; field; lra).
    assert (I0 : 0 < / (1 + al)) by (apply Rinv_0_lt_compat; lra).
    assert (Pg : 0 < 2 * (1 - Rabs c) / (1 + al)) by (apply Rmult_lt_0_compat; lra).
    assert (St : stable a1 a2).
    { split; [|lra]. rewrite E2. replace ((1 - al) / (1 + al)) with (2 * / (1 + al) - 1) by (field; lra).
      assert (/ (1 + al) < 1) by (rewrite <- Rinv_1 at 2; apply Rinv_lt_contravar; lra).
      apply Rabs_def1; lra. }
    eapply peak_gain_mono; [|apply (gain_real a1 a2 D St)]. rewrite Eg.
    replace (1 / (2 * (1 - Rabs c) / (1 + al))) with ((1 + al) * / (2 * (1 - Rabs c))) by (field; lra).
    apply Rmult_le_compat_l; [lra|]. apply Rinv_le_contravar; [lra|]. lra.
Qed.

(*@PROP
(** Properties C93 and C94: the RBJ filters in [f32] and [f64] against the ideal filters.

    Vocabulary: [RbjAccSpec], [RbjFltSpec], [FltFilterSpec], [FloatSpec], [Signal]. *)
From Coq Require Import ZArith Reals List Bool Lra Lia.
From Flocq Require Import Core.Core IEEE754.BinarySingleNaN.
From Verif Require Import Base Num NumR NumF FloatSpec FloatFacts Witness CrLibm FilterM RbjM Device Signal FltFilterSpec
  RbjFltSpec RbjAccSpec RbjAccLemmas.
Import ListNotations.
Open Scope R_scope.
@*)

(** C93: the setters of the six filters with a Q (from 1/64 to 1024) compute, at any
    frequency from 0 to half the sample rate, five finite coefficients, each within
    (115 + 85 / Q) rounding units of the coefficient of the ideal filter. *)
Lemma C93_coefficients_accurate_thm :
  forall (T : Type) (O : num_ops T) (V : float_view T), ieee O V -> trig_close O V ->
  forall kind sr f q ch, audible V sr f -> fin V q = true -> / 64 <= val V q <= 1024 ->
    rbj_coeffs O kind (RbjQ sr f q) = Some ch ->
    exists c, rbj_coeffs R_ops kind (RbjQ (val V sr) (val V f) (val V q)) = Some c
      /\ all_finite V ch /\ each_within (q_error V (val V q)) (vals V ch) c.
Proof.
  intros T O V HO Ht kind sr f q ch HA Fq Hq E.
  assert (X : exists c, rbj_coeffs R_ops kind (RbjQ (val V sr) (val V f) (val V q)) = Some c)
    by (destruct kind; try discriminate; eexists; reflexivity).
  destruct X as [c Ec]. exists c. split; [exact Ec|].
  destruct (ConstLemmas.C86_constants_thm T O V HO) as [P1 [P2 _]]. destruct HO as [lm b|lm b].
  - exact (q_acc 24 128 ltac:(lia) ltac:(lia) 13176795 (-22) 4 lm b P1 P2 kind sr f q Ht HA Fq Hq ch c E Ec).
  - exact (q_acc 53 1024 ltac:(lia) ltac:(lia) 7074237752028440 (-51) 8 lm b P1 P2 kind sr f q Ht HA Fq Hq ch c E Ec).
Qed.

(** C94: any filter whose five coefficients are within [d] of ideal coefficients follows
    the ideal output [z], for ever: with feedback gain at most [G], finite samples up
    to [M] and |z| up to [Y], and head room below T::MAX. *)
Lemma C94_filter_tracks_ideal_thm :
  forall (T : Type) (O : num_ops T) (V : float_view T), ieee O V ->
  forall (S K : Type) (D : device S K T) (k : K) (ch : T * T * T * T * T),
    has_coeffs O D k ch -> all_finite V ch ->
  forall (b0 b1 b2 a1 a2 d G M Y A B E : R) (x : nat -> T) (z : signal),
    each_within d (vals V ch) (b0, b1, b2, a1, a2) ->
    peak_gain a1 a2 G ->
    (forall n, fin V (x n) = true /\ Rabs (val V (x n)) <= M) ->
    obeys (b0, b1, b2, a1, a2) (fun n => val V (x n)) z -> (forall n, Rabs (z n) <= Y) ->
    A = Rabs a1 + Rabs a2 + 2 * d -> B = Rabs b0 + Rabs b1 + Rabs b2 + 3 * d ->
    E = 2 * G * (d * (3 * M + 2 * Y) + bpow radix2 (3 - fprec V) * (B * M + A * Y + fmin V)) ->
    G * (2 * d + bpow radix2 (3 - fprec V) * A) <= / 2 ->
    4 * (B * M + A * (Y + E) + fmin V) <= fmax V ->
    forall n, fin V (stream D k x n) = true /\ Rabs (val V (stream D k x n) - z n) <= E.
Proof.
  intros T O V HO S K D k ch Hc Hf b0 b1 b2 a1 a2 d G M Y A B E x z Hw HG Hx Hz HY HA HB HE Hth Hroom.
  assert (G1 := peak_gain_ge1 _ _ _ HG).
  assert (d0 : 0 <= d).
  { destruct ch as [[[[c0 c1] c2] d1] d2]. destruct Hw as [W0 _]. eapply Rle_trans; [apply Rabs_pos|exact W0]. }
  assert (M0 : 0 <= M) by (destruct (Hx 0%nat) as [_ Q]; eapply Rle_trans; [apply Rabs_pos|exact Q]).
  assert (Y0 : 0 <= Y) by (eapply Rle_trans; [apply Rabs_pos|exact (HY 0%nat)]).
  assert (A0 : 0 <= A) by (assert (P1 := Rabs_pos a1); assert (P2 := Rabs_pos a2); lra).
  assert (B0 : 0 <= B) by (assert (P1 := Rabs_pos b0); assert (P2 := Rabs_pos b1); assert (P3 := Rabs_pos b2); lra).
  assert (F0 : 0 < fmin V) by (destruct HO; apply bpow_gt_0).
  assert (U0 : 0 < bpow radix2 (3 - fprec V)) by apply bpow_gt_0.
  assert (BM : 0 <= B * M) by (apply Rmult_le_pos; lra). assert (AY : 0 <= A * Y) by (apply Rmult_le_pos; lra).
  set (v := bpow radix2 (3 - fprec V)) in *.
  assert (E0 : 0 <= E).
  { rewrite HE. apply Rmult_le_pos; [lra|]. apply Rplus_le_le_0_compat; apply Rmult_le_pos; lra. }
  assert (HEW : G * (d * (3 * M + 2 * (Y + E)) + v * (B * M + A * (Y + E) + fmin V)) <= E).
  { replace (G * (d * (3 * M + 2 * (Y + E)) + v * (B * M + A * (Y + E) + fmin V)))
      with (G * (d * (3 * M + 2 * Y) + v * (B * M + A * Y + fmin V)) + G * (2 * d + v * A) * E) by ring.
    assert (G * (2 * d + v * A) * E <= / 2 * E) by (apply Rmult_le_compat_r; assumption). lra. }
  subst A B. unfold v in HEW. clear HE Hth.
  destruct HO as [lm b|lm b]; cbn [fmin fprec ieee_view] in *.
  - eapply (track_ideal 24 128 ltac:(lia) (f32_ops lm b) eq_refl eq_refl eq_refl eq_refl D k ch x b0 b1 b2 a1 a2 d G M Y E
      _ Hc Hf Hw HG Hx z Hz HY E0 eq_refl); [|exact Hroom].
    replace (8 * uro 24) with (bpow radix2 (3 - 24)); [exact HEW|]. unfold uro, Zminus. rewrite bpow_plus. cbn. lra.
  - eapply (track_ideal 53 1024 ltac:(lia) (f64_ops lm b) eq_refl eq_refl eq_refl eq_refl D k ch x b0 b1 b2 a1 a2 d G M Y E
      _ Hc Hf Hw HG Hx z Hz HY E0 eq_refl); [|exact Hroom].
    replace (8 * uro 53) with (bpow radix2 (3 - 53)); [exact HEW|]. unfold uro, Zminus. rewrite bpow_plus. cbn. lra.
Qed.

Lemma fmin_small T (O : num_ops T) V : ieee O V -> 0 < fmin V <= / 1024 /\ 1024 * 1024 <= fmax V
  /\ 0 < bpow radix2 (- fprec V) <= / (16 * 1024 * 1024) /\ bpow radix2 (3 - fprec V) = 8 * bpow radix2 (- fprec V).
Proof.
  intros [lm b|lm b]; cbn [fmin fmax fprec ieee_view]; (split; [|split; [|split]]).
  - split; [apply bpow_gt_0|]. apply Rle_trans with (bpow radix2 (-10)); [apply bpow_le; lia|cbn; lra].
  - change (- (24))%Z with (-24)%Z. assert (bpow radix2 21 <= bpow radix2 128) by (apply bpow_le; lia).
    assert (bpow radix2 (-24) <= / 2) by (change (/ 2) with (bpow radix2 (-1)); apply bpow_le; lia).
    assert (bpow radix2 21 = 2 * 1024 * 1024) by (cbn; lra). nra.
  - split; [apply bpow_gt_0|cbn; lra].
  - unfold Zminus. rewrite bpow_plus. cbn. lra.
  - split; [apply bpow_gt_0|]. apply Rle_trans with (bpow radix2 (-10)); [apply bpow_le; lia|cbn; lra].
  - change (- (53))%Z with (-53)%Z. assert (bpow radix2 21 <= bpow radix2 1024) by (apply bpow_le; lia).
    assert (bpow radix2 (-53) <= / 2) by (change (/ 2) with (bpow radix2 (-1)); apply bpow_le; lia).
    assert (bpow radix2 21 = 2 * 1024 * 1024) by (cbn; lra). nra.
  - split; [apply bpow_gt_0|]. apply Rle_trans with (bpow radix2 (-24)); [apply bpow_le; lia|cbn; lra].
  - unfold Zminus. rewrite bpow_plus. cbn. lra.
Qed.

(** C94: the six filters with a Q follow their ideal counterpart.  [G] bounds the gain
    of the ideal feedback (next theorem); samples are up to [M], the ideal output is
    up to [Y]. *)
Lemma C94_rbj_tracks_ideal_thm :
  forall (T : Type) (O : num_ops T) (V : float_view T), ieee O V -> trig_close O V ->
  forall kind sr f q, audible V sr f -> fin V q = true -> / 64 <= val V q <= 1024 ->
  forall b0 b1 b2 a1 a2 G M Y (x : nat -> T),
    let k := RbjQ (val V sr) (val V f) (val V q) in
    let y := out (dev_rbj R_ops kind) (configured (dev_rbj R_ops kind) k) (fun n => val V (x n)) in
    rbj_coeffs R_ops kind k = Some (b0, b1, b2, a1, a2) -> peak_gain a1 a2 G ->
    5 * q_error V (val V q) * G <= 1 ->
    (forall n, fin V (x n) = true /\ Rabs (val V (x n)) <= M) -> (forall n, Rabs (y n) <= Y) ->
    64 * (M + Y) <= fmax V ->
    forall n, fin V (stream (dev_rbj O kind) (RbjQ sr f q) x n) = true
      /\ Rabs (val V (stream (dev_rbj O kind) (RbjQ sr f q) x n) - y n)
         <= 7 * q_error V (val V q) * G * (M + Y + fmin V).
Proof.
  intros T O V HO Ht kind sr f q HA Fq Hq b0 b1 b2 a1 a2 G M Y x k y Ek HG HdG Hx HY Hroom.
  assert (X : exists ch, rbj_coeffs O kind (RbjQ sr f q) = Some ch)
    by (destruct kind; try discriminate; eexists; reflexivity).
  destruct X as [ch Ec].
  destruct (C93_coefficients_accurate_thm T O V HO Ht kind sr f q ch HA Fq Hq Ec) as [c [E2 [Hf Hw]]].
  fold k in E2. rewrite Ek in E2. injection E2 as <-.
  assert (Hs : 0 <= sin (2 * PI * val V f / val V sr)).
  { destruct HA as [[_ A1] [_ A2]]. assert (P := PI_RGT_0).
    assert (0 <= val V f / val V sr <= / 2).
    { split; [apply Rmult_le_pos; [lra|left; apply Rinv_0_lt_compat; lra]|].
      apply (Rmult_le_reg_r (val V sr)); [lra|]. unfold Rdiv. rewrite Rmult_assoc, Rinv_l by lra. lra. }
    replace (2 * PI * val V f / val V sr) with (2 * PI * (val V f / val V sr)) by (unfold Rdiv; ring).
    apply sin_ge_0; [apply Rmult_le_pos; lra|]. replace PI with (2 * PI * / 2) at 2 by field. apply Rmult_le_compat_l; lra. }
  destruct (q_sums kind (val V sr) (val V f) (val V q) b0 b1 b2 a1 a2 ltac:(lra) Hs Ek) as [SB SA].
  assert (G1 := peak_gain_ge1 _ _ _ HG).
  assert (M0 : 0 <= M) by (destruct (Hx 0%nat) as [_ Q]; eapply Rle_trans; [apply Rabs_pos|exact Q]).
  assert (Y0 : 0 <= Y) by (eapply Rle_trans; [apply Rabs_pos|exact (HY 0%nat)]).
  destruct (fmin_small T O V HO) as [F0 [Fx [Up E8]]].
  set (d := q_error V (val V q)) in *.
  assert (I : / 1024 <= / val V q <= 64).
  { split; [apply Rinv_le_contravar; lra|]. replace 64 with (/ / 64) by field. apply Rinv_le_contravar; lra. }
  assert (Ed : d = 115 * bpow radix2 (- fprec V) + 85 * (bpow radix2 (- fprec V) * / val V q)) by (unfold d, q_error, Rdiv; ring).
  set (p := bpow radix2 (- fprec V)) in *.
  assert (Pi : 0 <= p * / val V q <= p * 64) by (split; [apply Rmult_le_pos|apply Rmult_le_compat_l]; lra).
  assert (Hd : 115 * p <= d <= / 1024) by lra.
  set (v := bpow radix2 (3 - fprec V)) in *. assert (Hv : v <= 8 / 115 * d) by lra. assert (v0 : 0 < v) by lra.
  assert (P1 := Rabs_pos a1). assert (P2 := Rabs_pos a2).
  assert (P3 := Rabs_pos b0). assert (P4 := Rabs_pos b1). assert (P5 := Rabs_pos b2).
  set (A := Rabs a1 + Rabs a2 + 2 * d). set (B := Rabs b0 + Rabs b1 + Rabs b2 + 3 * d).
  assert (HA2 : 0 <= A <= 301 / 100) by (unfold A; lra). assert (HB2 : 0 <= B <= 401 / 100) by (unfold B; lra).
  set (E := 2 * G * (d * (3 * M + 2 * Y) + v * (B * M + A * Y + fmin V))).
  assert (HS : 0 <= B * M + A * Y + fmin V <= 401 / 100 * M + 301 / 100 * Y + fmin V).
  { assert (0 <= B * M) by (apply Rmult_le_pos; lra). assert (0 <= A * Y) by (apply Rmult_le_pos; lra).
    assert (B * M <= 401 / 100 * M) by (apply Rmult_le_compat_r; lra).
    assert (A * Y <= 301 / 100 * Y) by (apply Rmult_le_compat_r; lra). lra. }
  set (R := M + Y + fmin V). assert (R0 : 0 < R) by (unfold R; lra).
  assert (dG : 0 <= d * G <= / 5) by (split; [apply Rmult_le_pos; lra|lra]).
  assert (HE : 0 <= E <= 7 * d * G * R).
  { unfold E. assert (v * (B * M + A * Y + fmin V) <= 8 / 115 * d * (401 / 100 * M + 301 / 100 * Y + fmin V)) by (apply Rmult_le_compat; lra).
    assert (0 <= v * (B * M + A * Y + fmin V)) by (apply Rmult_le_pos; lra).
    assert (0 <= d * (3 * M + 2 * Y)) by (apply Rmult_le_pos; lra).
    split; [apply Rmult_le_pos; lra|].
    replace (7 * d * G * R) with (2 * G * (d * (7 / 2 * R))) by field.
    apply Rmult_le_compat_l; [lra|].
    apply Rle_trans with (d * (3 * M + 2 * Y) + d * (8 / 115 * (401 / 100 * M + 301 / 100 * Y + fmin V))); [lra|].
    rewrite <- Rmult_plus_distr_l. apply Rmult_le_compat_l; [lra|]. unfold R. lra. }
  assert (HE2 : E <= 7 / 5 * R).
  { eapply Rle_trans; [apply HE|]. replace (7 * d * G * R) with (7 * (d * G) * R) by ring. apply Rmult_le_compat_r; lra. }
  assert (Hc : has_coeffs O (dev_rbj O kind) (RbjQ sr f q) ch) by (constructor; exact Ec).
  assert (Hz : obeys (b0, b1, b2, a1, a2) (fun n => val V (x n)) y) by (apply filter_obeys; constructor; exact Ek).
  intros n.
  destruct (C94_filter_tracks_ideal_thm T O V HO _ _ (dev_rbj O kind) (RbjQ sr f q) ch Hc Hf b0 b1 b2 a1 a2 d G M Y A B E x y
    Hw HG Hx Hz HY eq_refl eq_refl eq_refl) with (n := n) as [Q1 Q2].
  - apply Rle_trans with (G * (2 * d + 8 / 115 * d * (301 / 100))).
    + apply Rmult_le_compat_l; [lra|]. apply Rplus_le_compat_l. fold v. apply Rmult_le_compat; lra.
    + lra.
  - assert (A * (Y + E) <= 301 / 100 * (Y + 7 / 5 * R)) by (apply Rmult_le_compat; lra).
    assert (B * M <= 401 / 100 * M) by (apply Rmult_le_compat_r; lra).
    unfold R in H. clear - H H0 Hroom Fx F0 M0 Y0. lra.
  - split; [exact Q1|]. eapply Rle_trans; [exact Q2|apply HE].
Qed.

(** C94: with w = 2 pi f / sample rate, the feedback gain of the ideal filters with a Q
    is at most (1 + 2 Q / sin w)^2 for Q >= 1/2 (resonant), and at most
    (1 + sin w / (2 Q)) / (sin w)^2 for Q <= 1/2. *)
Lemma C94_rbj_gain_thm :
  forall kind sr f q b0 b1 b2 a1 a2, 0 < q -> 0 < sin (2 * PI * f / sr) ->
  rbj_coeffs R_ops kind (RbjQ sr f q) = Some (b0, b1, b2, a1, a2) ->
  (/ 2 <= q -> peak_gain a1 a2 ((1 + 2 * q / sin (2 * PI * f / sr)) ^ 2))
  /\ (q <= / 2 -> peak_gain a1 a2 ((1 + sin (2 * PI * f / sr) / (2 * q)) / (sin (2 * PI * f / sr)) ^ 2)).
Proof.
  exact q_gain_aux.
Qed.

(** C94: the feedback gain of any stable pair of coefficients: complex poles, and real
    poles. *)
Lemma C94_stable_gain_thm :
  forall a1 a2, stable a1 a2 ->
  (a1 * a1 <= 4 * a2 -> peak_gain a1 a2 (1 / ((1 - sqrt a2) * (1 - Rabs a1 / 2))))
  /\ (4 * a2 <= a1 * a1 -> peak_gain a1 a2 (1 / (1 - Rabs a1 + a2))).
Proof.
  intros a1 a2 H. split; intros Q.
  - apply gain_complex; [exact Q|]. destruct H as [H _]. apply Rabs_def2 in H. lra.
  - apply gain_real; assumption.
Qed.

Lemma sin_tenth : 9 / 100 <= sin (1 / 10).
Proof.
  assert (P := PI2_1). destruct (SIN (1 / 10)) as [L _]; try lra.
  unfold sin_lb, sin_approx, sum_f_R0, sin_term in L. cbn in L. lra.
Qed.

Lemma C94_hyps_aux : let O := f32_ops (cr_libm 24 128) false in let V := ieee_view 24 128 in
  let sr := fl32 44100 0 in let f := fl32 1000 0 in let q := fl32 11 (-4) in let x := fun _ : nat => fl32 1 0 in
  let k := RbjQ (val V sr) (val V f) (val V q) in
  let y := out (dev_rbj R_ops LowPass) (configured (dev_rbj R_ops LowPass) k) (fun n => val V (x n)) in
  ieee O V /\ trig_close O V /\ audible V sr f /\ fin V q = true /\ / 64 <= val V q <= 1024
  /\ (exists b0 b1 b2 a1 a2, rbj_coeffs R_ops LowPass k = Some (b0, b1, b2, a1, a2) /\ peak_gain a1 a2 300)
  /\ 5 * q_error V (val V q) * 300 <= 1
  /\ (forall n, fin V (x n) = true /\ Rabs (val V (x n)) <= 1) /\ (forall n, Rabs (y n) <= 1200)
  /\ 64 * (1 + 1200) <= fmax V.
Proof.
  intros O V sr f q x k y.
  assert (E1 : val V sr = 44100) by (unfold V, sr; cbn [val ieee_view]; lit; lra).
  assert (E2 : val V f = 1000) by (unfold V, f; cbn [val ieee_view]; lit; lra).
  assert (E3 : val V q = 11 / 16) by (unfold V, q; cbn [val ieee_view]; lit; lra).
  assert (E4 : val V (fl32 1 0) = 1) by (unfold V; cbn [val ieee_view]; lit; lra).
  assert (HO : ieee O V) by constructor.
  destruct (fmin_small _ O V HO) as [_ [Fx [Up _]]].
  split; [exact HO|]. split; [apply rounded_close; [constructor|apply cr_trig; lia]|].
  split.
  { unfold audible. rewrite E1, E2. split; (split; [vm_compute; reflexivity|]); [|lra].
    split; [lra|]. apply Rle_trans with (bpow radix2 17); [cbn; lra|apply bpow_le; lia]. }
  split; [vm_compute; reflexivity|]. split; [lra|].
  assert (HS : 9 / 100 <= sin (2 * PI * val V f / val V sr) <= 1).
  { rewrite E1, E2. split; [|apply SIN_bound]. eapply Rle_trans; [exact sin_tenth|]. assert (P := ConstLemmas.pi_20).
    apply sin_incr_1; lra. }
  assert (X : exists b0 b1 b2 a1 a2, rbj_coeffs R_ops LowPass k = Some (b0, b1, b2, a1, a2)) by (repeat eexists).
  destruct X as [b0 [b1 [b2 [a1 [a2 Ek]]]]].
  assert (HG : peak_gain a1 a2 300).
  { destruct (q_gain_aux LowPass (val V sr) (val V f) (val V q) b0 b1 b2 a1 a2 ltac:(lra) ltac:(lra) Ek) as [G _].
    specialize (G ltac:(lra)). set (s := sin (2 * PI * val V f / val V sr)) in *. refine (peak_gain_mono _ _ _ _ _ G).
    assert (0 < / s <= 100 / 9).
    { split; [apply Rinv_0_lt_compat; lra|]. replace (100 / 9) with (/ (9 / 100)) by field. apply Rinv_le_contravar; lra. }
    replace (2 * val V q / s) with (11 / 8 * / s) by (rewrite E3; field; lra).
    apply Rle_trans with ((1 + 11 / 8 * (100 / 9)) ^ 2); [apply pow_incr; lra|lra]. }
  split; [exists b0, b1, b2, a1, a2; split; assumption|].
  split.
  { unfold q_error. rewrite E3. cbn [fprec ieee_view V] in *. cbn in Up |- *. lra. }
  split; [intros n; unfold x; rewrite E4, Rabs_R1; split; [reflexivity|lra]|].
  split; [|lra].
  assert (Hz : obeys (b0, b1, b2, a1, a2) (fun n => val V (x n)) y) by (apply filter_obeys; constructor; exact Ek).
  destruct (q_sums LowPass (val V sr) (val V f) (val V q) b0 b1 b2 a1 a2 ltac:(lra) ltac:(lra) Ek) as [SB _].
  intros n. replace 1200 with (300 * 4) by ring.
  apply (prefix_bound a1 a2 300 y (fun j => b0 * val V (x j) + b1 * back 1 (fun n => val V (x n)) j + b2 * back 2 (fun n => val V (x n)) j)); [exact HG|lra| |].
  - intros j _. rewrite (Hz j). ring.
  - intros j _. assert (Bk : forall i, Rabs (back i (fun n => val V (x n)) j) <= 1).
    { intros i. unfold back, x. rewrite E4. destruct (i <=? j)%nat; [rewrite Rabs_R1|rewrite Rabs_R0]; lra. }
    unfold x at 1. rewrite E4.
    eapply Rle_trans; [apply Rabs_triang|]. eapply Rle_trans; [apply Rplus_le_compat_r, Rabs_triang|]. rewrite !Rabs_mult, Rabs_R1.
    assert (Rabs b1 * Rabs (back 1 (fun n => val V (x n)) j) <= Rabs b1 * 1) by (apply Rmult_le_compat_l; [apply Rabs_pos|apply Bk]).
    assert (Rabs b2 * Rabs (back 2 (fun n => val V (x n)) j) <= Rabs b2 * 1) by (apply Rmult_le_compat_l; [apply Rabs_pos|apply Bk]).
    lra.
Qed.

(*@PROP
(** C93 and C94 are met by a library with correctly rounded functions in [f32]: a
    [LowPass] at 44100 Hz with a cutoff of 1 kHz and Q = 0.6875, on the input 1, 1, 1, ... *)
Example C94_hyps : let O := f32_ops (cr_libm 24 128) false in let V := ieee_view 24 128 in
  let sr := fl32 44100 0 in let f := fl32 1000 0 in let q := fl32 11 (-4) in let x := fun _ : nat => fl32 1 0 in
  let k := RbjQ (val V sr) (val V f) (val V q) in
  let y := out (dev_rbj R_ops LowPass) (configured (dev_rbj R_ops LowPass) k) (fun n => val V (x n)) in
  ieee O V /\ trig_close O V /\ audible V sr f /\ fin V q = true /\ / 64 <= val V q <= 1024
  /\ (exists b0 b1 b2 a1 a2, rbj_coeffs R_ops LowPass k = Some (b0, b1, b2, a1, a2) /\ peak_gain a1 a2 300)
  /\ 5 * q_error V (val V q) * 300 <= 1
  /\ (forall n, fin V (x n) = true /\ Rabs (val V (x n)) <= 1) /\ (forall n, Rabs (y n) <= 1200)
  /\ 64 * (1 + 1200) <= fmax V.
Proof. exact C94_hyps_aux. Qed.
@*)
