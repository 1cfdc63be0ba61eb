(** Lemmas behind property C123.  The [@PROP] blocks are copied into [PropOsc.v]. *)
(*@PROP
(** Property C123: a TwoPole with poles on the unit circle as oscillator and as spectrum meter.

    Vocabulary: [cos_part], [sin_part], [struck] ([OscSpec]); [filter_eq], [back], [sinusoid] ([Signal]);
    [response] ([SysSpec]); [stream] ([FltFilterSpec]). *)
From Coq Require Import ZArith Reals List Bool Lra Lia.
From Flocq Require Import Core.Core IEEE754.BinarySingleNaN.
From Verif Require Import Base Num NumR NumF Witness FloatSpec FilterM RbjM AnalysisM Device Signal SysSpec FltFilterSpec FltFilterLemmas
  OscSpec OscLemmas.
Import ListNotations.
Open Scope R_scope.
@*)
From Coq Require Import ZArith Reals List Bool Lra Lia.
From Coquelicot Require Import Coquelicot.
From Flocq Require Import Core.Core IEEE754.BinarySingleNaN.
From Verif Require Import Base Num NumR NumF Witness FloatSpec FilterM RbjM AnalysisM Device Signal SysSpec FltFilterSpec FltFilterFacts FltFilterLemmas
  FloatFacts SmoothF FilterFacts OscSpec.
Import ListNotations.
Open Scope R_scope.

Section Exact.
  Context (w : R) (x y : signal) (Hy : obeys (1, 0, 0, - (2 * cos w), 1) x y).

  Lemma osc_step n : y (S n) = x (S n) + 2 * cos w * y n - back 1 y n.
  Proof using Hy. rewrite (Hy (S n)). unfold back. cbn [Nat.leb Nat.sub]. rewrite !Nat.sub_0_r. destruct n as [|n]; cbn [Nat.leb Nat.sub]; rewrite ?Nat.sub_0_r; ring. Qed.

  Lemma goertzel n :
    y n - cos w * back 1 y n = cos (INR n * w) * cos_part w x n + sin (INR n * w) * sin_part w x n
    /\ sin w * back 1 y n = sin (INR n * w) * cos_part w x n - cos (INR n * w) * sin_part w x n.
  Proof using Hy.
    induction n as [|n [IH1 IH2]].
    - unfold cos_part, sin_part. cbn [sum_f_R0 INR]. rewrite (Hy 0%nat). unfold back. cbn [Nat.leb]. rewrite (Rmult_0_l w), cos_0, sin_0. split; ring.
    - assert (B : back 1 y (S n) = y n) by (unfold back; cbn [Nat.leb Nat.sub]; rewrite Nat.sub_0_r; reflexivity).
      rewrite B, osc_step. unfold cos_part, sin_part in *. cbn [sum_f_R0].
      change (sum_f_R0 (fun k => x k * cos (INR k * w)) n) with (cos_part w x n) in *.
      change (sum_f_R0 (fun k => x k * sin (INR k * w)) n) with (sin_part w x n) in *.
      set (Cn := cos_part w x n) in *. set (Sn := sin_part w x n) in *.
      rewrite S_INR. replace ((INR n + 1) * w) with (INR n * w + w) by ring. rewrite cos_plus, sin_plus.
      set (c := cos (INR n * w)) in *. set (s := sin (INR n * w)) in *.
      assert (I1 : c * c + s * s = 1) by (assert (Q := sin2_cos2 (INR n * w)); unfold Rsqr in Q; fold c s in Q; lra).
      assert (I2 : cos w * cos w + sin w * sin w = 1) by (assert (Q := sin2_cos2 w); unfold Rsqr in Q; lra).
      set (C := cos w) in *. set (Z := sin w) in *.
      assert (J : (c * C - s * Z) * (c * C - s * Z) + (s * C + c * Z) * (s * C + c * Z) = 1).
      { replace ((c * C - s * Z) * (c * C - s * Z) + (s * C + c * Z) * (s * C + c * Z)) with ((c * c + s * s) * (C * C + Z * Z)) by ring. rewrite I1, I2. ring. }
      assert (E : y n = c * Cn + s * Sn + C * back 1 y n) by lra.
      split.
      + replace (x (S n) + 2 * C * y n - back 1 y n - C * y n) with (x (S n) + C * (y n - C * back 1 y n) - (1 - C * C) * back 1 y n) by ring.
        replace (1 - C * C) with (Z * Z) by lra. rewrite Rmult_assoc with (r1 := Z), IH1, IH2.
        transitivity (x (S n) * ((c * C - s * Z) * (c * C - s * Z) + (s * C + c * Z) * (s * C + c * Z)) + C * (c * Cn + s * Sn) - Z * (s * Cn - c * Sn)); [rewrite J; ring|ring].
      + rewrite E. replace (Z * (c * Cn + s * Sn + C * back 1 y n)) with (Z * (c * Cn + s * Sn) + C * (Z * back 1 y n)) by ring. rewrite IH2. ring.
  Qed.

  Lemma closed n : sin w * y n = sin (INR (S n) * w) * cos_part w x n - cos (INR (S n) * w) * sin_part w x n.
  Proof using Hy.
    destruct (goertzel n) as [A B]. rewrite S_INR. replace ((INR n + 1) * w) with (INR n * w + w) by ring. rewrite cos_plus, sin_plus.
    replace (sin w * y n) with (sin w * (y n - cos w * back 1 y n) + cos w * (sin w * back 1 y n)) by ring. rewrite A, B. ring.
  Qed.
End Exact.

(** The combination of both parts is at most the sum of the magnitudes. *)
Lemma parts_le w x m n : Rabs (sin m * cos_part w x n - cos m * sin_part w x n) <= sum_f_R0 (fun k => Rabs (x k)) n.
Proof.
  unfold cos_part, sin_part. induction n as [|n IH]; cbn [sum_f_R0].
  - replace (sin m * (x 0%nat * cos (INR 0 * w)) - cos m * (x 0%nat * sin (INR 0 * w))) with (x 0%nat * sin (m - INR 0 * w)) by (rewrite sin_minus; ring).
    rewrite Rabs_mult. assert (P := Rabs_pos (x 0%nat)). assert (Q := SIN_bound (m - INR 0 * w)). assert (Rabs (sin (m - INR 0 * w)) <= 1) by (apply Rabs_le; lra). nra.
  - set (a := sum_f_R0 (fun k => x k * cos (INR k * w)) n) in *. set (b := sum_f_R0 (fun k => x k * sin (INR k * w)) n) in *.
    replace (sin m * (a + x (S n) * cos (INR (S n) * w)) - cos m * (b + x (S n) * sin (INR (S n) * w)))
      with ((sin m * a - cos m * b) + x (S n) * sin (m - INR (S n) * w)) by (rewrite sin_minus; ring).
    eapply Rle_trans; [apply Rabs_triang|]. apply Rplus_le_compat; [exact IH|].
    rewrite Rabs_mult. assert (P := Rabs_pos (x (S n))). assert (Q := SIN_bound (m - INR (S n) * w)). assert (Rabs (sin (m - INR (S n) * w)) <= 1) by (apply Rabs_le; lra). nra.
Qed.

(*@PROP
(** C123 (Goertzel's algorithm): the last two outputs of the resonator with coefficients
    (1, -2 cos w, 1) hold the Fourier transform of everything it was fed, at the frequency [w].
    [filter_eq]: TwoPole, or a biquad with these coefficients; exact arithmetic. *)
@*)
Lemma C123_goertzel_thm :
  forall (S K : Type) (D : device S K R) (k : K) (w : R), filter_eq D k (1, 0, 0, - (2 * cos w), 1) ->
  forall (x : signal) (n : nat), let y := response D k x in
    cos_part w x n = cos (INR n * w) * (y n - cos w * back 1 y n) + sin (INR n * w) * (sin w * back 1 y n)
    /\ sin_part w x n = sin (INR n * w) * (y n - cos w * back 1 y n) - cos (INR n * w) * (sin w * back 1 y n)
    /\ cos_part w x n ^ 2 + sin_part w x n ^ 2 = y n ^ 2 + back 1 y n ^ 2 - 2 * cos w * y n * back 1 y n.
Proof.
  intros S K D k w HD x n y. destruct (goertzel w x y (filter_obeys D k _ HD x) n) as [A B].
  assert (I1 := sin2_cos2 (INR n * w)). assert (I2 := sin2_cos2 w). unfold Rsqr in I1, I2.
  set (c := cos (INR n * w)) in *. set (s := sin (INR n * w)) in *. set (Cn := cos_part w x n) in *. set (Sn := sin_part w x n) in *.
  assert (E1 : Cn = c * (y n - cos w * back 1 y n) + s * (sin w * back 1 y n)).
  { rewrite A, B. transitivity ((s * s + c * c) * Cn); [rewrite I1; ring|ring]. }
  assert (E2 : Sn = s * (y n - cos w * back 1 y n) - c * (sin w * back 1 y n)).
  { rewrite A, B. transitivity ((s * s + c * c) * Sn); [rewrite I1; ring|ring]. }
  split; [exact E1|]. split; [exact E2|]. rewrite E1, E2.
  transitivity ((s * s + c * c) * ((y n - cos w * back 1 y n) ^ 2 + (sin w * sin w) * (back 1 y n) ^ 2)); [ring|].
  rewrite I1. replace (sin w * sin w) with (1 - cos w * cos w) by lra. ring.
Qed.
(*@PROP
Example C123_goertzel_hyps : filter_eq (dev_two_pole R_ops) (1, - (2 * cos 1), 1) (1, 0, 0, - (2 * cos 1), 1).
Proof. apply fe_two_pole. Qed.

(** C123: struck once, it oscillates for ever with constant amplitude (exact arithmetic). *)
@*)
Lemma C123_oscillator_thm :
  forall (S K : Type) (D : device S K R) (k : K) (w : R), filter_eq D k (1, 0, 0, - (2 * cos w), 1) -> sin w <> 0 ->
  forall (A : R) (n : nat), response D k (struck R_ops A) n = A * sin (INR (n + 1) * w) / sin w.
Proof.
  intros S K D k w HD Hw A n. assert (G := closed w _ _ (filter_obeys D k _ HD (struck R_ops A)) n).
  assert (C : cos_part w (struck R_ops A) n = A).
  { unfold cos_part. induction n as [|n IH]; cbn [sum_f_R0 struck]; [cbn [INR]; rewrite (Rmult_0_l w), cos_0; ring|].
    rewrite IH; [cbn; ring|]. apply closed. apply filter_obeys, HD. }
  assert (Z : sin_part w (struck R_ops A) n = 0).
  { clear. unfold sin_part. induction n as [|n IH]; cbn [sum_f_R0 struck]; [cbn [INR]; rewrite (Rmult_0_l w), sin_0; ring|]. rewrite IH. cbn. ring. }
  rewrite C, Z in G. rewrite Nat.add_1_r. unfold response. apply Rmult_eq_reg_l with (sin w); [|exact Hw]. rewrite G. field. exact Hw.
Qed.
(*@PROP
Example C123_oscillator_hyps : filter_eq (dev_two_pole R_ops) (1, - (2 * cos (PI / 2)), 1) (1, 0, 0, - (2 * cos (PI / 2)), 1) /\ sin (PI / 2) <> 0.
Proof. split; [apply fe_two_pole|]. rewrite sin_PI2. lra. Qed.

(** C123: and it resonates: fed with a bounded sinusoid of its own frequency it exceeds every bound. *)
@*)
Lemma C123_resonance_thm :
  forall (S K : Type) (D : device S K R) (k : K) (w : R), filter_eq D k (1, 0, 0, - (2 * cos w), 1) -> sin w <> 0 ->
  forall B : R, exists n, B < Rabs (response D k (sinusoid 1 w 0) n).
Proof.
  intros S K D k w HD Hw B. set (x := sinusoid 1 w 0). set (y := response D k x).
  assert (G := fun n => C123_goertzel_thm S K D k w HD x n). fold y in G. cbv zeta in G.
  (* the cosine part grows *)
  set (d := sin w * sin w / 2). assert (Pd : 0 < d) by (unfold d; assert (0 < sin w * sin w) by nra; lra).
  assert (Gr : forall m : nat, INR m * d <= cos_part w x (2 * m + 1)).
  { assert (T : forall i, x i * cos (INR i * w) = cos (INR i * w) * cos (INR i * w)) by (intros i; unfold x, sinusoid; rewrite Rplus_0_r; ring).
    assert (Pair : forall a, d <= cos a * cos a + cos (a + w) * cos (a + w)).
    { intros a. assert (E : sin w = sin (a + w) * cos a - cos (a + w) * sin a).
      { rewrite <- sin_minus. f_equal. ring. }
      assert (I := sin2_cos2 a). assert (J := sin2_cos2 (a + w)). unfold Rsqr in *. unfold d. rewrite E.
      set (p := cos a) in *. set (q := cos (a + w)) in *. set (r := sin a) in *. set (s := sin (a + w)) in *.
      assert (s * s <= 1) by nra. assert (r * r <= 1) by nra.
      assert ((s * p - q * r) * (s * p - q * r) <= 2 * (s * s * (p * p) + r * r * (q * q))) by (assert (0 <= (s * p + q * r) * (s * p + q * r)) by apply Rle_0_sqr; lra).
      assert (s * s * (p * p) <= p * p) by (assert (0 <= p * p) by apply Rle_0_sqr; nra).
      assert (r * r * (q * q) <= q * q) by (assert (0 <= q * q) by apply Rle_0_sqr; nra). lra. }
    assert (Sq : forall i, 0 <= cos (INR i * w) * cos (INR i * w)) by (intros; apply Rle_0_sqr).
    induction m as [|m IH].
    - unfold cos_part. cbn [Nat.mul Nat.add sum_f_R0]. rewrite !T. assert (Q0 := Sq 0%nat). assert (Q1 := Sq 1%nat). cbn [INR] in *. lra.
    - replace (2 * Datatypes.S m + 1)%nat with (Datatypes.S (Datatypes.S (2 * m + 1))) by lia.
      unfold cos_part in *. cbn [sum_f_R0]. rewrite !T. rewrite (S_INR m).
      assert (Q := Pair (INR (Datatypes.S (2 * m + 1)) * w)).
      replace (INR (Datatypes.S (2 * m + 1)) * w + w) with (INR (Datatypes.S (Datatypes.S (2 * m + 1))) * w) in Q by (rewrite (S_INR (Datatypes.S (2 * m + 1))); ring).
      lra. }
  destruct (Rle_or_lt B 0) as [HB|HB].
  { exists 0%nat. assert (Y0 : y 0%nat = 1).
    { unfold y, response. rewrite (filter_obeys D k _ HD x 0%nat). unfold back. cbn [Nat.leb]. unfold x, sinusoid. cbn [INR].
      rewrite (Rmult_0_l w), Rplus_0_r, cos_0. ring. }
    rewrite Y0, Rabs_R1. lra. }
  assert (Hex : exists m : nat, 2 * B / d < INR m).
  { exists (Z.to_nat (up (2 * B / d))). destruct (archimed (2 * B / d)) as [Hu _].
    assert (0 < 2 * B / d) by (apply Rdiv_lt_0_compat; lra).
    rewrite INR_IZR_INZ, Z2Nat.id; [lra|]. apply le_IZR. lra. }
  destruct Hex as [m Hm].
  assert (H1 : 2 * B < INR m * d) by (apply Rmult_lt_reg_r with (/ d); [apply Rinv_0_lt_compat; exact Pd|]; replace (INR m * d * / d) with (INR m) by (field; lra); exact Hm).
  assert (H2 := Gr m). set (N := (2 * m + 1)%nat) in *. destruct (G N) as [_ [_ E]].
  destruct (Rlt_or_le B (Rabs (y N))) as [Y|Y]; [exists N; exact Y|].
  destruct (Rlt_or_le B (Rabs (back 1 y N))) as [Y1|Y1].
  - exists (N - 1)%nat. revert Y1. unfold back. destruct (1 <=? N)%nat; [exact (fun h => h)|]. rewrite Rabs_R0. lra.
  - exfalso. assert (CB := COS_bound w).
    assert (U : y N ^ 2 + back 1 y N ^ 2 - 2 * cos w * y N * back 1 y N <= (Rabs (y N) + Rabs (back 1 y N)) ^ 2).
    { rewrite <- (pow2_abs (y N)), <- (pow2_abs (back 1 y N)).
      assert (Q : - (cos w * y N * back 1 y N) <= Rabs (y N) * Rabs (back 1 y N)).
      { eapply Rle_trans; [apply Rle_abs|]. rewrite Rabs_Ropp, !Rabs_mult.
        assert (Rabs (cos w) <= 1) by (apply Rabs_le; lra). assert (0 <= Rabs (y N) * Rabs (back 1 y N)) by (apply Rmult_le_pos; apply Rabs_pos). nra. }
      nra. }
    assert (P0 := Rabs_pos (y N)). assert (P1 := Rabs_pos (back 1 y N)).
    assert (L : (2 * B) ^ 2 < cos_part w x N ^ 2) by (assert (0 < cos_part w x N - 2 * B) by lra; assert (0 < cos_part w x N + 2 * B) by lra; nra).
    assert (M : (Rabs (y N) + Rabs (back 1 y N)) ^ 2 <= (2 * B) ^ 2) by (apply pow_incr; lra).
    assert (0 <= sin_part w x N ^ 2) by apply pow2_ge_0. lra.
Qed.

Section Float.
  Context (prec emax : Z) {Hp : Prec_gt_0 prec} {Hm : Prec_lt_emax prec emax} (Hm3 : (3 <= emax)%Z).
  Notation F := (binary_float prec emax).
  Notation V := (ieee_view prec emax).
  Notation fexp := (SpecFloat.fexp prec emax).
  Notation RN := (round radix2 fexp (round_mode mode_NE)).
  Notation u := (uro prec).
  Notation et := (eta prec emax).
  Notation fb := (fb prec emax).
  Context (Ops : num_ops F).
  Hypothesis Hsub : n_sub Ops = f_sub prec emax.
  Hypothesis Hmul : n_mul Ops = f_mul prec emax.
  Hypothesis Hzero : n_zero Ops = (B754_zero false : F).
  Hypothesis Hone : n_one Ops = f_of_Z prec emax 1.
  Context (A a1 : F) (w : R) (FA : is_finite A = true) (Fa : is_finite a1 = true).
  Hypothesis Ha : B2R a1 = - (2 * cos w).
  Hypothesis Hw : 0 < sin w.
  Notation al := (Rabs (B2R A)).
  Hypothesis Hroom : 16 * (al / sin w) <= fmax V.
  Notation M := (2 * (al / sin w)).
  Notation D := (6 * u * M + 3 * et).
  Notation y := (stream (dev_two_pole Ops) (n_one Ops, a1, n_one Ops) (struck Ops A)).

  Lemma u_small : u <= / 2.
  Proof. unfold uro. assert (0 < prec)%Z by exact Hp. apply (bpow_le radix2 _ (-1)). lia. Qed.
  Lemma RN_err1 r : Rabs (RN r - r) <= u * Rabs r + et.
  Proof. apply (RN_err prec emax). Qed.

  Lemma mul_one (v : F) : is_finite v = true -> is_finite (f_mul prec emax (n_one Ops) v) = true /\ B2R (f_mul prec emax (n_one Ops) v) = B2R v.
  Proof using Hone.
    intros Fv. destruct (fone_correct prec emax) as [E1 [E2 _]]. rewrite Hone.
    destruct (mul_ok prec emax (f_of_Z prec emax 1) v (Rabs (B2R v)) E2 Fv) as [G1 G2].
    - apply generic_format_abs, generic_format_B2R.
    - apply abs_B2R_lt_emax.
    - rewrite E1, Rmult_1_l. apply Rle_refl.
    - split; [exact G1|]. rewrite G2, E1, Rmult_1_l. apply RN_B2R.
  Qed.

  (** One step from finite values not above [M], with the input [x]: 0, or [A] at the start. *)
  Lemma osc_local (v1 v2 : F) : is_finite v1 = true -> is_finite v2 = true -> Rabs (B2R v1) <= M -> Rabs (B2R v2) <= M -> 1 <= 1 ->
    let z := f_sub prec emax (f_sub prec emax (f_mul prec emax (n_one Ops) (B754_zero false)) (f_mul prec emax a1 v1)) (f_mul prec emax (n_one Ops) v2) in
    is_finite z = true /\ Rabs (B2R z + B2R a1 * B2R v1 + B2R v2) <= D.
  Proof using Hm3 Hone FA Fa Ha Hroom Hw.
    intros F1 F2 B1 B2 _ z.
    assert (U := uro_pos prec). assert (U2 := u_small). assert (E := eta_pos prec emax).
    assert (MF := MAX_fmt prec emax Hm3). assert (ML := MAX_lt prec emax). cbn [fmax ieee_view] in Hroom. set (MX := (1 - bpow radix2 (- prec)) * bpow radix2 emax) in *.
    assert (P1 := Rabs_pos (B2R v1)). assert (P2 := Rabs_pos (B2R v2)).
    assert (A2 : Rabs (B2R a1) <= 2).
    { rewrite Ha, Rabs_Ropp, Rabs_mult, (Rabs_pos_eq 2) by lra. assert (Q := COS_bound w). assert (Rabs (cos w) <= 1) by (apply Rabs_le; lra). lra. }
    assert (T : Rabs (B2R a1 * B2R v1) <= 2 * M) by (rewrite Rabs_mult; assert (Q := Rabs_pos (B2R a1)); nra).
    destruct (mul_ok prec emax a1 v1 MX Fa F1 MF ML ltac:(lra)) as [G1 G2].
    destruct (mul_one (B754_zero false) eq_refl) as [Z1 Z2]. cbn [B2R] in Z2.
    destruct (mul_one v2 F2) as [V1 V2].
    set (t := f_mul prec emax a1 v1) in *. set (zz := f_mul prec emax (n_one Ops) (B754_zero false)) in *. set (v2' := f_mul prec emax (n_one Ops) v2) in *.
    assert (Bt : Rabs (B2R t) < bpow radix2 emax) by apply abs_B2R_lt_emax.
    destruct (sub_ok prec emax zz t (Rabs (B2R t)) Z1 G1) as [S1 S2].
    { apply generic_format_abs, generic_format_B2R. }
    { exact Bt. }
    { rewrite Z2. replace (0 - B2R t) with (- B2R t) by ring. rewrite Rabs_Ropp. apply Rle_refl. }
    rewrite Z2 in S2. replace (0 - B2R t) with (- B2R t) in S2 by ring.
    rewrite RN_id in S2 by (apply generic_format_opp, generic_format_B2R).
    assert (Er := RN_err1 (B2R a1 * B2R v1)). rewrite <- G2 in Er.
    assert (UT : u * Rabs (B2R a1 * B2R v1) <= u * (2 * M)) by (apply Rmult_le_compat_l; lra).
    assert (M0 : 0 <= M) by lra.
    (* the size of t: the rounding keeps it below 4 M + something: use the format bound *)
    assert (TB : Rabs (B2R t) <= 2 * M + (u * (2 * M) + et)).
    { replace (B2R t) with (B2R a1 * B2R v1 + (B2R t - B2R a1 * B2R v1)) by ring. eapply Rle_trans; [apply Rabs_triang|]. lra. }
    assert (E5 : Rabs (B2R t) + Rabs (B2R v2) <= MX).
    { assert (T4 : Rabs (B2R t) <= MX / 2).
      { rewrite G2. apply RN_abs_le; try assumption.
        - replace (MX / 2) with ((1 - bpow radix2 (- prec)) * bpow radix2 (emax - 1)).
          + replace ((1 - bpow radix2 (- prec)) * bpow radix2 (emax - 1)) with (IZR (2 ^ prec - 1) * bpow radix2 (emax - 1 - prec)).
            * apply generic_format_FLT. assert (Hp' : (0 < prec)%Z) by exact Hp. exists (Float radix2 (2 ^ prec - 1) (emax - 1 - prec)); [reflexivity| |].
              -- cbn [Fnum]. change (radix2 : Z) with 2%Z. assert (0 < 2 ^ prec)%Z by (apply Z.pow_pos_nonneg; lia). lia.
              -- cbn [Fexp]. unfold SpecFloat.emin. assert (prec < emax)%Z by exact Hm. lia.
            * assert (Hp' : (0 < prec)%Z) by exact Hp. rewrite minus_IZR. change 2%Z with (radix_val radix2) at 1. rewrite IZR_Zpower by lia.
              rewrite Rmult_minus_distr_r, <- bpow_plus. replace (prec + (emax - 1 - prec))%Z with (emax - 1)%Z by lia.
              rewrite Rmult_minus_distr_r, <- bpow_plus. replace (- prec + (emax - 1))%Z with (emax - 1 - prec)%Z by lia. ring.
          + unfold MX. replace emax with (emax - 1 + 1)%Z at 2 by lia. rewrite bpow_plus. change (bpow radix2 1) with 2. field.
        - lra. }
      lra. }
    destruct (sub_ok prec emax (f_sub prec emax zz t) v2' MX S1 V1 MF ML) as [R1 R2].
    { rewrite S2, V2. eapply Rle_trans; [apply Rabs_triang|]. rewrite !Rabs_Ropp. exact E5. }
    split; [exact R1|]. unfold z. rewrite R2, S2, V2.
    assert (Er2 := RN_err1 (- B2R t - B2R v2)).
    assert (Sz : Rabs (- B2R t - B2R v2) <= 2 * M + (u * (2 * M) + et) + M).
    { eapply Rle_trans; [apply Rabs_triang|]. rewrite !Rabs_Ropp. lra. }
    assert (Us : u * Rabs (- B2R t - B2R v2) <= u * (2 * M + (u * (2 * M) + et) + M)) by (apply Rmult_le_compat_l; lra).
    replace (RN (- B2R t - B2R v2) + B2R a1 * B2R v1 + B2R v2)
      with ((RN (- B2R t - B2R v2) - (- B2R t - B2R v2)) + - (B2R t - B2R a1 * B2R v1)) by ring.
    eapply Rle_trans; [apply Rabs_triang|]. rewrite Rabs_Ropp.
    assert (HuM : 0 <= u * M) by (apply Rmult_le_pos; lra).
    assert (Q1 : 2 * u * (u * M) <= 1 * (u * M)) by (apply Rmult_le_compat_r; lra).
    assert (Q2 : u * et <= 1 * et) by (apply Rmult_le_compat_r; lra).
    replace (u * (2 * M + (u * (2 * M) + et) + M)) with (3 * (u * M) + 2 * u * (u * M) + u * et) in Us by ring.
    replace (u * (2 * M)) with (2 * (u * M)) in * by ring. replace (6 * u * M) with (6 * (u * M)) by ring. lra.
  Qed.

  Lemma osc_near n : INR n * D <= al ->
    is_finite (y n) = true /\ Rabs (B2R (y n) - B2R A * sin (INR (n + 1) * w) / sin w) <= INR n * D / sin w.
  Proof using Hm3 Hsub Hmul Hzero Hone FA Fa Ha Hroom Hw.
    assert (U := uro_pos prec). assert (E := eta_pos prec emax). assert (A0 := Rabs_pos (B2R A)).
    assert (As : 0 <= al / sin w) by (apply Rmult_le_pos; [exact A0|apply Rlt_le, Rinv_0_lt_compat, Hw]).
    assert (D0 : 0 <= D) by (assert (0 <= u * M) by (apply Rmult_le_pos; lra); lra).
    induction n as [n IH] using lt_wf_ind. intros Hn.
    assert (Hk : forall k, (k < n)%nat -> is_finite (y k) = true /\ Rabs (B2R (y k)) <= M).
    { intros k Hk. assert (Kn : INR k * D <= INR n * D) by (apply Rmult_le_compat_r; [exact D0|apply le_INR; lia]).
      destruct (IH k Hk ltac:(lra)) as [G1 G2]. split; [exact G1|].
      replace (B2R (y k)) with (B2R A * sin (INR (k + 1) * w) / sin w + (B2R (y k) - B2R A * sin (INR (k + 1) * w) / sin w)) by ring.
      eapply Rle_trans; [apply Rabs_triang|].
      assert (B1 : Rabs (B2R A * sin (INR (k + 1) * w) / sin w) <= al / sin w).
      { unfold Rdiv. rewrite !Rabs_mult, (Rabs_pos_eq (/ sin w)) by (apply Rlt_le, Rinv_0_lt_compat, Hw).
        apply Rmult_le_compat_r; [apply Rlt_le, Rinv_0_lt_compat, Hw|]. assert (Q := SIN_bound (INR (k + 1) * w)).
        assert (Rabs (sin (INR (k + 1) * w)) <= 1) by (apply Rabs_le; lra). assert (P := Rabs_pos (sin (INR (k + 1) * w))). nra. }
      assert (B2 : INR k * D / sin w <= al / sin w) by (apply Rmult_le_compat_r; [apply Rlt_le, Rinv_0_lt_compat, Hw|lra]). lra. }
    assert (Un := fun k => unroll_two_pole prec emax Ops Hsub Hmul Hzero (struck Ops A) (n_one Ops) a1 (n_one Ops) k). cbv zeta in Un.
    assert (Fb : forall j k, (k <= n)%nat -> is_finite (fb (S j) y k) = true /\ Rabs (B2R (fb (S j) y k)) <= M).
    { intros j k Hkn. unfold FltFilterFacts.fb. destruct (S j <=? k)%nat eqn:L; [apply Hk; apply Nat.leb_le in L; lia|].
      split; [reflexivity|]. cbn [B2R]. rewrite Rabs_R0. lra. }
    (* the sequence obeys the exact equation with input d *)
    set (Y := fun k => B2R (y k)).
    set (d := fun k => Y k + B2R a1 * back 1 Y k + back 2 Y k).
    assert (Hob : obeys (1, 0, 0, - (2 * cos w), 1) d Y) by (intros k; unfold d; rewrite Ha; ring).
    assert (Dk : forall k, (1 <= k <= n)%nat -> is_finite (y k) = true /\ Rabs (d k) <= D).
    { intros k [Hk1 Hk2]. destruct (Fb 0%nat k Hk2) as [X1 X2]. destruct (Fb 1%nat k Hk2) as [X3 X4].
      destruct (osc_local (fb 1 y k) (fb 2 y k) X1 X3 X2 X4 (Rle_refl 1)) as [G1 G2].
      assert (S0 : struck Ops A k = B754_zero false) by (destruct k; [lia|exact Hzero]).
      rewrite <- S0, <- Un in G1, G2. split; [exact G1|]. unfold d, Y. rewrite <- !fb_val. exact G2. }
    assert (Y0 : is_finite (y 0%nat) = true /\ B2R (y 0%nat) = B2R A).
    { rewrite Un. cbn [struck]. change (fb 1 y 0) with (B754_zero false : F). change (fb 2 y 0) with (B754_zero false : F).
      destruct (mul_one A FA) as [O1 O2]. destruct (mul_one (B754_zero false) eq_refl) as [Z1 Z2]. cbn [B2R] in Z2.
      assert (Fm : generic_format radix2 fexp al) by apply generic_format_abs, generic_format_B2R.
      assert (Lm : al < bpow radix2 emax) by apply abs_B2R_lt_emax.
      destruct (mul_ok prec emax a1 (B754_zero false) al Fa eq_refl Fm Lm) as [T1 T2]; [cbn [B2R]; rewrite Rmult_0_r, Rabs_R0; exact A0|].
      cbn [B2R] in T2. rewrite Rmult_0_r, RN_0 in T2.
      destruct (sub_ok prec emax _ _ al O1 T1 Fm Lm) as [S1 S2]; [rewrite O2, T2, Rminus_0_r; apply Rle_refl|].
      rewrite O2, T2, Rminus_0_r, RN_B2R in S2.
      destruct (sub_ok prec emax _ _ al S1 Z1 Fm Lm) as [R1 R2]; [rewrite S2, Z2, Rminus_0_r; apply Rle_refl|].
      rewrite S2, Z2, Rminus_0_r, RN_B2R in R2. split; assumption. }
    split; [destruct n as [|n]; [apply Y0|apply (Dk (S n)); lia]|].
    (* difference to the ideal oscillator *)
    assert (C := closed w d Y Hob n).
    assert (d0 : d 0%nat = B2R A) by (unfold d, back; cbn [Nat.leb]; unfold Y; rewrite (proj2 Y0); ring).
    set (d' := fun k => match k with O => 0 | S _ => d k end).
    assert (P1 : forall m, cos_part w d m = cos_part w d' m + B2R A).
    { unfold cos_part. induction m as [|m IHm]; cbn [sum_f_R0]; [cbn [d' INR]; rewrite d0, (Rmult_0_l w), cos_0; ring|]. rewrite IHm. cbn [d']. ring. }
    assert (P2 : forall m, sin_part w d m = sin_part w d' m).
    { unfold sin_part. induction m as [|m IHm]; cbn [sum_f_R0]; [cbn [INR]; rewrite (Rmult_0_l w), sin_0; ring|]. rewrite IHm. cbn [d']. ring. }
    rewrite P1, P2 in C. rewrite <- Nat.add_1_r in C.
    assert (L := parts_le w d' (INR (n + 1) * w) n).
    assert (Sm : forall m, (m <= n)%nat -> sum_f_R0 (fun k => Rabs (d' k)) m <= INR m * D).
    { induction m as [|m IHm]; intros Hm'; cbn [sum_f_R0]; [cbn [d' INR]; rewrite Rabs_R0; lra|]. rewrite S_INR.
      assert (Q := proj2 (Dk (S m) ltac:(lia))). specialize (IHm ltac:(lia)). cbn [d']. lra. }
    specialize (Sm n (le_n n)).
    apply Rmult_le_reg_r with (sin w); [exact Hw|].
    replace (INR n * D / sin w * sin w) with (INR n * D) by (field; lra).
    rewrite <- (Rabs_pos_eq (sin w)) at 2 by lra. rewrite <- Rabs_mult.
    replace ((B2R (y n) - B2R A * sin (INR (n + 1) * w) / sin w) * sin w) with (sin w * B2R (y n) - B2R A * sin (INR (n + 1) * w)) by (field; lra).
    change (B2R (y n)) with (Y n). rewrite C.
    replace (sin (INR (n + 1) * w) * (cos_part w d' n + B2R A) - cos (INR (n + 1) * w) * sin_part w d' n - B2R A * sin (INR (n + 1) * w))
      with (sin (INR (n + 1) * w) * cos_part w d' n - cos (INR (n + 1) * w) * sin_part w d' n) by ring.
    lra.
  Qed.
End Float.

(*@PROP
Example C123_resonance_hyps : filter_eq (dev_biquad2 R_ops) (1, 0, 0, - (2 * cos (PI / 2)), 1) (1, 0, 0, - (2 * cos (PI / 2)), 1) /\ sin (PI / 2) <> 0.
Proof. split; [apply fe_biquad2|]. rewrite sin_PI2. lra. Qed.

(** C123, [f32] and [f64]: the struck oscillator drifts at most linearly: its [n]-th sample is within
    n (12 u |A| / sin w + 3 eta) / sin w of the ideal one, as long as that drift is below the amplitude
    |A| / sin w itself ([f32], A = 1: for about 2^24 sin w / 12 samples). [w] is the frequency that
    belongs to the stored coefficient, a1 = -2 cos w. *)
@*)
Lemma C123_float_oscillator_thm :
  forall (T : Type) (O : num_ops T) (V : float_view T), ieee O V ->
  forall (A a1 : T) (w : R) (n : nat), fin V A = true -> fin V a1 = true ->
    val V a1 = - (2 * cos w) -> 0 < sin w ->
    let u := bpow radix2 (- fprec V) in
    let amp := Rabs (val V A) / sin w in
    let step := 12 * u * amp + 3 * (u * fmin V) in
    16 * amp <= fmax V -> INR n * step <= Rabs (val V A) ->
    let y := stream (dev_two_pole O) (n_one O, a1, n_one O) (struck O A) n in
    fin V y = true /\ Rabs (val V y - val V A * sin (INR (n + 1) * w) / sin w) <= INR n * step / sin w.
Proof.
  intros T O V HO. destruct HO as [lm b|lm b]; intros A a1 w n FA Fa Ha Hw u amp step Hr Hn y.
  - assert (E : step = 6 * uro 24 * (2 * (Rabs (B2R A) / sin w)) + 3 * eta 24 128) by (unfold step, amp, u, uro, eta; cbn [fprec fmin val ieee_view]; unfold uro; ring).
    rewrite E in Hn |- *. exact (osc_near 24 128 ltac:(lia) (f32_ops lm b) eq_refl eq_refl eq_refl eq_refl A a1 w FA Fa Ha Hw Hr n Hn).
  - assert (E : step = 6 * uro 53 * (2 * (Rabs (B2R A) / sin w)) + 3 * eta 53 1024) by (unfold step, amp, u, uro, eta; cbn [fprec fmin val ieee_view]; unfold uro; ring).
    rewrite E in Hn |- *. exact (osc_near 53 1024 ltac:(lia) (f64_ops lm b) eq_refl eq_refl eq_refl eq_refl A a1 w FA Fa Ha Hw Hr n Hn).
Qed.
(*@PROP
(** a1 = -1 is a sixth of the sampling rate (8 kHz at 48 kHz); a quarter of a million samples. *)
Example C123_float_oscillator_hyps :
  let V := ieee_view 24 128 in let u := bpow radix2 (- fprec V) in
  let amp := Rabs (val V (fl32 1 0)) / sin (PI / 3) in
  fin V (fl32 1 0) = true /\ fin V (fl32 (-1) 0) = true /\ val V (fl32 (-1) 0) = - (2 * cos (PI / 3)) /\ 0 < sin (PI / 3)
  /\ 16 * amp <= fmax V /\ forall n : nat, INR n <= 250000 -> INR n * (12 * u * amp + 3 * (u * fmin V)) <= Rabs (val V (fl32 1 0)).
Proof.
  cbv zeta. cbn [fin val fprec fmin fmax ieee_view]. change (Z.opp 24) with (-24)%Z.
  assert (E1 : B2R (fl32 1 0) = 1) by (lit; lra). assert (E2 : B2R (fl32 (-1) 0) = -1) by (lit; lra).
  assert (S3 : 3 / 2 <= sqrt 3) by (rewrite <- (sqrt_square (3 / 2)) by lra; apply sqrt_le_1_alt; lra).
  rewrite E1, E2, cos_PI3, sin_PI3, Rabs_R1.
  assert (P : 0 < sqrt 3 / 2) by lra.
  assert (Q : 1 / (sqrt 3 / 2) <= 4 / 3) by (apply Rmult_le_reg_r with (sqrt 3 / 2); [exact P|]; replace (1 / (sqrt 3 / 2) * (sqrt 3 / 2)) with 1 by (field; lra); lra).
  assert (Q0 : 0 <= 1 / (sqrt 3 / 2)) by (apply Rlt_le, Rdiv_lt_0_compat; lra).
  split; [reflexivity|]. split; [reflexivity|]. split; [lra|]. split; [exact P|]. split.
  - apply Rle_trans with (/ 2 * bpow radix2 8); [cbn; lra|]. apply Rmult_le_compat; [lra|apply bpow_ge_0|cbn; lra|apply bpow_le; lia].
  - intros n Hn. assert (N0 := pos_INR n).
    assert (U0 := bpow_gt_0 radix2 (-24)). assert (B0 := bpow_gt_0 radix2 (2 - 128)).
    assert (B1 : bpow radix2 (2 - 128) <= bpow radix2 (-24)) by (apply bpow_le; lia).
    assert (UE : bpow radix2 (-24) = / 16777216) by (cbn; lra).
    assert (UB : bpow radix2 (-24) * bpow radix2 (2 - 128) <= bpow radix2 (-24) * bpow radix2 (-24)) by (apply Rmult_le_compat_l; lra).
    assert (UQ : 12 * bpow radix2 (-24) * (1 / (sqrt 3 / 2)) <= 12 * bpow radix2 (-24) * (4 / 3)) by (apply Rmult_le_compat_l; lra).
    apply Rle_trans with (250000 * (12 * bpow radix2 (-24) * (4 / 3) + 3 * (bpow radix2 (-24) * bpow radix2 (-24)))); [|rewrite UE; lra].
    apply Rmult_le_compat; try lra. apply Rplus_le_le_0_compat; [apply Rmult_le_pos; lra|]. assert (0 < bpow radix2 (-24) * bpow radix2 (2 - 128)) by (apply Rmult_lt_0_compat; assumption). lra.
Qed.
@*)
