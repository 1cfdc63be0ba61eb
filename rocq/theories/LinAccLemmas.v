(** Proofs of C96: streams through a floating-point [LinearDelay]. *)
From Coq Require Import ZArith Reals List Bool Lia Lra ZifyBool.
From Flocq Require Import Core.Core IEEE754.BinarySingleNaN.
From Verif Require Import Base BaseLemmas Num NumR NumF FloatFacts DelayM LinDelayM DelaySpec DelayRun DelayProofs
  LinSpec LinRun LinFloatSpec LinProofs LinCtlR LinCtlF LinInv LinFacts LinFloat LinLemmas2 FltFilterFacts.
Import ListNotations.
Open Scope R_scope.

(*@PROP
(** Property C96: streams through a floating-point [LinearDelay].

    Vocabulary: [lin_session K O p d m ops] is [LinearDelay::new(d, m)] followed by
    the calls [ops] ([LinRun]); [float_line K O val fin rnd] stands for
    [LinearDelay<f32>] and [LinearDelay<f64>], whose delay is an [f32] in both cases
    ([LinFloatSpec]); [behind zero x k i] is sample [i - k] of [x], zero before the
    start ([LinRun]). *)
From Coq Require Import ZArith Reals List Bool Lia Lra.
From Flocq Require Import Core.Core IEEE754.BinarySingleNaN.
From Verif Require Import Base Num NumR NumF Witness DelayM LinDelayM DelaySpec DelayRun
  LinSpec LinRun LinFloatSpec LinAccLemmas.
Import ListNotations.
Open Scope R_scope.

@*)

Lemma behind_val {T} (val : T -> R) (z : T) x k i : val z = 0 ->
  val (behind z x k i) = behind 0 (fun j => val (x j)) k i.
Proof. intros Hz. unfold behind. destruct (k <=? i)%nat; auto. Qed.

Lemma behind_fin {T} (P : T -> Prop) (z : T) x k i : P z -> (forall j, P (x j)) -> P (behind z x k i).
Proof. intros Hz Hx. unfold behind. destruct (k <=? i)%nat; auto. Qed.

Section Line.
  Context {T : Type} (K : ctl_ops f32 T) (O : num_ops T) (val : T -> R) (fin : T -> bool) (rnd : R -> R).
  Hypothesis HF : fline K O val fin rnd.
  Context (p : profile).

  (** A new line on a stream. *)
  Lemma float_stream d m x n :
    (0 <= m)%Z -> (m + 1 <= 2 ^ 24)%Z -> is_finite d = true -> 0 <= B2R d <= IZR m ->
    let L := lag32 (m + 1) 0 (B2R d) in
    exists s wn wo, lin_session K O p d m (map (fun i => DProcess (x i)) (seq 0 n))
        = Ok (s, map OSample (map (stream_out O (Z.to_nat m) (Z.to_nat L) wn wo x) (seq 0 n)))
      /\ (0 <= L <= m)%Z
      /\ fin wn = true /\ val wn = pos32 (m + 1) 0 (B2R d) - IZR (read32 (m + 1) 0 (B2R d))
      /\ fin wo = true /\ val wo = rnd (1 - val wn).
  Proof.
    intros Hm0 Hm Hf Hd L.
    assert (Hsize := fl_size _ _ _ _ _ HF). assert (Hfits := fl_fits _ _ _ _ _ HF).
    assert (Hlen : (1 <= m + 1 <= 2 ^ 24)%Z) by lia.
    assert (EM : IZR (m + 1) - 1 = IZR m) by (rewrite plus_IZR; lra).
    assert (Hdn : d <> B754_nan) by (intros ->; discriminate).
    assert (Hcd : is_finite (clip_delay K d m) = true /\ B2R (clip_delay K d m) = B2R d).
    { destruct (fl_gen _ _ _ _ _ HF) as [cast ->].
      destruct (clip_f32 cast d m ltac:(unfold two64; lia) Hdn) as [A B]. split; [exact A|]. rewrite B.
      rewrite RN32_small by lia. rewrite clip32_finite by exact Hf. unfold clipR.
      rewrite Rmin_left, Rmax_right by lra. reflexivity. }
    destruct Hcd as [Cf Cv].
    assert (Hcn : clip_delay K d m <> B754_nan) by (intros E; rewrite E in Cf; discriminate).
    destruct (fl_ctl K O val fin rnd HF (m + 1) 0 (clip_delay K d m) Hlen ltac:(lia) Hcn)
      as [dt [a [E [Df [Dv [Af Av]]]]]].
    rewrite EM, clip32_finite, Cv in E, Dv, Av by exact Cf.
    replace (clipR (B2R d) (IZR m)) with (B2R d) in E, Dv, Av
      by (unfold clipR; rewrite Rmin_left, Rmax_right by lra; reflexivity).
    assert (Hc' : 0 <= B2R d <= IZR (m + 1) - 1) by (rewrite EM; exact Hd).
    assert (Hr := read32_range (m + 1) 0 (B2R d) Hlen ltac:(lia) Hc').
    destruct (new_ctl K O p Hsize d m dt _ a Hm0 ltac:(lia) E Hr)
      as [s0 [En [Hi [HL [Hh [Hno [Hdl [Hlg [Hal [Hom _]]]]]]]]]].
    destruct (new_stream K O p Hsize d m s0 x n En Hi Hm0 HL eq_refl Hh Hno) as [s' Es].
    rewrite Hlg, lag_of_lag32 in Es by (lia || assumption).
    destruct (weights_fin K O val fin rnd HF (m + 1) 0 _ dt _ a Hlen ltac:(lia) E Df) as [Fo Vo].
    destruct (ctl_clip K O val fin rnd HF (m + 1) 0 _ dt _ a Hlen ltac:(lia) E Df) as [_ [_ [Fa Va]]].
    rewrite Dv in Va.
    exists s', (ld_alpha s0), (ld_om_alpha s0). split; [exact Es|].
    split.
    { unfold L. rewrite <- lag_of_lag32 by (lia || assumption). unfold lag_of.
      destruct (Z.leb_spec (read32 (m + 1) 0 (B2R d)) 0); lia. }
    rewrite Hal, Hom. auto.
  Qed.
End Line.

(** Linear interpolation is Lipschitz in the delay. *)
Lemma interp_lipschitz (X : Z -> R) (M d e wn : R) (L : Z) :
  (forall k, Rabs (X k) <= M) -> (Zfloor d <= L <= Zceil d)%Z -> 0 <= wn ->
  Rabs (IZR L - wn - d) <= e ->
  Rabs ((1 - wn) * X L + wn * X (L - 1)%Z
        - ((1 - (d - IZR (Zfloor d))) * X (Zfloor d) + (d - IZR (Zfloor d)) * X (Zfloor d + 1)%Z)) <= 2 * M * e.
Proof.
  intros HX HL Hwn He. set (k := Zfloor d) in *. set (f := d - IZR k).
  assert (Hf0 : 0 <= f) by (unfold f, k; assert (H := Zfloor_lb d); lra).
  assert (HM : 0 <= M) by (eapply Rle_trans; [apply Rabs_pos|apply (HX 0%Z)]).
  assert (HD : forall i j, Rabs (X i - X j) <= 2 * M).
  { intros i j. assert (A := HX i). assert (B := HX j). apply Rabs_le_inv in A. apply Rabs_le_inv in B. apply Rabs_le. lra. }
  assert (Hc : L = k \/ L = (k + 1)%Z).
  { assert (Zceil d <= k + 1)%Z.
    { apply Zceil_glb. rewrite plus_IZR. unfold k. assert (H := Zfloor_ub d). lra. }
    lia. }
  destruct Hc as [-> | ->].
  - assert (Hw : Rabs (wn + f) <= e).
    { rewrite <- Rabs_Ropp. replace (- (wn + f)) with (IZR k - wn - d) by (unfold f; ring). exact He. }
    rewrite Rabs_pos_eq in Hw by lra.
    replace ((1 - wn) * X k + wn * X (k - 1)%Z - ((1 - f) * X k + f * X (k + 1)%Z))
      with (wn * (X (k - 1)%Z - X k) + f * (X k - X (k + 1)%Z)) by ring.
    eapply Rle_trans; [apply Rabs_triang|]. rewrite !Rabs_mult, (Rabs_pos_eq wn), (Rabs_pos_eq f) by assumption.
    assert (A := Rmult_le_compat_l wn _ _ Hwn (HD (k - 1)%Z k)).
    assert (B := Rmult_le_compat_l f _ _ Hf0 (HD k (k + 1)%Z)).
    assert (C := Rmult_le_compat_r (2 * M) _ _ ltac:(lra) Hw). lra.
  - replace (k + 1 - 1)%Z with k by lia.
    replace ((1 - wn) * X (k + 1)%Z + wn * X k - ((1 - f) * X k + f * X (k + 1)%Z))
      with ((IZR (k + 1) - wn - d) * (X (k + 1)%Z - X k)) by (rewrite plus_IZR; unfold f; ring).
    rewrite Rabs_mult. rewrite Rmult_comm. apply Rmult_le_compat; try apply Rabs_pos; auto.
Qed.

Section Blend.
  Context (prec emax : Z) {Hp : Prec_gt_0 prec} {Hm : Prec_lt_emax prec emax}.
  Hypothesis Hprec : (24 <= prec)%Z.
  Hypothesis Hemax : (128 <= emax)%Z.
  Notation F := (binary_float prec emax).
  Notation fexp := (SpecFloat.fexp prec emax).
  Notation RN := (round radix2 fexp (round_mode mode_NE)).
  Notation u := (uro prec).
  Notation et := (eta prec emax).

  Lemma u_le : u <= bpow radix2 (-24).
  Proof. apply bpow_le. lia. Qed.
  Lemma et_le : et <= bpow radix2 (-150).
  Proof. unfold eta, uro. rewrite <- bpow_plus. apply bpow_le. lia. Qed.

  Lemma blend_acc (a b wo wn : F) M :
    is_finite a = true -> is_finite b = true -> is_finite wo = true -> is_finite wn = true ->
    Rabs (B2R a) <= M -> Rabs (B2R b) <= M -> M <= bpow radix2 126 ->
    0 <= B2R wn <= 1 -> B2R wo = RN (1 - B2R wn) ->
    let y := f_add prec emax (f_mul prec emax a wo) (f_mul prec emax b wn) in
    is_finite y = true
    /\ Rabs (B2R y - ((1 - B2R wn) * B2R a + B2R wn * B2R b)) <= bpow radix2 (-22) * M + bpow radix2 (-148).
  Proof.
    intros Fa Fb Fo Fn Ha Hb HM Hn Ho y.
    assert (Hu0 := uro_pos prec). assert (Hu := u_le). assert (He0 := eta_pos prec emax). assert (He := et_le).
    assert (HM0 : 0 <= M) by (eapply Rle_trans; [apply Rabs_pos|exact Ha]).
    assert (E24 : bpow radix2 (-24) <= / 1000) by (cbn; lra).
    assert (E22 : bpow radix2 (-22) = 4 * bpow radix2 (-24)) by (cbn; lra).
    assert (E148 : bpow radix2 (-148) = 4 * bpow radix2 (-150)).
    { change (-148)%Z with (2 + -150)%Z. rewrite bpow_plus. reflexivity. }
    set (w := B2R wn) in *.
    assert (Hv : 0 <= B2R wo <= 1).
    { rewrite Ho. split.
      - rewrite <- (RN_0 prec emax). apply (RN_le prec emax). lra.
      - apply Rle_trans with (RN 1); [apply (RN_le prec emax); lra|]. apply Req_le. apply (RN_id prec emax 1).
        apply (format_IZR prec emax 1). rewrite Z.abs_eq by lia. assert (0 < 2 ^ prec)%Z by (apply Z.pow_pos_nonneg; lia). lia. }
    assert (Ev : Rabs (B2R wo - (1 - w)) <= u * (1 - w)).
    { rewrite Ho. rewrite <- (Rabs_pos_eq (1 - w)) at 3 by lra.
      replace (1 - w) with (1 + - w) by ring.
      apply (RN_err_format prec emax).
      - apply (format_IZR prec emax 1). rewrite Z.abs_eq by lia. assert (0 < 2 ^ prec)%Z by (apply Z.pow_pos_nonneg; lia). lia.
      - apply generic_format_opp. apply generic_format_B2R. }
    set (v := B2R wo) in *.
    assert (FB : generic_format radix2 fexp (bpow radix2 127)).
    { apply (format_bpow prec emax). unfold SpecFloat.emin. lia. }
    assert (LB : bpow radix2 127 < bpow radix2 emax) by (apply bpow_lt; lia).
    assert (E127 : bpow radix2 127 = 2 * bpow radix2 126).
    { change 127%Z with (1 + 126)%Z. rewrite bpow_plus. reflexivity. }
    assert (Hav : Rabs (B2R a * v) <= M * v).
    { rewrite Rabs_mult, (Rabs_pos_eq v) by lra. apply Rmult_le_compat_r; lra. }
    assert (Hbw : Rabs (B2R b * w) <= M * w).
    { rewrite Rabs_mult, (Rabs_pos_eq w) by lra. apply Rmult_le_compat_r; lra. }
    assert (HMv : M * v <= M) by (rewrite <- (Rmult_1_r M) at 2; apply Rmult_le_compat_l; lra).
    assert (HMw : M * w <= M) by (rewrite <- (Rmult_1_r M) at 2; apply Rmult_le_compat_l; lra).
    destruct (mul_ok prec emax a wo (bpow radix2 127) Fa Fo FB LB) as [P1 P2]; [fold v; lra|].
    destruct (mul_ok prec emax b wn (bpow radix2 127) Fb Fn FB LB) as [Q1 Q2]; [fold w; lra|].
    fold v in P2. fold w in Q2.
    assert (Ep := RN_err prec emax (B2R a * v)). assert (Eq := RN_err prec emax (B2R b * w)).
    rewrite <- P2 in Ep. rewrite <- Q2 in Eq.
    set (P := B2R (f_mul prec emax a wo)) in *. set (Q := B2R (f_mul prec emax b wn)) in *.
    assert (Ep' : Rabs (P - B2R a * v) <= u * (M * v) + et).
    { eapply Rle_trans; [exact Ep|]. apply Rplus_le_compat_r. apply Rmult_le_compat_l; lra. }
    assert (Eq' : Rabs (Q - B2R b * w) <= u * (M * w) + et).
    { eapply Rle_trans; [exact Eq|]. apply Rplus_le_compat_r. apply Rmult_le_compat_l; lra. }
    assert (Hvw : v + w <= 1 + u) .
    { apply Rabs_le_inv in Ev. assert (u * (1 - w) <= u * 1) by (apply Rmult_le_compat_l; lra). lra. }
    assert (HS : M * v + M * w <= M * (1 + u)) by (rewrite <- Rmult_plus_distr_l; apply Rmult_le_compat_l; lra).
    assert (HuM : u * (M * v) + u * (M * w) <= u * (M * (1 + u))) by (rewrite <- Rmult_plus_distr_l; apply Rmult_le_compat_l; lra).
    assert (HMu : M * u <= M * / 1000) by (apply Rmult_le_compat_l; lra).
    assert (Huu : u * (M * (1 + u)) <= M * u * (1001 / 1000)).
    { replace (u * (M * (1 + u))) with (M * u * (1 + u)) by ring. apply Rmult_le_compat_l; [apply Rmult_le_pos; lra|lra]. }
    assert (HPQ : Rabs (P + Q) <= M * (1003 / 1000) + 2 * et).
    { apply Rabs_le_inv in Ep'. apply Rabs_le_inv in Eq'. apply Rabs_le_inv in Hav. apply Rabs_le_inv in Hbw.
      apply Rabs_le. lra. }
    assert (Het1 : 2 * et <= / 1000 * bpow radix2 126).
    { assert (bpow radix2 (-150) <= bpow radix2 (-24)) by (apply bpow_le; lia).
      assert (1 <= bpow radix2 126) by (change 1 with (bpow radix2 0); apply bpow_le; lia).
      assert (bpow radix2 (-24) <= / 2000) by (cbn; lra). lra. }
    destruct (add_ok prec emax _ _ (bpow radix2 127) P1 Q1 FB LB) as [Y1 Y2]; [fold P; fold Q; lra|].
    fold P in Y2. fold Q in Y2. fold y in Y1, Y2.
    split; [exact Y1|].
    assert (Ey := RN_err_format prec emax P Q (generic_format_B2R _ _ _) (generic_format_B2R _ _ _)).
    rewrite <- Y2 in Ey.
    assert (Ey' : Rabs (B2R y - (P + Q)) <= M * u * (1003 / 1000) + et).
    { eapply Rle_trans; [exact Ey|].
      apply Rle_trans with (u * (M * (1003 / 1000) + 2 * et)); [apply Rmult_le_compat_l; lra|].
      assert (u * et <= / 2 * et) by (apply Rmult_le_compat_r; lra). lra. }
    assert (Eav : Rabs (B2R a * v - B2R a * (1 - w)) <= M * u).
    { rewrite <- Rmult_minus_distr_l, Rabs_mult. apply Rmult_le_compat; try apply Rabs_pos; auto.
      eapply Rle_trans; [exact Ev|]. rewrite <- (Rmult_1_r u) at 2. apply Rmult_le_compat_l; lra. }
    assert (HfM : M * u * (1 + 1001 / 1000 + 1003 / 1000) <= bpow radix2 (-22) * M).
    { rewrite E22. replace (4 * bpow radix2 (-24) * M) with (M * bpow radix2 (-24) * 4) by ring.
      apply Rmult_le_compat; try lra. apply Rmult_le_pos; lra. apply Rmult_le_compat_l; lra. }
    apply Rabs_le_inv in Ey'. apply Rabs_le_inv in Eav. apply Rabs_le_inv in Ep'. apply Rabs_le_inv in Eq'.
    apply Rabs_le. lra.
  Qed.
End Blend.

Lemma line_blend {T} K O val fin rnd : @float_line T K O val fin rnd ->
  forall a b wo wn M, fin a = true -> fin b = true -> fin wo = true -> fin wn = true ->
    Rabs (val a) <= M -> Rabs (val b) <= M -> M <= bpow radix2 126 ->
    0 <= val wn <= 1 -> val wo = rnd (1 - val wn) ->
    fin (n_add O (n_mul O a wo) (n_mul O b wn)) = true
    /\ Rabs (val (n_add O (n_mul O a wo) (n_mul O b wn)) - ((1 - val wn) * val a + val wn * val b))
       <= bpow radix2 (-22) * M + bpow radix2 (-148).
Proof.
  intros H. destruct H as [lm b0|lm b0]; intros a b wo wn M;
    [apply (blend_acc 24 128)|apply (blend_acc 53 1024)]; lia.
Qed.

(** Where a new line with a delay of at least [(m + 1) * 2^-23] reads. *)
Lemma new_lag m c : (0 <= m)%Z -> (m + 1 <= 2 ^ 24)%Z -> generic_format radix2 fexp32 c ->
  IZR (m + 1) * bpow radix2 (-23) <= c <= IZR m ->
  let q := pos32 (m + 1) 0 c in
  q < IZR (m + 1) /\ (1 <= lag32 (m + 1) 0 c)%Z
  /\ 0 <= q - IZR (read32 (m + 1) 0 c) <= 1
  /\ Rabs (IZR (lag32 (m + 1) 0 c) - (q - IZR (read32 (m + 1) 0 c)) - c) <= IZR (m + 1) * bpow radix2 (-23)
  /\ (Zfloor c <= lag32 (m + 1) 0 c <= Zceil c)%Z.
Proof.
  intros Hm0 Hm Hc Hr q.
  assert (Hl1 : 1 <= IZR (m + 1)) by (apply IZR_le; lia).
  assert (EM : IZR (m + 1) - 1 = IZR m) by (rewrite plus_IZR; lra).
  assert (Hpos : 0 < IZR (m + 1) * bpow radix2 (-23)) by (apply Rmult_lt_0_compat; [lra|apply bpow_gt_0]).
  assert (Est : RN32 (IZR 0 - c) = - c).
  { rewrite Rminus_0_l. apply (RN_id 24 128). apply generic_format_opp. exact Hc. }
  assert (Eq : q = RN32 (IZR (m + 1) - c)).
  { unfold q, pos32. rewrite Est, Rlt_bool_true by lra. f_equal. ring. }
  assert (Hq1 : 1 <= q).
  { rewrite Eq. rewrite <- (RN32_small 1) at 1 by lia. apply (RN_le 24 128). lra. }
  assert (H24 : bpow radix2 (-23) = 2 * bpow radix2 (-24)) by (cbn; lra).
  assert (Hq : q < IZR (m + 1)).
  { rewrite Eq. set (z := IZR (m + 1) - c).
    assert (Hz : 1 <= z <= IZR (m + 1)) by (unfold z; lra).
    assert (E : Rabs (RN32 z - z) <= IZR (m + 1) * bpow radix2 (-24)).
    { apply Rle_trans with (/ 2 * ulp radix2 fexp32 z).
      - apply error_le_half_ulp. apply (fexp_correct 24 128 Hprec32).
      - assert (U : ulp radix2 fexp32 z <= Rabs z * bpow radix2 (1 - 24)).
        { apply (ulp_FLT_le radix2 (-149) 24). rewrite Rabs_pos_eq by lra.
          apply Rle_trans with (bpow radix2 0); [apply bpow_le; lia|]. exact (proj1 Hz). }
        change (1 - 24)%Z with (-23)%Z in U. rewrite (Rabs_pos_eq z), H24 in U by lra.
        assert (z * (2 * bpow radix2 (-24)) <= IZR (m + 1) * (2 * bpow radix2 (-24))).
        { apply Rmult_le_compat_r; [|lra]. assert (H := bpow_ge_0 radix2 (-24)). lra. }
        lra. }
    apply Rabs_le_inv in E. rewrite H24 in Hr. unfold z in *.
    assert (0 < IZR (m + 1) * bpow radix2 (-24)) by (apply Rmult_lt_0_compat; [lra|apply bpow_gt_0]). lra. }
  assert (Hc' : 0 <= c <= IZR (m + 1) - 1) by lra.
  destruct (alpha_range (m + 1) 0 c ltac:(lia) ltac:(lia) Hc') as [A1 _]. destruct (A1 Hq) as [A2 A3].
  destruct (realised_delay (m + 1) 0 c ltac:(lia) ltac:(lia) Hc') as [R1 R2]. specialize (R2 Hq).
  fold q in A2, A3, R2. rewrite <- A3 in R2.
  split; [exact Hq|]. split.
  - rewrite <- lag_of_lag32 by (lia || assumption). rewrite A3. unfold lag_of.
    assert (1 <= Zfloor q)%Z by (apply Zfloor_lub; exact Hq1).
    assert (Zfloor q < m + 1)%Z by (apply lt_IZR; apply Rle_lt_trans with (2 := Hq); apply Zfloor_lb).
    destruct (Z.leb_spec (Zfloor q) 0); lia.
  - split; [lra|]. split; [exact R2|exact R1].
Qed.

(** C96: [LinearDelay::new(d, m)] for [f32] or [f64] samples, on any stream of
    finite samples of size at most [M] and for a delay [d] = k + f between
    (m + 1) * 2^-23 and [m] (or exactly 0): [process] never fails, every output is
    finite, and it differs from the ideal interpolation
    (1 - f) x[i - k] + f x[i - k - 1] by at most (m + 2) * 2^-22 * M (plus the
    rounding of the very smallest numbers): the error grows with the length of the
    line, not with time. *)
Lemma C96_tracks_ideal_thm :
  forall (T : Type) (K : ctl_ops f32 T) (O : num_ops T) (val : T -> R) (fin : T -> bool) (rnd : R -> R)
         (p : profile) (d : f32) (m : Z) (x : nat -> T) (M : R) (n : nat),
    float_line K O val fin rnd ->
    (0 <= m)%Z -> short (2 ^ 24) m -> is_finite d = true ->
    B2R d = 0 \/ IZR (m + 1) * bpow radix2 (-23) <= B2R d <= IZR m ->
    (forall i, fin (x i) = true /\ Rabs (val (x i)) <= M) -> M <= bpow radix2 126 ->
    let k := Z.to_nat (Zfloor (B2R d)) in
    let f := B2R d - IZR (Zfloor (B2R d)) in
    let X i := val (x i) in
    exists s y, lin_session K O p d m (map (fun i => DProcess (x i)) (seq 0 n))
        = Ok (s, map OSample (map y (seq 0 n)))
      /\ forall i, (i < n)%nat -> fin (y i) = true
         /\ Rabs (val (y i) - ((1 - f) * behind 0 X k i + f * behind 0 X (S k) i))
            <= IZR (m + 2) * bpow radix2 (-22) * M + bpow radix2 (-148).
Proof.
  intros T K O val fin rnd p d m x M n HFL Hm0 Hm Hf Hd Hx HM k f X. unfold short in Hm.
  assert (HF := float_line_fline _ _ _ _ _ HFL). destruct (fl_zero _ _ _ _ _ HF) as [Zf Zv].
  assert (Hdr : 0 <= B2R d <= IZR m).
  { assert (0 <= IZR m) by (apply IZR_le; lia).
    assert (0 <= IZR (m + 1) * bpow radix2 (-23)) by (apply Rmult_le_pos; [apply IZR_le; lia|apply bpow_ge_0]).
    destruct Hd as [-> | Hd]; lra. }
  assert (HM0 : 0 <= M) by (eapply Rle_trans; [apply Rabs_pos|apply (Hx 0%nat)]).
  assert (HE : 0 <= IZR (m + 2) * bpow radix2 (-22) * M + bpow radix2 (-148)).
  { apply Rplus_le_le_0_compat; [|apply bpow_ge_0]. apply Rmult_le_pos; [|exact HM0].
    apply Rmult_le_pos; [apply IZR_le; lia|apply bpow_ge_0]. }
  destruct (float_stream K O val fin rnd HF p d m x n Hm0 Hm Hf Hdr) as [s [wn [wo [Es [HL [Fn [Vn [Fo Vo]]]]]]]].
  set (L := lag32 (m + 1) 0 (B2R d)) in *.
  exists s, (stream_out O (Z.to_nat m) (Z.to_nat L) wn wo x). split; [exact Es|].
  intros i Hi. unfold stream_out.
  assert (HB : forall j, fin (behind (n_zero O) x j i) = true /\ Rabs (val (behind (n_zero O) x j i)) <= M).
  { intros j. apply (behind_fin (fun v => fin v = true /\ Rabs (val v) <= M)); [|exact Hx].
    split; [exact Zf|]. rewrite Zv, Rabs_R0. exact HM0. }
  destruct Hd as [Hd|Hd].
  - (* delay 0 *)
    assert (EL : L = 0%Z /\ val wn = 0).
    { assert (Ep : pos32 (m + 1) 0 0 = 0).
      { unfold pos32. rewrite Rminus_0_r, (RN32_small 0) by lia. rewrite Rlt_bool_false by lra. reflexivity. }
      assert (Er : read32 (m + 1) 0 0 = 0%Z).
      { unfold read32. rewrite Ep, (Zfloor_IZR 0). destruct (Z.eqb_spec 0 (m + 1)); lia. }
      split.
      - unfold L. rewrite Hd. unfold lag32. rewrite Er. apply Z.mod_small. lia.
      - rewrite Vn, Hd, Ep, Er. lra. }
    destruct EL as [-> E0]. change (Z.to_nat 0) with 0%nat. cbn iota.
    assert (E1 : val wo = 1).
    { rewrite Vo, E0, Rminus_0_r. apply (fl_int _ _ _ _ _ HF 1). lia. }
    destruct (fl_blend0 _ _ _ _ _ HF (behind (n_zero O) x 0 i) (behind (n_zero O) x (Z.to_nat m) i) wo wn) as [B1 B2];
      try apply HB; auto.
    split; [exact B1|]. rewrite B2, (behind_val val) by exact Zv. fold X.
    assert (Ef : f = 0) by (unfold f; rewrite Hd, (Zfloor_IZR 0); lra).
    assert (Ek : k = 0%nat) by (unfold k; rewrite Hd, (Zfloor_IZR 0); reflexivity).
    rewrite Ef, Ek. match goal with |- Rabs ?e <= _ => replace e with 0 by ring end. rewrite Rabs_R0. exact HE.
  - destruct (new_lag m (B2R d) Hm0 Hm (generic_format_B2R _ _ _) Hd) as [Hq [HL1 [Hw [He HLr]]]].
    fold L in HL1, He, HLr. rewrite <- Vn in Hw, He.
    destruct (Z.to_nat L) as [|t] eqn:Et; [lia|].
    destruct (line_blend K O val fin rnd HFL (behind (n_zero O) x (S t) i) (behind (n_zero O) x t i) wo wn M) as [B1 B2];
      try apply HB; auto.
    split; [exact B1|]. rewrite !(behind_val val) in B2 by exact Zv. fold X in B2.
    set (XX := fun j : Z => behind 0 X (Z.to_nat j) i).
    assert (HXX : forall j, Rabs (XX j) <= M).
    { intros j. unfold XX, X. rewrite <- (behind_val val (n_zero O)) by exact Zv. apply HB. }
    assert (G := interp_lipschitz XX M (B2R d) (IZR (m + 1) * bpow radix2 (-23)) (val wn) L HXX HLr (proj1 Hw) He).
    assert (Hk0 : (0 <= Zfloor (B2R d))%Z) by (apply Zfloor_lub; lra).
    unfold XX in G. rewrite Et in G. replace (Z.to_nat (L - 1)) with t in G by lia.
    replace (Z.to_nat (Zfloor (B2R d) + 1)) with (S k) in G by (unfold k; lia).
    fold k in G. fold f in G.
    replace (IZR (m + 2)) with (IZR (m + 1) + 1) by (rewrite !plus_IZR; ring).
    replace (bpow radix2 (-22)) with (2 * bpow radix2 (-23)) in * by (cbn; lra).
    match goal with |- Rabs (?y - ?z) <= _ => match type of B2 with Rabs (_ - ?w) <= _ =>
      replace (y - z) with ((y - w) + (w - z)) by ring end end.
    eapply Rle_trans; [apply Rabs_triang|]. eapply Rle_trans; [apply Rplus_le_compat; [exact B2|exact G]|]. lra.
Qed.
(*@PROP
(* LinearDelay::new(2.5, 7) on a stream of full-scale samples *)
Example C96_tracks_ideal_hyps :
  short (2 ^ 24) 7 /\ is_finite (fl32 5 (-1)) = true
  /\ IZR (7 + 1) * bpow radix2 (-23) <= B2R (fl32 5 (-1)) <= IZR 7
  /\ is_finite (fl32 1 0) = true /\ Rabs (B2R (fl32 1 0)) <= 1 /\ 1 <= bpow radix2 126.
Proof.
  split; [unfold short; lia|]. split; [reflexivity|].
  replace (B2R (fl32 5 (-1))) with (5 / 2) by (cbn; unfold F2R; cbn; lra).
  replace (B2R (fl32 1 0)) with 1 by (cbn; unfold F2R; cbn; lra).
  split; [cbn; lra|]. split; [reflexivity|]. split; [rewrite Rabs_R1; lra|].
  change 1 with (bpow radix2 0). apply bpow_le. lia.
Qed.
@*)

(** C96: what one bad sample can spoil.  For a delay of at least (m + 1) * 2^-23,
    output [i] depends only on the inputs from [i - ceil d] to [i - floor d + 1]:
    two streams, of any bits whatever, that agree there give the same output bits.
    A NaN or an infinity at time [j] is therefore gone for good after output
    [j + ceil d]. *)
Lemma C96_contained_thm :
  forall (T : Type) (K : ctl_ops f32 T) (O : num_ops T) (val : T -> R) (fin : T -> bool) (rnd : R -> R)
         (p : profile) (d : f32) (m : Z) (x x' : nat -> T) (n : nat),
    float_line K O val fin rnd ->
    (0 <= m)%Z -> short (2 ^ 24) m -> is_finite d = true ->
    IZR (m + 1) * bpow radix2 (-23) <= B2R d <= IZR m ->
    exists s y s' y',
      lin_session K O p d m (map (fun i => DProcess (x i)) (seq 0 n)) = Ok (s, map OSample (map y (seq 0 n)))
      /\ lin_session K O p d m (map (fun i => DProcess (x' i)) (seq 0 n)) = Ok (s', map OSample (map y' (seq 0 n)))
      /\ forall i, (i < n)%nat ->
           (forall j, (j <= i)%nat ->
              (Z.of_nat i - Zceil (B2R d) <= Z.of_nat j <= Z.of_nat i - Zfloor (B2R d) + 1)%Z -> x j = x' j) ->
           y i = y' i.
Proof.
  intros T K O val fin rnd p d m x x' n HFL Hm0 Hm Hf Hd. unfold short in Hm.
  assert (HF := float_line_fline _ _ _ _ _ HFL).
  assert (Hdr : 0 <= B2R d <= IZR m).
  { assert (0 <= IZR (m + 1) * bpow radix2 (-23)) by (apply Rmult_le_pos; [apply IZR_le; lia|apply bpow_ge_0]). lra. }
  destruct (new_lag m (B2R d) Hm0 Hm (generic_format_B2R _ _ _) Hd) as [Hq [HL1 [Hw [He HLr]]]].
  (* the weights are those of the same constructor call: read them off the empty prefix *)
  assert (Hsize := fl_size _ _ _ _ _ HF). assert (Hfits := fl_fits _ _ _ _ _ HF).
  assert (HS : exists wn wo, forall x, exists s,
    lin_session K O p d m (map (fun i => DProcess (x i)) (seq 0 n))
      = Ok (s, map OSample (map (stream_out O (Z.to_nat m) (Z.to_nat (lag32 (m + 1) 0 (B2R d))) wn wo x) (seq 0 n)))).
  { assert (Hlen : (1 <= m + 1 <= 2 ^ 24)%Z) by lia.
    assert (EM : IZR (m + 1) - 1 = IZR m) by (rewrite plus_IZR; lra).
    assert (Hdn : d <> B754_nan) by (intros ->; discriminate).
    assert (Hcd : is_finite (clip_delay K d m) = true /\ B2R (clip_delay K d m) = B2R d).
    { destruct (fl_gen _ _ _ _ _ HF) as [cast ->].
      destruct (clip_f32 cast d m ltac:(unfold two64; lia) Hdn) as [A B]. split; [exact A|]. rewrite B.
      rewrite RN32_small by lia. rewrite clip32_finite by exact Hf. unfold clipR.
      rewrite Rmin_left, Rmax_right by lra. reflexivity. }
    destruct Hcd as [Cf Cv].
    assert (Hcn : clip_delay K d m <> B754_nan) by (intros E; rewrite E in Cf; discriminate).
    destruct (fl_ctl K O val fin rnd HF (m + 1) 0 (clip_delay K d m) Hlen ltac:(lia) Hcn)
      as [dt [a [E [Df [Dv [Af Av]]]]]].
    rewrite EM, clip32_finite, Cv in E by exact Cf.
    replace (clipR (B2R d) (IZR m)) with (B2R d) in E
      by (unfold clipR; rewrite Rmin_left, Rmax_right by lra; reflexivity).
    assert (Hc' : 0 <= B2R d <= IZR (m + 1) - 1) by (rewrite EM; exact Hdr).
    assert (Hr := read32_range (m + 1) 0 (B2R d) Hlen ltac:(lia) Hc').
    destruct (new_ctl K O p Hsize d m dt _ a Hm0 ltac:(lia) E Hr)
      as [s0 [En [Hi [HL [Hh [Hno [Hdl [Hlg [Hal [Hom _]]]]]]]]]].
    exists (ld_alpha s0), (ld_om_alpha s0). intros z.
    destruct (new_stream K O p Hsize d m s0 z n En Hi Hm0 HL eq_refl Hh Hno) as [s' Es].
    rewrite Hlg, lag_of_lag32 in Es by (lia || assumption). exists s'. exact Es. }
  destruct HS as [wn [wo HS]]. destruct (HS x) as [s Es]. destruct (HS x') as [s' Es'].
  exists s, (stream_out O (Z.to_nat m) (Z.to_nat (lag32 (m + 1) 0 (B2R d))) wn wo x),
    s', (stream_out O (Z.to_nat m) (Z.to_nat (lag32 (m + 1) 0 (B2R d))) wn wo x').
  split; [exact Es|]. split; [exact Es'|].
  intros i Hi Hag. unfold stream_out. set (L := lag32 (m + 1) 0 (B2R d)) in *.
  destruct (Z.to_nat L) as [|t] eqn:Et; [lia|].
  assert (Hc1 : (Zceil (B2R d) <= Zfloor (B2R d) + 1)%Z).
  { apply Zceil_glb. rewrite plus_IZR. assert (H := Zfloor_ub (B2R d)). lra. }
  assert (B : forall j, (j = S t \/ j = t) -> behind (n_zero O) x j i = behind (n_zero O) x' j i).
  { intros j Hj. unfold behind. destruct (Nat.leb_spec j i); [|reflexivity]. apply Hag; lia. }
  rewrite (B (S t)), (B t) by auto. reflexivity.
Qed.
(*@PROP
Example C96_contained_hyps :
  short (2 ^ 24) 7 /\ is_finite (fl32 5 (-1)) = true
  /\ IZR (7 + 1) * bpow radix2 (-23) <= B2R (fl32 5 (-1)) <= IZR 7.
Proof.
  split; [unfold short; lia|]. split; [reflexivity|].
  replace (B2R (fl32 5 (-1))) with (5 / 2) by (cbn; unfold F2R; cbn; lra). cbn; lra.
Qed.
@*)

(** C96, refuted for a delay of exactly 0: the line then multiplies the sample
    [m] steps back by a zero weight, so an infinity or NaN that went through turns
    output [j + m] into NaN although the current sample is fine (with a
    delay of 0 the output ought to be the current sample). *)
Lemma C96_zero_delay_ghost_refuted_thm :
  forall (T : Type) (K : ctl_ops f32 T) (O : num_ops T) (val : T -> R) (fin : T -> bool) (rnd : R -> R)
         (p : profile) (d : f32) (m : Z) (x : nat -> T) (j : nat) (n : nat),
    float_line K O val fin rnd ->
    (0 <= m)%Z -> short (2 ^ 24) m -> is_finite d = true -> B2R d = 0 ->
    fin (x j) = false ->
    exists s y, lin_session K O p d m (map (fun i => DProcess (x i)) (seq 0 n))
        = Ok (s, map OSample (map y (seq 0 n)))
      /\ ((j + Z.to_nat m < n)%nat -> fin (y (j + Z.to_nat m)%nat) = false).
Proof.
  intros T K O val fin rnd p d m x j n HFL Hm0 Hm Hf Hd Hbad. unfold short in Hm.
  assert (HF := float_line_fline _ _ _ _ _ HFL).
  assert (Hdr : 0 <= B2R d <= IZR m) by (rewrite Hd; split; [lra|apply IZR_le; lia]).
  destruct (float_stream K O val fin rnd HF p d m x n Hm0 Hm Hf Hdr) as [s [wn [wo [Es [HL [Fn [Vn [Fo Vo]]]]]]]].
  set (L := lag32 (m + 1) 0 (B2R d)) in *.
  assert (Ep : pos32 (m + 1) 0 0 = 0).
  { unfold pos32. rewrite Rminus_0_r, (RN32_small 0) by lia. rewrite Rlt_bool_false by lra. reflexivity. }
  assert (Er : read32 (m + 1) 0 0 = 0%Z).
  { unfold read32. rewrite Ep, (Zfloor_IZR 0). destruct (Z.eqb_spec 0 (m + 1)); lia. }
  assert (EL : L = 0%Z) by (unfold L; rewrite Hd; unfold lag32; rewrite Er; apply Z.mod_small; lia).
  assert (E0 : val wn = 0) by (rewrite Vn, Hd, Ep, Er; lra).
  exists s, (stream_out O (Z.to_nat m) (Z.to_nat L) wn wo x). split; [exact Es|].
  intros _. rewrite EL. unfold stream_out. change (Z.to_nat 0) with 0%nat. cbn iota.
  replace (behind (n_zero O) x (Z.to_nat m) (j + Z.to_nat m)) with (x j).
  2: { unfold behind. rewrite (proj2 (Nat.leb_le _ _)) by lia. f_equal. lia. }
  clear - HFL Hbad Fn E0.
  destruct HFL as [lm b|lm b].
  - destruct (finite_zero 24 128 wn Fn E0) as [sg ->]. destruct (x j) as [?|?| |? ? ? ?]; try discriminate;
      cbn [n_add n_mul f32_ops ieee_ops]; rewrite ?(mul_nan 24 128), ?(add_nan 24 128); try reflexivity;
      change (f_mul 24 128 (B754_infinity s) (B754_zero sg)) with (@B754_nan 24 128); rewrite (add_nan 24 128); reflexivity.
  - destruct (finite_zero 53 1024 wn Fn E0) as [sg ->]. destruct (x j) as [?|?| |? ? ? ?]; try discriminate;
      cbn [n_add n_mul f64_ops ieee_ops]; rewrite ?(mul_nan 53 1024), ?(add_nan 53 1024); try reflexivity;
      change (f_mul 53 1024 (B754_infinity s) (B754_zero sg)) with (@B754_nan 53 1024); rewrite (add_nan 53 1024); reflexivity.
Qed.
(*@PROP
Example C96_zero_delay_ghost_refuted_hyps :
  short (2 ^ 24) 7 /\ is_finite (fl32 0 0) = true /\ B2R (fl32 0 0) = 0
  /\ is_finite (B754_infinity false : f32) = false.
Proof. repeat split; try reflexivity. unfold short; lia. Qed.
@*)
