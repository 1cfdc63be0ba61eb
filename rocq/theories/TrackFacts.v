(** Rounding of the smoothing step, and the ideal followers. *)
From Coq Require Import ZArith Reals List Bool Lra Lia Psatz.
From Flocq Require Import Core.Core IEEE754.BinarySingleNaN.
From Verif Require Import Base Num NumF FloatSpec FloatFacts SmoothF WinLemmasF FltFilterFacts RbjFltFacts AnalysisM Device AnaSpec AnaFacts TrackSpec.
Import ListNotations.
Open Scope R_scope.

(** ** The exact step *)
Section Exact.
  Context (ga gr g : R) (Ha : 0 <= ga <= g) (Hr : 0 <= gr <= g) (Hg : g <= 1).
  Definition xstep (e m : R) : R := m + (if Rlt_dec e m then ga else gr) * (e - m).

  Lemma xstep_slope d1 d2 : let f d := if Rlt_dec d 0 then ga * d else gr * d in
    exists s, 0 <= s <= g /\ f d1 - f d2 = s * (d1 - d2).
  Proof.
    intros f. destruct (Req_dec d1 d2) as [->|N]; [exists 0; split; [lra|ring]|].
    exists ((f d1 - f d2) / (d1 - d2)). split; [|field; lra].
    assert (K : 0 <= (f d1 - f d2) * (d1 - d2) <= g * ((d1 - d2) * (d1 - d2))).
    { assert (K0 : forall x y, x <= y -> g * (x - y) <= f x - f y <= 0).
      { clear N. intros x y H. unfold f. destruct (Rlt_dec x 0), (Rlt_dec y 0); split; try nra. }
      destruct (Rle_or_lt d1 d2) as [H|H]; [destruct (K0 d1 d2 H)|destruct (K0 d2 d1); [lra|]]; split; nra. }
    assert (P : 0 < (d1 - d2) * (d1 - d2)) by (apply Rlt_0_sqr; lra).
    replace ((f d1 - f d2) / (d1 - d2)) with ((f d1 - f d2) * (d1 - d2) / ((d1 - d2) * (d1 - d2))) by (field; lra).
    split; [apply Rmult_le_pos; [lra|left; apply Rinv_0_lt_compat; lra]|].
    apply (Rmult_le_reg_r ((d1 - d2) * (d1 - d2))); [exact P|]. unfold Rdiv. rewrite Rmult_assoc, Rinv_l by lra. lra.
  Qed.

  Lemma xstep_lip e1 m1 e2 m2 : Rabs (xstep e1 m1 - xstep e2 m2) <= g * Rabs (e1 - e2) + Rabs (m1 - m2).
  Proof.
    destruct (xstep_slope (e1 - m1) (e2 - m2)) as [s [Hs E]].
    assert (X : forall e m, xstep e m = m + (if Rlt_dec (e - m) 0 then ga * (e - m) else gr * (e - m))).
    { intros e m. unfold xstep. destruct (Rlt_dec e m), (Rlt_dec (e - m) 0); try lra. }
    replace (xstep e1 m1 - xstep e2 m2) with (s * (e1 - e2) + (1 - s) * (m1 - m2)).
    - eapply Rle_trans; [apply Rabs_triang|]. rewrite !Rabs_mult, (Rabs_pos_eq s), (Rabs_pos_eq (1 - s)) by lra.
      assert (A1 := Rabs_pos (e1 - e2)). assert (A2 := Rabs_pos (m1 - m2)). nra.
    - rewrite !X. cbv beta zeta in E. lra.
  Qed.
  Lemma xstep_range e m M : 0 <= e <= M -> 0 <= m <= M -> 0 <= xstep e m <= M.
  Proof. intros He Hm. unfold xstep. destruct Rlt_dec; split; nra. Qed.
End Exact.

Lemma exp_gap L : 0 < L -> 0 < exp (-1 / L) /\ exp (-1 / L) <= 1 - / (L + 1).
Proof.
  intros HL. split; [apply exp_pos|]. assert (G : 1 + 1 / L <= exp (1 / L)).
  { destruct (Req_dec (1 / L) 0) as [->|N]; [rewrite exp_0; lra|]. left. apply exp_ineq1. exact N. }
  replace (-1 / L) with (- (1 / L)) by (field; lra). rewrite exp_Ropp.
  replace (1 - / (L + 1)) with (/ (1 + 1 / L)) by (field; lra). apply Rinv_le_contravar; [|exact G].
  assert (0 < 1 / L) by (apply Rdiv_lt_0_compat; lra). lra.
Qed.
Lemma exp_mono x y : x <= y -> exp x <= exp y.
Proof. intros [H| ->]; [left; apply exp_increasing, H|right; reflexivity]. Qed.
(** [exp] contracts distances on the negative axis. *)
Lemma exp_lip x y : x <= 0 -> y <= 0 -> Rabs (exp x - exp y) <= Rabs (x - y).
Proof.
  assert (G : forall x y, x <= y -> y <= 0 -> 0 <= exp y - exp x <= y - x).
  { clear. intros x y H Hy. assert (E1 := exp_mono x y H). split; [lra|].
    assert (E2 : exp x = exp y * exp (x - y)) by (rewrite <- exp_plus; f_equal; ring).
    assert (E3 : 1 + (x - y) <= exp (x - y)).
    { destruct (Req_dec (x - y) 0) as [->|N]; [rewrite exp_0; lra|]. left. apply exp_ineq1. exact N. }
    assert (E4 : exp y <= 1) by (rewrite <- exp_0; apply exp_mono, Hy). assert (E5 := exp_pos y). nra. }
  intros Hx Hy. destruct (Rle_or_lt x y) as [H|H].
  - destruct (G x y H Hy). rewrite (Rabs_left1 (exp x - exp y)), (Rabs_left1 (x - y)); lra.
  - destruct (G y x (Rlt_le _ _ H) Hx). rewrite (Rabs_pos_eq (exp x - exp y)), (Rabs_pos_eq (x - y)); lra.
Qed.

(** ** The rounded step *)
Section F.
  Context (prec emax : Z) {Hp : Prec_gt_0 prec} {Hm : Prec_lt_emax prec emax}
    (Hp24 : (24 <= prec)%Z) (Hbig : (prec + 100 <= emax)%Z) (Hm3 : (3 <= emax)%Z).
  Context (pim pie sz : Z) (lm : libm (binary_float prec emax)) (nn : bool).
  Notation F := (binary_float prec emax).
  Notation O := (ieee_ops prec emax pim pie sz lm nn).
  Notation V := (ieee_view prec emax).
  Notation fsmooth := (fsmooth prec emax).
  Notation RN := (round radix2 (SpecFloat.fexp prec emax) (round_mode mode_NE)).
  Notation MAX := ((1 - bpow radix2 (- prec)) * bpow radix2 emax).
  Notation u := (uro prec).
  Notation et := (eta prec emax).

  Lemma add_finite (x y : F) : is_finite x = true -> is_finite y = true -> is_finite (f_add prec emax x y) = true ->
    B2R (f_add prec emax x y) = RN (B2R x + B2R y).
  Proof.
    intros Hx Hy Hs. assert (G := Bplus_correct prec emax Hp Hm mode_NE x y Hx Hy).
    destruct (Rlt_bool _ _) in G; [unfold f_add; tauto|].
    destruct G as [G _]. unfold f_add in Hs. rewrite <- is_finite_SF_B2SF, G in Hs. cbn in Hs. discriminate.
  Qed.

  Lemma smooth_err (a v x : F) D W : is_finite a = true -> 0 <= B2R a < 1 -> is_finite v = true -> is_finite x = true ->
    is_finite (f_sub prec emax v x) = true -> Rabs (B2R v - B2R x) <= D -> Rabs (B2R v) <= W -> Rabs (B2R x) <= W ->
    Rabs (B2R (fsmooth a v x) - (B2R x + B2R a * (B2R v - B2R x))) <= u * (4 * D + W) + 4 * et.
  Proof.
    intros Fa Ha Fv Fx Fs HD HV HX. destruct (smooth_between prec emax Hm3 a v x Fa Ha Fv Fx Fs) as [Fr _].
    assert (Es := sub_finite prec emax v x Fv Fx Fs). unfold SmoothF.fsmooth in *.
    assert (Hbs := abs_le_MAX prec emax (f_sub prec emax v x)).
    assert (Hmul : Rabs (B2R a * B2R (f_sub prec emax v x)) <= MAX).
    { rewrite Rabs_mult, (Rabs_pos_eq (B2R a)) by lra. pose proof (Rabs_pos (B2R (f_sub prec emax v x))). nra. }
    destruct (mul_ok prec emax a (f_sub prec emax v x) MAX Fa Fs (MAX_fmt prec emax Hm3) (MAX_lt prec emax) Hmul) as [Fm Em].
    assert (Er := add_finite x _ Fx Fm Fr).
    set (d := B2R v - B2R x) in *. set (d' := B2R (f_sub prec emax v x)) in *.
    set (t := B2R (f_mul prec emax a (f_sub prec emax v x))) in *.
    assert (U := u_small prec Hp24). assert (T := et_small prec emax Hbig).
    assert (D0 : 0 <= D) by (pose proof (Rabs_pos d); lra). assert (W0 : 0 <= W) by (pose proof (Rabs_pos (B2R v)); lra).
    assert (E1 : Rabs (d' - d) <= u * D + et) by (rewrite Es; apply (err prec emax Hp24), HD).
    assert (S1 : Rabs d' <= D + (u * D + et)).
    { replace d' with (d + (d' - d)) by ring. eapply Rle_trans; [apply Rabs_triang|lra]. }
    assert (S2 : Rabs (B2R a * d') <= D + (u * D + et)).
    { rewrite Rabs_mult, (Rabs_pos_eq (B2R a)) by lra. pose proof (Rabs_pos d'). nra. }
    assert (E2 : Rabs (t - B2R a * d') <= u * (D + (u * D + et)) + et) by (rewrite Em; apply (err prec emax Hp24), S2).
    assert (S3 : Rabs t <= D + (u * D + et) + (u * (D + (u * D + et)) + et)).
    { replace t with (B2R a * d' + (t - B2R a * d')) by ring. eapply Rle_trans; [apply Rabs_triang|lra]. }
    assert (S4 : Rabs (B2R x + t) <= W + (D + (u * D + et) + (u * (D + (u * D + et)) + et))).
    { eapply Rle_trans; [apply Rabs_triang|lra]. }
    assert (E3 := err prec emax Hp24 _ _ S4). rewrite <- Er in E3.
    set (r := B2R (f_add prec emax x (f_mul prec emax a (f_sub prec emax v x)))) in *.
    replace (r - (B2R x + B2R a * d)) with ((r - (B2R x + t)) + ((t - B2R a * d') + B2R a * (d' - d))) by ring.
    eapply Rle_trans; [apply Rabs_triang|]. eapply Rle_trans; [apply Rplus_le_compat_l, Rabs_triang|].
    assert (E4 : Rabs (B2R a * (d' - d)) <= u * D + et).
    { rewrite Rabs_mult, (Rabs_pos_eq (B2R a)) by lra. pose proof (Rabs_pos (d' - d)). nra. }
    clear - E2 E3 E4 U T D0 W0.
    assert (P1 : 0 <= u * D <= D * / 16777216) by nra. assert (P2 : 0 <= u * (u * D) <= u * D * / 16777216) by nra.
    assert (P3 : 0 <= u * et <= et * / 16777216) by nra. assert (P4 : 0 <= u * (u * et) <= u * et * / 16777216) by nra.
    assert (P5 : 0 <= u * (u * (u * D)) <= u * (u * D) * / 16777216) by nra.
    lra.
  Qed.

  (** ** The gains *)
  Lemma gain_close L (len : F) : exp_rounded O V -> L <= bpow radix2 (prec - 2) -> is_finite len = true -> 1 <= B2R len <= L ->
    unit_interval V (gain_of O len) /\ Rabs (B2R (gain_of O len) - exp (-1 / B2R len)) <= 3 * u.
  Proof.
    intros HE HL Fl Hl. destruct (fone_correct prec emax) as [O1 [O2 _]].
    assert (U := u_small prec Hp24). assert (T := et_small prec emax Hbig).
    assert (Hi : 0 < / B2R len <= 1).
    { split; [apply Rinv_0_lt_compat; lra|]. rewrite <- Rinv_1. apply Rinv_le_contravar; lra. }
    destruct (divk prec emax Hp24 Hbig (Bopp (f_of_Z prec emax 1)) len) as [F1 E1].
    { rewrite is_finite_Bopp. exact O2. }
    { lra. }
    { rewrite B2R_Bopp, O1. assert (1 <= bpow radix2 60) by (change 1 with (bpow radix2 0); apply bpow_le; lia).
      unfold Rdiv. rewrite Rabs_left1 by lra. lra. }
    rewrite B2R_Bopp, O1 in E1. change (n_div O (n_neg O (n_one O)) len) with (f_div prec emax (Bopp (f_of_Z prec emax 1)) len) in *.
    unfold gain_of. change (n_div O (n_neg O (n_one O)) len) with (f_div prec emax (Bopp (f_of_Z prec emax 1)) len).
    set (z := f_div prec emax (Bopp (f_of_Z prec emax 1)) len) in *.
    replace (- (1) / B2R len) with (-1 / B2R len) in E1 by (f_equal; lra).
    assert (Z0 : -1 <= -1 / B2R len <= 0) by (unfold Rdiv; lra).
    assert (Z1 : B2R z <= 0).
    { rewrite E1, <- (RN_0 prec emax). apply (RN_le prec emax). lra. }
    assert (Ez : Rabs (B2R z - -1 / B2R len) <= u * 1 + et).
    { rewrite E1. apply (err prec emax Hp24). apply Rabs_le. lra. }
    assert (X1 : 0 < exp (B2R z) <= 1).
    { split; [apply exp_pos|]. rewrite <- exp_0. apply exp_mono, Z1. }
    assert (X2 : 0 <= RN (exp (B2R z)) <= 1).
    { split; [rewrite <- (RN_0 prec emax); apply (RN_le prec emax); lra|].
      apply Rle_trans with (RN 1); [apply (RN_le prec emax); lra|]. right. apply (RN_id prec emax), (format_F2R_1 prec emax). }
    destruct (HE z F1) as [G1 G2].
    { cbn [rnd val fmax ieee_view]. rewrite Rabs_pos_eq by lra.
      assert (4 <= bpow radix2 emax) by (change 4 with (bpow radix2 2); apply bpow_le; lia).
      change (bpow radix2 (- prec)) with u. nra. }
    cbn [val rnd fin ieee_view] in G1, G2.
    assert (E2 : Rabs (RN (exp (B2R z)) - exp (B2R z)) <= u * 1 + et) by (apply (err prec emax Hp24), Rabs_le; lra).
    assert (E3 := exp_lip (B2R z) (-1 / B2R len) Z1 (proj2 Z0)).
    assert (E4 : Rabs (RN (exp (B2R z)) - exp (-1 / B2R len)) <= 3 * u).
    { replace (RN (exp (B2R z)) - exp (-1 / B2R len)) with ((RN (exp (B2R z)) - exp (B2R z)) + (exp (B2R z) - exp (-1 / B2R len))) by ring.
      eapply Rle_trans; [apply Rabs_triang|]. nra. }
    split; [|rewrite G2; exact E4]. split; [exact G1|]. cbn [val ieee_view]. rewrite G2. split; [lra|].
    destruct (exp_gap (B2R len)) as [_ K]; [lra|].
    assert (K2 : 3 * u < / (B2R len + 1)).
    { assert (B2R len <= / 4 * / u).
      { eapply Rle_trans; [apply Hl|]. eapply Rle_trans; [exact HL|]. unfold uro. rewrite <- bpow_opp, Z.opp_involutive.
        replace (prec - 2)%Z with (-2 + prec)%Z by lia. rewrite bpow_plus. right. reflexivity. }
      apply (Rmult_lt_reg_r (B2R len + 1)); [lra|]. rewrite Rinv_l by lra.
      assert (u * B2R len <= / 4).
      { apply Rle_trans with (u * (/ 4 * / u)); [apply Rmult_le_compat_l; lra|]. right. field. lra. }
      lra. }
    apply Rabs_le_inv in E4. lra.
  Qed.
End F.
