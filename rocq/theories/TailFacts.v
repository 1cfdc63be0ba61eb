(** Facts behind C85: repeated rounding of a decaying product. *)
From Coq Require Import ZArith Reals List Bool Lra Lia.
From Flocq Require Import Core.Core IEEE754.BinarySingleNaN.
From Verif Require Import Base Num NumF FloatSpec FloatFacts SmoothF FltFilterSpec FltFilterFacts FilterM AnalysisM Device AnaSpec AnaFacts TailSpec.
Import ListNotations.
Open Scope R_scope.

Section Tail.
  Context (prec emax : Z) {Hp : Prec_gt_0 prec} {Hm : Prec_lt_emax prec emax} (Hm3 : (3 <= emax)%Z).
  Notation F := (binary_float prec emax).
  Notation fexp := (SpecFloat.fexp prec emax).
  Notation fmt := (generic_format radix2 fexp).
  Notation RN := (round radix2 fexp (round_mode mode_NE)).
  Notation emin := (SpecFloat.emin prec emax).
  Notation eta := (bpow radix2 emin).
  Notation fsub := (f_sub prec emax).
  Notation fmul := (f_mul prec emax).
  Notation fsmooth := (fsmooth prec emax).

  Lemma eta_pos : 0 < eta. Proof. apply bpow_gt_0. Qed.
  Lemma eta_fmt : fmt eta. Proof. apply (format_bpow prec emax). lia. Qed.

  (** Numbers of the format are integer multiples of [eta]. *)
  Lemma fmt_multiple x : fmt x -> exists k : Z, x = IZR k * eta.
  Proof.
    intros H. unfold generic_format in H. rewrite H.
    set (m := Ztrunc (scaled_mantissa radix2 fexp x)). set (e := cexp radix2 fexp x).
    assert (He : (emin <= e)%Z).
    { unfold e, cexp, SpecFloat.fexp. lia. }
    exists (m * radix2 ^ (e - emin))%Z. unfold F2R. cbn [Fnum Fexp].
    rewrite mult_IZR, IZR_Zpower by lia. rewrite Rmult_assoc, <- bpow_plus. do 2 f_equal. lia.
  Qed.

  Lemma fmt_ge_eta x : fmt x -> x <> 0 -> eta <= Rabs x.
  Proof.
    intros H Hx. destruct (fmt_multiple x H) as [k ->]. rewrite Rabs_mult, (Rabs_pos_eq eta) by apply Rlt_le, eta_pos.
    assert (k <> 0)%Z by (intros ->; apply Hx; lra).
    assert (1 <= Rabs (IZR k)) by (rewrite <- abs_IZR; apply IZR_le; lia).
    assert (G := eta_pos). nra.
  Qed.

  Lemma RN_abs x : RN (Rabs x) = Rabs (RN x).
  Proof.
    unfold Rabs at 1. destruct (Rcase_abs x) as [H|H].
    - rewrite (RN_opp prec emax). rewrite Rabs_left1; [reflexivity|].
      rewrite <- (RN_0 prec emax). apply (RN_le prec emax). lra.
    - rewrite Rabs_pos_eq; [reflexivity|]. rewrite <- (RN_0 prec emax). apply (RN_le prec emax). lra.
  Qed.

  (** More than half of [eta] does not round to zero. *)
  Lemma RN_keeps z : eta / 2 < Rabs z -> RN z <> 0.
  Proof.
    intros H E. assert (E' : RN (Rabs z) = 0) by (rewrite RN_abs, E; apply Rabs_R0).
    assert (N := round_N_pt radix2 fexp (fun n => negb (Z.even n)) (Rabs z)). destruct N as [_ N].
    specialize (N eta eta_fmt). change (round radix2 fexp (Znearest (fun n => negb (Z.even n))) (Rabs z)) with (RN (Rabs z)) in N.
    rewrite E' in N. assert (G := eta_pos).
    replace (0 - Rabs z) with (- Rabs z) in N by ring. rewrite Rabs_Ropp, Rabs_Rabsolu in N.
    unfold Rabs at 2 in N. destruct (Rcase_abs (eta - Rabs z)); lra.
  Qed.

  (** Half of [eta] or less does. *)
  Lemma RN_drops z : Rabs z <= eta / 2 -> RN z = 0.
  Proof.
    intros H. apply Rabs_eq_R0. rewrite <- RN_abs.
    apply Rle_antisym.
    - apply Rle_trans with (RN (eta / 2)); [apply (RN_le prec emax); exact H|]. right.
      assert (G := eta_pos).
      assert (Ec : cexp radix2 fexp (eta / 2) = emin).
      { replace (eta / 2) with (bpow radix2 (emin - 1)).
        - unfold cexp. rewrite mag_bpow. unfold SpecFloat.fexp. unfold Prec_gt_0 in Hp. lia.
        - unfold Zminus. rewrite bpow_plus. cbn. lra. }
      unfold round, scaled_mantissa. rewrite Ec, bpow_opp.
      replace (eta / 2 * / eta) with (/ 2) by (field; lra).
      replace (round_mode mode_NE (/ 2)) with 0%Z; [unfold F2R; cbn; ring|].
      symmetry. cbn [round_mode]. unfold Znearest.
      assert (Fl : Zfloor (/ 2) = 0%Z) by (apply Zfloor_imp; cbn; lra). rewrite Fl.
      rewrite Rcompare_Eq by lra. reflexivity.
    - rewrite <- (RN_0 prec emax). apply (RN_le prec emax). apply Rabs_pos.
  Qed.

  Lemma u_half : bpow radix2 (- prec) <= / 2.
  Proof. change (/ 2) with (bpow radix2 (-1)). apply bpow_le. unfold Prec_gt_0 in Hp. lia. Qed.

  (** One step of a decay by half or more. *)
  Lemma decay_contracts a y : Rabs a <= / 2 -> Rabs (RN (a * y)) <= 3 / 4 * Rabs y + eta / 2.
  Proof.
    intros Ha. assert (E := RN_err prec emax (a * y)). assert (H := half_min prec emax).
    unfold uro in E. assert (U := u_half). assert (U0 := bpow_gt_0 radix2 (- prec)).
    assert (T := Rabs_triang (RN (a * y) - a * y) (a * y)).
    replace (RN (a * y) - a * y + a * y) with (RN (a * y)) in T by ring.
    rewrite Rabs_mult in E, T. assert (P := Rabs_pos y). assert (P' := Rabs_pos a).
    assert (Rabs a * Rabs y <= / 2 * Rabs y) by (apply Rmult_le_compat_r; lra).
    assert (bpow radix2 (- prec) * (Rabs a * Rabs y) <= / 2 * (/ 2 * Rabs y)) by (apply Rmult_le_compat; nra).
    lra.
  Qed.

  (** The memory [m n] after [n] samples of silence. *)
  Context (m : nat -> R) (a : R).
  Hypothesis Hfmt : forall n, fmt (m n).
  Hypothesis Hstep : forall n, Rabs (m (S n)) = Rabs (RN (a * m n)).

  Lemma m_decreases : Rabs a <= 1 -> forall n, Rabs (m (S n)) <= Rabs (m n).
  Proof.
    intros Ha n. rewrite Hstep. apply (RN_abs_le prec emax); [apply generic_format_abs, Hfmt|].
    rewrite Rabs_mult. assert (P := Rabs_pos (m n)). assert (P' := Rabs_pos a). nra.
  Qed.

  Lemma m_never_zero : / 2 < Rabs a -> m 0 <> 0 -> forall n, m n <> 0.
  Proof.
    intros Ha H0. induction n as [|n IH]; [exact H0|]. intros E.
    assert (G := Hstep n). rewrite E, Rabs_R0 in G. symmetry in G. apply Rabs_eq_R0 in G. revert G.
    apply RN_keeps. rewrite Rabs_mult. assert (K := fmt_ge_eta _ (Hfmt n) IH). assert (P := eta_pos).
    assert (/ 2 * eta < Rabs a * Rabs (m n)).
    { apply Rlt_le_trans with (Rabs a * eta); [apply Rmult_lt_compat_r; lra|]. apply Rmult_le_compat_l; [lra|exact K]. }
    lra.
  Qed.

  Lemma m_geometric : Rabs a <= / 2 -> forall n, Rabs (m n) <= (3 / 4) ^ n * Rabs (m 0) + 2 * eta.
  Proof.
    intros Ha. assert (P := eta_pos). induction n as [|n IH]; [cbn; lra|].
    rewrite Hstep. eapply Rle_trans; [apply decay_contracts, Ha|]. cbn [pow]. lra.
  Qed.

  Lemma m_vanishes N : Rabs a <= / 2 -> (3 / 4) ^ N * bpow radix2 emax < eta -> Rabs (m 0) <= bpow radix2 emax ->
    forall n, (N + 2 <= n)%nat -> m n = 0.
  Proof.
    intros Ha HN Hb. assert (P := eta_pos).
    assert (Step : forall n c, Rabs (m n) <= c -> Rabs (m (S n)) <= RN (/ 2 * c)).
    { intros n c Hc. rewrite Hstep, <- RN_abs. apply (RN_le prec emax). rewrite Rabs_mult.
      apply Rmult_le_compat; auto using Rabs_pos. }
    assert (H0 : Rabs (m N) <= 2 * eta).
    { assert (G := m_geometric Ha N).
      assert (L : (3 / 4) ^ N * Rabs (m 0) <= (3 / 4) ^ N * bpow radix2 emax)
        by (apply Rmult_le_compat_l; [apply pow_le; lra|exact Hb]).
      destruct (fmt_multiple (Rabs (m N))) as [k Hk]; [apply generic_format_abs, Hfmt|].
      assert (IZR k * eta < 3 * eta) by lra.
      assert (k < 3)%Z by (apply lt_IZR; apply Rmult_lt_reg_r with eta; assumption).
      rewrite Hk. apply Rmult_le_compat_r; [lra|]. apply (IZR_le k 2). lia. }
    assert (H1 : Rabs (m (S N)) <= eta).
    { eapply Rle_trans; [apply (Step _ _ H0)|]. replace (/ 2 * (2 * eta)) with eta by field.
      rewrite (RN_id prec emax _ eta_fmt). lra. }
    assert (Hz : forall j, m (S (S N) + j)%nat = 0).
    { induction j as [|j IH].
      - rewrite Nat.add_0_r. apply Rabs_eq_R0. apply Rle_antisym; [|apply Rabs_pos].
        eapply Rle_trans; [apply (Step _ _ H1)|]. right. apply RN_drops.
        rewrite Rabs_pos_eq by lra. lra.
      - rewrite Nat.add_succ_r. apply Rabs_eq_R0. rewrite Hstep, IH, Rmult_0_r, (RN_0 prec emax). apply Rabs_R0. }
    intros n Hn. replace n with (S (S N) + (n - (N + 2)))%nat by lia. apply Hz.
  Qed.
End Tail.

(** ** Devices *)
Section Dev.
  Context (prec emax : Z) {Hp : Prec_gt_0 prec} {Hm : Prec_lt_emax prec emax} (Hm3 : (3 <= emax)%Z)
    (pim pie sz : Z) (lm : libm (binary_float prec emax)) (nn : bool).
  Notation F := (binary_float prec emax).
  Notation fexp := (SpecFloat.fexp prec emax).
  Notation RN := (round radix2 fexp (round_mode mode_NE)).
  Notation O := (ieee_ops prec emax pim pie sz lm nn).
  Notation V := (ieee_view prec emax).
  Notation fzero := (B754_zero false : F).
  Notation MAX := ((1 - bpow radix2 (- prec)) * bpow radix2 emax).

  (** The product of a gain of at most 1 and a finite memory. *)
  Lemma gain_mul (g y : F) : is_finite g = true -> Rabs (B2R g) <= 1 -> is_finite y = true ->
    is_finite (f_mul prec emax g y) = true /\ B2R (f_mul prec emax g y) = RN (B2R g * B2R y).
  Proof.
    intros Fg Hg Fy. apply (mul_ok prec emax g y MAX); auto.
    - exact (MAX_fmt prec emax Hm3).
    - exact (MAX_lt prec emax).
    - rewrite Rabs_mult. assert (K := abs_le_MAX prec emax y). assert (P := Rabs_pos (B2R y)). assert (P' := Rabs_pos (B2R g)). nra.
  Qed.

  (** Silence in the smoothing step. *)
  Lemma smooth_silent (g y z : F) : is_zero prec emax z -> is_finite g = true -> Rabs (B2R g) <= 1 -> is_finite y = true ->
    is_finite (fsmooth prec emax g y z) = true /\ B2R (fsmooth prec emax g y z) = RN (B2R g * B2R y).
  Proof.
    intros Hz Fg Hg Fy. unfold fsmooth.
    destruct (sub_zero prec emax y z Fy Hz) as [S1 [_ S3]].
    destruct (gain_mul g (f_sub prec emax y z) Fg Hg S1) as [M1 M2]. rewrite S3 in M2.
    destruct (is_zero_finite prec emax z Hz) as [Fz Ez].
    destruct (add_ok prec emax z (f_mul prec emax g (f_sub prec emax y z)) MAX Fz M1) as [A1 A2].
    - exact (MAX_fmt prec emax Hm3).
    - exact (MAX_lt prec emax).
    - rewrite Ez, Rplus_0_l. apply (abs_le_MAX prec emax).
    - split; [exact A1|]. rewrite A2, Ez, Rplus_0_l, (RN_B2R prec emax). exact M2.
  Qed.

  Lemma pole_silent (b0 a1 y : F) : is_finite b0 = true -> is_finite a1 = true -> Rabs (B2R a1) <= 1 -> is_finite y = true ->
    let y' := f_sub prec emax (f_mul prec emax b0 fzero) (f_mul prec emax a1 y) in
    is_finite y' = true /\ B2R y' = - RN (B2R a1 * B2R y).
  Proof.
    intros Fb Fa Ha Fy y'. destruct (gain_mul a1 y Fa Ha Fy) as [M1 M2].
    assert (Hz : is_zero prec emax (f_mul prec emax b0 fzero)).
    { destruct b0 as [s|s| |s mm e Hb]; try discriminate; eexists; reflexivity. }
    destruct (is_zero_finite prec emax _ Hz) as [Fz Ez].
    destruct (sub_ok prec emax (f_mul prec emax b0 fzero) (f_mul prec emax a1 y) MAX Fz M1) as [A1 A2].
    - exact (MAX_fmt prec emax Hm3).
    - exact (MAX_lt prec emax).
    - rewrite Ez. unfold Rminus. rewrite Rplus_0_l, Rabs_Ropp. apply (abs_le_MAX prec emax).
    - split; [exact A1|]. unfold y'. rewrite A2, Ez. unfold Rminus.
      rewrite Rplus_0_l, (RN_opp prec emax), (RN_B2R prec emax). f_equal. exact M2.
  Qed.
End Dev.
