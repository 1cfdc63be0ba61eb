(** The smoothing step [x + alpha * (v - x)] of the integrator and the detectors, in
    IEEE arithmetic of any precision. *)
From Coq Require Import ZArith Reals Bool Lra Lia Psatz.
From Flocq Require Import Core.Core Relative Plus_error IEEE754.BinarySingleNaN.
From Verif Require Import Base Num NumF FloatFacts FloatSpec.
Open Scope R_scope.

Section Smooth.
  Context (prec emax : Z) {Hp : Prec_gt_0 prec} {Hm : Prec_lt_emax prec emax} (Hm3 : (3 <= emax)%Z).
  Notation F := (binary_float prec emax).
  Notation fexp := (SpecFloat.fexp prec emax).
  Notation emin := (SpecFloat.emin prec emax).
  Notation RN := (round radix2 fexp (round_mode mode_NE)).
  Notation fadd := (f_add prec emax).
  Notation fsub := (f_sub prec emax).
  Notation fmul := (f_mul prec emax).
  Notation MAX := ((1 - bpow radix2 (- prec)) * bpow radix2 emax).
  Notation fmt := (generic_format radix2 fexp).

  #[local] Instance vexp : Valid_exp fexp := fexp_correct prec emax Hp.
  #[local] Instance vrnd : Valid_rnd (round_mode mode_NE) := valid_rnd_round_mode mode_NE.

  Lemma MAX_eq : MAX = bpow radix2 emax - bpow radix2 (emax - prec).
  Proof. unfold Zminus. rewrite bpow_plus. ring. Qed.


  Lemma MAX_fmt : fmt MAX.
  Proof.
    assert (Hp' : (0 < prec)%Z) by exact Hp.
    assert (Hm' : (prec < emax)%Z) by exact Hm.
    rewrite MAX_eq.
    replace (bpow radix2 emax - bpow radix2 (emax - prec))
      with (F2R (Float radix2 (2 ^ prec - 1) (emax - prec))).
    - apply generic_format_F2R. intros Hn. unfold cexp, SpecFloat.fexp.
      assert (H : (mag radix2 (F2R (Float radix2 (2 ^ prec - 1) (emax - prec))) <= emax)%Z).
      { apply mag_le_bpow.
        - apply F2R_neq_0. exact Hn.
        - unfold F2R. cbn [Fnum Fexp]. rewrite minus_IZR. change 2%Z with (radix_val radix2).
          rewrite IZR_Zpower by lia. rewrite Rabs_pos_eq.
          + rewrite Rmult_minus_distr_r, <- bpow_plus, Rmult_1_l.
            replace (prec + (emax - prec))%Z with emax by ring.
            pose proof (bpow_gt_0 radix2 (emax - prec)). lra.
          + apply Rmult_le_pos; [|apply bpow_ge_0].
            pose proof (bpow_le radix2 0 prec ltac:(lia)). cbn in *. lra. }
      unfold SpecFloat.emin in *. cbn [Fexp]. lia.
    - unfold F2R. cbn [Fnum Fexp]. rewrite minus_IZR. change 2%Z with (radix_val radix2).
      rewrite IZR_Zpower by lia. rewrite Rmult_minus_distr_r, <- bpow_plus, Rmult_1_l.
      f_equal. f_equal. ring.
  Qed.

  Lemma MAX_lt : MAX < bpow radix2 emax.
  Proof. rewrite MAX_eq. pose proof (bpow_gt_0 radix2 (emax - prec)). lra. Qed.

  Lemma MAX_pos : 0 < MAX.
  Proof.
    apply Rmult_lt_0_compat; [|apply bpow_gt_0].
    assert (Hp' : (0 < prec)%Z) by exact Hp.
    pose proof (bpow_lt radix2 (- prec) 0 ltac:(lia)). cbn in *. lra.
  Qed.

  (** Every finite float is at most MAX in magnitude. *)
  Lemma abs_le_MAX (x : F) : Rabs (B2R x) <= MAX.
  Proof.
    assert (H := abs_B2R_le_emax_minus_prec prec emax Hp x). rewrite MAX_eq. exact H.
  Qed.

  (** A finite difference is the rounded difference. *)
  Lemma sub_finite (x y : F) : is_finite x = true -> is_finite y = true -> is_finite (fsub x y) = true ->
    B2R (fsub x y) = RN (B2R x - B2R y).
  Proof.
    intros Hx Hy Hs. assert (G := Bminus_correct prec emax Hp Hm mode_NE x y Hx Hy).
    destruct (Rlt_bool _ _) in G; [unfold f_sub; tauto|].
    destruct G as [G _]. unfold f_sub in Hs. rewrite <- is_finite_SF_B2SF, G in Hs.
    cbn in Hs. discriminate.
  Qed.

  Lemma alpha_le (a : F) : B2R a < 1 -> B2R a <= 1 - bpow radix2 (- prec).
  Proof.
    intros H. assert (Hp' : (0 < prec)%Z) by exact Hp. assert (Hm' : (prec < emax)%Z) by exact Hm.
    replace (1 - bpow radix2 (- prec)) with (pred radix2 fexp 1).
    - apply pred_ge_gt; [exact vexp|apply generic_format_B2R|exact (format_F2R_1 prec emax)|exact H].
    - change 1 with (bpow radix2 0) at 1. rewrite pred_bpow.
      change (bpow radix2 0) with 1. f_equal. f_equal. unfold SpecFloat.fexp, SpecFloat.emin. lia.
  Qed.

  (** The rounded product [alpha * RN(u)] does not exceed [u]: the heart of the
      no-overshoot property. *)
  Lemma step_le (a u v : R) (x y : F) : u = B2R x - B2R y -> 0 <= u ->
    0 <= a <= 1 - bpow radix2 (- prec) -> RN (a * RN u) <= u.
  Proof.
    intros Eu Hu Ha. assert (Hp' : (0 < prec)%Z) by exact Hp. assert (Hm' : (prec < emax)%Z) by exact Hm.
    pose proof (bpow_gt_0 radix2 (- prec)) as Hb.
    assert (Hd0 : 0 <= RN u) by (rewrite <- (RN_0 prec emax); apply (RN_le prec emax), Hu).
    assert (Hle : RN (a * RN u) <= RN u).
    { rewrite <- (RN_id prec emax (RN u)) at 2 by apply (RN_format prec emax). apply (RN_le prec emax). nra. }
    destruct (Rle_or_lt (RN u) u) as [H|H]; [lra|].
    destruct (Rle_or_lt u (bpow radix2 (prec + emin))) as [Hs|Hs].
    - (* exact *)
      exfalso. assert (G : fmt u).
      { rewrite Eu. unfold Rminus. apply (FLT_format_plus_small radix2 emin prec).
        - apply generic_format_B2R.
        - apply generic_format_opp, generic_format_B2R.
        - fold (B2R x - B2R y). rewrite <- Eu, Rabs_pos_eq by exact Hu. exact Hs. }
      apply (RN_id prec emax) in G. lra.
    - assert (Fd : fmt (RN u)) by apply (RN_format prec emax).
      assert (Hpd : bpow radix2 (emin + prec - 1) <= pred radix2 fexp (RN u)).
      { apply pred_ge_gt; [exact vexp| |exact Fd|].
        - apply (format_bpow prec emax). lia.
        - apply Rlt_le_trans with (bpow radix2 (prec + emin)); [apply bpow_lt; lia|lra]. }
      assert (Hpp : 0 < pred radix2 fexp (RN u)).
      { apply Rlt_le_trans with (2 := Hpd). apply bpow_gt_0. }
      assert (Hul : ulp radix2 fexp (pred radix2 fexp (RN u)) <= pred radix2 fexp (RN u) * bpow radix2 (1 - prec)).
      { rewrite <- (Rabs_pos_eq (pred radix2 fexp (RN u))) at 2 by lra.
        apply (ulp_FLT_le radix2 emin prec). rewrite Rabs_pos_eq by lra. exact Hpd. }
      assert (Hsum : pred radix2 fexp (RN u) + ulp radix2 fexp (pred radix2 fexp (RN u)) = RN u).
      { apply pred_plus_ulp; [exact vexp|lra|exact Fd]. }
      assert (Hpu : pred radix2 fexp (RN u) <= u).
      { apply Rnot_lt_le. intros C.
        assert (RN u <= pred radix2 fexp (RN u)).
        { rewrite <- (RN_id prec emax (pred radix2 fexp (RN u))).
          - apply (RN_le prec emax). lra.
          - apply generic_format_pred; [exact vexp|exact Fd]. }
        assert (Hl : pred radix2 fexp (RN u) < RN u) by (apply pred_lt_id; lra). lra. }
      apply Rle_trans with (2 := Hpu). cbn [round_mode].
      apply round_N_le_midp.
      + typeclasses eauto.
      + apply generic_format_pred; [exact vexp|exact Fd].
      + rewrite succ_pred by (try typeclasses eauto; exact Fd).
        assert (E : bpow radix2 (1 - prec) = 2 * bpow radix2 (- prec)).
        { unfold Zminus. rewrite bpow_plus. change (bpow radix2 1) with 2. ring. }
        rewrite E in Hul.
        assert (Hlt : pred radix2 fexp (RN u) < RN u) by (apply pred_lt_id; lra).
        cbn [round_mode] in *.
        set (D := round radix2 fexp _ u) in *. set (P := pred radix2 fexp D) in *.
        set (U := ulp radix2 fexp P) in *. set (b := bpow radix2 (- prec)) in *.
        clearbody U P D b.
        assert (G1 : 0 <= (1 - b - a) * D) by (apply Rmult_le_pos; lra).
        assert (G2 : 0 < b * (D - P)) by (apply Rmult_lt_0_compat; lra). lra.
  Qed.

  Definition fsmooth (a v x : F) : F := fadd x (fmul a (fsub v x)).

  (** No overshoot: the result lies between [v] and [x]. *)
  Lemma smooth_between (a v x : F) :
    is_finite a = true -> 0 <= B2R a < 1 -> is_finite v = true -> is_finite x = true ->
    is_finite (fsub v x) = true ->
    is_finite (fsmooth a v x) = true
    /\ Rmin (B2R v) (B2R x) <= B2R (fsmooth a v x) <= Rmax (B2R v) (B2R x).
  Proof.
    intros Fa Ha Fv Fx Fs. assert (Es := sub_finite v x Fv Fx Fs).
    assert (Ha' := alpha_le a (proj2 Ha)).
    assert (Hbs := abs_le_MAX (fsub v x)). assert (Hbv := abs_le_MAX v). assert (Hbx := abs_le_MAX x).
    assert (Hmul : Rabs (B2R a * B2R (fsub v x)) <= MAX).
    { rewrite Rabs_mult, (Rabs_pos_eq (B2R a)) by lra. pose proof (Rabs_pos (B2R (fsub v x))). nra. }
    destruct (mul_ok prec emax a (fsub v x) MAX Fa Fs MAX_fmt MAX_lt Hmul) as [Fm Em].
    (* the increment is between 0 and v - x *)
    set (t := B2R (fmul a (fsub v x))) in *.
    assert (Ht : Rmin 0 (B2R v - B2R x) <= t <= Rmax 0 (B2R v - B2R x)).
    { rewrite Em, Es. destruct (Rle_or_lt 0 (B2R v - B2R x)) as [H|H].
      - rewrite Rmin_left, Rmax_right by lra. split.
        + rewrite <- (RN_0 prec emax). apply (RN_le prec emax). apply Rmult_le_pos; [lra|].
          rewrite <- (RN_0 prec emax). apply (RN_le prec emax), H.
        + apply (step_le (B2R a) (B2R v - B2R x) 0 v x); [reflexivity|exact H|lra].
      - rewrite Rmin_right, Rmax_left by lra.
        replace (B2R v - B2R x) with (- (B2R x - B2R v)) by ring.
        rewrite (RN_opp prec emax). rewrite Ropp_mult_distr_r_reverse, (RN_opp prec emax).
        split.
        + apply Ropp_le_contravar.
          apply (step_le (B2R a) (B2R x - B2R v) 0 x v); [reflexivity|lra|lra].
        + rewrite <- Ropp_0. apply Ropp_le_contravar.
          rewrite <- (RN_0 prec emax). apply (RN_le prec emax). apply Rmult_le_pos; [lra|].
          rewrite <- (RN_0 prec emax). apply (RN_le prec emax). lra. }
    assert (Hin : Rmin (B2R v) (B2R x) <= B2R x + t <= Rmax (B2R v) (B2R x)).
    { revert Ht. unfold Rmin, Rmax. repeat destruct Rle_dec; lra. }
    assert (Hadd : Rabs (B2R x + t) <= MAX).
    { apply Rabs_le. apply Rabs_le_inv in Hbv. apply Rabs_le_inv in Hbx.
      revert Hin. unfold Rmin, Rmax. repeat destruct Rle_dec; lra. }
    destruct (add_ok prec emax x (fmul a (fsub v x)) MAX Fx Fm MAX_fmt MAX_lt Hadd) as [Fr Er].
    split; [exact Fr|]. unfold fsmooth. rewrite Er. fold t. split.
    - replace (Rmin (B2R v) (B2R x)) with (RN (Rmin (B2R v) (B2R x))).
      + apply (RN_le prec emax), Hin.
      + apply (RN_id prec emax). unfold Rmin. destruct Rle_dec; apply generic_format_B2R.
    - replace (Rmax (B2R v) (B2R x)) with (RN (Rmax (B2R v) (B2R x))).
      + apply (RN_le prec emax), Hin.
      + apply (RN_id prec emax). unfold Rmax. destruct Rle_dec; apply generic_format_B2R.
  Qed.

  (** The difference does not overflow when the two values are in an interval no
      longer than MAX. *)
  Lemma sub_in (v x : F) lo hi : is_finite v = true -> is_finite x = true ->
    lo <= B2R v <= hi -> lo <= B2R x <= hi -> hi - lo <= MAX -> is_finite (fsub v x) = true.
  Proof.
    intros Fv Fx Hv Hx H.
    destruct (sub_ok prec emax v x MAX Fv Fx MAX_fmt MAX_lt) as [G _]; [|exact G].
    apply Rabs_le. lra.
  Qed.

  (** ** Squares and square roots *)
  Notation fsqrt := (f_sqrt prec emax).
  Notation MIN := (bpow radix2 (2 - emax)).

  Lemma MIN_emin : MIN = bpow radix2 (emin + prec - 1).
  Proof. f_equal. unfold SpecFloat.emin. ring. Qed.

  Lemma u_le_half : 0 < bpow radix2 (- prec) <= / 2.
  Proof.
    split; [apply bpow_gt_0|]. assert (Hp' : (0 < prec)%Z) by exact Hp.
    change (/ 2) with (bpow radix2 (-1)). apply bpow_le. lia.
  Qed.

  (** The rounded square root of a rounded square is the magnitude, unless the
      square is below the normal range. *)
  Lemma sqrt_sq (m : R) : fmt m -> 0 <= m -> MIN <= m * m -> RN (sqrt (RN (m * m))) = m.
  Proof.
    intros Fm H0 Hmin. assert (Hp' : (0 < prec)%Z) by exact Hp. assert (Hm' : (prec < emax)%Z) by exact Hm.
    pose proof u_le_half as Hu.
    assert (Hpos : 0 < m).
    { destruct H0 as [H0|<-]; [exact H0|]. pose proof (bpow_gt_0 radix2 (2 - emax)). lra. }
    assert (Hn : MIN <= m).
    { destruct (Rle_or_lt MIN m) as [H|H]; [exact H|].
      assert (MIN <= 1) by (change 1 with (bpow radix2 0); apply bpow_le; lia). nra. }
    destruct (mag radix2 m) as [e He] eqn:Em. assert (He' := He ltac:(lra)). rewrite Rabs_pos_eq in He' by lra.
    assert (Emag : mag radix2 m = e :> Z) by (rewrite Em; reflexivity).
    assert (Efe : fexp e = (e - prec)%Z).
    { unfold SpecFloat.fexp. apply Z.max_l. unfold SpecFloat.emin.
      assert (2 - emax < e)%Z; [|lia]. apply (lt_bpow radix2). lra. }
    assert (Eulp : ulp radix2 fexp m = bpow radix2 e * bpow radix2 (- prec)).
    { rewrite ulp_neq_0 by lra. unfold cexp. rewrite Emag, Efe. unfold Zminus. apply bpow_plus. }
    assert (Ehalf : bpow radix2 (e - 1) = bpow radix2 e / 2).
    { unfold Zminus. rewrite bpow_plus. cbn. lra. }
    rewrite Ehalf in He'.
    assert (Err : Rabs (RN (m * m) - m * m) <= bpow radix2 (- prec) * (m * m)).
    { assert (G := relative_error_N_FLT radix2 emin prec Hp (fun x => negb (Z.even x)) (m * m)).
      rewrite <- MIN_emin in G. rewrite Rabs_pos_eq in G by nra. specialize (G Hmin).
      replace (/ 2 * bpow radix2 (- prec + 1) * (m * m)) with (bpow radix2 (- prec) * (m * m)) in G; [exact G|].
      rewrite bpow_plus. change (bpow radix2 1) with 2. field. }
    apply Rabs_le_inv in Err.
    assert (Hsucc : succ radix2 fexp m = m + ulp radix2 fexp m) by (apply succ_eq_pos; lra).
    set (B := bpow radix2 e) in *. set (u := bpow radix2 (- prec)) in *.
    assert (HB : 0 < B) by apply bpow_gt_0.
    assert (Hm2 : 0 < m * m) by nra.
    apply Rle_antisym.
    - (* not above *)
      apply round_N_le_midp; [exact vexp|exact Fm|]. rewrite Hsucc, Eulp.
      replace ((m + (m + B * u)) / 2) with (m + B * u / 2) by field.
      assert (G1 : 0 <= m + B * u / 2) by nra.
      rewrite <- (sqrt_square (m + B * u / 2)) by exact G1.
      apply sqrt_lt_1_alt. split; [nra|].
      assert (G2 : m * m * u <= m * B * u) by (assert (m * u * m <= m * u * B) by (apply Rmult_le_compat_l; nra); nra).
      assert (G3 : 0 < B * u * (B * u)) by (apply Rmult_lt_0_compat; nra). nra.
    - (* not below *)
      destruct (Req_dec m (bpow radix2 (e - 1))) as [Ep|Ep].
      + (* a power of two: exact *)
        rewrite (RN_id prec emax (m * m)).
        * rewrite sqrt_square by lra. rewrite (RN_id prec emax m Fm). lra.
        * rewrite Ep, <- bpow_plus. apply (format_bpow prec emax).
          assert (emin + prec - 1 <= e - 1 + (e - 1))%Z; [|lia]. apply (le_bpow radix2).
          rewrite <- MIN_emin, bpow_plus, <- Ep. exact Hmin.
      + assert (Hpred : pred radix2 fexp m = m - B * u).
        { rewrite pred_eq_pos by lra. unfold pred_pos. rewrite Emag, Req_bool_false by exact Ep.
          rewrite Eulp. reflexivity. }
        assert (HmB : m <= B * (1 - u)).
        { assert (G : m <= pred radix2 fexp B).
          { apply pred_ge_gt; [exact vexp|exact Fm| |lra]. apply (format_bpow prec emax).
            assert (2 - emax < e)%Z by (apply (lt_bpow radix2); fold B; lra). unfold SpecFloat.emin. lia. }
          unfold B in G at 1. rewrite pred_bpow, Efe in G. unfold Zminus in G. rewrite bpow_plus in G.
          fold B u in G. lra. }
        apply round_N_ge_midp; [exact vexp|exact Fm|]. rewrite Hpred.
        replace ((m + (m - B * u)) / 2) with (m - B * u / 2) by field.
        assert (G1 : 0 <= m - B * u / 2) by nra.
        rewrite <- (sqrt_square (m - B * u / 2)) by exact G1.
        apply sqrt_lt_1_alt. split; [nra|].
        (* (m - Bu/2)^2 < m^2 (1 - u) *)
        assert (K : B * B * u / 4 < m * (B - m)).
        { assert (P1 : 0 <= (m - B / 2) * (B * (1 - u) - m)) by (apply Rmult_le_pos; lra).
          assert (P2 : 0 <= (B * (1 - u) - m) * (B * (/ 2 - u))) by (apply Rmult_le_pos; [lra|apply Rmult_le_pos; lra]).
          assert (P3 : 0 < B * B * u) by (apply Rmult_lt_0_compat; [nra|lra]).
          assert (P4 : B * B * u * u <= B * B * u * / 2) by (apply Rmult_le_compat_l; lra). nra. }
        assert (K2 : B * B * u / 4 * u < m * (B - m) * u) by (apply Rmult_lt_compat_r; lra). nra.
  Qed.

  Lemma sqrt_ok (x : F) : is_finite x = true -> 0 <= B2R x ->
    is_finite (fsqrt x) = true /\ B2R (fsqrt x) = RN (sqrt (B2R x)).
  Proof.
    intros Fx H. destruct (Bsqrt_correct prec emax Hp Hm mode_NE x) as [G1 [G2 _]]. unfold f_sqrt.
    split; [|exact G1]. rewrite G2. destruct x as [s|s| |s mx ex Hb]; try discriminate; [reflexivity|].
    destruct s; [|reflexivity]. exfalso. cbn in H. unfold F2R in H. cbn in H.
    pose proof (bpow_gt_0 radix2 ex). assert (IZR (Z.neg mx) <= -1) by (apply (IZR_le _ (-1)); lia). nra.
  Qed.

  Lemma sq_finite (x : F) : is_finite (fmul x x) = true -> is_finite x = true /\ B2R (fmul x x) = RN (B2R x * B2R x).
  Proof.
    intros H. assert (G := Bmult_correct prec emax Hp Hm mode_NE x x). unfold f_mul in *.
    destruct (Rlt_bool _ _) in G.
    - destruct G as [G1 [G2 _]]. rewrite H in G2. symmetry in G2. apply andb_prop in G2. tauto.
    - rewrite <- is_finite_SF_B2SF, G in H. discriminate.
  Qed.

  (** ** Minus one divided by a positive number *)
  Lemma neg_inv (l : F) : is_finite l = true -> 0 < B2R l ->
    Bleb (f_div prec emax (Bopp (f_of_Z prec emax 1)) l) (B754_zero false) = true.
  Proof.
    intros Fl Hl. destruct (fone_correct prec emax) as [H1 [H2 H3]].
    assert (G := Bdiv_correct prec emax Hp Hm mode_NE (Bopp (f_of_Z prec emax 1)) l ltac:(lra)).
    rewrite B2R_Bopp, H1 in G. unfold f_div. destruct (Rlt_bool _ _) in G.
    - destruct G as [G1 [G2 _]]. rewrite is_finite_Bopp, H2 in G2.
      rewrite Bleb_correct by (assumption || reflexivity). cbn [B2R].
      apply Rle_bool_true. rewrite G1. rewrite <- (RN_0 prec emax). apply (RN_le prec emax).
      unfold Rdiv. pose proof (Rinv_0_lt_compat _ Hl). nra.
    - assert (Hs : Bsign l = false).
      { destruct l as [s|s| |s ml el Hb]; cbn in *; try lra; try discriminate. destruct s; [|reflexivity]. exfalso.
        unfold F2R in Hl. cbn in Hl. pose proof (bpow_gt_0 radix2 el).
        assert (IZR (Z.neg ml) <= -1) by (apply (IZR_le _ (-1)); lia). nra. }
      rewrite Hs in G. rewrite Bsign_Bopp, H3 in G.
      2:{ destruct (f_of_Z prec emax 1); discriminate || reflexivity. }
      destruct (Bdiv _ _ _); cbn in G; try discriminate. injection G as ->. reflexivity.
  Qed.

  (** A zero gain passes the input. *)
  Lemma smooth_zero (a v x : F) : is_zero prec emax a -> is_finite x = true -> is_finite (fsub v x) = true ->
    same_value prec emax (fsmooth a v x) x.
  Proof.
    intros Ha Fx Fs. unfold fsmooth. apply add_zero; [exact Fx|]. apply mul_zero; assumption.
  Qed.
End Smooth.
