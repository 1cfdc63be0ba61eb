(** The setters of the RBJ filters in floating point: settings in the safe band, lost cutoffs. *)
From Coq Require Import ZArith Reals List Bool Lra Lia.
From Flocq Require Import Core.Core Mult_error IEEE754.BinarySingleNaN.
From Verif Require Import Base Num NumF FloatSpec FloatFacts FilterM RbjM Device Signal FltFilterSpec
  FltFilterFacts ConstLemmas RbjFltSpec RbjFltFacts.
Import ListNotations.
Open Scope R_scope.

Lemma pow10_small y : Rabs y <= 601 / 1000 -> / 4 <= Rpower 10 y <= 4.
Proof.
  assert (P : forall y, y <= 601 / 1000 -> Rpower 10 y <= 4).
  { intros z Hz. apply Rle_trans with (Rpower 10 (601 / 1000)).
    - apply Rle_Rpower; lra.
    - assert (G : Rpower (Rpower 10 (601 / 1000)) (INR 1000) <= Rpower 4 (INR 1000)).
      { rewrite Rpower_mult. replace (601 / 1000 * INR 1000) with (INR 601) by (rewrite !INR_IZR_INZ; cbn; lra).
        rewrite !Rpower_pow by lra. rewrite !pow_IZR. apply IZR_le. vm_compute. discriminate. }
      destruct (Rle_dec (Rpower 10 (601 / 1000)) 4) as [g|g]; [exact g|exfalso].
      apply (Rlt_not_le _ _ (Rlt_Rpower_l 4 (Rpower 10 (601 / 1000)) (INR 1000) ltac:(apply lt_0_INR; lia) ltac:(lra)) G). }
  intros H. apply Rabs_le_inv in H. split; [|apply P; lra].
  assert (G := P (- y) ltac:(lra)). rewrite Rpower_Ropp in G.
  assert (Q : 0 < Rpower 10 y) by apply exp_pos.
  rewrite <- (Rinv_inv (Rpower 10 y)). apply Rinv_le_contravar; [apply Rinv_0_lt_compat; exact Q|exact G].
Qed.

Section F.
  Context (prec emax : Z) {Hp : Prec_gt_0 prec} {Hm : Prec_lt_emax prec emax}
    (Hp24 : (24 <= prec)%Z) (Hbig : (prec + 100 <= emax)%Z).
  Notation F := (binary_float prec emax).
  Notation fexp := (SpecFloat.fexp prec emax).
  Notation RN := (round radix2 fexp (round_mode mode_NE)).
  Notation fmt := (generic_format radix2 fexp).
  Notation u := (uro prec).
  Context (pim pie sz : Z) (lm : libm F) (nn : bool).
  Notation O := (ieee_ops prec emax pim pie sz lm nn).
  Notation V := (ieee_view prec emax).
  Hypothesis Fpi : is_finite (n_pi O) = true.
  Hypothesis Vpi : B2R (n_pi O) = RN PI.
  Notation r0 := (bpow radix2 (2 - prec / 2)).

  (** What the setters use: cos, sin, alpha. *)
  Lemma setup (sr f : F) : trig_close O V -> safe_band V sr f ->
    let w := w0 prec emax pim pie sz lm nn sr f in
    (is_finite (n_cos O w) = true /\ Rabs (B2R (n_cos O w)) <= 1 - 198 * u)
    /\ (is_finite (n_sin O w) = true /\ 4 * r0 <= B2R (n_sin O w) <= 1).
  Proof.
    intros HT [[Fs Hs] [Ff Hf]] w. cbn [val fin ieee_view] in *. change (margin V) with r0 in Hf.
    destruct (band_ok prec emax Hp24 Hbig pim pie sz lm nn Fpi Vpi sr f Fs Ff Hs Hf) as [W1 [W2 [W3 W4]]].
    fold w in W1, W2, W3, W4. destruct (HT w W1 W2) as [[S1 [S2 S3]] [C1 [C2 C3]]]. cbn [val fin fprec ieee_view] in *.
    destruct (r0_ok prec emax Hp24 pim pie sz lm nn Fpi) as [R1 [R2 R3]].
    assert (E : bpow radix2 (1 - prec) = 2 * u) by (unfold uro; replace (1 - prec)%Z with (1 + - prec)%Z by lia; rewrite bpow_plus; reflexivity).
    rewrite E in S2, C2. split.
    - split; [exact C1|]. apply Rabs_le_inv in C2. apply Rabs_le_inv in W3. apply Rabs_le. lra.
    - split; [exact S1|]. apply Rabs_le_inv in S2. apply Rabs_le_inv in S3. lra.
  Qed.

  (** Finite, and at most 2^[k] in magnitude. *)
  Definition bnd (n : F) (k : Z) : Prop := is_finite n = true /\ Rabs (B2R n) <= bpow radix2 k.

  Lemma k_ok k : (0 <= k <= 59)%Z -> bpow radix2 k <= bpow radix2 60 /\ fmt (bpow radix2 k).
  Proof. intros H. split; [apply bpow_le; lia|]. apply (bfmt prec emax Hp24 Hbig). lia. Qed.

  Lemma bnd_add x y j k : (0 <= j <= k)%Z -> (k < 20)%Z -> bnd x j -> bnd y k -> bnd (n_add O x y) (k + 1).
  Proof.
    intros Hj Hk [Fx Bx] [Fy By]. destruct (k_ok (k + 1) ltac:(lia)) as [G1 G2].
    assert (G : Rabs (B2R x + B2R y) <= bpow radix2 (k + 1)).
    { eapply Rle_trans; [apply Rabs_triang|]. assert (G3 := bpow_le radix2 j k ltac:(lia)).
      rewrite bpow_plus. change (bpow radix2 1) with 2. lra. }
    destruct (addk prec emax Hp24 Hbig x y Fx Fy ltac:(lra)) as [P1 P2]. split; [exact P1|].
    cbn [n_add ieee_ops]. rewrite P2. apply (RN_abs_le prec emax); assumption.
  Qed.
  Lemma bnd_neg x k : bnd x k -> bnd (n_neg O x) k.
  Proof. intros [H1 H2]. split; cbn [n_neg ieee_ops]; [rewrite is_finite_Bopp; exact H1|rewrite B2R_Bopp, Rabs_Ropp; exact H2]. Qed.
  Lemma bnd_sub x y j k : (0 <= j <= k)%Z -> (k < 20)%Z -> bnd x j -> bnd y k -> bnd (n_sub O x y) (k + 1).
  Proof.
    intros Hj Hk [Fx Bx] [Fy By]. destruct (k_ok (k + 1) ltac:(lia)) as [G1 G2].
    assert (G : Rabs (B2R x - B2R y) <= bpow radix2 (k + 1)).
    { unfold Rminus. eapply Rle_trans; [apply Rabs_triang|]. rewrite Rabs_Ropp. assert (G3 := bpow_le radix2 j k ltac:(lia)).
      rewrite bpow_plus. change (bpow radix2 1) with 2. lra. }
    destruct (subk prec emax Hp24 Hbig x y Fx Fy ltac:(lra)) as [P1 P2]. split; [exact P1|].
    cbn [n_sub ieee_ops]. rewrite P2. apply (RN_abs_le prec emax); assumption.
  Qed.
  Lemma bnd_mul x y j k : (0 <= j <= 20)%Z -> (0 <= k <= 20)%Z -> bnd x j -> bnd y k -> bnd (n_mul O x y) (j + k).
  Proof.
    intros Hj Hk [Fx Bx] [Fy By]. destruct (k_ok (j + k) ltac:(lia)) as [G1 G2].
    assert (G : Rabs (B2R x * B2R y) <= bpow radix2 (j + k)).
    { rewrite Rabs_mult, bpow_plus. apply Rmult_le_compat; auto using Rabs_pos. }
    destruct (mulk prec emax Hp24 Hbig x y Fx Fy ltac:(lra)) as [P1 P2]. split; [exact P1|].
    cbn [n_mul ieee_ops]. rewrite P2. apply (RN_abs_le prec emax); assumption.
  Qed.
  Lemma bnd_div x y k : (0 <= k <= 20)%Z -> bnd x k -> 1 <= B2R y -> bnd (n_div O x y) k.
  Proof.
    intros Hk [Fx Bx] Hy. destruct (k_ok k ltac:(lia)) as [G1 G2].
    assert (G : Rabs (B2R x / B2R y) <= bpow radix2 k).
    { assert (I : 0 < / B2R y <= 1).
      { split; [apply Rinv_0_lt_compat; lra|]. rewrite <- Rinv_1. apply Rinv_le_contravar; lra. }
      unfold Rdiv. rewrite Rabs_mult, (Rabs_pos_eq (/ _)) by lra. assert (P := Rabs_pos (B2R x)). nra. }
    destruct (divk prec emax Hp24 Hbig x y Fx ltac:(lra) ltac:(lra)) as [P1 P2]. split; [exact P1|].
    cbn [n_div ieee_ops]. rewrite P2. apply (RN_abs_le prec emax); assumption.
  Qed.
  Lemma bnd_up x j k : (j <= k)%Z -> bnd x j -> bnd x k.
  Proof. intros H [H1 H2]. split; [exact H1|]. eapply Rle_trans; [exact H2|]. apply bpow_le. exact H. Qed.

  Lemma q_kinds (kind : rbj_kind) (sr f q : F) : trig_close O V -> safe_band V sr f ->
    is_finite q = true -> / 64 <= B2R q <= 1024 ->
    match rbj_coeffs O kind (RbjQ sr f q) with
    | Some (b0, b1, b2, a1, a2) => all_finite V (b0, b1, b2, a1, a2) /\ stable (B2R a1) (B2R a2)
    | None => True
    end.
  Proof.
    intros HT HB Fq Hq. destruct (setup sr f HT HB) as [[C1 C2] [S1 S2]]. cbn zeta in *.
    destruct (alpha_ok prec emax Hp24 Hbig pim pie sz lm nn Fpi (n_sin O (w0 prec emax pim pie sz lm nn sr f)) q (-6) 10 S1 Fq
      ltac:(clear; lia) ltac:(clear; lia) S2 Hq) as [A1 A2].
    destruct (r0_ok prec emax Hp24 pim pie sz lm nn Fpi) as [R1 [R2 R3]]. assert (U := u_small prec Hp24).
    destruct (one_ok prec emax Hp24 pim pie sz lm nn Fpi) as [O1 O2]. destruct (two_ok prec emax Hp24 pim pie sz lm nn Fpi) as [T1 T2].
    unfold w0 in *.
    set (cw := n_cos O (n_div O (n_mul O (n_mul O (n_two O) (n_pi O)) f) sr)) in *.
    set (sw := n_sin O (n_div O (n_mul O (n_mul O (n_two O) (n_pi O)) f) sr)) in *.
    set (al := n_div O sw (n_mul O (n_two O) q)) in *.
    assert (A3 : 4 * u <= B2R al <= 32).
    { change (bpow radix2 (1 - 10)) with (/ 512) in A2. change (bpow radix2 (-1 - -6)) with 32 in A2. lra. }
    destruct (feedback_ok prec emax Hp24 Hbig pim pie sz lm nn Fpi cw al C1 A1 C2 A3)
      as [[P1 P2] [P3 [P4 [P5 [P6 [P7 [P8 P9]]]]]]].
    assert (B1 : bnd (n_one O) 0) by (split; [exact O1|rewrite O2, Rabs_R1; apply Rle_refl]).
    assert (B2 : bnd (n_two O) 1) by (split; [exact T1|rewrite T2, Rabs_pos_eq by lra; apply Rle_refl]).
    assert (Bz : bnd (n_zero O) 0) by (split; [reflexivity|cbn [B2R n_zero ieee_ops]; rewrite Rabs_R0; apply bpow_ge_0]).
    assert (Bc : bnd cw 0) by (split; [exact C1|eapply Rle_trans; [exact C2|]; cbn; lra]).
    assert (Ba : bnd al 5) by (split; [exact A1|rewrite Rabs_pos_eq by lra; change (bpow radix2 5) with 32; lra]).
    assert (Bq : bnd q 10) by (split; [exact Fq|rewrite Rabs_pos_eq by lra; change (bpow radix2 10) with 1024; lra]).
    assert (D1 := fun n k Hk Hn => proj1 (bnd_div n (n_add O (n_one O) al) k Hk Hn (proj1 P2))).
    assert (D2 : 1 <= B2R (n_two O)) by lra.
    destruct kind; cbn [rbj_coeffs]; try exact I;
      unfold lowpass_coeffs, highpass_coeffs, bandpass1_coeffs, bandpass2_coeffs, bandstop_coeffs, allpass_coeffs, normalised;
      fold cw sw; fold al; cbv zeta; (split; [|exact P5]); cbn [all_finite fin ieee_view].
    - assert (N1 := bnd_sub _ _ 0 0 ltac:(clear; lia) ltac:(clear; lia) B1 Bc). assert (N2 := bnd_div _ _ (0 + 1) ltac:(clear; lia) N1 D2).
      repeat split; try assumption; (eapply D1; [|eassumption]; clear; lia).
    - assert (N1 := bnd_add _ _ 0 0 ltac:(clear; lia) ltac:(clear; lia) B1 Bc). assert (N2 := bnd_div _ _ (0 + 1) ltac:(clear; lia) N1 D2).
      assert (N3 := bnd_sub _ _ 0 0 ltac:(clear; lia) ltac:(clear; lia) (bnd_neg _ _ B1) Bc).
      repeat split; try assumption; (eapply D1; [|eassumption]; clear; lia).
    - assert (N1 := bnd_mul _ _ 10 5 ltac:(clear; lia) ltac:(clear; lia) Bq Ba).
      assert (N2 := bnd_mul _ _ 10 5 ltac:(clear; lia) ltac:(clear; lia) (bnd_neg _ _ Bq) Ba).
      repeat split; try assumption; (eapply D1; [|eassumption]; clear; lia).
    - assert (N1 := bnd_neg _ _ Ba). repeat split; try assumption; (eapply D1; [|eassumption]; clear; lia).
    - repeat split; try assumption; (eapply D1; [|eassumption]; clear; lia).
    - assert (N1 := bnd_add _ _ 0 5 ltac:(clear; lia) ltac:(clear; lia) B1 Ba).
      repeat split; try assumption; (eapply D1; [|eassumption]; clear; lia).
  Qed.

  (** Peak: alpha divided by the amplitude. *)
  Section Gain.
  Hypothesis ten_ok : is_finite (n_of_f64 O (F64lit 10 1)) = true /\ B2R (n_of_f64 O (F64lit 10 1)) = 10.
  Hypothesis forty_ok : is_finite (n_of_f64 O (F64lit 40 1)) = true /\ B2R (n_of_f64 O (F64lit 40 1)) = 40.

  Ltac zl := clear - Hp24 Hbig; lia.

  Lemma peak_kind (sr f g q : F) : trig_close O V -> pow10_rounded O V -> safe_band V sr f ->
    is_finite q = true -> is_finite g = true -> / 16 <= B2R q <= 256 -> Rabs (B2R g) <= 24 ->
    match rbj_coeffs O Peak (RbjGain sr f g q) with
    | Some (b0, b1, b2, a1, a2) => all_finite V (b0, b1, b2, a1, a2) /\ stable (B2R a1) (B2R a2)
    | None => True
    end.
  Proof.
    intros HT HP HB Fq Fg Hq Hg. destruct (setup sr f HT HB) as [[C1 C2] [S1 S2]]. cbn zeta in *.
    destruct (alpha_ok prec emax Hp24 Hbig pim pie sz lm nn Fpi (n_sin O (w0 prec emax pim pie sz lm nn sr f)) q (-4) 8 S1 Fq
      ltac:(clear; lia) ltac:(clear; lia) S2 Hq) as [A1 A2].
    destruct (r0_ok prec emax Hp24 pim pie sz lm nn Fpi) as [R1 [R2 R3]]. assert (U := u_small prec Hp24).
    assert (Et := et_small prec emax Hbig).
    destruct (one_ok prec emax Hp24 pim pie sz lm nn Fpi) as [O1 O2]. destruct (two_ok prec emax Hp24 pim pie sz lm nn Fpi) as [T1 T2].
    unfold w0 in *.
    set (cw := n_cos O (n_div O (n_mul O (n_mul O (n_two O) (n_pi O)) f) sr)) in *.
    set (sw := n_sin O (n_div O (n_mul O (n_mul O (n_two O) (n_pi O)) f) sr)) in *.
    set (al := n_div O sw (n_mul O (n_two O) q)) in *.
    destruct ten_ok as [X1 X2]. destruct forty_ok as [Y1 Y2].
    set (ten := n_of_f64 O (F64lit 10 1)) in *. set (forty := n_of_f64 O (F64lit 40 1)) in *.
    assert (Hg' := Rabs_le_inv _ _ Hg).
    assert (Big : 64 <= bpow radix2 60) by (change 64 with (bpow radix2 6); apply bpow_le; clear; lia).
    destruct (divk prec emax Hp24 Hbig g forty Fg ltac:(lra)) as [Z1 Z2]; [rewrite Y2; apply Rabs_le; lra|].
    rewrite Y2 in Z2.
    assert (Ze : Rabs (RN (B2R g / 40) - B2R g / 40) <= u * 1 + eta prec emax).
    { apply (err prec emax Hp24); apply Rabs_le; lra. }
    assert (Zb : Rabs (B2R (f_div prec emax g forty)) <= 601 / 1000).
    { rewrite Z2. apply Rabs_le_inv in Ze. apply Rabs_le. assert (u * u <= u) by nra. lra. }
    assert (PW := pow10_small _ Zb).
    assert (PR : / 4 <= RN (Rpower 10 (B2R (f_div prec emax g forty))) <= 4).
    { apply (RN_between prec emax); [apply (bfmt prec emax Hp24 Hbig (-2)); zl|apply (bfmt prec emax Hp24 Hbig 2); zl|exact PW]. }
    destruct (HP ten (f_div prec emax g forty) X1 X2 Z1) as [W1 W2].
    { cbn [val rnd fmax ieee_view]. rewrite Rabs_pos_eq by lra. eapply Rle_trans; [apply PR|].
      apply Rle_trans with (/ 2 * bpow radix2 emax).
      - assert (G : bpow radix2 3 <= bpow radix2 emax) by (apply bpow_le; zl). change (bpow radix2 3) with 8 in G. lra.
      - apply Rmult_le_compat_r; [apply bpow_ge_0|]. change (bpow radix2 (- prec)) with u. lra. }
    cbn [val fin rnd ieee_view] in W1, W2. rewrite <- W2 in PR.
    change (f_div prec emax g forty) with (n_div O g forty) in *.
    set (a := n_powf O ten (n_div O g forty)) in *.
    assert (I : / 4 <= / B2R a <= 4).
    { split; [apply Rinv_le_contravar; lra|]. replace 4 with (/ (/ 4)) by lra. apply Rinv_le_contravar; lra. }
    change (bpow radix2 (1 - 8)) with (/ 128) in A2. change (bpow radix2 (-1 - -4)) with 8 in A2.
    assert (Q : r0 * / 512 <= B2R al / B2R a <= 32) by (unfold Rdiv; split; nra).
    destruct (divk prec emax Hp24 Hbig al a A1 ltac:(lra)) as [L1 L2].
    { apply Rabs_le. lra. }
    assert (A3 : 4 * u <= B2R (n_div O al a) <= 32).
    { cbn [n_div ieee_ops]. rewrite L2.
      assert (RB : r0 * / 512 <= RN (B2R al / B2R a) <= 32).
      { apply (RN_between prec emax); [|apply (bfmt prec emax Hp24 Hbig 5); zl|exact Q].
        change (/ 512) with (bpow radix2 (-9)). rewrite <- bpow_plus. apply (bfmt prec emax Hp24 Hbig).
        clear - Hp24 Hbig. assert (D := Z.div_mod prec 2 ltac:(lia)).
        assert (M := Z.mod_pos_bound prec 2 ltac:(lia)). lia. }
      lra. }
    destruct (feedback_ok prec emax Hp24 Hbig pim pie sz lm nn Fpi cw (n_div O al a) C1 L1 C2 A3)
      as [[P1 P2] [P3 [P4 [P5 [P6 [P7 [P8 P9]]]]]]].
    assert (B1 : bnd (n_one O) 0) by (split; [exact O1|rewrite O2, Rabs_R1; apply Rle_refl]).
    assert (Ba : bnd al 3) by (split; [exact A1|rewrite Rabs_pos_eq by lra; change (bpow radix2 3) with 8; lra]).
    assert (BA : bnd a 2) by (split; [exact W1|rewrite Rabs_pos_eq by lra; change (bpow radix2 2) with 4; lra]).
    assert (D1 := fun n k Hk Hn => proj1 (bnd_div n (n_add O (n_one O) (n_div O al a)) k Hk Hn (proj1 P2))).
    cbn [rbj_coeffs]. unfold peak_coeffs, normalised. fold cw sw ten forty. fold al a. cbv zeta.
    split; [|exact P5]. cbn [all_finite fin ieee_view].
    assert (N0 := bnd_mul _ _ 3 2 ltac:(clear; lia) ltac:(clear; lia) Ba BA).
    assert (N1 := bnd_add _ _ 0 (3 + 2) ltac:(clear; lia) ltac:(clear; lia) B1 N0).
    assert (N2 := bnd_sub _ _ 0 (3 + 2) ltac:(clear; lia) ltac:(clear; lia) B1 N0).
    repeat split; try assumption; (eapply D1; [|eassumption]; clear; lia).
  Qed.

  (** ** Cutoffs lost in rounding *)
  End Gain.

  Ltac zl := clear - Hp24 Hbig; lia.

  Lemma near_one x : 1 - / 2 * u < x <= 1 -> RN x = 1.
  Proof.
    intros H. destruct (Req_dec x 1) as [->|Hx]; [apply (RN_id prec emax); apply (bfmt prec emax Hp24 Hbig 0); zl|].
    assert (U := u_small prec Hp24).
    assert (Ec : cexp radix2 fexp x = (- prec)%Z).
    { unfold cexp. rewrite (mag_unique radix2 x 0).
      - unfold SpecFloat.fexp, SpecFloat.emin. lia.
      - cbn. rewrite Rabs_pos_eq by lra. lra. }
    assert (E : RN x = IZR (radix2 ^ prec) * bpow radix2 (- prec)).
    { unfold round. rewrite Ec. unfold F2R. cbn [Fnum Fexp]. f_equal. f_equal. cbn [round_mode].
      apply Znearest_imp. unfold scaled_mantissa. rewrite Ec, Z.opp_involutive.
      rewrite (IZR_Zpower radix2 prec) by lia.
      replace (x * bpow radix2 prec - bpow radix2 prec) with ((x - 1) * bpow radix2 prec) by ring.
      rewrite Rabs_mult, (Rabs_pos_eq (bpow _ _)) by apply bpow_ge_0.
      apply Rmult_lt_reg_r with u; [lra|]. rewrite Rmult_assoc. unfold uro at 1. rewrite <- bpow_plus.
      replace (prec + - prec)%Z with 0%Z by lia. cbn [bpow]. rewrite Rabs_left by lra. lra. }
    rewrite E. rewrite (IZR_Zpower radix2 prec) by lia. rewrite <- bpow_plus.
    replace (prec + - prec)%Z with 0%Z by lia. reflexivity.
  Qed.

  Lemma zero_of (x : F) : is_finite x = true -> B2R x = 0 -> is_zero prec emax x.
  Proof.
    intros H1 H2. destruct x as [s|s| |s m e Hb]; try discriminate; [exists s; reflexivity|exfalso].
    apply (F2R_neq_0 radix2 (Float radix2 (cond_Zopp s (Zpos m)) e)) in H2; [exact H2|]. destruct s; discriminate.
  Qed.

  Lemma lost_coeffs (sr f q : F) : trig_rounded O V -> usual_rate V sr -> is_finite f = true ->
    0 <= B2R f <= lost V * B2R sr -> is_finite q = true -> / 1024 <= B2R q <= 1024 ->
    let '(b0, b1, b2, a1, a2) := lowpass_coeffs O sr f q in
    is_zero prec emax b0 /\ is_zero prec emax b1 /\ is_zero prec emax b2 /\ is_finite a1 = true /\ is_finite a2 = true.
  Proof.
    intros HT [Fs Hs] Ff Hf Fq Hq. cbn [val fin fprec ieee_view] in *.
    assert (D := Z.div_mod (prec + 1) 2 ltac:(lia)). assert (M := Z.mod_pos_bound (prec + 1) 2 ltac:(lia)).
    set (k := ((prec + 1) / 2)%Z) in *.
    assert (L : lost V = bpow radix2 (- k) * / 8).
    { unfold lost. cbn [fprec ieee_view]. fold k. change (/ 8) with (bpow radix2 (-3)). rewrite <- bpow_plus. f_equal; lia. }
    rewrite L in Hf. assert (K1 : 0 < bpow radix2 (- k) <= / 4096).
    { split; [apply bpow_gt_0|]. change (/ 4096) with (bpow radix2 (-12)). apply bpow_le. lia. }
    assert (K2 : bpow radix2 (- k) * bpow radix2 (- k) <= u).
    { rewrite <- bpow_plus. apply bpow_le. lia. }
    destruct (two_pi_ok prec emax Hp24 Hbig pim pie sz lm nn Fpi Vpi) as [P1 [P2 _]].
    destruct (w0_ok prec emax Hp24 Hbig pim pie sz lm nn Fpi Vpi sr f Fs Ff Hs) as [W1 [W2 _]]; [nra|].
    assert (W3 : 0 <= B2R (w0 prec emax pim pie sz lm nn sr f) <= bpow radix2 (- k)).
    { rewrite W2. set (t := B2R (n_mul O (n_two O) (n_pi O))) in *. clearbody t.
      assert (F1 : fmt (B2R sr * bpow radix2 (- k))).
      { apply (mult_bpow_exact_FLT radix2 (SpecFloat.emin prec emax) prec); [apply generic_format_B2R|].
        assert (1 <= mag radix2 (B2R sr))%Z.
        { apply mag_ge_bpow. change (bpow radix2 (1 - 1)) with 1. rewrite Rabs_pos_eq; lra. }
        unfold SpecFloat.emin. lia. }
      assert (R1 : 0 <= RN (t * B2R f) <= B2R sr * bpow radix2 (- k)).
      { apply (RN_between prec emax); [apply generic_format_0|exact F1|]. split; [apply Rmult_le_pos; lra|].
        apply Rle_trans with (8 * B2R f); [apply Rmult_le_compat_r; lra|]. lra. }
      apply (RN_between prec emax); [apply generic_format_0|apply (bfmt prec emax Hp24 Hbig); clear - D M Hp24; lia|].
      assert (I : 0 < / B2R sr) by (apply Rinv_0_lt_compat; lra). split; [apply Rmult_le_pos; lra|].
      apply Rmult_le_reg_r with (B2R sr); [lra|]. unfold Rdiv. rewrite Rmult_assoc, Rinv_l by lra. lra. }
    destruct (HT _ W1) as [[S1 S2] [C1 C2]]. cbn [val fin rnd ieee_view] in *.
    assert (U := u_small prec Hp24).
    destruct (one_ok prec emax Hp24 pim pie sz lm nn Fpi) as [O1 O2]. destruct (two_ok prec emax Hp24 pim pie sz lm nn Fpi) as [T1 T2].
    assert (C3 : B2R (n_cos O (w0 prec emax pim pie sz lm nn sr f)) = 1).
    { rewrite C2. apply near_one. split; [|apply COS_bound].
      destruct (Rle_lt_or_eq_dec _ _ (proj1 W3)) as [N|N]; [|rewrite <- N, cos_0; lra].
      set (w := B2R (w0 prec emax pim pie sz lm nn sr f)) in *. clearbody w.
      assert (XX : 0 < w <= 1) by lra. assert (G := cos_low w XX).
      assert (w * w <= bpow radix2 (- k) * bpow radix2 (- k)) by (apply Rmult_le_compat; lra). lra. }
    assert (S3 : 0 <= B2R (n_sin O (w0 prec emax pim pie sz lm nn sr f)) <= 1).
    { rewrite S2. apply (RN_between prec emax); [apply generic_format_0|apply (bfmt prec emax Hp24 Hbig 0); zl|].
      split; [|apply SIN_bound]. assert (B := pi_20). apply sin_ge_0; lra. }
    unfold w0 in *.
    set (cw := n_cos O (n_div O (n_mul O (n_mul O (n_two O) (n_pi O)) f) sr)) in *.
    set (sw := n_sin O (n_div O (n_mul O (n_mul O (n_two O) (n_pi O)) f) sr)) in *.
    assert (Big : 2048 <= bpow radix2 60) by (change 2048 with (bpow radix2 11); apply bpow_le; clear; lia).
    destruct (mulk prec emax Hp24 Hbig (n_two O) q T1 Fq) as [Q1 Q2]; [rewrite T2; apply Rabs_le; lra|]. rewrite T2 in Q2.
    change (f_mul prec emax (n_two O) q) with (n_mul O (n_two O) q) in *.
    assert (Q3 : / 512 <= B2R (n_mul O (n_two O) q) <= 2048).
    { rewrite Q2. apply (RN_between prec emax); [apply (bfmt prec emax Hp24 Hbig (-9)); zl|apply (bfmt prec emax Hp24 Hbig 11); zl|lra]. }
    assert (I : 0 < / B2R (n_mul O (n_two O) q) <= 512).
    { split; [apply Rinv_0_lt_compat; lra|]. replace 512 with (/ / 512) by lra. apply Rinv_le_contravar; lra. }
    assert (NZ : B2R (n_mul O (n_two O) q) <> 0) by lra.
    destruct (divk prec emax Hp24 Hbig sw (n_mul O (n_two O) q) S1 NZ) as [A1 A2].
    { unfold Rdiv. rewrite Rabs_pos_eq by (apply Rmult_le_pos; lra). nra. }
    change (f_div prec emax sw (n_mul O (n_two O) q)) with (n_div O sw (n_mul O (n_two O) q)) in *.
    set (al := n_div O sw (n_mul O (n_two O) q)) in *.
    assert (A3 : 0 <= B2R al <= 512).
    { rewrite A2. apply (RN_between prec emax); [apply generic_format_0|apply (bfmt prec emax Hp24 Hbig 9); zl|].
      unfold Rdiv. split; [apply Rmult_le_pos; lra|nra]. }
    destruct (addk prec emax Hp24 Hbig (n_one O) al O1 A1) as [E1 E2]; [rewrite O2; apply Rabs_le; lra|]. rewrite O2 in E2.
    change (f_add prec emax (n_one O) al) with (n_add O (n_one O) al) in *.
    assert (E3 : 1 <= B2R (n_add O (n_one O) al)).
    { rewrite E2. apply Rle_trans with (RN 1).
      - right. symmetry. apply (RN_id prec emax). apply (bfmt prec emax Hp24 Hbig 0); zl.
      - apply (RN_le prec emax). lra. }
    destruct (subk prec emax Hp24 Hbig (n_one O) cw O1 C1) as [G1 G2]; [rewrite O2, C3; apply Rabs_le; lra|].
    rewrite O2, C3, Rminus_diag_eq, (RN_0 prec emax) in G2 by reflexivity.
    change (f_sub prec emax (n_one O) cw) with (n_sub O (n_one O) cw) in *.
    assert (Zd : forall x y : F, is_finite x = true -> B2R x = 0 -> 1 <= B2R y ->
      is_finite (n_div O x y) = true /\ B2R (n_div O x y) = 0).
    { intros x y Fx Vx Hy. destruct (divk prec emax Hp24 Hbig x y Fx ltac:(lra)) as [X1 X2].
      - unfold Rdiv. rewrite Vx, Rmult_0_l, Rabs_R0. apply bpow_ge_0.
      - unfold Rdiv in X2. rewrite Vx, Rmult_0_l, (RN_0 prec emax) in X2. split; assumption. }
    assert (T3 : 1 <= B2R (n_two O)) by (rewrite T2; lra).
    destruct (Zd _ (n_two O) G1 G2 T3) as [H1 H2].
    destruct (Zd _ (n_add O (n_one O) al) G1 G2 E3) as [H3 H4].
    destruct (Zd _ (n_add O (n_one O) al) H1 H2 E3) as [H5 H6].
    unfold lowpass_coeffs, normalised. fold cw sw. fold al. cbv zeta.
    split; [apply zero_of; assumption|]. split; [apply zero_of; assumption|]. split; [apply zero_of; assumption|].
    assert (B1 : bnd (n_one O) 0) by (split; [exact O1|rewrite O2, Rabs_R1; apply Rle_refl]).
    assert (B2 : bnd (n_two O) 1) by (split; [exact T1|rewrite T2, Rabs_pos_eq by lra; apply Rle_refl]).
    assert (Bc : bnd cw 0) by (split; [exact C1|rewrite C3, Rabs_R1; apply Rle_refl]).
    assert (Ba : bnd al 9) by (split; [exact A1|rewrite Rabs_pos_eq by lra; change (bpow radix2 9) with 512; lra]).
    assert (N1 := bnd_mul _ _ 1 0 ltac:(clear; lia) ltac:(clear; lia) (bnd_neg _ _ B2) Bc).
    assert (N2 := bnd_sub _ _ 0 9 ltac:(clear; lia) ltac:(clear; lia) B1 Ba).
    split.
    - exact (proj1 (bnd_div _ _ (1 + 0) ltac:(clear; lia) N1 E3)).
    - exact (proj1 (bnd_div _ _ (9 + 1) ltac:(clear; lia) N2 E3)).
  Qed.
End F.

