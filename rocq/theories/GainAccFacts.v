(** Rounding analysis of the setters of Peak, LowShelf and HighShelf. *)
From Coq Require Import ZArith Reals Bool Lra Lia.
From Flocq Require Import Core.Core IEEE754.BinarySingleNaN.
From Verif Require Import Base Num NumR NumF FloatSpec FloatFacts SmoothF FltFilterFacts ConstLemmas
  FilterM RbjM FltFilterSpec RbjFltSpec RbjFltFacts RbjFltFacts2 RbjAccSpec RbjAccFacts DbSpec DbFacts GainAccSpec.
Open Scope R_scope.

Lemma pow10_two y : Rabs y <= 301 / 1000 -> / 2 <= Rpower 10 y <= 2.
Proof.
  assert (P : forall y, y <= 301 / 1000 -> Rpower 10 y <= 2).
  { intros z Hz. apply Rle_trans with (Rpower 10 (301 / 1000)).
    - apply Rle_Rpower; lra.
    - assert (G : Rpower (Rpower 10 (301 / 1000)) (INR 1000) <= Rpower 2 (INR 1000)).
      { rewrite Rpower_mult. replace (301 / 1000 * INR 1000) with (INR 301) by (rewrite !INR_IZR_INZ; cbn; lra).
        rewrite !Rpower_pow by lra. rewrite !pow_IZR. apply IZR_le. vm_compute. discriminate. }
      destruct (Rle_dec (Rpower 10 (301 / 1000)) 2) as [g|g]; [exact g|exfalso].
      apply (Rlt_not_le _ _ (Rlt_Rpower_l 2 (Rpower 10 (301 / 1000)) (INR 1000) ltac:(apply lt_0_INR; lia) ltac:(lra)) G). }
  intros H. apply Rabs_le_inv in H. split; [|apply P; lra].
  assert (G := P (- y) ltac:(lra)). rewrite Rpower_Ropp in G.
  assert (Q : 0 < Rpower 10 y) by apply exp_pos.
  rewrite <- (Rinv_inv (Rpower 10 y)). apply Rinv_le_contravar; [apply Rinv_0_lt_compat; exact Q|exact G].
Qed.

Lemma pow10_lip a b h : Rpower 10 a <= h -> Rpower 10 b <= h -> Rabs (Rpower 10 a - Rpower 10 b) <= 7 / 3 * h * Rabs (a - b).
Proof.
  intros Ha Hb. assert (L := ln10_bounds).
  assert (K : forall x y, Rpower 10 x <= h -> Rpower 10 x - Rpower 10 y <= 7 / 3 * h * Rabs (x - y)).
  { intros x y Hx. assert (P := exp_pos (x * ln 10)). fold (Rpower 10 x) in P.
    destruct (Rle_dec x y) as [H|H].
    - assert (Rpower 10 x <= Rpower 10 y) by (apply Rle_Rpower; lra).
      assert (0 <= 7 / 3 * h * Rabs (x - y)) by (apply Rmult_le_pos; [lra|apply Rabs_pos]). lra.
    - rewrite Rabs_pos_eq by lra.
      replace (Rpower 10 y) with (Rpower 10 x * exp ((y - x) * ln 10)).
      2: { unfold Rpower. rewrite <- exp_plus. f_equal. ring. }
      assert (E := exp_ineq1_le ((y - x) * ln 10)).
      assert (Rpower 10 x * (1 + (y - x) * ln 10) <= Rpower 10 x * exp ((y - x) * ln 10)) by (apply Rmult_le_compat_l; lra).
      assert (M : Rpower 10 x * ((x - y) * ln 10) <= h * ((x - y) * (7 / 3))).
      { apply Rmult_le_compat; try lra; [apply Rmult_le_pos; lra|apply Rmult_le_compat_l; lra]. }
      lra. }
  assert (K1 := K a b Ha). assert (K2 := K b a Hb). rewrite (Rabs_minus_sym b a) in K2. apply Rabs_le. lra.
Qed.

Section F.
  Context (prec emax : Z) {Hp : Prec_gt_0 prec} {Hm : Prec_lt_emax prec emax}
    (Hp24 : (24 <= prec)%Z) (Hbig : (prec + 100 <= emax)%Z).
  Notation F := (binary_float prec emax).
  Notation RN := (round radix2 (SpecFloat.fexp prec emax) (round_mode mode_NE)).
  Notation u := (uro prec).
  Notation et := (eta prec emax).
  Notation V := (ieee_view prec emax).
  Context (pim pie sz : Z) (lm : libm F) (nn : bool).
  Notation O := (ieee_ops prec emax pim pie sz lm nn).
  Hypothesis Fpi : is_finite (n_pi O) = true.
  Hypothesis Vpi : B2R (n_pi O) = RN PI.
  Notation close := (close prec emax).
  Hypothesis ten_ok : is_finite (n_of_f64 O (F64lit 10 1)) = true /\ B2R (n_of_f64 O (F64lit 10 1)) = 10.
  Hypothesis forty_ok : is_finite (n_of_f64 O (F64lit 40 1)) = true /\ B2R (n_of_f64 O (F64lit 40 1)) = 40.
  Hypothesis HP : pow10_close O V.

  Notation amp g := (n_powf O (n_of_f64 O (F64lit 10 1)) (n_div O g (n_of_f64 O (F64lit 40 1)))).

  (** The amplitude, for a gain of at most [40 r] dB and amplitudes of at most [h]. *)
  Lemma amp_acc (g : F) r h : is_finite g = true -> Rabs (B2R g) <= 40 * r -> 0 <= r <= 1 ->
    1 <= h <= 4 -> (forall y, Rabs y <= r + / 1000 -> / h <= Rpower 10 y <= h) ->
    close (amp g) (Rpower 10 (B2R g / 40)) (h * (7 / 3 * r + 2.1) * u) /\ / h <= Rpower 10 (B2R g / 40) <= h.
  Proof.
    intros Fg Hg Hr Hh Hpow. assert (U := u_small prec Hp24). assert (E := et_u prec emax Hp24 Hbig).
    destruct ten_ok as [X1 X2]. destruct forty_ok as [Y1 Y2].
    set (ten := n_of_f64 O (F64lit 10 1)) in *. set (forty := n_of_f64 O (F64lit 40 1)) in *.
    assert (Hg' := Rabs_le_inv _ _ Hg). assert (W := big6).
    destruct (divk prec emax Hp24 Hbig g forty Fg ltac:(lra)) as [Z1 Z2]; [rewrite Y2; apply Rabs_le; lra|].
    rewrite Y2 in Z2. set (z := B2R g / 40) in *. assert (Hz : Rabs z <= r) by (apply Rabs_le; unfold z; lra).
    assert (Ze := err prec emax Hp24 z r Hz). rewrite <- Z2 in Ze.
    cbn [n_div ieee_ops]. set (y := f_div prec emax g forty) in *. clearbody y z. clear Hg Hg'.
    assert (ur : u * r <= u) by (rewrite <- (Rmult_1_r u) at 2; apply Rmult_le_compat_l; lra).
    assert (Hy : Rabs (B2R y) <= r + / 1000).
    { replace (B2R y) with ((B2R y - z) + z) by ring. eapply Rle_trans; [apply Rabs_triang|]. lra. }
    assert (Py := Hpow _ Hy). assert (Pz := Hpow z ltac:(lra)).
    assert (I : / 4 <= / h) by (apply Rinv_le_contravar; lra).
    destruct (HP ten y X1 X2 Z1) as [W1 W2].
    { cbn [val fmin fmax ieee_view]. split.
      - apply Rle_trans with (bpow radix2 (-2)); [apply bpow_le; lia|]. change (bpow radix2 (-2)) with (/ 4). lra.
      - apply Rle_trans with (/ 2 * bpow radix2 emax).
        + assert (G : bpow radix2 3 <= bpow radix2 emax) by (apply bpow_le; lia). change (bpow radix2 3) with 8 in G. lra.
        + apply Rmult_le_compat_r; [apply bpow_ge_0|]. change (bpow radix2 (- prec)) with u. lra. }
    cbn [val fin fprec ieee_view] in W1, W2.
    assert (E2 : bpow radix2 (1 - prec) = 2 * u) by (change (1 - prec)%Z with (1 + - prec)%Z; rewrite bpow_plus; reflexivity).
    rewrite E2 in W2.
    split; [|exact Pz]. split; [exact W1|].
    assert (L := pow10_lip (B2R y) z h ltac:(lra) ltac:(lra)).
    assert (M1 : 2 * u * Rpower 10 (B2R y) <= 2 * u * h) by (apply Rmult_le_compat_l; lra).
    assert (M2 : 7 / 3 * h * Rabs (B2R y - z) <= 7 / 3 * h * (u * r + et)) by (apply Rmult_le_compat_l; lra).
    assert (M3 : 7 / 3 * h * et <= / 100 * (u * h)).
    { apply Rle_trans with (7 / 3 * h * (/ 1000000 * u)); [apply Rmult_le_compat_l; lra|].
      assert (0 <= h * u) by (apply Rmult_le_pos; lra). lra. }
    match goal with |- Rabs (?a - ?b) <= _ => replace (a - b) with ((a - Rpower 10 (B2R y)) + (Rpower 10 (B2R y) - b)) by ring end.
    eapply Rle_trans; [apply Rabs_triang|]. assert (0 <= h * u) by (apply Rmult_le_pos; lra). lra.
  Qed.

  Lemma amp24 (g : F) : is_finite g = true -> Rabs (B2R g) <= 24 ->
    close (amp g) (Rpower 10 (B2R g / 40)) (14.1 * u) /\ / 4 <= Rpower 10 (B2R g / 40) <= 4.
  Proof.
    intros Fg Hg. assert (U := u_small prec Hp24).
    destruct (amp_acc g (6 / 10) 4 Fg) as [A B]; [lra|lra|lra|intros y Hy; apply pow10_small; lra|].
    split; [eapply close_weaken; [exact A|lra]|lra].
  Qed.
  Lemma amp12 (g : F) : is_finite g = true -> Rabs (B2R g) <= 12 ->
    close (amp g) (Rpower 10 (B2R g / 40)) (6 * u) /\ / 2 <= Rpower 10 (B2R g / 40) <= 2.
  Proof.
    intros Fg Hg. assert (U := u_small prec Hp24).
    destruct (amp_acc g (3 / 10) 2 Fg) as [A B]; [lra|lra|lra|intros y Hy; apply pow10_two; lra|].
    split; [eapply close_weaken; [exact A|lra]|lra].
  Qed.

  (** Square roots. *)
  Lemma close_sqrt x r e lo hi g : close x r e -> 0 < lo -> lo * lo <= r - e -> 0 <= e -> r <= hi * hi -> 0 <= hi ->
    e / (2 * lo) + u * (hi + e / (2 * lo)) + et <= g -> close (n_sqrt O x) (sqrt r) g.
  Proof.
    intros [Fx Dx] L0 L1 E0 H1 H0 G. assert (Dx' := Rabs_le_inv _ _ Dx).
    assert (LL : 0 < lo * lo) by (apply Rmult_lt_0_compat; lra).
    destruct (sqrt_ok prec emax x Fx ltac:(lra)) as [S1 S2]. split; [exact S1|]. cbn [n_sqrt ieee_ops]. rewrite S2.
    assert (Lx : lo <= sqrt (B2R x)) by (rewrite <- (sqrt_square lo) by lra; apply sqrt_le_1_alt; lra).
    assert (Lr : lo <= sqrt r) by (rewrite <- (sqrt_square lo) by lra; apply sqrt_le_1_alt; lra).
    assert (Hr : sqrt r <= hi) by (rewrite <- (sqrt_square hi) by lra; apply sqrt_le_1_alt; lra).
    assert (Qx := sqrt_sqrt (B2R x) ltac:(lra)). assert (Qr := sqrt_sqrt r ltac:(lra)).
    assert (D : Rabs (sqrt (B2R x) - sqrt r) <= e / (2 * lo)).
    { replace (sqrt (B2R x) - sqrt r) with ((B2R x - r) / (sqrt (B2R x) + sqrt r)).
      2: { rewrite <- Qx at 1. rewrite <- Qr at 1. field. lra. }
      unfold Rdiv. rewrite Rabs_mult, (Rabs_pos_eq (/ _)) by (left; apply Rinv_0_lt_compat; lra).
      apply Rmult_le_compat; [apply Rabs_pos|left; apply Rinv_0_lt_compat; lra|exact Dx|].
      apply Rinv_le_contravar; lra. }
    apply (close_round prec emax Hp24 _ _ _ hi _ D); [rewrite Rabs_pos_eq; lra|exact G].
  Qed.

  Notation s sr f := (sin (2 * PI * (B2R f / B2R sr))).
  Notation c sr f := (cos (2 * PI * (B2R f / B2R sr))).
  Notation sh sr f := (n_sin O (w0 prec emax pim pie sz lm nn sr f)).
  Notation ch sr f := (n_cos O (w0 prec emax pim pie sz lm nn sr f)).

  Lemma one_cl : close (n_one O) 1 0.
  Proof. destruct (one_ok prec emax Hp24 pim pie sz lm nn Fpi). apply close_exact; assumption. Qed.
  Lemma two_cl : close (n_two O) 2 0.
  Proof. destruct (two_ok prec emax Hp24 pim pie sz lm nn Fpi). apply close_exact; assumption. Qed.

  (** The rules with the unrounded error bounded separately. *)
  Lemma close_mul2 x y r s e f b c B m g : close x r e -> close y s f -> Rabs r <= b -> Rabs s <= c -> Rabs (r * s) <= B ->
    b * f + c * e + e * f <= m -> B + m <= 1000000000000 -> m + u * (B + m) + et <= g -> close (n_mul O x y) (r * s) g.
  Proof.
    intros X Y H1 H2 H3 H4 H5 H6. assert (U := u_small prec Hp24).
    apply (close_mul prec emax Hp24 Hbig _ _ _ _ _ _ b c B _ X Y H1 H2 H3); [lra|].
    assert (u * (B + (b * f + c * e + e * f)) <= u * (B + m)) by (apply Rmult_le_compat_l; lra). lra.
  Qed.
  Lemma close_div2 x y r s e f d k m g : close x r e -> close y s f -> 0 < d -> d + f <= s -> Rabs (r / s) <= k ->
    e + k * f <= m * d -> k + m <= 1000000000000 -> m + u * (k + m) + et <= g -> close (n_div O x y) (r / s) g.
  Proof.
    intros X Y H1 H2 H3 H4 H5 H6. assert (U := u_small prec Hp24).
    assert (M : (e + k * f) / d <= m).
    { apply Rmult_le_reg_r with d; [exact H1|]. unfold Rdiv. rewrite Rmult_assoc, Rinv_l by lra. lra. }
    apply (close_div prec emax Hp24 Hbig _ _ _ _ _ _ d k _ X Y H1 H2 H3); [lra|].
    assert (u * (k + (e + k * f) / d) <= u * (k + m)) by (apply Rmult_le_compat_l; lra). lra.
  Qed.
  Lemma ratio_le a b k : 0 < b -> Rabs a <= k * b -> Rabs (a / b) <= k.
  Proof.
    intros B H. unfold Rdiv. rewrite Rabs_mult, (Rabs_pos_eq (/ b)) by (left; apply Rinv_0_lt_compat; lra).
    apply Rmult_le_reg_r with b; [exact B|]. rewrite Rmult_assoc, Rinv_l by lra. lra.
  Qed.

  Lemma peak_acc (sr f g q : F) ch' c' : trig_close O V -> audible V sr f -> gain_setting V Peak g q ->
    rbj_coeffs O Peak (RbjGain sr f g q) = Some ch' ->
    rbj_coeffs R_ops Peak (RbjGain (B2R sr) (B2R f) (B2R g) (B2R q)) = Some c' ->
    all_finite V ch' /\ each_within (gain_error V Peak (B2R q)) (vals V ch') c'.
  Proof.
    intros HT HA [Fg [Fq [Hg Hq]]] E1 E2. cbn [fin val ieee_view] in Fg, Fq, Hg, Hq.
    assert (U := u_small prec Hp24). assert (E := et_u prec emax Hp24 Hbig).
    destruct (trig_acc prec emax Hp24 Hbig pim pie sz lm nn Fpi Vpi sr f HT HA) as [S1 [C1 S0]].
    destruct (alpha_acc prec emax Hp24 Hbig pim pie sz lm nn Fpi (sh sr f) q (s sr f) S1 S0 Fq ltac:(lra)) as [A1 A2].
    destruct (amp24 g Fg Hg) as [G1 G2].
    injection E1 as <-. injection E2 as <-. unfold peak_coeffs, normalised.
    replace (n_powf R_ops (n_of_f64 R_ops (F64lit 10 1)) (n_div R_ops (B2R g) (n_of_f64 R_ops (F64lit 40 1))))
      with (Rpower 10 (B2R g / 40)) by (cbn; f_equal; [field|f_equal; field]).
    cbn [R_ops n_one n_two n_zero n_pi n_add n_sub n_mul n_div n_neg n_sin n_cos].
    replace (2 * PI * B2R f / B2R sr) with (2 * PI * (B2R f / B2R sr)) by (unfold Rdiv; ring).
    fold (w0 prec emax pim pie sz lm nn sr f).
    assert (C2 : -1 <= c sr f <= 1) by apply COS_bound.
    set (i := / B2R q) in *.
    assert (I : / 256 <= i <= 16).
    { unfold i. split; [apply Rinv_le_contravar; lra|]. replace 16 with (/ / 16) by field. apply Rinv_le_contravar; lra. }
    set (A := Rpower 10 (B2R g / 40)) in *. set (al := s sr f / (2 * B2R q)) in *. set (cc := c sr f) in *.
    set (a := amp g) in *.
    set (w := w0 prec emax pim pie sz lm nn sr f) in *.
    set (ah := n_div O (n_sin O w) (n_mul O (n_two O) q)) in *. set (chh := n_cos O w) in *.
    clearbody A al cc a ah chh. clear S1 S0.
    assert (UI : 0 < u * i <= / 1000000) by (split; [apply Rmult_lt_0_compat; lra|apply Rle_trans with (/ 16777216 * 16); [apply Rmult_le_compat; lra|lra]]).
    assert (UUI : u * (u * i) <= / 1000000 * (u * i)) by (apply Rmult_le_compat_r; lra).
    assert (UU : u * u <= / 1000000 * u) by (apply Rmult_le_compat_r; lra).
    assert (UI2 : u <= 256 * (u * i)) by (assert (u * / 256 <= u * i) by (apply Rmult_le_compat_l; lra); lra).
    assert (UIUI : (u * i) * (u * i) <= / 1000000 * (u * i)) by (apply Rmult_le_compat_r; lra).
    assert (alA : 0 <= al * A <= 2 * i).
    { split; [apply Rmult_le_pos; lra|]. apply Rle_trans with (i / 2 * 4); [apply Rmult_le_compat; lra|lra]. }
    assert (iA : / 4 <= / A <= 4) by (split; [apply Rinv_le_contravar; lra|replace 4 with (/ / 4) by field; apply Rinv_le_contravar; lra]).
    assert (aldA : 0 <= al / A <= 2 * i).
    { split; [apply Rmult_le_pos; lra|]. unfold Rdiv. apply Rle_trans with (i / 2 * 4); [apply Rmult_le_compat; lra|lra]. }
    assert (M1 : close (n_mul O ah a) (al * A) (118 * (u * i))).
    { apply (close_mul2 _ _ _ _ _ _ (i / 2) 4 (2 * i) (115.1 * (u * i)) _ A1 G1); try (rewrite Rabs_pos_eq; lra); lra. }
    assert (D1 : close (n_div O ah a) (al / A) (225 * (u * i))).
    { apply (close_div2 _ _ _ _ _ _ 0.2499 (2 * i) (221 * (u * i)) _ A1 G1); try lra. rewrite Rabs_pos_eq; lra. }
    assert (B0 : close (n_add O (n_one O) (n_mul O ah a)) (1 + al * A) ((2 + 121 * i) * u)).
    { apply (close_add prec emax Hp24 Hbig _ _ _ _ _ _ (1 + 2 * i) _ one_cl M1); [rewrite Rabs_pos_eq; lra|lra|lra]. }
    assert (B2 : close (n_sub O (n_one O) (n_mul O ah a)) (1 - al * A) ((2 + 121 * i) * u)).
    { apply (close_sub prec emax Hp24 Hbig _ _ _ _ _ _ (1 + 2 * i) _ one_cl M1); [apply Rabs_le; lra|lra|lra]. }
    assert (A0 : close (n_add O (n_one O) (n_div O ah a)) (1 + al / A) ((2 + 228 * i) * u)).
    { apply (close_add prec emax Hp24 Hbig _ _ _ _ _ _ (1 + 2 * i) _ one_cl D1); [rewrite Rabs_pos_eq; lra|lra|lra]. }
    assert (A2' : close (n_sub O (n_one O) (n_div O ah a)) (1 - al / A) ((2 + 228 * i) * u)).
    { apply (close_sub prec emax Hp24 Hbig _ _ _ _ _ _ (1 + 2 * i) _ one_cl D1); [apply Rabs_le; lra|lra|lra]. }
    assert (N1 : close (n_mul O (n_neg O (n_two O)) chh) (- (2) * cc) (107 * u)).
    { apply (close_mul prec emax Hp24 Hbig _ _ _ _ _ _ 2 1 2 _ (close_neg _ _ _ _ _ two_cl) C1);
        [apply Rabs_le; lra|apply Rabs_le; lra|apply Rabs_le; lra|lra|lra]. }
    assert (Eg : gain_error V Peak (B2R q) = (120 + 3800 * i) * u) by reflexivity. rewrite Eg. clear Eg.
    set (w0v := n_add O (n_one O) (n_div O ah a)) in *. set (W := 1 + al / A) in *.
    assert (W1 : 1 <= W) by (unfold W; lra).
    assert (N16 : forall x r, close x r ((2 + 121 * i) * u) -> Rabs r <= 16 * W ->
      close (n_div O x w0v) (r / W) ((120 + 3800 * i) * u)).
    { intros x r X R2. apply (close_div2 _ _ _ _ _ _ 0.9997 16 ((35 + 3772 * i) * u) _ X A0); try lra. apply ratio_le; lra. }
    assert (N2 : forall x r, close x r ((107 + 228 * i) * u) -> Rabs r <= 2 * W ->
      close (n_div O x w0v) (r / W) ((120 + 3800 * i) * u)).
    { intros x r X R2. apply (close_div2 _ _ _ _ _ _ 0.9997 2 ((112 + 686 * i) * u) _ X A0); try lra. apply ratio_le; lra. }
    assert (J : al * A <= 16 * (al / A)).
    { unfold Rdiv. apply Rle_trans with (al * (16 * / A)); [|lra]. apply Rmult_le_compat_l; [lra|]. lra. }
    assert (K0 := N16 _ _ B0 ltac:(unfold W; rewrite Rabs_pos_eq; lra)).
    assert (K1 : close (n_div O (n_mul O (n_neg O (n_two O)) chh) w0v) (- (2) * cc / W) ((120 + 3800 * i) * u)).
    { apply N2; [apply (close_weaken prec emax _ _ _ _ N1); lra|unfold W; apply Rabs_le; lra]. }
    assert (K2 := N16 _ _ B2 ltac:(unfold W; apply Rabs_le; lra)).
    assert (K3 : close (n_div O (n_sub O (n_one O) (n_div O ah a)) w0v) ((1 - al / A) / W) ((120 + 3800 * i) * u)).
    { apply N2; [apply (close_weaken prec emax _ _ _ _ A2'); lra|unfold W; apply Rabs_le; lra]. }
    apply bundle; assumption.
  Qed.

  Lemma mix_le p q x y c0 : Rabs c0 <= 1 -> p + q <= x + y -> p - q <= x - y -> p + q * c0 <= x + y * c0.
  Proof.
    intros C H1 H2. apply Rabs_le_inv in C.
    assert (0 <= (1 + c0) * (x + y - (p + q))) by (apply Rmult_le_pos; lra).
    assert (0 <= (1 - c0) * (x - y - (p - q))) by (apply Rmult_le_pos; lra). lra.
  Qed.

  (** The shelves from their common quantities on: [td], [nd] make the denominator,
      [tn], [nm] the numerator. *)
  Lemma shelf_tail a td tn nd nm S tw1 tw2 A TD TN ND NM SS k1 k2 :
    close a A (6 * u) -> close td TD (77 * u) -> close tn TN (77 * u) -> close nd ND (183 * u) -> close nm NM (183 * u) ->
    close S SS (355 * u) -> close tw1 k1 0 -> close tw2 k2 0 -> Rabs k1 = 2 -> Rabs k2 = 2 ->
    / 2 <= A <= 2 -> 1 <= TD <= 4 -> 1 <= TN <= 4 -> Rabs ND <= TD -> Rabs NM <= TN -> A * TN <= 4 * TD -> 0 <= SS <= 4.38 ->
    forall b0 b1 b2 a0 a1 a2 a0R,
    b0 = n_mul O a (n_add O tn S) -> b1 = n_mul O (n_mul O tw1 a) nm -> b2 = n_mul O a (n_sub O tn S) ->
    a0 = n_add O td S -> a1 = n_mul O tw2 nd -> a2 = n_sub O td S -> a0R = TD + SS ->
    all_finite V (n_div O b0 a0, n_div O b1 a0, n_div O b2 a0, n_div O a1 a0, n_div O a2 a0)
    /\ each_within (4600 * u)
         (vals V (n_div O b0 a0, n_div O b1 a0, n_div O b2 a0, n_div O a1 a0, n_div O a2 a0))
         (A * (TN + SS) / a0R, k1 * A * NM / a0R, A * (TN - SS) / a0R, k2 * ND / a0R, (TD - SS) / a0R).
  Proof.
    intros CA CTD CTN CND CNM CS CK1 CK2 HK1 HK2 HA HTD HTN HND HNM HAT HSS b0 b1 b2 a0 a1 a2 a0R -> -> -> -> -> -> ->.
    assert (U := u_small prec Hp24). assert (E := et_u prec emax Hp24 Hbig).
    assert (UU : u * u <= / 1000000 * u) by (apply Rmult_le_compat_r; lra).
    assert (Ak : Rabs A <= 2) by (apply Rabs_le; lra).
    assert (Ap : 0 <= A) by lra.
    assert (H1 : close (n_add O tn S) (TN + SS) (441 * u)).
    { apply (close_add prec emax Hp24 Hbig _ _ _ _ _ _ 8.38 _ CTN CS); [apply Rabs_le|..]; lra. }
    assert (H2 : close (n_sub O tn S) (TN - SS) (441 * u)).
    { apply (close_sub prec emax Hp24 Hbig _ _ _ _ _ _ 8.38 _ CTN CS); [apply Rabs_le|..]; lra. }
    assert (H3 : close (n_add O td S) (TD + SS) (441 * u)).
    { apply (close_add prec emax Hp24 Hbig _ _ _ _ _ _ 8.38 _ CTD CS); [apply Rabs_le|..]; lra. }
    assert (H4 : close (n_sub O td S) (TD - SS) (441 * u)).
    { apply (close_sub prec emax Hp24 Hbig _ _ _ _ _ _ 8.38 _ CTD CS); [apply Rabs_le|..]; lra. }
    assert (M2 : forall x b, Rabs x <= b -> Rabs (A * x) <= 2 * b).
    { intros x b Hx. rewrite Rabs_mult. apply Rmult_le_compat; try apply Rabs_pos; assumption. }
    assert (P1 : Rabs (TN + SS) <= 8.38) by (apply Rabs_le; lra). assert (P2 : Rabs (TN - SS) <= 8.38) by (apply Rabs_le; lra).
    assert (H5 : close (n_mul O a (n_add O tn S)) (A * (TN + SS)) (950 * u)).
    { apply (close_mul2 _ _ _ _ _ _ 2 8.38 16.76 (932.5 * u) _ CA H1); try assumption; try lra. apply Rle_trans with (2 * 8.38); [apply M2; exact P1|lra]. }
    assert (H6 : close (n_mul O a (n_sub O tn S)) (A * (TN - SS)) (950 * u)).
    { apply (close_mul2 _ _ _ _ _ _ 2 8.38 16.76 (932.5 * u) _ CA H2); try assumption; try lra. apply Rle_trans with (2 * 8.38); [apply M2; exact P2|lra]. }
    assert (B1 : Rabs (k1 * A) <= 4) by (rewrite Rabs_mult, HK1; lra).
    assert (H7 : close (n_mul O tw1 a) (k1 * A) (17 * u)).
    { apply (close_mul2 _ _ _ _ _ _ 2 2 4 (12 * u) _ CK1 CA); lra. }
    assert (NM4 : Rabs NM <= 4) by lra. assert (ND4 : Rabs ND <= 4) by lra.
    assert (H8 : close (n_mul O (n_mul O tw1 a) nm) (k1 * A * NM) (820 * u)).
    { apply (close_mul2 _ _ _ _ _ _ 4 4 16 (801 * u) _ H7 CNM); try lra.
      rewrite Rabs_mult. apply Rle_trans with (4 * 4); [apply Rmult_le_compat; try apply Rabs_pos; lra|lra]. }
    assert (H9 : close (n_mul O tw2 nd) (k2 * ND) (376 * u)).
    { apply (close_mul2 _ _ _ _ _ _ 2 4 8 (366 * u) _ CK2 CND); try lra. rewrite Rabs_mult, HK2. lra. }
    assert (AS : A * SS <= 4 * SS) by (apply Rmult_le_compat_r; lra).
    assert (AS0 : 0 <= A * SS) by (apply Rmult_le_pos; lra). assert (AT0 : 0 <= A * TN) by (apply Rmult_le_pos; lra).
    apply bundle.
    - apply (close_div2 _ _ _ _ _ _ 0.9999 4 (2800 * u) _ H5 H3); try lra. apply ratio_le; [lra|]. apply Rabs_le; lra.
    - apply (close_div2 _ _ _ _ _ _ 0.9999 8 (4400 * u) _ H8 H3); try lra. apply ratio_le; [lra|].
      rewrite !Rabs_mult, HK1, (Rabs_pos_eq A) by lra.
      assert (A * Rabs NM <= A * TN) by (apply Rmult_le_compat_l; lra). lra.
    - apply (close_div2 _ _ _ _ _ _ 0.9999 4 (2800 * u) _ H6 H3); try lra. apply ratio_le; [lra|]. apply Rabs_le; lra.
    - apply (close_div2 _ _ _ _ _ _ 0.9999 2 (1300 * u) _ H9 H3); try lra. apply ratio_le; [lra|]. rewrite Rabs_mult, HK2. lra.
    - apply (close_div2 _ _ _ _ _ _ 0.9999 1 (900 * u) _ H4 H3); try lra. apply ratio_le; [lra|]. apply Rabs_le; lra.
  Qed.

  Lemma shelf_acc kind (sr f g sl : F) ch' c' : kind = LowShelf \/ kind = HighShelf ->
    trig_close O V -> audible V sr f -> gain_setting V kind g sl ->
    rbj_coeffs O kind (RbjGain sr f g sl) = Some ch' ->
    rbj_coeffs R_ops kind (RbjGain (B2R sr) (B2R f) (B2R g) (B2R sl)) = Some c' ->
    all_finite V ch' /\ each_within (gain_error V kind (B2R sl)) (vals V ch') c'.
  Proof.
    intros Hk HT HA HG E1 E2.
    assert (HG' : is_finite g = true /\ is_finite sl = true /\ Rabs (B2R g) <= 12 /\ / 4 <= B2R sl <= 1)
      by (destruct Hk as [-> | ->]; exact HG).
    destruct HG' as [Fg [Fq [Hg Hq]]]. clear HG.
    replace (gain_error V kind (B2R sl)) with (4600 * u) by (destruct Hk as [-> | ->]; reflexivity).
    assert (U := u_small prec Hp24). assert (E := et_u prec emax Hp24 Hbig).
    assert (UU : u * u <= / 1000000 * u) by (apply Rmult_le_compat_r; lra).
    destruct (trig_acc prec emax Hp24 Hbig pim pie sz lm nn Fpi Vpi sr f HT HA) as [S1 [C1 S0]].
    destruct (amp12 g Fg Hg) as [G1 G2].
    assert (C2 : -1 <= c sr f <= 1) by apply COS_bound.
    set (w := w0 prec emax pim pie sz lm nn sr f) in *.
    set (th := 2 * PI * (B2R f / B2R sr)) in *.
    set (A := Rpower 10 (B2R g / 40)) in *. set (a := amp g) in *.
    assert (C3 : Rabs (cos th) <= 1) by (apply Rabs_le; lra).
    assert (iA : / 2 <= / A <= 2) by (split; [apply Rinv_le_contravar; lra|replace 2 with (/ / 2) by field; apply Rinv_le_contravar; lra]).
    assert (iS : 1 <= / B2R sl <= 4).
    { split; [rewrite <- Rinv_1; apply Rinv_le_contravar; lra|]. replace 4 with (/ / 4) by field. apply Rinv_le_contravar; lra. }
    assert (AiA : 2 <= A + / A <= 2.5).
    { assert (Z : A * / A = 1) by (apply Rinv_r; lra).
      assert (0 <= (2 - A) * (2 - / A)) by (apply Rmult_le_pos; lra).
      assert (0 <= (A - 1) * (A - 1) * / A) by (apply Rmult_le_pos; [apply Rle_0_sqr|lra]).
      assert (W : (A - 1) * (A - 1) * / A = A - 2 + / A) by (field; lra). lra. }
    set (rad := (A + 1 / A) * (1 / B2R sl - 1) + 2) in *.
    assert (HR : 2 <= rad <= 9.5).
    { unfold rad, Rdiv. rewrite !Rmult_1_l. split.
      - assert (0 <= (A + / A) * (/ B2R sl - 1)) by (apply Rmult_le_pos; lra). lra.
      - assert ((A + / A) * (/ B2R sl - 1) <= 2.5 * 3) by (apply Rmult_le_compat; lra). lra. }
    (* alpha *)
    assert (D1 : close (n_div O (n_one O) a) (1 / A) (27 * u)).
    { apply (close_div2 _ _ _ _ _ _ 0.4999 2 (24.1 * u) _ one_cl G1); try lra. unfold Rdiv. rewrite Rmult_1_l. apply Rabs_le; lra. }
    assert (D2 : close (n_add O a (n_div O (n_one O) a)) (A + 1 / A) (36 * u)).
    { apply (close_add prec emax Hp24 Hbig _ _ _ _ _ _ 2.5 _ G1 D1); [unfold Rdiv; rewrite Rmult_1_l; apply Rabs_le; lra|lra|lra]. }
    assert (D3 : close (n_div O (n_one O) sl) (1 / B2R sl) (5 * u)).
    { apply (close_div2 _ _ _ _ _ _ (/ 4) 4 0 _ one_cl (close_exact _ _ sl _ Fq eq_refl)); try lra.
      unfold Rdiv. rewrite Rmult_1_l. apply Rabs_le; lra. }
    assert (D4 : close (n_sub O (n_div O (n_one O) sl) (n_one O)) (1 / B2R sl - 1) (9 * u)).
    { apply (close_sub prec emax Hp24 Hbig _ _ _ _ _ _ 3 _ D3 one_cl); [unfold Rdiv; rewrite Rmult_1_l; apply Rabs_le; lra|lra|lra]. }
    assert (R1 : Rabs (A + 1 / A) <= 2.5) by (unfold Rdiv; rewrite Rmult_1_l; apply Rabs_le; lra).
    assert (R2 : Rabs (1 / B2R sl - 1) <= 3) by (unfold Rdiv; rewrite Rmult_1_l; apply Rabs_le; lra).
    assert (D5 : close (n_mul O (n_add O a (n_div O (n_one O) a)) (n_sub O (n_div O (n_one O) sl) (n_one O)))
                   ((A + 1 / A) * (1 / B2R sl - 1)) (139 * u)).
    { apply (close_mul2 _ _ _ _ _ _ 2.5 3 7.5 (131 * u) _ D2 D4 R1 R2); try lra. unfold rad in HR. apply Rabs_le. lra. }
    assert (D6 : close (n_add O (n_mul O (n_add O a (n_div O (n_one O) a)) (n_sub O (n_div O (n_one O) sl) (n_one O))) (n_two O))
                   rad (149 * u)).
    { unfold rad. apply (close_add prec emax Hp24 Hbig _ _ _ _ _ _ 9.5 _ D5 two_cl); [unfold rad in HR; apply Rabs_le; lra|lra|lra]. }
    assert (D7 := close_sqrt _ rad (149 * u) 1.41 3.09 (57 * u) D6 ltac:(lra) ltac:(lra) ltac:(lra) ltac:(lra) ltac:(lra)
      ltac:(unfold Rdiv; lra)).
    set (sq := sqrt rad) in *.
    assert (Q0 : 0 <= sq <= 3.09).
    { split; [apply sqrt_pos|]. unfold sq. rewrite <- (sqrt_square 3.09) by lra. apply sqrt_le_1_alt. lra. }
    assert (D8 : close (n_div O (n_sin O w) (n_two O)) (sin th / 2) (27 * u)).
    { apply (close_div2 _ _ _ _ _ _ 2 0.5 (26 * u) _ S1 two_cl); try lra. rewrite Rabs_pos_eq; lra. }
    match type of D7 with close ?r _ _ => set (sqh := r) in * end.
    assert (P1 : 0 <= sin th / 2 * sq <= 0.5 * 3.09).
    { split; [apply Rmult_le_pos; lra|]. apply Rmult_le_compat; lra. }
    assert (D9 : close (n_mul O (n_div O (n_sin O w) (n_two O)) sqh) (sin th / 2 * sq) (115 * u)).
    { apply (close_mul2 _ _ _ _ _ _ 0.5 3.09 1.545 (112 * u) _ D8 D7); try (rewrite Rabs_pos_eq; lra); lra. }
    assert (D10 := close_sqrt a A (6 * u) 0.707 1.4143 (6 * u) G1 ltac:(lra) ltac:(lra) ltac:(lra) ltac:(lra) ltac:(lra)
      ltac:(unfold Rdiv; lra)).
    assert (Q1 : 0 <= sqrt A <= 1.4143).
    { split; [apply sqrt_pos|]. rewrite <- (sqrt_square 1.4143) by lra. apply sqrt_le_1_alt. lra. }
    set (sA := sqrt A) in *.
    assert (D11 : close (n_mul O (n_two O) (n_sqrt O a)) (2 * sA) (15 * u)).
    { apply (close_mul2 _ _ _ _ _ _ 2 1.4143 2.8286 (12 * u) _ two_cl D10); try (rewrite Rabs_pos_eq; lra); lra. }
    set (alr := sin th / 2 * sq) in *. set (alh := n_mul O (n_div O (n_sin O w) (n_two O)) sqh) in *.
    assert (P2 : 0 <= 2 * sA * alr <= 2.8286 * (0.5 * 3.09)).
    { split; [apply Rmult_le_pos; lra|]. apply Rmult_le_compat; lra. }
    assert (D12 : close (n_mul O (n_mul O (n_two O) (n_sqrt O a)) alh) (2 * sA * alr) (355 * u)).
    { apply (close_mul2 _ _ _ _ _ _ 2.8286 1.545 4.38 (349 * u) _ D11 D9); try (rewrite Rabs_pos_eq; lra); lra. }
    (* the other quantities *)
    assert (F1 : close (n_add O a (n_one O)) (A + 1) (10 * u)).
    { apply (close_add prec emax Hp24 Hbig _ _ _ _ _ _ 3 _ G1 one_cl); [apply Rabs_le|..]; lra. }
    assert (F2 : close (n_sub O a (n_one O)) (A - 1) (8 * u)).
    { apply (close_sub prec emax Hp24 Hbig _ _ _ _ _ _ 1 _ G1 one_cl); [apply Rabs_le|..]; lra. }
    assert (F3 : close (n_mul O (n_sub O a (n_one O)) (n_cos O w)) ((A - 1) * cos th) (62 * u)).
    { apply (close_mul2 _ _ _ _ _ _ 1 1 1 (60.1 * u) _ F2 C1); try (apply Rabs_le; lra); try lra.
      rewrite Rabs_mult. rewrite <- (Rmult_1_r 1). apply Rmult_le_compat; try apply Rabs_pos; [apply Rabs_le; lra|exact C3]. }
    assert (F4 : close (n_mul O (n_add O a (n_one O)) (n_cos O w)) ((A + 1) * cos th) (170 * u)).
    { apply (close_mul2 _ _ _ _ _ _ 3 1 3 (166.1 * u) _ F1 C1); try (apply Rabs_le; lra); try lra.
      rewrite Rabs_mult. rewrite <- (Rmult_1_r 3). apply Rmult_le_compat; try apply Rabs_pos; [apply Rabs_le; lra|exact C3]. }
    assert (L1 := mix_le 1 0 (A + 1) (A - 1) (cos th) C3 ltac:(lra) ltac:(lra)).
    assert (L2 := mix_le 1 0 (A + 1) (- (A - 1)) (cos th) C3 ltac:(lra) ltac:(lra)).
    assert (L3 := mix_le (A + 1) (A - 1) 4 0 (cos th) C3 ltac:(lra) ltac:(lra)).
    assert (L4 := mix_le (A + 1) (- (A - 1)) 4 0 (cos th) C3 ltac:(lra) ltac:(lra)).
    assert (K0 : Rabs (A * cos th) <= A) by (rewrite Rabs_mult, (Rabs_pos_eq A) by lra; rewrite <- (Rmult_1_r A) at 2; apply Rmult_le_compat_l; lra).
    apply Rabs_le_inv in K0.
    assert (N1 : Rabs ((A - 1) + (A + 1) * cos th) <= (A + 1) + (A - 1) * cos th) by (apply Rabs_le; lra).
    assert (N2 : Rabs ((A - 1) - (A + 1) * cos th) <= (A + 1) - (A - 1) * cos th) by (apply Rabs_le; lra).
    assert (AA : A * A <= 4) by (apply Rle_trans with (2 * 2); [apply Rmult_le_compat; lra|lra]).
    assert (L5 := mix_le (A * (A + 1)) (A * - (A - 1)) (4 * (A + 1)) (4 * (A - 1)) (cos th) C3 ltac:(lra) ltac:(lra)).
    assert (L6 := mix_le (A * (A + 1)) (A * (A - 1)) (4 * (A + 1)) (4 * - (A - 1)) (cos th) C3 ltac:(lra) ltac:(lra)).
    assert (T1 : close (n_add O (n_add O a (n_one O)) (n_mul O (n_sub O a (n_one O)) (n_cos O w))) ((A + 1) + (A - 1) * cos th) (77 * u)).
    { apply (close_add prec emax Hp24 Hbig _ _ _ _ _ _ 4 _ F1 F3); [apply Rabs_le|..]; lra. }
    assert (T2 : close (n_sub O (n_add O a (n_one O)) (n_mul O (n_sub O a (n_one O)) (n_cos O w))) ((A + 1) - (A - 1) * cos th) (77 * u)).
    { apply (close_sub prec emax Hp24 Hbig _ _ _ _ _ _ 4 _ F1 F3); [apply Rabs_le|..]; lra. }
    assert (T3 : close (n_add O (n_sub O a (n_one O)) (n_mul O (n_add O a (n_one O)) (n_cos O w))) ((A - 1) + (A + 1) * cos th) (183 * u)).
    { apply (close_add prec emax Hp24 Hbig _ _ _ _ _ _ 4 _ F2 F4); lra. }
    assert (T4 : close (n_sub O (n_sub O a (n_one O)) (n_mul O (n_add O a (n_one O)) (n_cos O w))) ((A - 1) - (A + 1) * cos th) (183 * u)).
    { apply (close_sub prec emax Hp24 Hbig _ _ _ _ _ _ 4 _ F2 F4); lra. }
    assert (AR : n_powf R_ops (n_of_f64 R_ops (F64lit 10 1)) (n_div R_ops (B2R g) (n_of_f64 R_ops (F64lit 40 1))) = A).
    { unfold A. cbn. f_equal; [field|f_equal; field]. }
    assert (ThR : 2 * PI * B2R f / B2R sr = th) by (unfold th, Rdiv; ring).
    assert (W2 : Rabs 2 = 2) by (apply Rabs_pos_eq; lra).
    assert (W3 : Rabs (- (2)) = 2) by (rewrite Rabs_Ropp; exact W2).
    destruct Hk as [-> | ->]; injection E1 as <-; injection E2 as <-.
    - unfold lowshelf_coeffs, normalised. rewrite AR.
      cbn [R_ops n_one n_two n_zero n_pi n_add n_sub n_mul n_div n_neg n_sin n_cos n_sqrt]. rewrite ThR. fold rad sq alr sA.
      exact (shelf_tail a _ _ _ _ _ _ _ A _ _ _ _ _ 2 (- (2)) G1 T1 T2 T3 T4 D12 two_cl (close_neg _ _ _ _ _ two_cl) W2 W3 G2
        ltac:(lra) ltac:(lra) N1 N2 ltac:(lra) ltac:(lra) _ _ _ _ _ _ _ eq_refl eq_refl eq_refl eq_refl eq_refl eq_refl eq_refl).
    - unfold highshelf_coeffs, normalised. rewrite AR.
      cbn [R_ops n_one n_two n_zero n_pi n_add n_sub n_mul n_div n_neg n_sin n_cos n_sqrt]. rewrite ThR. fold rad sq alr sA.
      exact (shelf_tail a _ _ _ _ _ _ _ A _ _ _ _ _ (- (2)) 2 G1 T2 T1 T4 T3 D12 (close_neg _ _ _ _ _ two_cl) two_cl W3 W2 G2
        ltac:(lra) ltac:(lra) N2 N1 ltac:(lra) ltac:(lra) _ _ _ _ _ _ _ eq_refl eq_refl eq_refl eq_refl eq_refl eq_refl eq_refl).
  Qed.

  (** A negative radicand. *)
  Lemma steep_nan (g sl : F) : too_steep V g sl ->
    is_finite (n_sqrt O (n_add O (n_mul O (n_add O (amp g) (n_div O (n_one O) (amp g)))
      (n_sub O (n_div O (n_one O) sl) (n_one O))) (n_two O))) = false.
  Proof.
    intros [Fg [Hg [Fx [Hx HR]]]]. cbn [fin val ieee_view] in *.
    assert (U := u_small prec Hp24). assert (E := et_u prec emax Hp24 Hbig).
    assert (UU : u * u <= / 1000000 * u) by (apply Rmult_le_compat_r; lra).
    destruct (amp24 g Fg Hg) as [G1 G2].
    set (A := Rpower 10 (B2R g / 40)) in *. set (a := amp g) in *.
    assert (iA : / 4 <= / A <= 4) by (split; [apply Rinv_le_contravar; lra|replace 4 with (/ / 4) by field; apply Rinv_le_contravar; lra]).
    assert (iS : 0 < / B2R sl <= 1).
    { split; [apply Rinv_0_lt_compat; lra|]. rewrite <- Rinv_1. apply Rinv_le_contravar; lra. }
    assert (D1 : close (n_div O (n_one O) a) (1 / A) (240 * u)).
    { apply (close_div2 _ _ _ _ _ _ 0.2499 4 (226 * u) _ one_cl G1); try lra. unfold Rdiv. rewrite Rmult_1_l. apply Rabs_le; lra. }
    assert (D2 : close (n_add O a (n_div O (n_one O) a)) (A + 1 / A) (270 * u)).
    { apply (close_add prec emax Hp24 Hbig _ _ _ _ _ _ 8 _ G1 D1); [unfold Rdiv; rewrite Rmult_1_l; apply Rabs_le; lra|lra|lra]. }
    assert (D3 : close (n_div O (n_one O) sl) (1 / B2R sl) (5 * u)).
    { apply (close_div2 _ _ _ _ _ _ 1 1 0 _ one_cl (close_exact _ _ sl _ Fx eq_refl)); try lra.
      unfold Rdiv. rewrite Rmult_1_l. apply Rabs_le; lra. }
    assert (D4 : close (n_sub O (n_div O (n_one O) sl) (n_one O)) (1 / B2R sl - 1) (9 * u)).
    { apply (close_sub prec emax Hp24 Hbig _ _ _ _ _ _ 1 _ D3 one_cl); [unfold Rdiv; rewrite Rmult_1_l; apply Rabs_le; lra|lra|lra]. }
    assert (R1 : Rabs (A + 1 / A) <= 8) by (unfold Rdiv; rewrite Rmult_1_l; apply Rabs_le; lra).
    assert (R2 : Rabs (1 / B2R sl - 1) <= 1) by (unfold Rdiv; rewrite Rmult_1_l; apply Rabs_le; lra).
    assert (R3 : Rabs ((A + 1 / A) * (1 / B2R sl - 1)) <= 8).
    { rewrite Rabs_mult. rewrite <- (Rmult_1_r 8). apply Rmult_le_compat; try apply Rabs_pos; assumption. }
    assert (D5 : close (n_mul O (n_add O a (n_div O (n_one O) a)) (n_sub O (n_div O (n_one O) sl) (n_one O)))
                   ((A + 1 / A) * (1 / B2R sl - 1)) (400 * u)).
    { apply (close_mul2 _ _ _ _ _ _ 8 1 8 (343 * u) _ D2 D4 R1 R2 R3); lra. }
    assert (R3' := Rabs_le_inv _ _ R3).
    destruct (close_add prec emax Hp24 Hbig _ _ _ _ _ _ 10 (500 * u) D5 two_cl) as [W1 W2]; [apply Rabs_le; lra|lra|lra|].
    replace (1 / A) with (/ A) in * by (unfold Rdiv; ring). replace (1 / B2R sl) with (/ B2R sl) in * by (unfold Rdiv; ring).
    apply Rabs_le_inv in W2.
    match goal with |- is_finite (n_sqrt O ?r) = false => change (is_finite r = true) in W1; assert (W3 : B2R r < 0);
      [change (B2R r) with (B2R (f_add prec emax (n_mul O (n_add O a (n_div O (n_one O) a)) (n_sub O (n_div O (n_one O) sl) (n_one O))) (n_two O))); lra|];
      set (rr := r) in * end.
    clear - W1 W3. destruct rr as [s0|s0| |s0 m e0 He]; try discriminate; cbn in W3; [lra|].
    destruct s0; [reflexivity|]. exfalso. assert (0 < F2R (Float radix2 (Zpos m) e0)) by (apply F2R_gt_0; reflexivity). cbn in W3. unfold F2R in *. cbn in *. lra.
  Qed.
End F.
