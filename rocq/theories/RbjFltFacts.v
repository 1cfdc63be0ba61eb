(** The setters of the RBJ filters in floating point: rounding analysis. *)
From Coq Require Import ZArith Reals Lra Lia Psatz.
From Flocq Require Import Core.Core Mult_error IEEE754.BinarySingleNaN.
From Verif Require Import Base Num NumF FloatFacts FloatSpec RbjM Signal FltFilterFacts WinLemmasF ConstLemmas.
Open Scope R_scope.

(** ** Trigonometry *)
Lemma sin_low t : 0 <= t <= 1 -> 5 / 6 * t <= sin t.
Proof.
  intros Ht. assert (B := pi_20).
  destruct (pre_sin_bound t 0 ltac:(lra) ltac:(lra)) as [G _].
  unfold sin_approx, sum_f_R0, sin_term in G. cbn in G. nra.
Qed.

Lemma cos_high m : 0 <= m <= 2 -> cos m <= 1 - 25 / 72 * (m * m).
Proof.
  intros H. assert (G := sin_low (m / 2) ltac:(lra)).
  replace m with (2 * (m / 2)) at 1 by lra. rewrite cos_2a_sin. nra.
Qed.

Lemma cos_low w : 0 < w <= 1 -> 1 - w * w / 2 < cos w.
Proof.
  intros H. replace w with (2 * (w / 2)) at 3 by lra. rewrite cos_2a_sin.
  assert (G := sin_lt_x (w / 2) ltac:(lra)). assert (G' := sin_low (w / 2) ltac:(lra)). nra.
Qed.

Lemma band_trig m w : 0 <= m <= 1 -> m <= w <= PI - m ->
  Rabs (cos w) <= 1 - 25 / 72 * (m * m) /\ 5 / 6 * m <= sin w.
Proof.
  intros Hm Hw. assert (B := pi_20). assert (C := cos_high m ltac:(lra)). assert (S := sin_low m Hm).
  split.
  - apply Rabs_le. split.
    + assert (G : cos (PI - m) <= cos w) by (apply cos_decr_1; lra).
      rewrite Rtrigo_facts.cos_pi_minus in G. lra.
    + assert (G : cos w <= cos m) by (apply cos_decr_1; lra). lra.
  - eapply Rle_trans; [exact S|]. destruct (Rle_dec w (PI / 2)).
    + apply sin_incr_1; lra.
    + rewrite <- (sin_PI_x m). apply sin_decr_1; lra.
Qed.

Section F.
  Context (prec emax : Z) {Hp : Prec_gt_0 prec} {Hm : Prec_lt_emax prec emax}
    (Hp24 : (24 <= prec)%Z) (Hbig : (prec + 100 <= emax)%Z).
  Notation F := (binary_float prec emax).
  Notation fexp := (SpecFloat.fexp prec emax).
  Notation RN := (round radix2 fexp (round_mode mode_NE)).
  Notation fmt := (generic_format radix2 fexp).
  Notation u := (uro prec).
  Notation et := (eta prec emax).

  Lemma u_small : 0 < u <= / 16777216.
  Proof.
    split; [apply uro_pos|]. unfold uro. change (/ 16777216) with (bpow radix2 (-24)). apply bpow_le. lia.
  Qed.
  Lemma et_small : 0 < et <= u * u.
  Proof.
    split; [apply eta_pos|]. unfold eta. apply Rmult_le_compat_l; [apply bpow_ge_0|]. unfold uro. apply bpow_le. lia.
  Qed.
  Lemma bfmt e : (- prec <= e)%Z -> fmt (bpow radix2 e).
  Proof. intros H. apply (format_bpow prec emax). unfold SpecFloat.emin. lia. Qed.

  Notation BIG := (bpow radix2 60).
  Lemma big_fmt : fmt BIG. Proof. apply bfmt. lia. Qed.
  Lemma big_lt : BIG < bpow radix2 emax. Proof. apply bpow_lt. lia. Qed.

  Lemma addk (x y : F) : is_finite x = true -> is_finite y = true -> Rabs (B2R x + B2R y) <= BIG ->
    is_finite (f_add prec emax x y) = true /\ B2R (f_add prec emax x y) = RN (B2R x + B2R y).
  Proof. intros. apply (add_ok prec emax x y BIG); auto using big_fmt, big_lt. Qed.
  Lemma subk (x y : F) : is_finite x = true -> is_finite y = true -> Rabs (B2R x - B2R y) <= BIG ->
    is_finite (f_sub prec emax x y) = true /\ B2R (f_sub prec emax x y) = RN (B2R x - B2R y).
  Proof. intros. apply (sub_ok prec emax x y BIG); auto using big_fmt, big_lt. Qed.
  Lemma mulk (x y : F) : is_finite x = true -> is_finite y = true -> Rabs (B2R x * B2R y) <= BIG ->
    is_finite (f_mul prec emax x y) = true /\ B2R (f_mul prec emax x y) = RN (B2R x * B2R y).
  Proof. intros. apply (mul_ok prec emax x y BIG); auto using big_fmt, big_lt. Qed.
  Lemma divk (x y : F) : is_finite x = true -> B2R y <> 0 -> Rabs (B2R x / B2R y) <= BIG ->
    is_finite (f_div prec emax x y) = true /\ B2R (f_div prec emax x y) = RN (B2R x / B2R y).
  Proof. intros. apply (div_ok prec emax x y BIG); auto using big_fmt, big_lt. Qed.

  Lemma err x b : Rabs x <= b -> Rabs (RN x - x) <= u * b + et.
  Proof.
    intros H. eapply Rle_trans; [apply (RN_err prec emax)|]. assert (U := u_small).
    apply Rplus_le_compat_r, Rmult_le_compat_l; lra.
  Qed.

  Lemma RN_between lo hi x : fmt lo -> fmt hi -> lo <= x <= hi -> lo <= RN x <= hi.
  Proof.
    intros Fl Fh H. split.
    - rewrite <- (RN_id prec emax lo Fl). apply (RN_le prec emax). lra.
    - rewrite <- (RN_id prec emax hi Fh). apply (RN_le prec emax). lra.
  Qed.

  (** ** The feedback coefficients *)
  Lemma jury_float (c al : R) : Rabs c <= 1 - 198 * u -> 4 * u <= al <= 32 ->
    let a0 := RN (1 + al) in let n2 := RN (1 - al) in
    1 <= a0 <= 34 /\ Rabs n2 <= a0
    /\ stable (RN (-2 * c / a0)) (RN (n2 / a0)).
  Proof.
    intros Hc Hal a0 n2. assert (U := u_small). assert (E := et_small).
    assert (E' : et <= / 1000 * u) by nra. clear E. assert (P := eta_pos prec emax).
    assert (A : Rabs (a0 - (1 + al)) <= u * 33 + et) by (apply err, Rabs_le; lra).
    assert (N : Rabs (n2 - (1 - al)) <= u * 33 + et) by (apply err, Rabs_le; lra).
    assert (A1 : 1 <= a0 <= 34).
    { apply RN_between; [apply (bfmt 0); lia| |lra]. apply (format_IZR prec emax 34).
      apply Z.le_trans with (2 ^ 24)%Z; [discriminate|]. apply Z.pow_le_mono_r; lia. }
    assert (N1 : Rabs n2 <= a0).
    { apply Rabs_le. unfold n2, a0. rewrite <- (RN_opp prec emax). split; apply (RN_le prec emax); lra. }
    split; [exact A1|]. split; [exact N1|].
    assert (N2 : n2 <= Rmax 0 (1 - al + u + et)).
    { destruct (Rle_dec al 1).
      - assert (G : Rabs (n2 - (1 - al)) <= u * 1 + et) by (apply err, Rabs_le; lra).
        apply Rabs_le_inv in G. eapply Rle_trans; [|apply Rmax_r]. lra.
      - eapply Rle_trans; [|apply Rmax_l]. unfold n2. rewrite <- (RN_0 prec emax). apply (RN_le prec emax). lra. }
    clearbody a0 n2. apply Rabs_le_inv in A. apply Rabs_le_inv in N. apply Rabs_le_inv in N1.
    set (i := / a0). assert (Hi : a0 * i = 1) by (unfold i; field; lra).
    assert (Hi1 : / 34 <= i <= 1).
    { unfold i. split; [apply Rinv_le_contravar; lra|]. rewrite <- Rinv_1. apply Rinv_le_contravar; lra. }
    assert (C : - (1 - 198 * u) <= c <= 1 - 198 * u) by (apply Rabs_le_inv; exact Hc).
    assert (V1 : Rabs (RN (-2 * c / a0) - (-2 * c / a0)) <= u * 2 + et).
    { apply err, Rabs_le. unfold Rdiv. fold i. nra. }
    assert (V2 : Rabs (RN (n2 / a0) - (n2 / a0)) <= u * 1 + et).
    { apply err, Rabs_le. unfold Rdiv. fold i. nra. }
    apply Rabs_le_inv in V1. apply Rabs_le_inv in V2. unfold Rdiv in V1, V2. fold i in V1, V2.
    unfold Rdiv. fold i. clearbody i. set (a1 := RN (-2 * c * i)) in *. set (a2 := RN (n2 * i)) in *. clearbody a1 a2.
    assert (L2 : n2 * i <= Rmax 0 (1 - al + u + et)).
    { destruct (Rle_dec n2 0) as [g|g].
      - eapply Rle_trans; [|apply Rmax_l]. nra.
      - eapply Rle_trans; [|exact N2]. nra. }
    assert (L3 : Rmax 0 (1 - al + u + et) <= 1 - 3 * u + et).
    { apply Rmax_lub; lra. }
    assert (L4 : n2 * i >= -1 + (2 - 66 * u - 2 * et) * i).
    { replace (-1) with (- (a0 * i)) by lra. nra. }
    assert (L4' : (2 - 66 * u - 2 * et) * i >= 1 * / 34) by (apply Rle_ge, Rmult_le_compat; lra).
    assert (J : forall s, -1 <= s <= 1 -> (1 + n2 * i) - 2 * (s * c) * i >= (396 * u - 66 * u - 2 * et) * i).
    { intros s Hs. replace 1 with (a0 * i) at 1 by lra.
      assert (s * c <= 1 - 198 * u) by nra.
      assert ((a0 + n2 - 2 * (s * c) - (396 * u - 66 * u - 2 * et)) >= 0) by lra. nra. }
    assert (J1 := J 1 ltac:(lra)). assert (J2 := J (-1) ltac:(lra)).
    assert (J3 : (396 * u - 66 * u - 2 * et) * i >= (329 * u) * / 34) by (apply Rle_ge, Rmult_le_compat; lra).
    assert (L23 := Rle_trans _ _ _ L2 L3). clear J L2 L3 Hc N2.
    split; apply Rabs_def1; lra.
  Qed.

  (** ** The angle 2 pi f / sr *)
  Context (pim pie sz : Z) (lm : libm F) (nn : bool).
  Notation O := (ieee_ops prec emax pim pie sz lm nn).
  Hypothesis Fpi : is_finite (n_pi O) = true.
  Hypothesis Vpi : B2R (n_pi O) = RN PI.
  Definition w0 (sr f : F) : F := n_div O (n_mul O (n_mul O (n_two O) (n_pi O)) f) sr.

  Lemma one_ok : is_finite (n_one O) = true /\ B2R (n_one O) = 1.
  Proof. apply (of_Z_exact prec emax 1). apply Z.le_trans with (2 ^ 24)%Z; [discriminate|]. apply Z.pow_le_mono_r; lia. Qed.
  Lemma two_ok : is_finite (n_two O) = true /\ B2R (n_two O) = 2.
  Proof. apply (of_Z_exact prec emax 2). apply Z.le_trans with (2 ^ 24)%Z; [discriminate|]. apply Z.pow_le_mono_r; lia. Qed.

  Lemma two_pi_ok : is_finite (n_mul O (n_two O) (n_pi O)) = true
    /\ 6 <= B2R (n_mul O (n_two O) (n_pi O)) <= 8 /\ Rabs (B2R (n_mul O (n_two O) (n_pi O)) - 2 * PI) <= 17 * u.
  Proof.
    assert (B := pi_20). assert (U := u_small). assert (E := et_small). assert (E' : et <= / 1000 * u) by nra.
    destruct two_ok as [T1 T2].
    assert (P : 3 <= RN PI <= 4).
    { apply RN_between; [| |lra].
      - apply (format_IZR prec emax 3). apply Z.le_trans with (2 ^ 24)%Z; [discriminate|]. apply Z.pow_le_mono_r; lia.
      - apply (bfmt 2). lia. }
    assert (P1 : Rabs (RN PI - PI) <= u * 4 + et) by (apply err, Rabs_le; lra).
    assert (Big : 8 <= BIG) by (apply (bpow_le radix2 3 60); lia).
    destruct (mulk (n_two O) (n_pi O) T1 Fpi) as [M1 M2]; [rewrite T2, Vpi; apply Rabs_le; lra|].
    cbn [n_mul ieee_ops]. split; [exact M1|]. rewrite M2, T2, Vpi.
    assert (Q1 : Rabs (RN (2 * RN PI) - 2 * RN PI) <= u * 8 + et) by (apply err, Rabs_le; lra).
    split.
    - apply RN_between; [| |lra].
      + apply (format_IZR prec emax 6). apply Z.le_trans with (2 ^ 24)%Z; [discriminate|]. apply Z.pow_le_mono_r; lia.
      + apply (bfmt 3). lia.
    - apply Rabs_le_inv in P1. apply Rabs_le_inv in Q1. apply Rabs_le. lra.
  Qed.

  Lemma w0_ok (sr f : F) : is_finite sr = true -> is_finite f = true -> 1 <= B2R sr <= bpow radix2 50 ->
    0 <= B2R f <= B2R sr ->
    is_finite (w0 sr f) = true
    /\ B2R (w0 sr f) = RN (RN (B2R (n_mul O (n_two O) (n_pi O)) * B2R f) / B2R sr)
    /\ Rabs (B2R (w0 sr f) - 2 * PI * (B2R f / B2R sr)) <= 50 * u.
  Proof.
    intros Fs Ff Hs Hf. destruct two_pi_ok as [P1 [P2 P3]]. unfold w0.
    set (tp := n_mul O (n_two O) (n_pi O)) in *. clearbody tp.
    assert (U := u_small). assert (E := et_small). assert (E' : et <= / 1000 * u) by nra.
    set (s := B2R sr) in *. set (x := B2R f) in *. set (t := B2R tp) in *.
    assert (Big : 8 * bpow radix2 50 <= BIG) by (change 8 with (bpow radix2 3); rewrite <- bpow_plus; apply bpow_le; lia).
    assert (T : 0 <= t * x <= 8 * s) by nra.
    destruct (mulk tp f P1 Ff) as [M1 M2]; [fold t x; apply Rabs_le; lra|]. fold t x in M2.
    assert (Q1 : Rabs (RN (t * x) - t * x) <= u * Rabs (t * x) + et) by apply (RN_err prec emax).
    rewrite (Rabs_pos_eq (t * x)) in Q1 by lra. apply Rabs_le_inv in Q1.
    assert (G0 : 0 <= RN (t * x)) by (rewrite <- (RN_0 prec emax); apply (RN_le prec emax); lra).
    assert (Qi : 0 < / s <= 1).
    { split; [apply Rinv_0_lt_compat; lra|]. rewrite <- Rinv_1. apply Rinv_le_contravar; lra. }
    set (r := x / s). assert (Hr : x = r * s) by (unfold r; field; lra).
    assert (Hr1 : 0 <= r <= 1).
    { unfold r. split; [apply Rmult_le_pos; lra|]. apply Rmult_le_reg_r with s; [lra|]. unfold Rdiv. rewrite Rmult_assoc, Rinv_l; lra. }
    set (z := RN (t * x)) in *. set (d := z / s). assert (Hd : z = d * s) by (unfold d; field; lra).
    assert (T1 : - (8 * u * s + et * s) <= z - t * x <= 8 * u * s + et * s) by (clear - Q1 T U E Hs; nra).
    assert (D1 : - (9 * u) <= d - t * r <= 9 * u).
    { rewrite Hd, Hr in T1. split; apply Rmult_le_reg_r with s; nra. }
    assert (D0 : 0 <= d <= 9).
    { split; [unfold d; apply Rmult_le_pos; lra|]. clear - D1 P2 Hr1 U. nra. }
    assert (Big2 : 16 <= BIG) by (apply (bpow_le radix2 4 60); lia).
    destruct (divk (f_mul prec emax tp f) sr M1) as [N1 N2].
    { fold s. lra. }
    { rewrite M2. fold s z. fold d. apply Rabs_le; lra. }
    cbn [n_div n_mul ieee_ops]. split; [exact N1|]. rewrite M2 in N2. fold s z in N2. split; [exact N2|].
    rewrite N2. fold d.
    assert (Q2 : Rabs (RN d - d) <= u * 9 + et) by (apply err, Rabs_le; lra).
    apply Rabs_le_inv in Q2. apply Rabs_le_inv in P3. apply Rabs_le.
    assert (W : - (17 * u) <= (t - 2 * PI) * r <= 17 * u) by (clear - P3 Hr1 U; nra). lra.
  Qed.

  (** ** Settings in the safe band *)
  Notation r0 := (bpow radix2 (2 - prec / 2)).

  Lemma r0_ok : 0 < r0 <= / 1024 /\ 16 * u <= r0 * r0 /\ 2048 * u <= r0.
  Proof.
    assert (D := Z.div_mod prec 2 ltac:(lia)). assert (M := Z.mod_pos_bound prec 2 ltac:(lia)).
    split; [split; [apply bpow_gt_0|change (/ 1024) with (bpow radix2 (-10)); apply bpow_le; lia]|].
    unfold uro. split.
    - change 16 with (bpow radix2 4). rewrite <- !bpow_plus. apply bpow_le. lia.
    - change 2048 with (bpow radix2 11). rewrite <- bpow_plus. apply bpow_le. lia.
  Qed.

  Lemma band_ok (sr f : F) : is_finite sr = true -> is_finite f = true -> 1 <= B2R sr <= bpow radix2 50 ->
    r0 * B2R sr <= B2R f <= (1 / 2 - r0) * B2R sr ->
    is_finite (w0 sr f) = true /\ Rabs (B2R (w0 sr f)) <= 4
    /\ Rabs (cos (B2R (w0 sr f))) <= 1 - 200 * u /\ 5 * r0 <= sin (B2R (w0 sr f)).
  Proof.
    intros Fs Ff Hs Hf. destruct r0_ok as [R1 [R2 R3]]. assert (U := u_small). assert (B := pi_20).
    destruct (w0_ok sr f Fs Ff Hs) as [W1 [_ W2]]; [nra|]. split; [exact W1|].
    set (w := B2R (w0 sr f)) in *. clearbody w. set (rho := B2R f / B2R sr) in *.
    assert (Hr : r0 <= rho <= 1 / 2 - r0).
    { unfold rho. split; apply Rmult_le_reg_r with (B2R sr); try lra; unfold Rdiv; rewrite Rmult_assoc, Rinv_l; lra. }
    clearbody rho. apply Rabs_le_inv in W2.
    assert (Hw : 6 * r0 <= w <= PI - 6 * r0).
    { assert (2 * PI * r0 <= 2 * PI * rho <= PI - 2 * PI * r0) by nra. assert (6.28 * r0 <= 2 * PI * r0) by (apply Rmult_le_compat_r; lra). lra. }
    split; [apply Rabs_le; lra|].
    destruct (band_trig (6 * r0) w ltac:(lra) Hw) as [C S]. split; [|lra].
    eapply Rle_trans; [exact C|]. nra.
  Qed.

  (** ** The feedback coefficients as the setters compute them *)
  Lemma double_fmt x : fmt x -> fmt (2 * x).
  Proof.
    intros H. rewrite Rmult_comm. change 2 with (bpow radix2 1).
    apply (mult_bpow_pos_exact_FLT radix2 (SpecFloat.emin prec emax) prec); [exact H|lia].
  Qed.

  Lemma fmtb (x : F) : fmt (B2R x).
  Proof. apply generic_format_B2R. Qed.

  Lemma big_k k : (k <= 60)%Z -> bpow radix2 k <= BIG.
  Proof. intros H. apply bpow_le. lia. Qed.

  Lemma feedback_ok (c al : F) : is_finite c = true -> is_finite al = true ->
    Rabs (B2R c) <= 1 - 198 * u -> 4 * u <= B2R al <= 32 ->
    let a0 := n_add O (n_one O) al in
    let a1 := n_div O (n_mul O (n_neg O (n_two O)) c) a0 in
    let a2 := n_div O (n_sub O (n_one O) al) a0 in
    (is_finite a0 = true /\ 1 <= B2R a0 <= 34) /\ is_finite a1 = true /\ is_finite a2 = true /\ stable (B2R a1) (B2R a2)
    /\ is_finite (n_sub O (n_one O) al) = true /\ Rabs (B2R (n_sub O (n_one O) al)) <= 34
    /\ is_finite (n_mul O (n_neg O (n_two O)) c) = true /\ Rabs (B2R (n_mul O (n_neg O (n_two O)) c)) <= 2.
  Proof.
    intros Fc Fal Hc Hal. destruct one_ok as [O1 O2]. destruct two_ok as [T1 T2].
    assert (U := u_small). destruct (jury_float (B2R c) (B2R al) Hc Hal) as [A [N S]].
    assert (B64 : 64 <= BIG) by (apply (big_k 6); lia).
    assert (Hc' := Rabs_le_inv _ _ Hc).
    destruct (addk (n_one O) al O1 Fal) as [P1 P2]; [rewrite O2; apply Rabs_le; lra|]. rewrite O2 in P2.
    destruct (subk (n_one O) al O1 Fal) as [Q1 Q2]; [rewrite O2; apply Rabs_le; lra|]. rewrite O2 in Q2.
    destruct (mulk (Bopp (n_two O)) c) as [M1 M2]; [rewrite is_finite_Bopp; exact T1|exact Fc|rewrite B2R_Bopp, T2; apply Rabs_le; lra|].
    rewrite B2R_Bopp, T2 in M2.
    assert (M3 : RN (- (2) * B2R c) = -2 * B2R c).
    { rewrite (RN_id prec emax); [lra|]. replace (- (2) * B2R c) with (- (2 * B2R c)) by lra.
      apply generic_format_opp, double_fmt, fmtb. }
    rewrite M3 in M2.
    cbn [n_add n_sub n_mul n_div n_neg ieee_ops].
    set (a0 := f_add prec emax (n_one O) al) in *. clearbody a0.
    set (n2 := f_sub prec emax (n_one O) al) in *. clearbody n2.
    set (n1 := f_mul prec emax (Bopp (n_two O)) c) in *. clearbody n1.
    rewrite <- P2, <- Q2, <- M2 in *. 
    assert (Ni := Rabs_le_inv _ _ N).
    assert (I : 0 < / B2R a0 <= 1).
    { split; [apply Rinv_0_lt_compat; lra|]. rewrite <- Rinv_1. apply Rinv_le_contravar; lra. }
    destruct (divk n1 a0 M1) as [D1 D2]; [lra| |].
    { unfold Rdiv. rewrite Rabs_mult, (Rabs_pos_eq (/ _)) by lra. rewrite M2.
      assert (Rabs (-2 * B2R c) <= 2) by (apply Rabs_le; lra). assert (0 <= Rabs (-2 * B2R c)) by apply Rabs_pos. nra. }
    destruct (divk n2 a0 Q1) as [D3 D4]; [lra| |].
    { unfold Rdiv. rewrite Rabs_mult, (Rabs_pos_eq (/ _)) by lra. assert (0 <= Rabs (B2R n2)) by apply Rabs_pos. nra. }
    rewrite D2, D4. repeat split; auto; try lra; try exact (proj1 S); try exact (proj2 S).
    rewrite M2. apply Rabs_le; lra.
  Qed.

  (** Any numerator of moderate size. *)
  Lemma numerator_ok (n a0 : F) : is_finite n = true -> Rabs (B2R n) <= bpow radix2 20 -> 1 <= B2R a0 ->
    is_finite (n_div O n a0) = true.
  Proof.
    intros Fn Hn Ha. destruct (divk n a0 Fn) as [D1 _]; [lra| |exact D1].
    assert (I : 0 < / B2R a0 <= 1).
    { split; [apply Rinv_0_lt_compat; lra|]. rewrite <- Rinv_1. apply Rinv_le_contravar; lra. }
    unfold Rdiv. rewrite Rabs_mult, (Rabs_pos_eq (/ _)) by lra.
    assert (G := big_k 20 ltac:(lia)). assert (0 <= Rabs (B2R n)) by apply Rabs_pos. nra.
  Qed.

  (** alpha = s / (2 q). *)
  Lemma alpha_ok (s q : F) lo hi : is_finite s = true -> is_finite q = true ->
    (- 10 <= lo <= hi)%Z -> (hi <= 10)%Z ->
    4 * r0 <= B2R s <= 1 -> bpow radix2 lo <= B2R q <= bpow radix2 hi ->
    let al := n_div O s (n_mul O (n_two O) q) in
    is_finite al = true /\ r0 * bpow radix2 (1 - hi) <= B2R al <= bpow radix2 (- 1 - lo).
  Proof.
    intros Fs Fq Hlo Hhi Hs Hq al. destruct two_ok as [T1 T2]. destruct r0_ok as [R1 [R2 R3]].
    assert (D := Z.div_mod prec 2 ltac:(lia)). assert (M := Z.mod_pos_bound prec 2 ltac:(lia)).
    assert (L0 := bpow_gt_0 radix2 lo).
    assert (Q2 : bpow radix2 (1 + lo) <= 2 * B2R q <= bpow radix2 (1 + hi)) by (rewrite !bpow_plus; change (bpow radix2 1) with 2; lra).
    assert (Bh : bpow radix2 (1 + hi) <= BIG) by (apply big_k; lia).
    destruct (mulk (n_two O) q T1 Fq) as [M1 M2]; [rewrite T2; apply Rabs_le; lra|]. rewrite T2 in M2.
    assert (Q3 : bpow radix2 (1 + lo) <= RN (2 * B2R q) <= bpow radix2 (1 + hi)).
    { apply RN_between; [apply bfmt; lia|apply bfmt; lia|exact Q2]. }
    rewrite <- M2 in Q3. unfold al. cbn [n_div n_mul ieee_ops].
    set (d := f_mul prec emax (n_two O) q) in *. clearbody d.
    assert (P0 := bpow_gt_0 radix2 (1 + lo)).
    assert (I : bpow radix2 (- (1 + hi)) <= / B2R d <= bpow radix2 (- (1 + lo))).
    { rewrite !bpow_opp. split; apply Rinv_le_contravar; lra. }
    assert (X : r0 * bpow radix2 (1 - hi) <= B2R s / B2R d <= bpow radix2 (- 1 - lo)).
    { replace (- 1 - lo)%Z with (- (1 + lo))%Z by lia. replace (1 - hi)%Z with (2 + - (1 + hi))%Z by lia.
      rewrite bpow_plus. change (bpow radix2 2) with 4. unfold Rdiv. assert (P1 := bpow_gt_0 radix2 (- (1 + hi))).
      split; nra. }
    assert (Bb : bpow radix2 (- 1 - lo) <= BIG) by (apply big_k; lia).
    assert (Pb : 0 < r0 * bpow radix2 (1 - hi)) by (apply Rmult_lt_0_compat; apply bpow_gt_0).
    destruct (divk s d Fs) as [D1 D2]; [lra|apply Rabs_le; lra|]. split; [exact D1|].
    rewrite D2. apply RN_between; [|apply bfmt; lia|exact X].
    rewrite <- bpow_plus. apply bfmt. lia.
  Qed.
End F.
