(** The setters of the shelving filters in floating point: rounding analysis. *)
From Coq Require Import ZArith Reals List Bool Lra Lia.
From Flocq Require Import Core.Core Mult_error IEEE754.BinarySingleNaN.
From Verif Require Import Base Num NumF FloatSpec FloatFacts SmoothF FilterM RbjM Device Signal FltFilterSpec
  FltFilterFacts ConstLemmas RbjFltSpec RbjFltFacts RbjFltFacts2.
Import ListNotations.
Open Scope R_scope.

Section F.
  Context (prec emax : Z) {Hp : Prec_gt_0 prec} {Hm : Prec_lt_emax prec emax}
    (Hp24 : (24 <= prec)%Z) (Hbig : (prec + 100 <= emax)%Z).
  Notation F := (binary_float prec emax).
  Notation fexp := (SpecFloat.fexp prec emax).
  Notation RN := (round radix2 fexp (round_mode mode_NE)).
  Notation fmt := (generic_format radix2 fexp).
  Notation u := (uro prec).
  Notation et := (eta prec emax).

  (** The raw feedback coefficients of [LowShelf]; those of [HighShelf] are the same
      with cos negated. *)
  Definition sh_t (A c : R) : R := RN (RN (A + 1) + RN (RN (A - 1) * c)).
  Definition sh_n (A c : R) : R := RN (RN (A - 1) + RN (RN (A + 1) * c)).

  Lemma pr x c M : - M <= x <= M -> -1 <= c <= 1 -> - M <= x * c <= M.
  Proof.
    intros H1 H2. apply Rabs_le_inv. rewrite Rabs_mult. replace M with (M * 1) by ring.
    apply Rmult_le_compat; try apply Rabs_pos; apply Rabs_le; lra.
  Qed.

  Lemma shelf_parts (A c : R) : / 4 <= A <= 4 -> Rabs c <= 1 - 198 * u ->
    Rabs (sh_t A c - ((A + 1) + (A - 1) * c)) <= 20 * u
    /\ Rabs (sh_n A c - ((A - 1) + (A + 1) * c)) <= 22 * u.
  Proof.
    intros HA Hc. assert (U := u_small prec Hp24). assert (E := et_small prec emax Hbig).
    assert (E' : et <= / 1000 * u) by (clear - U E; nra). clear E. assert (P := eta_pos prec emax).
    apply Rabs_le_inv in Hc. unfold sh_t, sh_n.
    assert (P1 : Rabs (RN (A + 1) - (A + 1)) <= u * 5 + et) by (apply (err prec emax Hp24), Rabs_le; lra).
    assert (M1 : Rabs (RN (A - 1) - (A - 1)) <= u * 3 + et) by (apply (err prec emax Hp24), Rabs_le; lra).
    set (p := RN (A + 1)) in *. set (m := RN (A - 1)) in *. clearbody p m.
    apply Rabs_le_inv in P1. apply Rabs_le_inv in M1.
    assert (C1 : -1 <= c <= 1) by lra.
    assert (D1 := pr (m - (A - 1)) c (3 * u + et) ltac:(lra) C1).
    assert (D2 := pr (p - (A + 1)) c (5 * u + et) ltac:(lra) C1).
    assert (B1 := pr m c (3 + 4 * u) ltac:(lra) C1). assert (B2 := pr p c (5 + 6 * u) ltac:(lra) C1).
    assert (K1 : Rabs (RN (m * c) - m * c) <= u * (3 + 4 * u) + et) by (apply (err prec emax Hp24), Rabs_le; lra).
    assert (K2 : Rabs (RN (p * c) - p * c) <= u * (5 + 6 * u) + et) by (apply (err prec emax Hp24), Rabs_le; lra).
    set (k := RN (m * c)) in *. set (l := RN (p * c)) in *. clearbody k l.
    apply Rabs_le_inv in K1. apply Rabs_le_inv in K2.
    assert (U2 : u * u <= / 1000 * u) by (clear - U; nra).
    assert (T1 : Rabs (RN (p + k) - (p + k)) <= u * (8 + 20 * u) + et) by (apply (err prec emax Hp24), Rabs_le; lra).
    assert (T2 : Rabs (RN (m + l) - (m + l)) <= u * (8 + 20 * u) + et) by (apply (err prec emax Hp24), Rabs_le; lra).
    apply Rabs_le_inv in T1. apply Rabs_le_inv in T2.
    split; apply Rabs_le; lra.
  Qed.

  Lemma shelf_float (A c s : R) : / 4 <= A <= 4 -> Rabs c <= 1 - 198 * u -> 1000 * u <= s <= 18 ->
    let a0 := RN (sh_t A c + s) in let a2 := RN (sh_t A c - s) in
    / 4 <= a0 <= 27 /\ Rabs a2 <= 27
    /\ Rabs (sh_n A c) <= 9
    /\ stable (RN (-2 * sh_n A c / a0)) (RN (a2 / a0)) /\ stable (RN (2 * sh_n A c / a0)) (RN (a2 / a0)).
  Proof.
    intros HA Hc Hs a0 a2. destruct (shelf_parts A c HA Hc) as [Ht Hn].
    assert (U := u_small prec Hp24). assert (E := et_small prec emax Hbig).
    assert (E' : et <= / 1000 * u) by (clear - U E; nra). clear E. assert (P := eta_pos prec emax).
    apply Rabs_le_inv in Hc. apply Rabs_le_inv in Ht. apply Rabs_le_inv in Hn.
    set (t := sh_t A c) in *. set (n := sh_n A c) in *. clearbody t n.
    assert (T0 : 1 / 2 - 20 * u <= t <= 8 + 20 * u).
    { assert (1 / 2 <= A + 1 + (A - 1) * c <= 8) by (clear - HA Hc U; split; nra). lra. }
    assert (N0 : - (8 + 22 * u) <= n <= 8 + 22 * u).
    { assert (Q := pr (A + 1) c 5 ltac:(lra) ltac:(lra)). lra. }
    assert (A0 : Rabs (a0 - (t + s)) <= u * (26 + 20 * u) + et) by (apply (err prec emax Hp24), Rabs_le; lra).
    assert (A2 : Rabs (a2 - (t - s)) <= u * 18 + et) by (apply (err prec emax Hp24), Rabs_le; lra).
    assert (A2' : a2 <= a0) by (apply (RN_le prec emax); lra).
    apply Rabs_le_inv in A0. apply Rabs_le_inv in A2. clearbody a0 a2.
    assert (U2 : u * u <= / 1000 * u) by (clear - U; nra).
    assert (B0 : / 4 <= a0 <= 27) by lra.
    split; [exact B0|]. split; [apply Rabs_le; lra|]. split; [apply Rabs_le; lra|].
    assert (D : forall x, Rabs (RN (x / a0) * a0 - x) <= u * Rabs x + et * 27).
    { intros x. assert (G := RN_err prec emax (x / a0)).
      replace (RN (x / a0) * a0 - x) with ((RN (x / a0) - x / a0) * a0) by (field; lra).
      rewrite Rabs_mult, (Rabs_pos_eq a0) by lra.
      apply Rle_trans with ((u * Rabs (x / a0) + et) * a0); [apply Rmult_le_compat_r; lra|].
      assert (Rabs (x / a0) * a0 = Rabs x).
      { rewrite <- (Rabs_pos_eq a0) at 2 by lra. rewrite <- Rabs_mult. f_equal. field. lra. }
      replace ((u * Rabs (x / a0) + et) * a0) with (u * (Rabs (x / a0) * a0) + et * a0) by ring.
      rewrite H. apply Rplus_le_compat_l, Rmult_le_compat_l; lra. }
    assert (I1 : 396 * u <= (A + 1 + (A - 1) * c) - (A - 1 + (A + 1) * c)) by lra.
    assert (I2 : 99 * u <= (A + 1 + (A - 1) * c) + (A - 1 + (A + 1) * c)).
    { replace ((A + 1 + (A - 1) * c) + (A - 1 + (A + 1) * c)) with (2 * (A * (1 + c))) by ring.
      assert (/ 4 * (198 * u) <= A * (1 + c)) by (apply Rmult_le_compat; lra). lra. }
    assert (X2 : Rabs (RN (a2 / a0) * a0 - a2) <= u * (18 + 20 * u) + et * 27).
    { eapply Rle_trans; [apply D|]. apply Rplus_le_compat_r, Rmult_le_compat_l; [lra|]. apply Rabs_le. lra. }
    assert (X1 : forall w, -2 <= w <= 2 -> Rabs (RN (w * n / a0) * a0 - w * n) <= u * (16 + 44 * u) + et * 27).
    { intros w Hw. eapply Rle_trans; [apply D|]. apply Rplus_le_compat_r, Rmult_le_compat_l; [lra|].
      assert (Q := pr n (w / 2) (8 + 22 * u) N0 ltac:(lra)). replace (n * (w / 2)) with (w * n / 2) in Q by field. apply Rabs_le. lra. }
    assert (Y1 := X1 (-2) ltac:(lra)). assert (Y2 := X1 2 ltac:(lra)). clear X1 D.
    apply Rabs_le_inv in X2. apply Rabs_le_inv in Y1. apply Rabs_le_inv in Y2.
    set (x2 := RN (a2 / a0)) in *. set (y1 := RN (-2 * n / a0)) in *. set (y2 := RN (2 * n / a0)) in *. clearbody x2 y1 y2.
    assert (K : forall z, 0 < z * a0 -> 0 < z) by (intros z Hz; apply Rmult_lt_reg_r with a0; lra).
    assert (S1 : 0 < 1 - x2) by (apply K; rewrite Rmult_minus_distr_r; lra).
    assert (S2 : 0 < 1 + x2) by (apply K; rewrite Rmult_plus_distr_r; lra).
    split; (split; [apply Rabs_def1; lra|]); apply Rabs_def1.
    - apply Rminus_gt_0_lt, K. replace ((1 + x2 - y1) * a0) with (a0 + x2 * a0 - y1 * a0) by ring. lra.
    - apply Rminus_gt_0_lt, K. replace ((y1 - - (1 + x2)) * a0) with (a0 + x2 * a0 + y1 * a0) by ring. lra.
    - apply Rminus_gt_0_lt, K. replace ((1 + x2 - y2) * a0) with (a0 + x2 * a0 - y2 * a0) by ring. lra.
    - apply Rminus_gt_0_lt, K. replace ((y2 - - (1 + x2)) * a0) with (a0 + x2 * a0 + y2 * a0) by ring. lra.
  Qed.

  Context (pim pie sz : Z) (lm : libm F) (nn : bool).
  Notation O := (ieee_ops prec emax pim pie sz lm nn).
  Notation V := (ieee_view prec emax).
  Hypothesis Fpi : is_finite (n_pi O) = true.
  Hypothesis Vpi : B2R (n_pi O) = RN PI.
  Hypothesis ten_ok : is_finite (n_of_f64 O (F64lit 10 1)) = true /\ B2R (n_of_f64 O (F64lit 10 1)) = 10.
  Hypothesis forty_ok : is_finite (n_of_f64 O (F64lit 40 1)) = true /\ B2R (n_of_f64 O (F64lit 40 1)) = 40.
  Notation r0 := (bpow radix2 (2 - prec / 2)).
  Ltac zl := clear - Hp24 Hbig; lia.

  (** The amplitude 10^(gain/40). *)
  Lemma amp_ok (g : F) : pow10_rounded O V -> is_finite g = true -> Rabs (B2R g) <= 24 ->
    let a := n_powf O (n_of_f64 O (F64lit 10 1)) (n_div O g (n_of_f64 O (F64lit 40 1))) in
    is_finite a = true /\ / 4 <= B2R a <= 4.
  Proof.
    intros HP Fg Hg. assert (U := u_small prec Hp24). assert (Et := et_small prec emax Hbig).
    destruct ten_ok as [X1 X2]. destruct forty_ok as [Y1 Y2].
    set (ten := n_of_f64 O (F64lit 10 1)) in *. set (forty := n_of_f64 O (F64lit 40 1)) in *.
    assert (Hg' := Rabs_le_inv _ _ Hg).
    assert (Big : 64 <= bpow radix2 60) by (change 64 with (bpow radix2 6); apply bpow_le; clear; lia).
    destruct (divk prec emax Hp24 Hbig g forty Fg ltac:(lra)) as [Z1 Z2]; [rewrite Y2; apply Rabs_le; lra|].
    rewrite Y2 in Z2.
    assert (Ze : Rabs (RN (B2R g / 40) - B2R g / 40) <= u * 1 + eta prec emax).
    { apply (err prec emax Hp24); apply Rabs_le; lra. }
    assert (Zb : Rabs (B2R (f_div prec emax g forty)) <= 601 / 1000).
    { rewrite Z2. apply Rabs_le_inv in Ze. apply Rabs_le. assert (u * u <= u) by (clear - U; nra). lra. }
    assert (PW := pow10_small _ Zb).
    assert (PR : / 4 <= RN (Rpower 10 (B2R (f_div prec emax g forty))) <= 4).
    { apply (RN_between prec emax); [apply (bfmt prec emax Hp24 Hbig (-2)); zl|apply (bfmt prec emax Hp24 Hbig 2); zl|exact PW]. }
    destruct (HP ten (f_div prec emax g forty) X1 X2 Z1) as [W1 W2].
    { cbn [val rnd fmax ieee_view]. rewrite Rabs_pos_eq by lra. eapply Rle_trans; [apply PR|].
      apply Rle_trans with (/ 2 * bpow radix2 emax).
      - assert (G : bpow radix2 3 <= bpow radix2 emax) by (apply bpow_le; zl). change (bpow radix2 3) with 8 in G. lra.
      - apply Rmult_le_compat_r; [apply bpow_ge_0|]. change (bpow radix2 (- prec)) with u. lra. }
    cbn [val fin rnd ieee_view] in W1, W2. rewrite <- W2 in PR. split; assumption.
  Qed.

  Lemma iz_fmt n : (Z.abs n <= 2 ^ 24)%Z -> fmt (IZR n).
  Proof. intros H. apply (format_IZR prec emax). eapply Z.le_trans; [exact H|]. apply Z.pow_le_mono_r; lia. Qed.
  Lemma half_fmt n : (1 <= n <= 2 ^ 24)%Z -> fmt (IZR n * / 2).
  Proof.
    intros H. change (/ 2) with (bpow radix2 (-1)).
    apply (mult_bpow_exact_FLT radix2 (SpecFloat.emin prec emax) prec); [apply iz_fmt; lia|].
    unfold SpecFloat.emin. assert (1 <= mag radix2 (IZR n))%Z; [|lia]. apply mag_ge_bpow.
    change (bpow radix2 (1 - 1)) with 1. rewrite <- abs_IZR. apply IZR_le. lia.
  Qed.

  Definition within_k (lo hi : R) (x : F) : Prop := is_finite x = true /\ lo <= B2R x <= hi.

  Notation B60 := (bpow radix2 60).
  Lemma b60 : 4096 <= B60.
  Proof. change 4096 with (bpow radix2 12). apply bpow_le. clear; lia. Qed.

  Lemma wadd x y lo hi l1 h1 l2 h2 : within_k l1 h1 x -> within_k l2 h2 y -> fmt lo -> fmt hi -> -4096 <= lo -> hi <= 4096 ->
    lo <= l1 + l2 -> h1 + h2 <= hi ->
    within_k lo hi (n_add O x y) /\ B2R (n_add O x y) = RN (B2R x + B2R y).
  Proof.
    intros [F1 H1] [F2 H2] Fl Fh G1 G2 G3 G4. assert (B := b60).
    destruct (addk prec emax Hp24 Hbig x y F1 F2) as [A1 A2]; [apply Rabs_le; lra|].
    split; [|exact A2]. split; [exact A1|]. cbn [n_add ieee_ops]. rewrite A2. apply (RN_between prec emax); try assumption. lra.
  Qed.
  Lemma wsub x y lo hi l1 h1 l2 h2 : within_k l1 h1 x -> within_k l2 h2 y -> fmt lo -> fmt hi -> -4096 <= lo -> hi <= 4096 ->
    lo <= l1 - h2 -> h1 - l2 <= hi ->
    within_k lo hi (n_sub O x y) /\ B2R (n_sub O x y) = RN (B2R x - B2R y).
  Proof.
    intros [F1 H1] [F2 H2] Fl Fh G1 G2 G3 G4. assert (B := b60).
    destruct (subk prec emax Hp24 Hbig x y F1 F2) as [A1 A2]; [apply Rabs_le; lra|].
    split; [|exact A2]. split; [exact A1|]. cbn [n_sub ieee_ops]. rewrite A2. apply (RN_between prec emax); try assumption. lra.
  Qed.
  Lemma wmulp x y lo hi l1 h1 l2 h2 : within_k l1 h1 x -> within_k l2 h2 y -> 0 <= l1 -> 0 <= l2 -> fmt lo -> fmt hi -> -4096 <= lo -> hi <= 4096 ->
    lo <= l1 * l2 -> h1 * h2 <= hi ->
    within_k lo hi (n_mul O x y) /\ B2R (n_mul O x y) = RN (B2R x * B2R y).
  Proof.
    intros [F1 H1] [F2 H2] P1 P2 Fl Fh G1 G2 G3 G4. assert (B := b60).
    assert (M : l1 * l2 <= B2R x * B2R y <= h1 * h2) by (split; apply Rmult_le_compat; lra).
    destruct (mulk prec emax Hp24 Hbig x y F1 F2) as [A1 A2]; [apply Rabs_le; lra|].
    split; [|exact A2]. split; [exact A1|]. cbn [n_mul ieee_ops]. rewrite A2. apply (RN_between prec emax); try assumption. lra.
  Qed.
  Lemma wmul x y m m1 m2 : within_k (- m1) m1 x -> within_k (- m2) m2 y -> fmt m -> m <= 4096 -> m1 * m2 <= m ->
    within_k (- m) m (n_mul O x y) /\ B2R (n_mul O x y) = RN (B2R x * B2R y).
  Proof.
    intros [F1 H1] [F2 H2] Fl G2 G3. assert (B := b60).
    assert (M : - m <= B2R x * B2R y <= m).
    { apply Rabs_le_inv. rewrite Rabs_mult. eapply Rle_trans; [|exact G3]. apply Rmult_le_compat; try apply Rabs_pos; apply Rabs_le; lra. }
    destruct (mulk prec emax Hp24 Hbig x y F1 F2) as [A1 A2]; [apply Rabs_le; lra|].
    split; [|exact A2]. split; [exact A1|]. cbn [n_mul ieee_ops]. rewrite A2. apply (RN_between prec emax); try assumption.
    apply generic_format_opp, Fl.
  Qed.
  Lemma wdivp x y lo hi l1 h1 l2 h2 : within_k l1 h1 x -> within_k l2 h2 y -> 0 <= l1 -> 0 < l2 -> fmt lo -> fmt hi -> -4096 <= lo -> hi <= 4096 ->
    lo * h2 <= l1 -> h1 <= hi * l2 -> 0 <= lo ->
    within_k lo hi (n_div O x y) /\ B2R (n_div O x y) = RN (B2R x / B2R y).
  Proof.
    intros [F1 H1] [F2 H2] P1 P2 Fl Fh G1 G2 G3 G4 G5. assert (B := b60).
    assert (M : lo <= B2R x / B2R y <= hi).
    { split; apply Rmult_le_reg_r with (B2R y); try lra; unfold Rdiv; rewrite Rmult_assoc, Rinv_l, Rmult_1_r by lra.
      - apply Rle_trans with (lo * h2); [apply Rmult_le_compat_l; lra|lra].
      - apply Rle_trans with (hi * l2); [lra|]. apply Rmult_le_compat_l; [|lra].
        assert (0 <= hi * l2) by lra. apply Rmult_le_reg_r with l2; lra. }
    assert (NZ : B2R y <> 0) by lra.
    destruct (divk prec emax Hp24 Hbig x y F1 NZ) as [A1 A2]; [apply Rabs_le; lra|].
    split; [|exact A2]. split; [exact A1|]. cbn [n_div ieee_ops]. rewrite A2. apply (RN_between prec emax); try assumption.
  Qed.
  Lemma wsqrt x lo hi l1 h1 : within_k l1 h1 x -> 0 <= lo -> 0 <= hi -> lo * lo <= l1 -> h1 <= hi * hi -> fmt lo -> fmt hi ->
    within_k lo hi (n_sqrt O x) /\ B2R (n_sqrt O x) = RN (sqrt (B2R x)).
  Proof.
    intros [F1 H1] L0 H0 G1 G2 Fl Fh. assert (X0 : 0 <= B2R x) by (assert (0 <= lo * lo) by (apply Rmult_le_pos; lra); lra).
    destruct (sqrt_ok prec emax x F1 X0) as [A1 A2]. split; [|exact A2]. split; [exact A1|].
    cbn [n_sqrt ieee_ops]. rewrite A2. apply (RN_between prec emax); try assumption. split.
    - rewrite <- (sqrt_square lo) by exact L0. apply sqrt_le_1_alt. lra.
    - rewrite <- (sqrt_square hi) by exact H0. apply sqrt_le_1_alt. lra.
  Qed.
  Lemma wneg x m : within_k (- m) m x -> within_k (- m) m (n_neg O x) /\ B2R (n_neg O x) = - B2R x.
  Proof.
    intros [F1 H1]. cbn [n_neg ieee_ops]. unfold within_k. rewrite is_finite_Bopp, B2R_Bopp. repeat split; try assumption; lra.
  Qed.

  (** 2 sqrt(a) alpha *)
  Lemma shelf_alpha (sw a sl : F) : within_k (4 * r0) 1 sw -> within_k (/ 4) 4 a -> within_k (/ 16) 1 sl ->
    let alpha := n_mul O (n_div O sw (n_two O))
      (n_sqrt O (n_add O (n_mul O (n_add O a (n_div O (n_one O) a)) (n_sub O (n_div O (n_one O) sl) (n_one O))) (n_two O))) in
    within_k (2 * r0) (9 * / 2) alpha /\ within_k (2 * r0) 18 (n_mul O (n_mul O (n_two O) (n_sqrt O a)) alpha).
  Proof.
    intros Hsw Ha Hsl alpha.
    destruct (r0_ok prec emax Hp24 pim pie sz lm nn Fpi) as [R1 [R2 R3]].
    assert (Fr : fmt (2 * r0)).
    { change 2 with (bpow radix2 1) at 1. rewrite <- bpow_plus. apply (bfmt prec emax Hp24 Hbig).
      assert (D := Z.div_mod prec 2 ltac:(lia)). assert (M := Z.mod_pos_bound prec 2 ltac:(lia)). lia. }
    assert (H1 : within_k 1 1 (n_one O)) by (destruct (one_ok prec emax Hp24 pim pie sz lm nn Fpi) as [X Y]; split; [exact X|rewrite Y; lra]).
    assert (H2 : within_k 2 2 (n_two O)) by (destruct (two_ok prec emax Hp24 pim pie sz lm nn Fpi) as [X Y]; split; [exact X|rewrite Y; lra]).
    assert (I : forall n, (Z.abs n <= 2 ^ 24)%Z -> fmt (IZR n)) by exact iz_fmt.
    assert (Q4 : fmt (/ 4)) by (apply (bfmt prec emax Hp24 Hbig (-2)); zl).
    assert (Q2 : fmt (/ 2)) by (apply (bfmt prec emax Hp24 Hbig (-1)); zl).
    destruct (wdivp (n_one O) a (/ 4) 4 1 1 (/ 4) 4 H1 Ha) as [A1 _]; try lra; try exact Q4; try (apply I; clear; lia).
    assert (A2 : within_k (/ 2) 5 (n_add O a (n_div O (n_one O) a))).
    { destruct (one_ok prec emax Hp24 pim pie sz lm nn Fpi) as [_ O2].
      destruct (wdivp (n_one O) a (/ 4) 4 1 1 (/ 4) 4 H1 Ha) as [_ A1v]; try lra; try exact Q4; try (apply I; clear; lia).
      destruct Ha as [Fa Ha]. destruct A1 as [F1 A1]. assert (B := b60).
      destruct (addk prec emax Hp24 Hbig a (n_div O (n_one O) a) Fa F1) as [S1 S2]; [apply Rabs_le; lra|].
      split; [exact S1|]. cbn [n_add ieee_ops]. rewrite S2. apply (RN_between prec emax); [exact Q2|apply I; clear; lia|].
      assert (U := u_small prec Hp24). assert (Et := et_small prec emax Hbig).
      assert (Ia : / B2R a <= 4) by (replace 4 with (/ / 4) by lra; apply Rinv_le_contravar; lra).
      assert (Ip : 0 < / B2R a) by (apply Rinv_0_lt_compat; lra).
      assert (Ie : Rabs (RN (1 / B2R a) - 1 / B2R a) <= u * 4 + et) by (apply (err prec emax Hp24), Rabs_le; unfold Rdiv; lra).
      rewrite O2 in A1v. rewrite <- A1v in Ie. apply Rabs_le_inv in Ie.
      assert (X : B2R a + 1 / B2R a <= 17 / 4).
      { apply Rmult_le_reg_r with (B2R a); [lra|]. replace ((B2R a + 1 / B2R a) * B2R a) with (B2R a * B2R a + 1) by (field; lra).
        clear - Ha. nra. }
      assert (u * u <= u) by (clear - U; nra). lra. }
    destruct (wdivp (n_one O) sl 1 16 1 1 (/ 16) 1 H1 Hsl) as [A3 _]; try lra; try (apply I; clear; lia).
    destruct (wsub _ (n_one O) 0 15 _ _ _ _ A3 H1) as [A4 _]; try lra; try (apply I; clear; lia).
    destruct (wmulp _ _ 0 75 _ _ _ _ A2 A4) as [A5 _]; try lra; try (apply I; clear; lia).
    destruct (wadd _ (n_two O) 2 77 _ _ _ _ A5 H2) as [A6 _]; try lra; try (apply I; clear; lia).
    destruct (wsqrt _ 1 9 _ _ A6) as [A7 _]; try lra; try (apply I; clear; lia).
    destruct (wdivp sw (n_two O) (2 * r0) (/ 2) _ _ _ _ Hsw H2) as [A8 _]; try lra; try exact Q2; try exact Fr.
    destruct (wmulp _ _ (2 * r0) (9 * / 2) _ _ _ _ A8 A7) as [A9 _]; try lra; try exact Fr; try (apply half_fmt; clear; lia).
    split; [exact A9|].
    destruct (wsqrt a (/ 2) 2 _ _ Ha) as [C1 _]; try lra; try exact Q2; try (apply I; clear; lia).
    destruct (wmulp (n_two O) _ 1 4 _ _ _ _ H2 C1) as [C2 _]; try lra; try (apply I; clear; lia).
    destruct (wmulp _ _ (2 * r0) 18 _ _ _ _ C2 A9) as [C3 _]; try lra; try exact Fr; try (apply I; clear; lia).
    exact C3.
  Qed.

  Lemma wdiv_fin x y : within_k (-4096) 4096 x -> / 4 <= B2R y -> is_finite (n_div O x y) = true.
  Proof.
    intros [F1 H1] Hy. assert (NZ : B2R y <> 0) by lra.
    assert (Ia : 0 < / B2R y <= 4).
    { split; [apply Rinv_0_lt_compat; lra|]. replace 4 with (/ / 4) by lra; apply Rinv_le_contravar; lra. }
    destruct (divk prec emax Hp24 Hbig x y F1 NZ) as [A1 _]; [|exact A1].
    apply Rle_trans with (bpow radix2 14); [|apply bpow_le; clear; lia]. change (bpow radix2 14) with 16384.
    unfold Rdiv. rewrite Rabs_mult, (Rabs_pos_eq (/ _)) by lra.
    apply Rle_trans with (4096 * 4); [|lra]. apply Rmult_le_compat; try apply Rabs_pos; try lra. apply Rabs_le. lra.
  Qed.

  Lemma wdiv_val x y : within_k (-4096) 4096 x -> / 4 <= B2R y -> B2R (n_div O x y) = RN (B2R x / B2R y).
  Proof.
    intros [F1 H1] Hy. assert (NZ : B2R y <> 0) by lra.
    assert (Ia : 0 < / B2R y <= 4).
    { split; [apply Rinv_0_lt_compat; lra|]. replace 4 with (/ / 4) by lra; apply Rinv_le_contravar; lra. }
    destruct (divk prec emax Hp24 Hbig x y F1 NZ) as [_ A1]; [|exact A1].
    apply Rle_trans with (bpow radix2 14); [|apply bpow_le; clear; lia]. change (bpow radix2 14) with 16384.
    unfold Rdiv. rewrite Rabs_mult, (Rabs_pos_eq (/ _)) by lra.
    apply Rle_trans with (4096 * 4); [|lra]. apply Rmult_le_compat; try apply Rabs_pos; try lra. apply Rabs_le. lra.
  Qed.

  Lemma wup lo hi l h x : within_k l h x -> lo <= l -> h <= hi -> within_k lo hi x.
  Proof. intros [F1 H1] H2 H3. split; [exact F1|lra]. Qed.

  (** From the raw feedback coefficients to the normalised ones. *)
  Lemma shelf_feedback (A c : R) (t n1 S : F) : / 4 <= A <= 4 -> Rabs c <= 1 - 198 * u ->
    within_k (-9) 9 t -> within_k (-18) 18 n1 -> within_k (2 * r0) 18 S ->
    B2R t = sh_t A c -> (B2R n1 = -2 * sh_n A c \/ B2R n1 = 2 * sh_n A c) ->
    let a0 := n_add O t S in
    / 4 <= B2R a0
    /\ is_finite (n_div O n1 a0) = true /\ is_finite (n_div O (n_sub O t S) a0) = true
    /\ stable (B2R (n_div O n1 a0)) (B2R (n_div O (n_sub O t S) a0)).
  Proof.
    intros HA Hc Ht Hn HS Et En a0.
    destruct (r0_ok prec emax Hp24 pim pie sz lm nn Fpi) as [R1 [R2 R3]]. assert (U := u_small prec Hp24).
    assert (HS' : 1000 * u <= B2R S <= 18) by (destruct HS; lra).
    destruct (shelf_float A c (B2R S) HA Hc HS') as [G0 [G2 [G1 [St1 St2]]]].
    destruct (wadd t S (-27) 27 _ _ _ _ Ht HS) as [W1 V1]; try lra; try (apply iz_fmt; clear; lia).
    destruct (wsub t S (-27) 27 _ _ _ _ Ht HS) as [W2 V2]; try lra; try (apply iz_fmt; clear; lia).
    rewrite Et in V1, V2. rewrite <- V1, <- V2 in *. fold a0 in G0, W1, St1, St2 |- *.
    assert (N1 := wup (-4096) 4096 _ _ _ Hn ltac:(lra) ltac:(lra)).
    assert (N2 := wup (-4096) 4096 _ _ _ W2 ltac:(lra) ltac:(lra)).
    assert (P0 : / 4 <= B2R a0) by lra.
    split; [exact P0|]. split; [exact (wdiv_fin _ _ N1 P0)|]. split; [exact (wdiv_fin _ _ N2 P0)|].
    rewrite (wdiv_val _ _ N1 P0), (wdiv_val _ _ N2 P0).
    destruct En as [En|En]; rewrite En; assumption.
  Qed.

  Lemma shelf_kinds (kind : rbj_kind) (sr f g sl : F) : kind = LowShelf \/ kind = HighShelf ->
    trig_close O V -> pow10_rounded O V -> safe_band V sr f ->
    is_finite sl = true -> is_finite g = true -> / 16 <= B2R sl <= 1 -> Rabs (B2R g) <= 24 ->
    match rbj_coeffs O kind (RbjGain sr f g sl) with
    | Some (b0, b1, b2, a1, a2) => all_finite V (b0, b1, b2, a1, a2) /\ stable (B2R a1) (B2R a2)
    | None => True
    end.
  Proof.
    Ltac side := try lra; try (apply iz_fmt; clear; lia); try (apply generic_format_opp, iz_fmt; clear; lia).
    intros HK HT HP HB Fsl Fg Hsl Hg.
    destruct (setup prec emax Hp24 Hbig pim pie sz lm nn Fpi Vpi sr f HT HB) as [[C1 C2] [S1 S2]]. cbn zeta in *.
    unfold w0 in *.
    set (cw := n_cos O (n_div O (n_mul O (n_mul O (n_two O) (n_pi O)) f) sr)) in *.
    set (sw := n_sin O (n_div O (n_mul O (n_mul O (n_two O) (n_pi O)) f) sr)) in *.
    destruct (amp_ok g HP Fg Hg) as [Fa Ha].
    set (ten := n_of_f64 O (F64lit 10 1)) in *. set (forty := n_of_f64 O (F64lit 40 1)) in *.
    set (a := n_powf O ten (n_div O g forty)) in *.
    assert (Wa : within_k (/ 4) 4 a) by (split; assumption).
    destruct (shelf_alpha sw a sl (conj S1 S2) Wa (conj Fsl Hsl)) as [Wal WS]. cbn zeta in *.
    set (al := n_mul O (n_div O sw (n_two O)) _) in *.
    set (S := n_mul O (n_mul O (n_two O) (n_sqrt O a)) al) in *.
    assert (U := u_small prec Hp24).
    assert (Cc := Rabs_le_inv _ _ C2).
    assert (Wc : within_k (-(1)) 1 cw) by (split; [exact C1|lra]).
    assert (H1 : within_k 1 1 (n_one O)) by (destruct (one_ok prec emax Hp24 pim pie sz lm nn Fpi) as [X Y]; split; [exact X|rewrite Y; lra]).
    destruct (two_ok prec emax Hp24 pim pie sz lm nn Fpi) as [T1 T2].
    destruct (one_ok prec emax Hp24 pim pie sz lm nn Fpi) as [O1 O2].
    assert (H2 : within_k (-(2)) 2 (n_two O)) by (split; [exact T1|rewrite T2; lra]).
    assert (I : forall n, (Z.abs n <= 2 ^ 24)%Z -> fmt (IZR n)) by exact iz_fmt.
    destruct (wadd a (n_one O) 1 5 _ _ _ _ Wa H1) as [Wp Vp]; side.
    destruct (wsub a (n_one O) (-(3)) 3 _ _ _ _ Wa H1) as [Wm Vm]; side.
    rewrite O2 in Vp, Vm. 
    set (p := n_add O a (n_one O)) in *. set (m := n_sub O a (n_one O)) in *.
    destruct (wmul m cw 3 _ _ Wm Wc) as [Wk Vk]; side.
    assert (Wp' : within_k (-(5)) 5 p) by (apply (wup _ _ _ _ _ Wp); lra).
    destruct (wmul p cw 5 _ _ Wp' Wc) as [Wl Vl]; side.
    set (k := n_mul O m cw) in *. set (l := n_mul O p cw) in *.
    destruct (wadd p k (-9) 9 _ _ _ _ Wp Wk) as [Wt Vt]; side.
    destruct (wsub p k (-9) 9 _ _ _ _ Wp Wk) as [Wt' Vt']; side.
    destruct (wadd m l (-(9)) 9 _ _ _ _ Wm Wl) as [Wn Vn]; side.
    destruct (wsub m l (-(9)) 9 _ _ _ _ Wm Wl) as [Wn' Vn']; side.
    set (t := n_add O p k) in *. set (t' := n_sub O p k) in *. set (n := n_add O m l) in *. set (n' := n_sub O m l) in *.
    destruct (wneg (n_two O) 2 H2) as [H2n V2n]. rewrite T2 in V2n.
    destruct (wmul (n_neg O (n_two O)) n 18 _ _ H2n Wn) as [Wd Vd]; side.
    destruct (wmul (n_two O) n' 18 _ _ H2 Wn') as [Wd' Vd']; side.
    assert (Dn : forall x : F, RN (2 * B2R x) = 2 * B2R x).
    { intros x. apply (RN_id prec emax). rewrite Rmult_comm. change 2 with (bpow radix2 1).
      apply (mult_bpow_pos_exact_FLT radix2 (SpecFloat.emin prec emax) prec); [apply generic_format_B2R|clear; lia]. }
    rewrite V2n in Vd. rewrite T2 in Vd'. rewrite Dn in Vd'.
    replace (- (2) * B2R n) with (- (2 * B2R n)) in Vd by ring. rewrite (RN_opp prec emax), Dn in Vd.
    assert (Et : B2R t = sh_t (B2R a) (B2R cw)) by (rewrite Vt, Vk, Vp, Vm; reflexivity).
    assert (En : B2R n = sh_n (B2R a) (B2R cw)) by (rewrite Vn, Vl, Vp, Vm; reflexivity).
    assert (Et' : B2R t' = sh_t (B2R a) (- B2R cw)).
    { rewrite Vt', Vk, Vp, Vm. unfold sh_t. rewrite <- Ropp_mult_distr_r, (RN_opp prec emax). reflexivity. }
    assert (En' : B2R n' = sh_n (B2R a) (- B2R cw)).
    { rewrite Vn', Vl, Vp, Vm. unfold sh_n. rewrite <- Ropp_mult_distr_r, (RN_opp prec emax). reflexivity. }
    assert (HA : / 4 <= B2R a <= 4) by exact Ha.
    assert (W0 : within_k 0 18 S) by (apply (wup _ _ _ _ _ WS); [assert (X := bpow_ge_0 radix2 (2 - prec / 2)); lra|lra]).
    assert (W4 : within_k (-(4)) 4 a) by (apply (wup _ _ _ _ _ Wa); lra).
    assert (Num1 : forall x, within_k (-9) 9 x -> within_k (-4096) 4096 (n_mul O a (n_add O x S))
                                           /\ within_k (-4096) 4096 (n_mul O a (n_sub O x S))).
    { intros x Wx. destruct (wadd x S (-(27)) 27 _ _ _ _ Wx W0) as [W1 _]; side.
      destruct (wsub x S (-(27)) 27 _ _ _ _ Wx W0) as [W2 _]; side.
      destruct (wmul a _ 108 _ _ W4 W1) as [W3 _]; side. destruct (wmul a _ 108 _ _ W4 W2) as [W5 _]; side.
      split; [apply (wup _ _ _ _ _ W3); lra|apply (wup _ _ _ _ _ W5); lra]. }
    assert (Num2 : forall tw x, within_k (-(2)) 2 tw -> within_k (-(9)) 9 x -> within_k (-4096) 4096 (n_mul O (n_mul O tw a) x)).
    { intros tw x Wtw Wx. destruct (wmul tw a 8 _ _ Wtw W4) as [W1 _]; side. destruct (wmul _ x 72 _ _ W1 Wx) as [W2 _]; side.
      apply (wup _ _ _ _ _ W2); lra. }
    destruct (Num1 t Wt) as [Q1 Q2]. destruct (Num1 t' Wt') as [Q3 Q4].
    destruct HK as [-> | ->]; cbn [rbj_coeffs]; unfold lowshelf_coeffs, highshelf_coeffs, normalised; fold cw sw ten forty; fold a;
      fold al; fold S; fold p; fold m; fold k; fold l; fold t; fold t'; fold n; fold n'; cbv zeta.
    - destruct (shelf_feedback (B2R a) (B2R cw) t (n_mul O (n_neg O (n_two O)) n) S HA C2 Wt) as [P0 [P1 [P2 P3]]].
      + apply (wup _ _ _ _ _ Wd); lra.
      + exact WS.
      + exact Et.
      + left. rewrite Vd, En. ring.
      + split; [|exact P3]. cbn [all_finite fin ieee_view].
        split; [exact (wdiv_fin _ _ Q3 P0)|]. split; [exact (wdiv_fin _ _ (Num2 _ _ H2 Wn') P0)|].
        split; [exact (wdiv_fin _ _ Q4 P0)|]. split; [exact P1|exact P2].
    - assert (C2' : Rabs (- B2R cw) <= 1 - 198 * u) by (rewrite Rabs_Ropp; exact C2).
      destruct (shelf_feedback (B2R a) (- B2R cw) t' (n_mul O (n_two O) n') S HA C2' Wt') as [P0 [P1 [P2 P3]]].
      + apply (wup _ _ _ _ _ Wd'); lra.
      + exact WS.
      + exact Et'.
      + right. rewrite Vd', En'. ring.
      + split; [|exact P3]. cbn [all_finite fin ieee_view].
        split; [exact (wdiv_fin _ _ Q1 P0)|]. split; [exact (wdiv_fin _ _ (Num2 _ _ H2n Wn) P0)|].
        split; [exact (wdiv_fin _ _ Q2 P0)|]. split; [exact P1|exact P2].
  Qed.
End F.
