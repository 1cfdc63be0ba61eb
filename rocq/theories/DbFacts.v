(** Facts behind C92. *)
From Coq Require Import ZArith Reals Bool Lra Lia Psatz.
From Flocq Require Import Core.Core IEEE754.BinarySingleNaN.
From Verif Require Import Base Num NumF FloatSpec FloatFacts SmoothF FltFilterFacts WinLemmasF RbjFltFacts UtilM UtilSpec UtilLemmas DbSpec.
Open Scope R_scope.

(** ** Logarithm and exponential *)
Lemma exp_lo t : 1 + t <= exp t.
Proof. destruct (Req_dec t 0) as [->|N]; [rewrite exp_0; lra|]. left. apply exp_ineq1. exact N. Qed.
Lemma exp_hi t : t < 1 -> exp t <= / (1 - t).
Proof.
  intros H. assert (G := exp_lo (- t)). rewrite exp_Ropp in G. assert (P := exp_pos t).
  apply Rmult_le_reg_r with (1 - t); [lra|]. rewrite Rinv_l by lra.
  assert (K : (1 - t) * exp t <= / exp t * exp t) by (apply Rmult_le_compat_r; lra). rewrite Rinv_l in K by lra. lra.
Qed.
Lemma exp_minus_1 t : Rabs t <= / 2000 -> Rabs (exp t - 1) <= 1.001 * Rabs t.
Proof.
  intros H. assert (H' := Rabs_le_inv _ _ H). assert (L := exp_lo t). assert (U := exp_hi t ltac:(lra)).
  assert (E : / (1 - t) - 1 = t * / (1 - t)) by (field; lra).
  assert (I1 : 0 < / (1 - t)) by (apply Rinv_0_lt_compat; lra).
  assert (I2 : / (1 - t) <= 1.001) by (apply Rmult_le_reg_r with (1 - t); [lra|]; rewrite Rinv_l by lra; lra).
  assert (B := Rabs_pos t).
  assert (K : t * / (1 - t) <= Rabs t * / (1 - t)) by (apply Rmult_le_compat_r; [lra|apply Rle_abs]).
  assert (K2 : Rabs t * / (1 - t) <= Rabs t * 1.001) by (apply Rmult_le_compat_l; lra).
  assert (C := Rle_abs (- t)). rewrite Rabs_Ropp in C. apply Rabs_le. lra.
Qed.
Lemma ln_hi x : 0 < x -> ln x <= x - 1.
Proof. intros H. assert (G := exp_lo (ln x)). rewrite exp_ln in G by exact H. lra. Qed.
Lemma ln_lo x : 0 < x -> 1 - / x <= ln x.
Proof.
  intros H. assert (G := ln_hi (/ x) ltac:(apply Rinv_0_lt_compat; exact H)). rewrite ln_Rinv in G by exact H. lra.
Qed.
Lemma ln_1_plus r : Rabs r <= / 2000 -> Rabs (ln (1 + r)) <= 1.001 * Rabs r.
Proof.
  intros H. assert (H' := Rabs_le_inv _ _ H). assert (U := ln_hi (1 + r) ltac:(lra)). assert (L := ln_lo (1 + r) ltac:(lra)).
  assert (E : 1 - / (1 + r) = r * / (1 + r)) by (field; lra).
  assert (I1 : 0 < / (1 + r)) by (apply Rinv_0_lt_compat; lra).
  assert (I2 : / (1 + r) <= 1.001) by (apply Rmult_le_reg_r with (1 + r); [lra|]; rewrite Rinv_l by lra; lra).
  assert (B := Rabs_pos r). assert (A := Rle_abs r). assert (C := Rle_abs (- r)). rewrite Rabs_Ropp in C.
  assert (K : - Rabs r * / (1 + r) <= r * / (1 + r)) by (apply Rmult_le_compat_r; lra).
  assert (K2 : Rabs r * / (1 + r) <= Rabs r * 1.001) by (apply Rmult_le_compat_l; lra).
  apply Rabs_le. lra.
Qed.

Lemma exp_sq t : exp (2 * t) = exp t * exp t.
Proof. rewrite <- exp_plus. f_equal. ring. Qed.
Lemma sq_lo t a : 0 <= a -> a <= exp t -> a * a <= exp (2 * t).
Proof. intros. rewrite exp_sq. apply Rmult_le_compat; assumption. Qed.
Lemma sq_hi t a : exp t <= a -> exp (2 * t) <= a * a.
Proof. intros. rewrite exp_sq. assert (P := exp_pos t). apply Rmult_le_compat; lra. Qed.
Lemma exp_nat n : exp (INR n) = exp 1 ^ n.
Proof. induction n as [|n IH]; [cbn; apply exp_0|]. rewrite S_INR, exp_plus, IH. cbn. ring. Qed.
Lemma e_bounds : 2.684 <= exp 1 <= 2.742.
Proof.
  assert (A := exp_lo (/ 64)). assert (B := exp_hi (/ 64) ltac:(lra)).
  split.
  - assert (A1 := sq_lo (/ 64) (65 / 64) ltac:(lra) ltac:(lra)).
    assert (A2 := sq_lo (2 * / 64) 1.0314 ltac:(lra) ltac:(eapply Rle_trans; [|exact A1]; lra)).
    assert (A3 := sq_lo (2 * (2 * / 64)) 1.0637 ltac:(lra) ltac:(eapply Rle_trans; [|exact A2]; lra)).
    assert (A4 := sq_lo (2 * (2 * (2 * / 64))) 1.1314 ltac:(lra) ltac:(eapply Rle_trans; [|exact A3]; lra)).
    assert (A5 := sq_lo (2 * (2 * (2 * (2 * / 64)))) 1.2800 ltac:(lra) ltac:(eapply Rle_trans; [|exact A4]; lra)).
    assert (A6 := sq_lo (2 * (2 * (2 * (2 * (2 * / 64))))) 1.6384 ltac:(lra) ltac:(eapply Rle_trans; [|exact A5]; lra)).
    replace (2 * (2 * (2 * (2 * (2 * (2 * / 64)))))) with 1 in A6 by field. lra.
  - assert (B' : exp (/ 64) <= 64 / 63) by (eapply Rle_trans; [exact B|]; right; field).
    assert (A1 := sq_hi _ _ B').
    assert (A2 := sq_hi (2 * / 64) 1.03201 ltac:(eapply Rle_trans; [exact A1|]; lra)).
    assert (A3 := sq_hi (2 * (2 * / 64)) 1.06505 ltac:(eapply Rle_trans; [exact A2|]; lra)).
    assert (A4 := sq_hi (2 * (2 * (2 * / 64))) 1.13434 ltac:(eapply Rle_trans; [exact A3|]; lra)).
    assert (A5 := sq_hi (2 * (2 * (2 * (2 * / 64)))) 1.28673 ltac:(eapply Rle_trans; [exact A4|]; lra)).
    assert (A6 := sq_hi (2 * (2 * (2 * (2 * (2 * / 64))))) 1.65568 ltac:(eapply Rle_trans; [exact A5|]; lra)).
    replace (2 * (2 * (2 * (2 * (2 * (2 * / 64)))))) with 1 in A6 by field. lra.
Qed.
Lemma ln_mono x y : 0 < x -> x <= y -> ln x <= ln y.
Proof. intros Hx [H| ->]; [left; apply ln_increasing; assumption|lra]. Qed.
Lemma ln_pow10 n : ln (10 ^ n) = INR n * ln 10.
Proof. rewrite <- Rpower_pow by lra. unfold Rpower. apply ln_exp. Qed.
Lemma ln10_bounds : 2.2 <= ln 10 <= 7 / 3.
Proof.
  assert (E := e_bounds). split.
  - assert (G : exp (INR 11) <= 10 ^ 5).
    { rewrite exp_nat. apply Rle_trans with (2.742 ^ 11); [apply pow_incr; lra|lra]. }
    assert (L : ln (exp (INR 11)) <= ln (10 ^ 5)) by (apply ln_mono; [apply exp_pos|exact G]).
    rewrite ln_exp, ln_pow10 in L. cbn in L. lra.
  - assert (G : 10 ^ 3 <= exp (INR 7)).
    { rewrite exp_nat. apply Rle_trans with (2.684 ^ 7); [lra|apply pow_incr; lra]. }
    assert (L : ln (10 ^ 3) <= ln (exp (INR 7))) by (apply ln_mono; [lra|exact G]).
    rewrite ln_exp, ln_pow10 in L. cbn in L. lra.
Qed.

Lemma amplitude_pos d : 0 < amplitude d.
Proof. apply exp_pos. Qed.
Lemma amplitude_decibels x : 0 < x -> amplitude (decibels x) = x.
Proof.
  intros H. unfold amplitude, decibels, Rpower. assert (L := ln10_bounds).
  replace (20 * (ln x / ln 10) / 20 * ln 10) with (ln x) by (field; lra). apply exp_ln, H.
Qed.
Lemma decibels_amplitude d : decibels (amplitude d) = d.
Proof. unfold amplitude, decibels, Rpower. assert (L := ln10_bounds). rewrite ln_exp. field. lra. Qed.
Lemma amplitude_le a b : a <= b -> amplitude a <= amplitude b.
Proof. intros H. unfold amplitude. apply Rle_Rpower; lra. Qed.
Lemma amplitude_nat n : amplitude (20 * INR n) = 10 ^ n.
Proof. unfold amplitude. replace (20 * INR n / 20) with (INR n) by field. apply Rpower_pow. lra. Qed.
Lemma amplitude_neg n : amplitude (- (20 * INR n)) = / 10 ^ n.
Proof. unfold amplitude. replace (- (20 * INR n) / 20) with (- INR n) by field. rewrite Rpower_Ropp, Rpower_pow by lra. reflexivity. Qed.
Lemma amplitude_plus a b : amplitude (a + b) = amplitude a * amplitude b.
Proof. unfold amplitude. rewrite <- Rpower_plus. f_equal. field. Qed.
(** A small change of level. *)
Lemma amplitude_small e : Rabs e <= / 300 -> Rabs (amplitude e - 1) <= 0.117 * Rabs e.
Proof.
  intros H. assert (L := ln10_bounds). unfold amplitude, Rpower. assert (P := Rabs_pos e).
  assert (E : Rabs (e / 20 * ln 10) = Rabs e * (ln 10 / 20)).
  { replace (e / 20 * ln 10) with (e * (ln 10 / 20)) by field. rewrite Rabs_mult, (Rabs_pos_eq (ln 10 / 20)); lra. }
  assert (B : Rabs e * (ln 10 / 20) <= Rabs e * (7 / 60)) by (apply Rmult_le_compat_l; lra).
  assert (G := exp_minus_1 (e / 20 * ln 10) ltac:(lra)). rewrite E in G. lra.
Qed.
(** The level of a small relative change. *)
Lemma decibels_small r : Rabs r <= / 2000 -> Rabs (decibels (1 + r)) <= 9.2 * Rabs r.
Proof.
  intros H. assert (L := ln10_bounds). assert (G := ln_1_plus r H). unfold decibels.
  rewrite Rabs_mult, (Rabs_pos_eq 20) by lra. unfold Rdiv. rewrite Rabs_mult, (Rabs_pos_eq (/ ln 10)) by (left; apply Rinv_0_lt_compat; lra).
  assert (I : / ln 10 <= / 2.2) by (apply Rinv_le_contravar; lra). assert (I0 : 0 < / ln 10) by (apply Rinv_0_lt_compat; lra).
  assert (P := Rabs_pos r). assert (Q := Rabs_pos (ln (1 + r))).
  assert (Rabs (ln (1 + r)) * / ln 10 <= (1.001 * Rabs r) * / 2.2) by (apply Rmult_le_compat; lra).
  lra.
Qed.
Lemma decibels_mult x y : 0 < x -> 0 < y -> decibels (x * y) = decibels x + decibels y.
Proof. intros. unfold decibels. rewrite ln_mult by assumption. assert (L := ln10_bounds). field. lra. Qed.
Lemma decibels_le x y : 0 < x -> x <= y -> decibels x <= decibels y.
Proof.
  intros Hx H. unfold decibels. assert (L := ln10_bounds). assert (G := ln_mono x y Hx H).
  apply Rmult_le_compat_l; [lra|]. apply Rmult_le_compat_r; [left; apply Rinv_0_lt_compat; lra|exact G].
Qed.

(** Floats above 10^-6 have levels above -120 and below 6200. *)
Lemma decibels_range x : 1 / 1000000 <= x -> x <= powerRZ 10 309 -> -120 <= decibels x <= 6180.
Proof.
  intros H1 H2. assert (A := decibels_le (1 / 1000000) x ltac:(lra) H1). assert (B := decibels_le x (powerRZ 10 309) ltac:(lra) H2).
  replace (1 / 1000000) with (amplitude (-120)) in A.
  2:{ replace (-120) with (- (20 * INR 6)) by (cbn; lra). rewrite amplitude_neg. cbn. lra. }
  replace (powerRZ 10 309) with (amplitude 6180) in B.
  2:{ unfold amplitude. rewrite powerRZ_Rpower by lra. f_equal. lra. }
  rewrite decibels_amplitude in A, B. lra.
Qed.

Section F.
  Context (prec emax : Z) {Hp : Prec_gt_0 prec} {Hm : Prec_lt_emax prec emax}
    (Hp24 : (24 <= prec)%Z) (Hbig : (prec + 100 <= emax)%Z).
  Notation F := (binary_float prec emax).
  Notation RN := (round radix2 (SpecFloat.fexp prec emax) (round_mode mode_NE)).
  Notation u := (uro prec).
  Notation et := (eta prec emax).

  Lemma big60 : 10000 <= bpow radix2 60.
  Proof. apply Rle_trans with (bpow radix2 14); [change (bpow radix2 14) with 16384; lra|apply bpow_le; lia]. Qed.
  Lemma two_u : bpow radix2 (1 - prec) = 2 * u.
  Proof. change (1 - prec)%Z with (1 + - prec)%Z. rewrite bpow_plus. reflexivity. Qed.

  Lemma db_off (t l : F) L : is_finite t = true -> B2R t = 20 -> is_finite l = true ->
    Rabs (B2R l - L) <= bpow radix2 (1 - prec) * Rabs L + et -> Rabs L <= 309 ->
    is_finite (f_mul prec emax t l) = true
    /\ Rabs (B2R (f_mul prec emax t l) - 20 * L) <= 4 * u * Rabs (20 * L) + 22 * et.
  Proof.
    intros Ft Ht Fl Hl HL. rewrite two_u in Hl. assert (U := u_small prec Hp24). assert (P := Rabs_pos L).
    assert (K : 2 * u * Rabs L <= 2 * / 16777216 * Rabs L) by (apply Rmult_le_compat_r; lra).
    assert (Hl2 : Rabs (20 * B2R l) <= 20 * (Rabs L + 2 * u * Rabs L + et)).
    { rewrite Rabs_mult, (Rabs_pos_eq 20) by lra. apply Rmult_le_compat_l; [lra|].
      replace (B2R l) with ((B2R l - L) + L) by ring. eapply Rle_trans; [apply Rabs_triang|]. lra. }
    assert (W := big60). assert (T := et_small prec emax Hbig). assert (T2 : u * u <= / 16777216 * 1) by (apply Rmult_le_compat; lra).
    assert (T3 : u * et <= / 16777216 * et) by (apply Rmult_le_compat_r; lra).
    destruct (mulk prec emax Hp24 Hbig t l Ft Fl) as [A B]; [rewrite Ht; lra|].
    split; [exact A|]. rewrite B, Ht. assert (G := err prec emax Hp24 _ _ Hl2).
    replace (RN (20 * B2R l) - 20 * L) with ((RN (20 * B2R l) - 20 * B2R l) + 20 * (B2R l - L)) by ring.
    eapply Rle_trans; [apply Rabs_triang|]. rewrite !Rabs_mult, !(Rabs_pos_eq 20) by lra.
    assert (Q : 0 <= u * Rabs L) by (apply Rmult_le_pos; lra).
    assert (Q2 : u * (u * Rabs L) <= / 16777216 * (u * Rabs L)) by (apply Rmult_le_compat_r; lra).
    lra.
  Qed.
  Lemma quot_off (d t : F) : is_finite d = true -> B2R t = 20 -> Rabs (B2R d) <= 601 ->
    is_finite (f_div prec emax d t) = true
    /\ Rabs (20 * B2R (f_div prec emax d t) - B2R d) <= u * Rabs (B2R d) + 20 * et.
  Proof.
    intros Fd Ht Hd. assert (W := big60).
    assert (E : Rabs (B2R d / 20) = Rabs (B2R d) / 20) by (unfold Rdiv; rewrite Rabs_mult, (Rabs_pos_eq (/ 20)); lra).
    destruct (divk prec emax Hp24 Hbig d t Fd) as [A B]; [rewrite Ht; lra|rewrite Ht, E; lra|].
    split; [exact A|]. rewrite B, Ht. assert (G := err prec emax Hp24 (B2R d / 20) _ (Rle_refl _)). rewrite E in G.
    replace (20 * RN (B2R d / 20) - B2R d) with (20 * (RN (B2R d / 20) - B2R d / 20)) by field.
    rewrite Rabs_mult, (Rabs_pos_eq 20) by lra. lra.
  Qed.
End F.

(** ** Errors, in exact arithmetic *)
Section Pure.
  Context (u et : R) (U : 0 < u <= / 16777216) (E : 0 < et <= u * / 16777216).

  (** [q] is the rounded quotient, [s] the power of the library. *)
  Lemma sample_off d q s : Rabs d <= 601 -> Rabs (20 * q - d) <= u * Rabs d + 20 * et ->
    Rabs (s - Rpower 10 q) <= 2 * u * Rpower 10 q ->
    Rabs (s - amplitude d) <= (2.1 + Rabs d * 0.118) * u * amplitude d.
  Proof.
    intros Hd Hq Hs. assert (P := amplitude_pos d). assert (PD := Rabs_pos d).
    assert (UD : u * Rabs d <= / 16777216 * 601) by (apply Rmult_le_compat; lra).
    assert (UP : 0 <= u * Rabs d) by (apply Rmult_le_pos; lra).
    replace (Rpower 10 q) with (amplitude d * amplitude (20 * q - d)) in Hs.
    2:{ rewrite <- amplitude_plus. unfold amplitude. f_equal. field. }
    set (a := amplitude (20 * q - d)) in *.
    assert (A : Rabs (a - 1) <= 0.117 * (u * Rabs d + 20 * et)).
    { eapply Rle_trans; [apply amplitude_small; lra|]. apply Rmult_le_compat_l; lra. }
    assert (A' := Rabs_le_inv _ _ A).
    replace (s - amplitude d) with ((s - amplitude d * a) + amplitude d * (a - 1)) by ring.
    eapply Rle_trans; [apply Rabs_triang|]. rewrite Rabs_mult, (Rabs_pos_eq (amplitude d)) by lra.
    assert (M1 : amplitude d * Rabs (a - 1) <= amplitude d * (0.117 * (u * Rabs d + 20 * et))) by (apply Rmult_le_compat_l; lra).
    assert (M2 : 2 * u * (amplitude d * a) <= amplitude d * (2.001 * u)).
    { replace (2 * u * (amplitude d * a)) with (amplitude d * (u * (2 * a))) by ring. apply Rmult_le_compat_l; [lra|].
      rewrite (Rmult_comm 2.001). apply Rmult_le_compat_l; lra. }
    replace ((2.1 + Rabs d * 0.118) * u * amplitude d) with (amplitude d * ((2.1 + Rabs d * 0.118) * u)) by ring.
    assert (M3 : amplitude d * (0.117 * (u * Rabs d + 20 * et) + 2.001 * u) <= amplitude d * ((2.1 + Rabs d * 0.118) * u))
      by (apply Rmult_le_compat_l; lra).
    lra.
  Qed.

  (** There and back: [y] is the rounded level of [x], [s] its rounded amplitude. *)
  Lemma back_off x y s : 0 < x -> Rabs (decibels x) <= 600.5 ->
    Rabs (y - decibels x) <= 4 * u * Rabs (decibels x) + 22 * et ->
    Rabs (s - amplitude y) <= (2.1 + Rabs y * 0.118) * u * amplitude y ->
    Rabs (s - x) <= (3 + Rabs (decibels x)) * u * x.
  Proof.
    intros Hx HD Hy Hs. set (D := decibels x) in *. assert (PD := Rabs_pos D).
    assert (UD : u * Rabs D <= / 16777216 * 601) by (apply Rmult_le_compat; lra).
    assert (UP : 0 <= u * Rabs D) by (apply Rmult_le_pos; lra).
    assert (Ex : amplitude y = x * amplitude (y - D)).
    { rewrite <- (amplitude_decibels x Hx) at 1. fold D. rewrite <- amplitude_plus. f_equal. ring. }
    set (a := amplitude (y - D)) in *.
    assert (A : Rabs (a - 1) <= 0.117 * (4 * u * Rabs D + 22 * et)).
    { eapply Rle_trans; [apply amplitude_small; lra|]. apply Rmult_le_compat_l; lra. }
    assert (A' := Rabs_le_inv _ _ A). rewrite Ex in Hs.
    assert (Y : Rabs y <= Rabs D + 0.001).
    { replace y with ((y - D) + D) by ring. eapply Rle_trans; [apply Rabs_triang|]. lra. }
    assert (PY := Rabs_pos y).
    replace (s - x) with ((s - x * a) + x * (a - 1)) by ring. eapply Rle_trans; [apply Rabs_triang|].
    rewrite Rabs_mult, (Rabs_pos_eq x) by lra.
    assert (M1 : x * Rabs (a - 1) <= x * (0.117 * (4 * u * Rabs D + 22 * et))) by (apply Rmult_le_compat_l; lra).
    assert (M2 : (2.1 + Rabs y * 0.118) * u * (x * a) <= x * ((2.2 + Rabs D * 0.119) * u)).
    { replace ((2.1 + Rabs y * 0.118) * u * (x * a)) with (x * (u * ((2.1 + Rabs y * 0.118) * a))) by ring.
      apply Rmult_le_compat_l; [lra|]. rewrite (Rmult_comm (2.2 + Rabs D * 0.119)). apply Rmult_le_compat_l; [lra|].
      apply Rle_trans with ((2.1 + (Rabs D + 0.001) * 0.118) * 1.0001); [apply Rmult_le_compat; lra|lra]. }
    assert (M3 : x * (0.117 * (4 * u * Rabs D + 22 * et) + (2.2 + Rabs D * 0.119) * u) <= x * ((3 + Rabs D) * u))
      by (apply Rmult_le_compat_l; lra).
    replace ((3 + Rabs D) * u * x) with (x * ((3 + Rabs D) * u)) by ring. lra.
  Qed.

  (** Back and there: [s] is the rounded amplitude of [d], [y] its rounded level. *)
  Lemma forth_off d s y : Rabs d <= 601 ->
    Rabs (s - amplitude d) <= (2.1 + Rabs d * 0.118) * u * amplitude d ->
    0 < s /\ Rabs (decibels s - d) <= 9.2 * ((2.1 + Rabs d * 0.118) * u)
    /\ (Rabs (y - decibels s) <= 4 * u * Rabs (decibels s) + 22 * et -> Rabs (y - d) <= (20 + 6 * Rabs d) * u).
  Proof.
    intros Hd Hs. assert (P := amplitude_pos d). assert (PD := Rabs_pos d).
    assert (UD : u * Rabs d <= / 16777216 * 601) by (apply Rmult_le_compat; lra).
    assert (UP : 0 <= u * Rabs d) by (apply Rmult_le_pos; lra).
    set (r := s / amplitude d - 1). assert (Es : s = amplitude d * (1 + r)) by (unfold r; field; lra).
    assert (Hr : Rabs r <= (2.1 + Rabs d * 0.118) * u).
    { apply Rmult_le_reg_l with (amplitude d); [exact P|]. rewrite <- (Rabs_pos_eq (amplitude d)) at 1 by lra. rewrite <- Rabs_mult.
      replace (amplitude d * r) with (s - amplitude d) by (rewrite Es; ring). lra. }
    assert (Hr' := Rabs_le_inv _ _ Hr). assert (G := decibels_small r ltac:(lra)).
    assert (Q : 0 < s) by (rewrite Es; apply Rmult_lt_0_compat; lra).
    assert (Hd2 : Rabs (decibels s - d) <= 9.2 * ((2.1 + Rabs d * 0.118) * u)).
    { rewrite Es, decibels_mult, decibels_amplitude by lra. replace (d + decibels (1 + r) - d) with (decibels (1 + r)) by ring. lra. }
    split; [exact Q|]. split; [exact Hd2|]. intros Hy.
    assert (Y : Rabs (decibels s) <= Rabs d + 0.001).
    { replace (decibels s) with ((decibels s - d) + d) by ring. eapply Rle_trans; [apply Rabs_triang|]. lra. }
    assert (M : u * Rabs (decibels s) <= u * (Rabs d + 0.001)) by (apply Rmult_le_compat_l; lra).
    replace (y - d) with ((y - decibels s) + (decibels s - d)) by ring. eapply Rle_trans; [apply Rabs_triang|]. lra.
  Qed.
End Pure.
