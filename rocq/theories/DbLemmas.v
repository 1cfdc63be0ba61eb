(** Proofs of C92. *)
From Coq Require Import ZArith Reals List Bool Lra Lia Psatz.
From Flocq Require Import Core.Core IEEE754.BinarySingleNaN.
From Verif Require Import Base Num NumR NumF FloatSpec FloatFacts SmoothF FltFilterFacts RbjFltFacts CrLibm Witness
  UtilM UtilSpec UtilLemmas DbSpec DbFacts.
Import ListNotations.
Open Scope R_scope.
(*@PROP
(** Property C92: how accurate the level conversions are in [f32] and [f64], and
    how well they undo each other.

    Vocabulary: [decibels] and [amplitude] are the conversions of numbers, and
    [log10_close], [log10_rounded], [pow10_close] say how good the maths library is
    ([DbSpec]); [ieee O V] says that [O] is the arithmetic of [f32] or [f64], which [V]
    reads as numbers ([FloatSpec]). *)
From Coq Require Import ZArith Reals List Bool Lra Lia.
From Flocq Require Import Core.Core IEEE754.BinarySingleNaN.
From Verif Require Import Base Num NumF FloatSpec CrLibm Witness UtilM UtilLemmas DbSpec DbLemmas.
Import ListNotations.
Open Scope R_scope.

@*)

Section Both.
  Context {T : Type} (O : num_ops T) (V : float_view T) (HO : ieee O V).
  Notation u := (unit_off V).
  Notation et := (tiny_off V).

  Lemma u_ok : 0 < u <= / 16777216.
  Proof. destruct HO; [exact (u_small 24 ltac:(lia))|exact (u_small 53 ltac:(lia))]. Qed.
  Lemma et_ok : 0 < et <= u * / 16777216.
  Proof.
    assert (U := u_ok). assert (E : 0 < et <= u * u).
    { destruct HO; [exact (et_small 24 128 ltac:(lia))|exact (et_small 53 1024 ltac:(lia))]. }
    split; [lra|]. apply Rle_trans with (1 := proj2 E). apply Rmult_le_compat_l; lra.
  Qed.
  Lemma fin_le x : fin V x = true -> val V x <= powerRZ 10 309.
  Proof.
    intros Fx. apply Rle_trans with (2 := big_128). apply Rlt_le.
    apply Rle_lt_trans with (Rabs (val V x)); [apply Rle_abs|]. destruct HO.
    - apply Rlt_trans with (bpow radix2 128); [apply abs_B2R_lt_emax|]. apply bpow_lt. reflexivity.
    - apply abs_B2R_lt_emax.
  Qed.
  Lemma sign_pos x : fin V x = true -> 0 < val V x -> n_is_sign_negative O x = false.
  Proof.
    assert (G : forall prec emax (y : binary_float prec emax) b, is_finite y = true -> 0 < B2R y -> f_is_sign_negative prec emax b y = false).
    { intros prec emax y b Fy Hy. destruct y as [s|s| |s m e H]; try discriminate; [cbn in Hy; lra|]. destruct s; [|reflexivity].
      exfalso. assert (P := F2R_lt_0 radix2 (Float radix2 (Z.neg m) e) eq_refl).
      change (F2R (Float radix2 (Z.neg m) e)) with (B2R (B754_finite true m e H)) in P. lra. }
    destruct HO; intros; apply G; assumption.
  Qed.
  Lemma range_ok r : / 10 ^ 7 <= r <= 10 ^ 31 -> fmin V <= r <= fmax V.
  Proof.
    assert (G : forall prec emax, (24 <= prec)%Z -> (128 <= emax)%Z -> / 10 ^ 7 <= r <= 10 ^ 31 ->
      fmin (ieee_view prec emax) <= r <= fmax (ieee_view prec emax)).
    { intros prec emax Hp He Hr. cbn [fmin fmax ieee_view]. assert (U := u_small prec Hp). unfold uro in U. split.
      - apply Rle_trans with (bpow radix2 (-24)); [apply bpow_le; lia|]. apply Rle_trans with (2 := proj1 Hr).
        change (bpow radix2 (-24)) with (/ 16777216). lra.
      - apply Rle_trans with (bpow radix2 127).
        + apply Rle_trans with (1 := proj2 Hr). apply Rle_trans with (bpow radix2 103); [|apply bpow_le; lia].
          change (bpow radix2 103) with 10141204801825835211973625643008. lra.
        + apply Rle_trans with (/ 2 * bpow radix2 emax).
          * change (/ 2) with (bpow radix2 (-1)). rewrite <- bpow_plus. apply bpow_le. lia.
          * apply Rmult_le_compat_r; [apply bpow_ge_0|]. lra. }
    destruct HO; apply G; lia.
  Qed.

  Lemma db_acc p x : log10_close O V -> fin V x = true -> 1 / 1000000 < val V x ->
    exists y, to_db O p x = Ok y /\ fin V y = true
      /\ Rabs (val V y - decibels (val V x)) <= 4 * u * Rabs (decibels (val V x)) + 22 * et.
  Proof.
    intros HL Fx Hx. assert (S := sign_pos x Fx ltac:(lra)).
    rewrite (to_db_cases O V HO p x (or_intror S)), Fx, (proj2 (above_both O V HO x Fx) Hx). cbn [andb].
    destruct (c20 O V HO) as [T1 T2]. destruct (HL x Fx ltac:(lra)) as [L1 L2].
    eexists. split; [reflexivity|].
    assert (B : Rabs (ln (val V x) / ln 10) <= 309).
    { assert (G := decibels_range (val V x) ltac:(lra) (fin_le x Fx)). unfold decibels in G. apply Rabs_le. lra. }
    destruct HO.
    - exact (db_off 24 128 ltac:(lia) ltac:(lia) _ _ _ T1 T2 L1 L2 B).
    - exact (db_off 53 1024 ltac:(lia) ltac:(lia) _ _ _ T1 T2 L1 L2 B).
  Qed.
  Lemma sample_acc d : pow10_close O V -> fin V d = true -> -120 < val V d <= 601 ->
    fin V (to_sample O d) = true
    /\ Rabs (val V (to_sample O d) - amplitude (val V d)) <= (2.1 + Rabs (val V d) * 0.118) * u * amplitude (val V d).
  Proof.
    intros HP Fd Hd. unfold to_sample. rewrite (fin_eq O V HO), Fd, (proj2 (above120 O V HO d Fd) (proj1 Hd)). cbn [andb].
    destruct (c20 O V HO) as [T1 T2]. destruct (c10 O V HO) as [S1 S2].
    assert (B : Rabs (val V d) <= 601) by (apply Rabs_le; lra).
    assert (Q : fin V (n_div O d (n_of_f64 O (F64lit 20 1))) = true
      /\ Rabs (20 * val V (n_div O d (n_of_f64 O (F64lit 20 1))) - val V d) <= u * Rabs (val V d) + 20 * et).
    { clear HP. destruct HO.
      - exact (quot_off 24 128 ltac:(lia) ltac:(lia) _ _ Fd T2 B).
      - exact (quot_off 53 1024 ltac:(lia) ltac:(lia) _ _ Fd T2 B). }
    destruct Q as [Q1 Q2]. assert (U := u_ok). assert (E := et_ok). assert (PD := Rabs_pos (val V d)).
    assert (UD : u * Rabs (val V d) <= / 16777216 * 601) by (apply Rmult_le_compat; lra).
    assert (Q2' := Rabs_le_inv _ _ Q2).
    destruct (HP _ _ S1 S2 Q1) as [R1 R2].
    { apply range_ok. set (q := val V (n_div O d (n_of_f64 O (F64lit 20 1)))) in *.
      replace (Rpower 10 q) with (amplitude (20 * q)) by (unfold amplitude; f_equal; field).
      rewrite <- amplitude_neg, <- amplitude_nat. split; apply amplitude_le; cbn; lra. }
    split; [exact R1|].
    replace (bpow radix2 (1 - fprec V)) with (2 * u) in R2.
    2:{ unfold unit_off. change (1 - fprec V)%Z with (1 + - fprec V)%Z. rewrite bpow_plus. reflexivity. }
    exact (sample_off u et U E (val V d) _ _ B Q2 R2).
  Qed.
End Both.

(** C92: for every finite sample above 10^-6, [to_db] answers its level up to a
    relative error of 4 * 2^-p.  The logarithm of the maths library is off by at most
    2^(1-p) of its value. *)
Lemma C92_to_db_accurate_thm :
  forall (T : Type) (O : num_ops T) (V : float_view T) (p : profile) (x : T),
    ieee O V -> log10_close O V -> fin V x = true -> 1 / 1000000 < val V x ->
    exists y, to_db O p x = Ok y /\ fin V y = true
      /\ Rabs (val V y - decibels (val V x)) <= 4 * unit_off V * Rabs (decibels (val V x)) + 22 * tiny_off V.
Proof. intros T O V p x HO. exact (db_acc O V HO p x). Qed.

(** C92: for every level above -120 dB and up to 600 dB, [to_sample] answers its
    amplitude up to a relative error of (3 + |d|/8) * 2^-p.  The power of the maths library
    is off by at most 2^(1-p) of its value. *)
Lemma C92_to_sample_accurate_thm :
  forall (T : Type) (O : num_ops T) (V : float_view T) (d : T),
    ieee O V -> pow10_close O V -> fin V d = true -> -120 < val V d <= 600 ->
    fin V (to_sample O d) = true
    /\ Rabs (val V (to_sample O d) - amplitude (val V d)) <= (3 + Rabs (val V d) / 8) * unit_off V * amplitude (val V d).
Proof.
  intros T O V d HO HP Fd Hd. destruct (sample_acc O V HO d HP Fd ltac:(lra)) as [A B]. split; [exact A|].
  apply Rle_trans with (1 := B). assert (P := amplitude_pos (val V d)). assert (U := u_ok O V HO). assert (PD := Rabs_pos (val V d)).
  apply Rmult_le_compat_r; [lra|]. apply Rmult_le_compat_r; lra.
Qed.

(** C92: a sample from 1.00001 * 10^-6 to 10^30 converted to dB and back is the sample up
    to a relative error of (3 + |D|) * 2^-p, where D is its level. *)
Lemma C92_round_trip_thm :
  forall (T : Type) (O : num_ops T) (V : float_view T) (p : profile) (x : T),
    ieee O V -> log10_close O V -> pow10_close O V -> fin V x = true ->
    1.00001 * (1 / 1000000) <= val V x <= 10 ^ 30 ->
    exists y, to_db O p x = Ok y /\ fin V (to_sample O y) = true
      /\ Rabs (val V (to_sample O y) - val V x) <= (3 + Rabs (decibels (val V x))) * unit_off V * val V x.
Proof.
  intros T O V p x HO HL HP Fx Hx. destruct (db_acc O V HO p x HL Fx ltac:(lra)) as [y [Y1 [Y2 Y3]]].
  assert (U := u_ok O V HO). assert (E := et_ok O V HO).
  assert (D1 : -119.99992 <= decibels (val V x)).
  { eapply Rle_trans; [|apply (decibels_le (1.00001 * (1 / 1000000))); lra]. rewrite decibels_mult by lra.
    replace (1 / 1000000) with (amplitude (-120)).
    2:{ replace (-120) with (- (20 * INR 6)) by (cbn; lra). rewrite amplitude_neg. cbn. lra. }
    rewrite decibels_amplitude. unfold decibels. assert (L := ln10_bounds). assert (G := ln_lo 1.00001 ltac:(lra)).
    assert (I : / (7 / 3) <= / ln 10) by (apply Rinv_le_contravar; lra).
    assert (K : 0.0000099 * (3 / 7) <= ln 1.00001 * / ln 10) by (apply Rmult_le_compat; lra). unfold Rdiv. lra. }
  assert (D2 : decibels (val V x) <= 600).
  { eapply Rle_trans; [apply (decibels_le (val V x) (10 ^ 30)); lra|]. rewrite <- amplitude_nat, decibels_amplitude. cbn. lra. }
  set (D := decibels (val V x)) in *.
  assert (BD : Rabs D <= 600.5) by (apply Rabs_le; lra).
  assert (Y3' := Rabs_le_inv _ _ Y3).
  assert (M : unit_off V * Rabs D <= / 16777216 * Rabs D) by (apply Rmult_le_compat_r; [apply Rabs_pos|lra]).
  assert (Y4 : -120 < val V y <= 601).
  { destruct (Rle_dec 0 D).
    - lra.
    - rewrite Rabs_left in * by lra. lra. }
  destruct (sample_acc O V HO y HP Y2 Y4) as [S1 S2].
  exists y. split; [exact Y1|]. split; [exact S1|].
  exact (back_off (unit_off V) (tiny_off V) U E (val V x) (val V y) _ ltac:(lra) BD Y3 S2).
Qed.

(** C92: a level from -119.999 dB to 600 dB converted to a sample and back is the level
    up to (20 + 6 |d|) * 2^-p dB. *)
Lemma C92_round_trip_level_thm :
  forall (T : Type) (O : num_ops T) (V : float_view T) (p : profile) (d : T),
    ieee O V -> log10_close O V -> pow10_close O V -> fin V d = true -> -119.999 <= val V d <= 600 ->
    exists y, to_db O p (to_sample O d) = Ok y /\ fin V y = true
      /\ Rabs (val V y - val V d) <= (20 + 6 * Rabs (val V d)) * unit_off V.
Proof.
  intros T O V p d HO HL HP Fd Hd. destruct (sample_acc O V HO d HP Fd ltac:(lra)) as [S1 S2].
  assert (U := u_ok O V HO). assert (E := et_ok O V HO). assert (B : Rabs (val V d) <= 601) by (apply Rabs_le; lra).
  destruct (forth_off (unit_off V) (tiny_off V) U E (val V d) _ 0 B S2) as [P [G _]].
  assert (M : unit_off V * Rabs (val V d) <= / 16777216 * 601) by (apply Rmult_le_compat; try apply Rabs_pos; lra).
  assert (G' := Rabs_le_inv _ _ G).
  assert (X : 1 / 1000000 < val V (to_sample O d)).
  { destruct (Rlt_dec (1 / 1000000) (val V (to_sample O d))) as [L|L]; [exact L|exfalso].
    assert (K := decibels_le (val V (to_sample O d)) (1 / 1000000) P ltac:(lra)).
    replace (1 / 1000000) with (amplitude (-120)) in K.
    2:{ replace (-120) with (- (20 * INR 6)) by (cbn; lra). rewrite amplitude_neg. cbn. lra. }
    rewrite decibels_amplitude in K. lra. }
  destruct (db_acc O V HO p (to_sample O d) HL S1 X) as [y [Y1 [Y2 Y3]]].
  exists y. split; [exact Y1|]. split; [exact Y2|].
  exact (proj2 (proj2 (forth_off (unit_off V) (tiny_off V) U E (val V d) _ (val V y) B S2)) Y3).
Qed.

(** ** The correctly rounded library *)
Lemma rounded_close_log (T : Type) (O : num_ops T) (V : float_view T) : ieee O V -> log10_rounded O V -> log10_close O V.
Proof.
  intros HO H x Fx Hx. destruct (H x Fx Hx) as [A B]. split; [exact A|]. rewrite B.
  set (l := ln (val V x) / ln 10).
  assert (G : Rabs (rnd V l - l) <= unit_off V * Rabs l + tiny_off V).
  { destruct HO; [exact (RN_err 24 128 l)|exact (RN_err 53 1024 l)]. }
  assert (U := u_ok O V HO). assert (P := Rabs_pos l).
  replace (bpow radix2 (1 - fprec V)) with (2 * unit_off V).
  2:{ unfold unit_off. change (1 - fprec V)%Z with (1 + - fprec V)%Z. rewrite bpow_plus. reflexivity. }
  assert (0 <= unit_off V * Rabs l) by (apply Rmult_le_pos; lra). lra.
Qed.

Section Cr.
  Context (prec emax : Z) {Hp : Prec_gt_0 prec} {Hm : Prec_lt_emax prec emax} (Hm3 : (24 <= emax)%Z)
    (Hmax : (emax <= 1024)%Z) (Hp64 : (prec <= 64)%Z).
  Notation F := (binary_float prec emax).
  Notation RN := (round radix2 (SpecFloat.fexp prec emax) (round_mode mode_NE)).

  Lemma R2F_small r : Rabs r <= 512 -> is_finite (R2F prec emax r) = true /\ B2R (R2F prec emax r) = RN r.
  Proof.
    intros H. apply R2F_ok. apply Rle_lt_trans with (bpow radix2 9); [|apply bpow_lt; lia].
    apply (RN_abs_le prec emax).
    - apply generic_format_bpow'; [apply fexp_correct; exact Hp|]. unfold SpecFloat.fexp, SpecFloat.emin. unfold Prec_gt_0 in Hp. lia.
    - change (bpow radix2 9) with 512. exact H.
  Qed.
  Lemma cr_log_rounded (x : F) : is_finite x = true -> 0 < B2R x ->
    is_finite (m_log10 (cr_libm prec emax) x) = true /\ B2R (m_log10 (cr_libm prec emax) x) = RN (ln (B2R x) / ln 10).
  Proof.
    intros Fx Hx. set (l := ln (B2R x) / ln 10).
    assert (E : m_log10 (cr_libm prec emax) x = R2F prec emax l).
    { destruct x as [s|s| |s m e H]; try discriminate; [cbn in Hx; lra|]. destruct s; [|reflexivity].
      exfalso. assert (P := F2R_lt_0 radix2 (Float radix2 (Z.neg m) e) eq_refl).
      change (F2R (Float radix2 (Z.neg m) e)) with (B2R (B754_finite true m e H)) in P. lra. }
    rewrite E. apply R2F_small. unfold l. clear E l.
    assert (Lo : IZR (-400) <= ln (B2R x) / ln 10).
    { apply log10_ge; [exact Hx|].
      apply Rle_trans with (bpow radix2 (-1100)).
      - replace (bpow radix2 (-1100)) with (/ IZR (2 ^ 1100)).
        + replace (powerRZ 10 (-400)) with (/ IZR (10 ^ 400)).
          * apply Rinv_le_contravar; [apply IZR_lt; reflexivity|]. apply IZR_le. vm_compute. discriminate.
          * change (-400)%Z with (- (400))%Z. rewrite powerRZ_neg'. try f_equal; try exact (Zpower_pos_powerRZ 10 400).
        + change (-1100)%Z with (- (1100))%Z. rewrite bpow_opp. try f_equal; try exact (IZR_Zpower radix2 1100 ltac:(discriminate)).
      - apply Rle_trans with (bpow radix2 (SpecFloat.emin prec emax)).
        + apply bpow_le. unfold SpecFloat.emin. lia.
        + rewrite <- (Rabs_pos_eq (B2R x)) by lra. apply abs_B2R_ge_emin.
          destruct x; try discriminate; [cbn in Hx; lra|reflexivity]. }
    assert (Hi : ln (B2R x) / ln 10 <= IZR 400).
    { apply Rle_trans with (IZR 309); [|apply IZR_le; discriminate]. apply log10_le; [exact Hx|].
      apply Rle_trans with (2 := big_128). apply Rlt_le. apply Rle_lt_trans with (Rabs (B2R x)); [apply Rle_abs|].
      apply Rlt_le_trans with (1 := abs_B2R_lt_emax _ _ x). apply bpow_le. exact Hmax. }
    apply Rabs_le. lra.
  Qed.
  Lemma cr_pow_close (ten y : F) : is_finite ten = true -> B2R ten = 10 -> is_finite y = true ->
    bpow radix2 (2 - emax) <= Rpower 10 (B2R y) <= (1 - bpow radix2 (- prec)) * bpow radix2 emax ->
    is_finite (m_powf (cr_libm prec emax) ten y) = true
    /\ Rabs (B2R (m_powf (cr_libm prec emax) ten y) - Rpower 10 (B2R y)) <= bpow radix2 (1 - prec) * Rpower 10 (B2R y).
  Proof.
    intros Ft Vt Fy Hr.
    assert (E : m_powf (cr_libm prec emax) ten y = R2F prec emax (Rpower 10 (B2R y))).
    { rewrite <- Vt. destruct ten as [s|s| |s m e H]; try discriminate; [cbn in Vt; lra|]. destruct s.
      - exfalso. assert (P := F2R_lt_0 radix2 (Float radix2 (Z.neg m) e) eq_refl).
        change (F2R (Float radix2 (Z.neg m) e)) with (B2R (B754_finite true m e H)) in P. lra.
      - destruct y; try discriminate; reflexivity. }
    assert (P := exp_pos (B2R y * ln 10)). fold (Rpower 10 (B2R y)) in P. rewrite E. set (r := Rpower 10 (B2R y)) in *.
    destruct (R2F_ok prec emax r) as [A B].
    { apply Rle_lt_trans with ((1 - bpow radix2 (- prec)) * bpow radix2 emax).
      - apply (RN_abs_le prec emax); [|rewrite Rabs_pos_eq; lra].
        apply (MAX_fmt prec emax). lia.
      - exact (MAX_lt prec emax). }
    split; [exact A|]. rewrite B. assert (G := RN_err prec emax r). rewrite (Rabs_pos_eq r) in G by lra.
    unfold eta in G. assert (U := uro_pos prec).
    assert (uro prec * bpow radix2 (2 - emax) <= uro prec * r) by (apply Rmult_le_compat_l; lra).
    change (1 - prec)%Z with (1 + - prec)%Z. rewrite bpow_plus. change (bpow radix2 1) with 2. fold (uro prec). lra.
  Qed.
End Cr.

Lemma cr_log10_32 b : log10_rounded (f32_ops (cr_libm 24 128) b) (ieee_view 24 128).
Proof. intros x Fx Hx. exact (cr_log_rounded 24 128 ltac:(lia) ltac:(lia) ltac:(lia) x Fx Hx). Qed.
Lemma cr_pow10_32 b : pow10_close (f32_ops (cr_libm 24 128) b) (ieee_view 24 128).
Proof. intros ten y A B C D. exact (cr_pow_close 24 128 ltac:(lia) ten y A B C D). Qed.
Lemma cr_pow10_64 b : pow10_close (f64_ops (cr_libm 53 1024) b) (ieee_view 53 1024).
Proof. intros ten y A B C D. exact (cr_pow_close 53 1024 ltac:(lia) ten y A B C D). Qed.
Lemma cr_log10_64 b : log10_rounded (f64_ops (cr_libm 53 1024) b) (ieee_view 53 1024).
Proof. intros x Fx Hx. exact (cr_log_rounded 53 1024 ltac:(lia) ltac:(lia) ltac:(lia) x Fx Hx). Qed.

(*@PROP
(** Beside the theorems: a correctly rounded library meets the hypotheses, in both
    types.  In [f32] a level of -60 dB comes back to within 0.00003 dB. *)
Example C92_hyps :
  log10_close (f32_ops (cr_libm 24 128) false) (ieee_view 24 128)
  /\ pow10_close (f32_ops (cr_libm 24 128) false) (ieee_view 24 128)
  /\ log10_close (f64_ops (cr_libm 53 1024) false) (ieee_view 53 1024)
  /\ pow10_close (f64_ops (cr_libm 53 1024) false) (ieee_view 53 1024)
  /\ 1.00001 * (1 / 1000000) <= val (ieee_view 24 128) (fl32 3 (-10)) <= 10 ^ 30
  /\ -119.999 <= val (ieee_view 24 128) (fl32 (-60) 0) <= 600
  /\ (20 + 6 * Rabs (-60)) * unit_off (ieee_view 24 128) < 3 / 100000.
Proof.
  split; [apply rounded_close_log; [constructor|apply cr_log10_32]|]. split; [apply cr_pow10_32|].
  split; [apply rounded_close_log; [constructor|apply cr_log10_64]|]. split; [apply cr_pow10_64|].
  cbn [val ieee_view]. split; [lit; lra|]. split; [lit; lra|].
  unfold unit_off. cbn [fprec ieee_view]. change (bpow radix2 (- (24))) with (/ 16777216). rewrite Rabs_left by lra. lra.
Qed.
@*)

Lemma log_6 lm b x : log10_rounded (f32_ops lm b) (ieee_view 24 128) -> x = fl32 8796094 (-43) ->
  is_finite (n_log10 (f32_ops lm b) x) = true /\ B2R (n_log10 (f32_ops lm b) x) = -6.
Proof.
  intros H ->. assert (V1 : B2R (fl32 8796094 (-43)) = 8796094 / 8796093022208) by (lit; lra).
  destruct (H (fl32 8796094 (-43))) as [A B]; [vm_compute; reflexivity|cbn [val ieee_view]; rewrite V1; lra|].
  split; [exact A|]. cbn [val ieee_view rnd] in B. rewrite B, V1. clear A B.
  set (l := ln (8796094 / 8796093022208) / ln 10).
  assert (L : -6 <= l <= -6 + / 10000000).
  { unfold l. set (r := 8796094000000 / 8796093022208 - 1).
    replace (8796094 / 8796093022208) with (/ 10 ^ 6 * (1 + r)) by (unfold r; field).
    assert (R1 : 0 <= r <= / 8000000) by (unfold r; lra).
    rewrite ln_mult, ln_Rinv, ln_pow10 by lra. assert (B := ln10_bounds).
    assert (G1 := ln_hi (1 + r) ltac:(lra)). assert (G2 := ln_lo (1 + r) ltac:(lra)).
    assert (G3 : / (1 + r) <= 1) by (rewrite <- Rinv_1 at 2; apply Rinv_le_contravar; lra).
    replace ((- (INR 6 * ln 10) + ln (1 + r)) / ln 10) with (-6 + ln (1 + r) * / ln 10) by (cbn; field; lra).
    assert (I0 : 0 < / ln 10) by (apply Rinv_0_lt_compat; lra).
    assert (I : / ln 10 <= / 2.2) by (apply Rinv_le_contravar; lra).
    assert (0 <= ln (1 + r) * / ln 10) by (apply Rmult_le_pos; lra).
    assert (ln (1 + r) * / ln 10 <= / 8000000 * / 2.2) by (apply Rmult_le_compat; lra). lra. }
  assert (Ec : cexp radix2 (SpecFloat.fexp 24 128) l = (-21)%Z).
  { unfold cexp. rewrite (mag_unique radix2 l 3); [reflexivity|]. cbn. rewrite Rabs_left by lra. lra. }
  unfold round. rewrite Ec. unfold F2R. cbn [Fnum Fexp].
  replace (round_mode mode_NE (scaled_mantissa radix2 (SpecFloat.fexp 24 128) l)) with (- 12582912)%Z.
  - cbn. lra.
  - symmetry. apply Znearest_imp. unfold scaled_mantissa. rewrite Ec. change (bpow radix2 (- -21)) with 2097152. apply Rabs_lt. lra.
Qed.

(** C92: no farther down: in [f32], with a correctly rounded logarithm, there is a sample
    above 10^-6 whose level is answered as exactly -120 dB, and which comes back as 0. *)
Lemma C92_floor_round_trip_refuted_thm :
  forall (lm : libm f32) (b : bool) (p : profile),
    log10_rounded (f32_ops lm b) (ieee_view 24 128) ->
    exists x y : f32,
      fin (ieee_view 24 128) x = true /\ 1 / 1000000 < val (ieee_view 24 128) x
      /\ to_db (f32_ops lm b) p x = Ok y /\ val (ieee_view 24 128) y = -120
      /\ to_sample (f32_ops lm b) y = n_zero (f32_ops lm b).
Proof.
  intros lm b p H. set (O := f32_ops lm b) in *. set (x := fl32 8796094 (-43)).
  assert (HO : ieee O (ieee_view 24 128)) by constructor.
  assert (Fx : fin (ieee_view 24 128) x = true) by (vm_compute; reflexivity).
  assert (Vx : 1 / 1000000 < val (ieee_view 24 128) x) by (cbn [val ieee_view]; unfold x; lit; lra).
  destruct (log_6 lm b x H eq_refl) as [L1 L2].
  assert (S := sign_pos O _ HO x Fx ltac:(lra)).
  destruct (proj2 (proj1 (C66_clamp_float_thm _ O _ p x x HO) (or_intror S)) Fx Vx) as [t [T1 [T2 T3]]].
  cbn [val ieee_view fin] in T1, T2.
  destruct (mulk 24 128 ltac:(lia) ltac:(lia) t (n_log10 O x) T1 L1) as [M1 M2].
  { fold O in L2. rewrite T2, L2. assert (W := big60). apply Rabs_le. lra. }
  assert (Y : B2R (f_mul 24 128 t (n_log10 O x)) = -120).
  { fold O in L2. rewrite M2, T2, L2. replace (20 * -6) with (IZR (-120)) by lra.
    apply (RN_Z 24 128 ltac:(lia)). discriminate. }
  exists x, (f_mul 24 128 t (n_log10 O x)). split; [exact Fx|]. split; [exact Vx|]. split; [exact T3|]. split; [exact Y|].
  apply (proj1 (proj2 (C66_clamp_float_thm _ O (ieee_view 24 128) p x (f_mul 24 128 t (n_log10 O x)) HO))).
  right. change (B2R (f_mul 24 128 t (n_log10 O x)) <= -120). rewrite Y. lra.
Qed.

(*@PROP
Example C92_floor_hyps : log10_rounded (f32_ops (cr_libm 24 128) false) (ieee_view 24 128).
Proof. exact (cr_log10_32 false). Qed.
@*)
