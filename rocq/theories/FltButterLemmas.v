(** Proofs of C144.  The [@PROP] blocks are copied into [PropFltButter.v]. *)
(*@PROP
(** Property C144: Butterworth filters of any even order in [f32] and [f64].

    Vocabulary: [section], [flt_cascade], [sections_ok], [sections_error] ([FltButterSpec]);
    [cascade], [butter_q], [butterworth], [butter_gain] ([ButterSpec]); [sinusoid] ([Signal]);
    [warped] ([EqSpec]); [trig_close]: sine and cosine of the platform ([RbjFltSpec]). *)
From Coq Require Import ZArith Reals List Bool Lra Lia.
From Flocq Require Import Core.Core IEEE754.BinarySingleNaN.
From Verif Require Import Base Num NumR NumF FloatSpec FloatFacts Witness CrLibm FilterM RbjM Device Signal FltFilterSpec
  RbjSpec RbjFltSpec RbjAccSpec EqSpec ButterSpec FltChainSpec FltButterSpec FltButterLemmas.
Import ListNotations.
Open Scope R_scope.
@*)
From Coq Require Import ZArith Reals List Bool Lra Lia.
From Coquelicot Require Import Coquelicot.
From Flocq Require Import Core.Core IEEE754.BinarySingleNaN.
From Verif Require Import Base Num NumR NumF FloatSpec FloatFacts Witness CrLibm FilterM RbjM Device Signal SignalFacts FilterFacts
  FltFilterSpec FltFilterFacts FltFilterLemmas RbjSpec RbjFltSpec RbjFltFacts RbjFltLemmas RbjAccSpec RbjAccLemmas GainAccLemmas EqSpec ButterSpec ButterLemmas
  FltChainSpec FltChainLemmas FltButterSpec.
Import ListNotations.
Open Scope R_scope.

(** How far the ideal coefficients move with Q. *)
Lemma inv_close s t : 0 <= s -> 0 <= t -> Rabs (/ (1 + s) - / (1 + t)) <= Rabs (s - t).
Proof.
  intros Hs Ht. replace (/ (1 + s) - / (1 + t)) with ((t - s) * (/ (1 + s) * / (1 + t))) by (field; lra).
  rewrite Rabs_mult, (Rabs_minus_sym t s).
  assert (I : forall z, 0 <= z -> 0 < / (1 + z) <= 1).
  { intros z Hz. split; [apply Rinv_0_lt_compat; lra|]. rewrite <- Rinv_1. apply Rinv_le_contravar; lra. }
  destruct (I s Hs), (I t Ht). rewrite (Rabs_pos_eq (/ (1 + s) * / (1 + t))) by (apply Rmult_le_pos; lra).
  rewrite <- (Rmult_1_r (Rabs (s - t))) at 2. apply Rmult_le_compat_l; [apply Rabs_pos|].
  apply Rle_trans with (1 * 1); [apply Rmult_le_compat; lra|lra].
Qed.

Lemma q_moves kind sr f q Q e c c' : kind = LowPass \/ kind = HighPass -> 0 < q -> 0 < Q -> 0 <= sin (2 * PI * f / sr) ->
  Rabs (q - Q) <= 2 * q * Q * e ->
  rbj_coeffs R_ops kind (RbjQ sr f q) = Some c -> rbj_coeffs R_ops kind (RbjQ sr f Q) = Some c' -> each_within (2 * e) c c'.
Proof.
  intros Hk Hq HQ Hs Hd Ec Ec'. set (w := 2 * PI * f / sr) in *. assert (S := SIN_bound w). assert (C := COS_bound w).
  set (al := sin w / (2 * q)). set (be := sin w / (2 * Q)).
  assert (A0 : 0 <= al) by (apply Rmult_le_pos; [exact Hs|left; apply Rinv_0_lt_compat; lra]).
  assert (B0 : 0 <= be) by (apply Rmult_le_pos; [exact Hs|left; apply Rinv_0_lt_compat; lra]).
  assert (e0 : 0 <= e).
  { assert (X := Rabs_pos (q - Q)). assert (0 < q * Q) by (apply Rmult_lt_0_compat; assumption). nra. }
  assert (D : Rabs (al - be) <= e).
  { unfold al, be. replace (sin w / (2 * q) - sin w / (2 * Q)) with (sin w * ((Q - q) * / (2 * q * Q))) by (field; lra).
    assert (P : 0 < 2 * q * Q) by (apply Rmult_lt_0_compat; lra). assert (I := Rinv_0_lt_compat _ P).
    rewrite !Rabs_mult, (Rabs_pos_eq (/ (2 * q * Q))), (Rabs_pos_eq (sin w)), (Rabs_minus_sym Q q) by lra.
    assert (K : Rabs (q - Q) * / (2 * q * Q) <= e).
    { apply Rmult_le_reg_r with (2 * q * Q); [exact P|]. rewrite Rmult_assoc, Rinv_l, Rmult_1_r by lra. lra. }
    assert (0 <= Rabs (q - Q) * / (2 * q * Q)) by (apply Rmult_le_pos; [apply Rabs_pos|lra]).
    rewrite <- (Rmult_1_l e). apply Rmult_le_compat; lra. }
  assert (N := inv_close al be A0 B0).
  assert (F : forall k, Rabs k <= 2 -> Rabs (k * / (1 + al) - k * / (1 + be)) <= 2 * e).
  { intros k K. rewrite <- Rmult_minus_distr_l, Rabs_mult. apply Rmult_le_compat; try apply Rabs_pos; lra. }
  assert (Z : (1 - al) / (1 + al) - (1 - be) / (1 + be) = 2 * / (1 + al) - 2 * / (1 + be)) by (field; lra).
  assert (F2 := F 2 ltac:(rewrite Rabs_pos_eq; lra)). rewrite <- Z in F2.
  destruct Hk as [-> | ->]; injection Ec as <-; injection Ec' as <-;
    unfold lowpass_coeffs, highpass_coeffs, normalised, each_within;
    cbn [R_ops n_one n_two n_zero n_pi n_add n_sub n_mul n_div n_neg n_sin n_cos]; fold w; fold al; fold be.
  - repeat split; try exact F2; unfold Rdiv; rewrite ?(Rmult_assoc _ (/ 2) _), <- ?(Rmult_assoc _ (/ 2) _); apply F; apply Rabs_le; lra.
  - repeat split; try exact F2; unfold Rdiv; rewrite ?(Rmult_assoc _ (/ 2) _), <- ?(Rmult_assoc _ (/ 2) _); apply F; apply Rabs_le; lra.
Qed.

Lemma within_trans d e c c' c'' : each_within d c c' -> each_within e c' c'' -> each_within (d + e) c c''.
Proof.
  destruct c as [[[[? ?] ?] ?] ?], c' as [[[[? ?] ?] ?] ?], c'' as [[[[? ?] ?] ?] ?].
  intros [A1 [A2 [A3 [A4 A5]]]] [B1 [B2 [B3 [B4 B5]]]].
  apply Rabs_le_inv in A1, A2, A3, A4, A5, B1, B2, B3, B4, B5. repeat split; apply Rabs_le; lra.
Qed.

Lemma within_mono d e c c' : d <= e -> each_within d c c' -> each_within e c c'.
Proof.
  intros H. destruct c as [[[[? ?] ?] ?] ?], c' as [[[[? ?] ?] ?] ?]. intros [A1 [A2 [A3 [A4 A5]]]]. repeat split; lra.
Qed.

(** One filter against the ideal one with the real Q. *)
Lemma exact_q (T : Type) (O : num_ops T) (V : float_view T) (HO : ieee O V) (HT : trig_close O V)
  kind sr f (s : section T) M (x : nat -> T) : kind = LowPass \/ kind = HighPass -> audible V sr f ->
  section_ok V kind sr f s -> 64 * (M + c_H s * M) <= fmax V ->
  (forall n, fin V (x n) = true /\ Rabs (val V (x n)) <= M) ->
  forall n, fin V (stream (dev_rbj O kind) (RbjQ sr f (c_q s)) x n) = true
    /\ Rabs (val V (stream (dev_rbj O kind) (RbjQ sr f (c_q s)) x n)
          - rbj_out kind (RbjQ (val V sr) (val V f) (c_Q s)) (fun n => val V (x n)) n) <= section_error V s M.
Proof.
  intros Hk HA [Fq [Hd [HQ [[b0 [b1 [b2 [a1 [a2 [Ek HG]]]]]] [HH HdG]]]]] Hroom Hx.
  assert (Y := level _ _ _ _ M (fun n => val V (x n)) Ek HH (fun n => proj2 (Hx n))).
  set (G := c_G s) in *. set (H := c_H s) in *. set (Q := c_Q s) in *. set (q := c_q s) in *.
  destruct (fmin_small T O V HO) as [F0 [Fx [Up E8]]]. set (p := bpow radix2 (- fprec V)) in *.
  assert (Hq : 49 / 100 <= val V q <= 1001).
  { apply Rabs_le_inv in Hd. assert (p * Q <= / (16 * 1024 * 1024) * Q) by (apply Rmult_le_compat_r; lra).
    assert (0 <= p * Q) by (apply Rmult_le_pos; lra). lra. }
  assert (Hs := audible_sin V _ _ HA).
  assert (X : exists ch, rbj_coeffs O kind (RbjQ sr f q) = Some ch) by (destruct Hk as [-> | ->]; eexists; reflexivity).
  destruct X as [ch Ec].
  destruct (C93_coefficients_accurate_thm T O V HO HT kind sr f q ch HA Fq ltac:(lra) Ec) as [c [E2 [Hf Hw]]].
  assert (Mv : each_within (2 * (p / val V q)) c (b0, b1, b2, a1, a2)).
  { apply (q_moves kind (val V sr) (val V f) (val V q) Q (p / val V q) _ _ Hk ltac:(lra) ltac:(lra) Hs); [|exact E2|exact Ek].
    replace (2 * val V q * Q * (p / val V q)) with (2 * p * Q) by (field; lra). exact Hd. }
  assert (I : 0 < / val V q <= 100 / 49).
  { split; [apply Rinv_0_lt_compat; lra|]. replace (100 / 49) with (/ (49 / 100)) by field. apply Rinv_le_contravar; lra. }
  set (d := 300 * p).
  assert (W : each_within d (vals V ch) (b0, b1, b2, a1, a2)).
  { apply (within_mono (q_error V (val V q) + 2 * (p / val V q))); [|exact (within_trans _ _ _ _ _ Hw Mv)].
    unfold d, q_error, Rdiv. fold p. assert (p * / val V q <= p * (100 / 49)) by (apply Rmult_le_compat_l; lra). lra. }
  clear Hw Mv E2 c.
  destruct (q_sums kind (val V sr) (val V f) Q b0 b1 b2 a1 a2 ltac:(lra) Hs Ek) as [SB SA].
  assert (G1 := peak_gain_ge1 _ _ _ HG).
  assert (M0 : 0 <= M) by (destruct (Hx 0%nat) as [_ Q']; eapply Rle_trans; [apply Rabs_pos|exact Q']).
  assert (Y0 : 0 <= H * M) by (eapply Rle_trans; [apply Rabs_pos|exact (Y 0%nat)]).
  remember (H * M) as yb eqn:EY.
  assert (Hd3 : 0 < d <= / 1024) by (unfold d; lra).
  set (v := bpow radix2 (3 - fprec V)) in *. assert (Hv : v <= 8 / 300 * d) by (unfold d; lra). assert (v0 : 0 < v) by lra.
  assert (P1 := Rabs_pos a1). assert (P2 := Rabs_pos a2).
  assert (P3 := Rabs_pos b0). assert (P4 := Rabs_pos b1). assert (P5 := Rabs_pos b2).
  set (A := Rabs a1 + Rabs a2 + 2 * d). set (B := Rabs b0 + Rabs b1 + Rabs b2 + 3 * d).
  assert (HA2 : 0 <= A <= 301 / 100) by (unfold A; lra). assert (HB2 : 0 <= B <= 401 / 100) by (unfold B; lra).
  set (E := 2 * G * (d * (3 * M + 2 * yb) + v * (B * M + A * yb + fmin V))).
  assert (HS : 0 <= B * M + A * yb + fmin V <= 401 / 100 * M + 301 / 100 * yb + fmin V).
  { assert (0 <= B * M) by (apply Rmult_le_pos; lra). assert (0 <= A * yb) by (apply Rmult_le_pos; lra).
    assert (B * M <= 401 / 100 * M) by (apply Rmult_le_compat_r; lra).
    assert (A * yb <= 301 / 100 * yb) by (apply Rmult_le_compat_r; lra). lra. }
  set (R := M + yb + fmin V). assert (R0 : 0 < R) by (unfold R; lra).
  assert (dG : 0 <= d * G <= / 5) by (unfold d in *; split; [apply Rmult_le_pos; lra|lra]).
  assert (HE : 0 <= E <= 7 * d * G * R).
  { unfold E. assert (v * (B * M + A * yb + fmin V) <= 8 / 300 * d * (401 / 100 * M + 301 / 100 * yb + fmin V)) by (apply Rmult_le_compat; lra).
    assert (0 <= v * (B * M + A * yb + fmin V)) by (apply Rmult_le_pos; lra).
    assert (0 <= d * (3 * M + 2 * yb)) by (apply Rmult_le_pos; lra).
    split; [apply Rmult_le_pos; lra|].
    replace (7 * d * G * R) with (2 * G * (d * (7 / 2 * R))) by field.
    apply Rmult_le_compat_l; [lra|].
    apply Rle_trans with (d * (3 * M + 2 * yb) + d * (8 / 300 * (401 / 100 * M + 301 / 100 * yb + fmin V))); [lra|].
    rewrite <- Rmult_plus_distr_l. apply Rmult_le_compat_l; [lra|]. unfold R. lra. }
  assert (HE2 : E <= 7 / 5 * R).
  { eapply Rle_trans; [apply HE|]. replace (7 * d * G * R) with (7 * (d * G) * R) by ring. apply Rmult_le_compat_r; lra. }
  assert (Hc : has_coeffs O (dev_rbj O kind) (RbjQ sr f q) ch) by (constructor; exact Ec).
  set (y := rbj_out kind (RbjQ (val V sr) (val V f) Q) (fun n => val V (x n))) in *.
  assert (Hz : obeys (b0, b1, b2, a1, a2) (fun n => val V (x n)) y) by (apply filter_obeys; constructor; exact Ek).
  intros n.
  destruct (C94_filter_tracks_ideal_thm T O V HO _ _ (dev_rbj O kind) (RbjQ sr f q) ch Hc Hf b0 b1 b2 a1 a2 d G M yb A B E x y
    W HG Hx Hz Y eq_refl eq_refl eq_refl) with (n := n) as [Q1 Q2].
  - apply Rle_trans with (G * (2 * d + 8 / 300 * d * (301 / 100))).
    + apply Rmult_le_compat_l; [lra|]. apply Rplus_le_compat_l. fold v. apply Rmult_le_compat; lra.
    + lra.
  - assert (AE : A * (yb + E) <= 301 / 100 * (yb + 7 / 5 * R)) by (apply Rmult_le_compat; lra).
    assert (BE : B * M <= 401 / 100 * M) by (apply Rmult_le_compat_r; lra).
    unfold R in AE. clear - AE BE Hroom Fx F0 M0 Y0. lra.
  - split; [exact Q1|]. eapply Rle_trans; [exact Q2|]. eapply Rle_trans; [apply HE|]. right. unfold section_error, d, R.
    fold G H p. rewrite EY. ring.
Qed.

Lemma section_tracks (T : Type) (O : num_ops T) (V : float_view T) (HO : ieee O V) (HT : trig_close O V)
  kind sr f (s : section T) M D (x : nat -> T) (z : signal) : kind = LowPass \/ kind = HighPass -> audible V sr f ->
  section_ok V kind sr f s -> 64 * (M + c_H s * M) <= fmax V ->
  (forall n, fin V (x n) = true /\ Rabs (val V (x n)) <= M) -> (forall n, Rabs (val V (x n) - z n) <= D) ->
  let y := stream (dev_rbj O kind) (RbjQ sr f (c_q s)) x in
  forall n, fin V (y n) = true /\ Rabs (val V (y n)) <= c_H s * M + section_error V s M
    /\ Rabs (val V (y n) - rbj_out kind (RbjQ (val V sr) (val V f) (c_Q s)) z n) <= section_error V s M + c_H s * D.
Proof.
  intros Hk Ha Hr Hm Hx Hz y n.
  destruct (exact_q T O V HO HT kind sr f s M x Hk Ha Hr Hm Hx n) as [F B]. fold y in F, B.
  destruct Hr as [_ [_ [_ [[b0 [b1 [b2 [a1 [a2 [Ek _]]]]]] [HH _]]]]].
  assert (YB := level _ _ _ _ M (fun n => val V (x n)) Ek HH (fun n => proj2 (Hx n)) n).
  assert (X := difference _ _ _ _ D (fun n => val V (x n)) z Ek HH Hz n).
  set (yi := rbj_out _ _ (fun n => val V (x n)) n) in *. set (zi := rbj_out _ _ z n) in *.
  split; [exact F|]. split.
  - replace (val V (y n)) with ((val V (y n) - yi) + yi) by ring. eapply Rle_trans; [apply Rabs_triang|]. lra.
  - replace (val V (y n) - zi) with ((val V (y n) - yi) + (yi - zi)) by ring. eapply Rle_trans; [apply Rabs_triang|]. lra.
Qed.

(*@PROP
(** C144: LowPass (or HighPass) filters in series, each with a float within two roundings of its
    real Q, stay for ever within [sections_error] of the ideal filters with the real Qs, the error
    [D] of the input included. *)
@*)
Lemma C144_cascade_thm :
  forall (T : Type) (O : num_ops T) (V : float_view T), ieee O V -> trig_close O V ->
  forall kind sr f (l : list (section T)) (M D : R) (x : nat -> T) (z : signal), kind = LowPass \/ kind = HighPass ->
    audible V sr f -> sections_ok V kind sr f l M ->
    (forall n, fin V (x n) = true /\ Rabs (val V (x n)) <= M) -> (forall n, Rabs (val V (x n) - z n) <= D) ->
    let y := flt_cascade O kind sr f (map c_q l) x in
    forall n, fin V (y n) = true
      /\ Rabs (val V (y n) - cascade kind (val V sr) (val V f) (map c_Q l) z n) <= sections_error V l M D.
Proof.
  intros T O V HO HT kind sr f l. induction l as [|s l IH]; intros M D x z Hk Ha Hl Hx Hz y n.
  - split; [apply Hx|apply Hz].
  - destruct Hl as [Hs [Hm Hl]]. assert (S := section_tracks T O V HO HT kind sr f s M D x z Hk Ha Hs Hm Hx Hz).
    cbn zeta in S. apply (IH _ _ (stream (dev_rbj O kind) (RbjQ sr f (c_q s)) x) _ Hk Ha Hl).
    + intros m. split; apply (S m).
    + intros m. apply (S m).
Qed.

(*@PROP
(** C144: with floats next to the Qs of the Butterworth table, the filter of order 2 N stays for
    ever within [sections_error] of the ideal Butterworth filter of that order. *)
@*)
Lemma C144_butterworth_thm :
  forall (T : Type) (O : num_ops T) (V : float_view T), ieee O V -> trig_close O V ->
  forall N kind sr f (l : list (section T)) (M : R) (x : nat -> T), kind = LowPass \/ kind = HighPass ->
    audible V sr f -> map c_Q l = map (butter_q N) (seq 0 N) -> sections_ok V kind sr f l M ->
    (forall n, fin V (x n) = true /\ Rabs (val V (x n)) <= M) ->
    let y := flt_cascade O kind sr f (map c_q l) x in
    forall n, fin V (y n) = true
      /\ Rabs (val V (y n) - butterworth kind N (val V sr) (val V f) (fun n => val V (x n)) n) <= sections_error V l M 0.
Proof.
  intros T O V HO HT N kind sr f l M x Hk Ha El Hl Hx y n. unfold butterworth. rewrite <- El.
  refine (C144_cascade_thm T O V HO HT kind sr f l M 0 x _ Hk Ha Hl Hx _ n).
  intros m. rewrite Rminus_eq_0, Rabs_R0. lra.
Qed.

(*@PROP
(** C144: so a tone, sampled in floating point with an error up to [D], comes out with the gain of
    the Butterworth filter, up to the errors and whatever is left of the transient. *)
@*)
Lemma C144_tone_thm :
  forall (T : Type) (O : num_ops T) (V : float_view T), ieee O V -> trig_close O V ->
  forall N kind sr f w g, kind = LowPass \/ kind = HighPass -> audible V sr f ->
    butter_gain kind N (val V sr) (val V f) w g ->
    exists theta, forall (l : list (section T)) (M D A phi : R) (x : nat -> T),
      map c_Q l = map (butter_q N) (seq 0 N) -> sections_ok V kind sr f l M ->
      (forall n, fin V (x n) = true /\ Rabs (val V (x n)) <= M) ->
      (forall n, Rabs (val V (x n) - sinusoid A w phi n) <= D) ->
      forall eps, 0 < eps -> exists n0, forall n, (n0 <= n)%nat ->
        Rabs (val V (flt_cascade O kind sr f (map c_q l) x n) - sinusoid (g * A) w (phi + theta) n)
        <= sections_error V l M D + eps.
Proof.
  intros T O V HO HT N kind sr f w g Hk Ha [_ [theta Hg]]. exists theta. intros l M D A phi x El Hl Hx Hz eps He.
  specialize (Hg A phi). apply is_lim_seq_spec in Hg. destruct (Hg (mkposreal eps He)) as [n0 H0]. exists n0. intros n Hn.
  specialize (H0 n Hn). cbn [pos] in H0. rewrite Rminus_0_r in H0.
  destruct (C144_cascade_thm T O V HO HT kind sr f l M D x _ Hk Ha Hl Hx Hz n) as [_ B].
  rewrite El in B. fold (butterworth kind N (val V sr) (val V f) (sinusoid A w phi)) in B.
  apply Rabs_le_inv in B. apply Rabs_lt_between in H0. apply Rabs_le. lra.
Qed.

(*@PROP
(** C144: how the hypotheses are met: the Qs of the Butterworth table of order 2 N lie between 1/2
    and N, and for every such Q the two bounds of [section_ok] are explicit. *)
@*)
Lemma C144_rating_thm :
  (forall N k, (k < N)%nat -> / 2 <= butter_q N k <= INR N)
  /\ (forall kind sr f Q, kind = LowPass \/ kind = HighPass -> / 2 <= Q -> 0 < sin (omega sr f) ->
       let G := (1 + 2 * Q / sin (omega sr f)) ^ 2 in
       exists b0 b1 b2 a1 a2, rbj_coeffs R_ops kind (RbjQ sr f Q) = Some (b0, b1, b2, a1, a2)
         /\ peak_gain a1 a2 G /\ peak_level kind (RbjQ sr f Q) (4 * G)).
Proof.
  split.
  - intros N k Hk. assert (N0 : 1 <= INR N) by (change 1 with (INR 1); apply le_INR; lia).
    assert (K1 : INR k + 1 <= INR N) by (rewrite <- S_INR; apply le_INR; lia). assert (K0 := pos_INR k).
    assert (P := PI_4). assert (P3 : 3 < PI) by (assert (X := PI2_3_2); lra).
    unfold butter_q. set (a := (2 * INR k + 1) * PI / (4 * INR N)). set (t := PI / (4 * INR N)).
    assert (I : 0 < / (4 * INR N) <= / 4) by (split; [apply Rinv_0_lt_compat; lra|apply Rinv_le_contravar; lra]).
    assert (T0 : 0 < t <= 1) by (unfold t, Rdiv; split; [apply Rmult_lt_0_compat; lra|]; apply Rle_trans with (PI * / 4); [apply Rmult_le_compat_l; lra|lra]).
    assert (A0 : 0 < a) by (unfold a, Rdiv; apply Rmult_lt_0_compat; [apply Rmult_lt_0_compat; lra|lra]).
    assert (A1 : a <= PI / 2 - t).
    { unfold a, t. replace (PI / 2 - PI / (4 * INR N)) with ((2 * INR N - 1) * PI / (4 * INR N)) by (field; lra).
      unfold Rdiv. apply Rmult_le_compat_r; [lra|]. apply Rmult_le_compat_r; lra. }
    assert (C1 := COS_bound a).
    assert (C2 : sin t <= cos a) by (rewrite <- cos_shift; apply cos_decr_1; lra).
    assert (C3 := sin_low t ltac:(lra)).
    assert (C4 : / (2 * INR N) <= cos a).
    { apply Rle_trans with (5 / 6 * t); [|lra]. unfold t. replace (/ (2 * INR N)) with (/ (4 * INR N) * 2) by (field; lra).
      unfold Rdiv. replace (5 * / 6 * (PI * / (4 * INR N))) with (/ (4 * INR N) * (5 / 6 * PI)) by (unfold Rdiv; ring).
      apply Rmult_le_compat_l; lra. }
    assert (C5 : 0 < / (2 * INR N)) by (apply Rinv_0_lt_compat; lra).
    unfold Rdiv. rewrite Rmult_1_l. split.
    + apply Rinv_le_contravar; lra.
    + rewrite <- (Rinv_inv (INR N)). apply Rinv_le_contravar; [apply Rinv_0_lt_compat; lra|].
      replace (/ INR N) with (2 * / (2 * INR N)) by (field; lra). lra.
  - intros kind sr f Q Hk HQ Hs G.
    assert (X : exists c0 c1 c2 d1 d2, rbj_coeffs R_ops kind (RbjQ sr f Q) = Some (c0, c1, c2, d1, d2)).
    { destruct Hk as [-> | ->]; repeat eexists. }
    destruct X as [c0 [c1 [c2 [d1 [d2 Ed]]]]]. exists c0, c1, c2, d1, d2. split; [exact Ed|].
    destruct (C94_rbj_gain_thm kind sr f Q c0 c1 c2 d1 d2 ltac:(lra) Hs Ed) as [HG _]. specialize (HG HQ).
    split; [exact HG|]. apply (level_by_sum kind _ c0 c1 c2 d1 d2 _ 4 Ed HG).
    destruct (q_sums kind sr f Q c0 c1 c2 d1 d2 ltac:(lra) ltac:(unfold omega in Hs; lra) Ed) as [SB _]. lra.
Qed.

(** Example: the filters of order 4 at 1 kHz, sample rate 44100 Hz, in f64. *)
Definition demo_butter (k : nat) : section f64 :=
  {| c_q := R2F 53 1024 (butter_q 2 k); c_Q := butter_q 2 k; c_G := 1200; c_H := 4800 |}.

Lemma butter_2 k : (k < 2)%nat -> / 2 <= butter_q 2 k <= 3 / 2.
Proof.
  intros Hk. destruct (butter_q_facts 2 k Hk) as [P E]. set (q := butter_q 2 k) in *. clearbody q.
  assert (C : - (3 / 4) <= cos (psi 2 k) <= 1).
  { split; [|apply COS_bound]. unfold psi. assert (W : cos (PI / 4) <= 3 / 4).
    { assert (S := cos_PI4). assert (0 < cos (PI / 4)) by (apply cos_gt_0; assert (X := PI_RGT_0); lra).
      assert (Y := cos_2a (PI / 4)). assert (Z := sin2_cos2 (PI / 4)). unfold Rsqr in Z.
      replace (2 * (PI / 4)) with (PI / 2) in Y by field. rewrite cos_PI2 in Y. nra. }
    assert (W0 : 0 < cos (PI / 4)) by (apply cos_gt_0; assert (X := PI_RGT_0); lra).
    destruct k as [|[|k]]; [| |lia].
    - cbn [INR Nat.mul Nat.add]. match goal with |- _ <= cos ?t => replace t with (PI / 4) by (cbn; field) end. lra.
    - match goal with |- _ <= cos ?t => replace t with (- (PI / 4) + PI) by (cbn; field) end. rewrite neg_cos, cos_neg. lra. }
  assert (Q : 0 < q * q) by (apply Rmult_lt_0_compat; assumption).
  assert (E' : 1 = (2 + 2 * cos (psi 2 k)) * (q * q)) by (rewrite <- E; field; lra).
  set (c := cos _) in *. clearbody c. split; nra.
Qed.

Lemma nearest r : Rabs r <= 4 -> is_finite (R2F 53 1024 r) = true
  /\ Rabs (B2R (R2F 53 1024 r) - r) <= / 9007199254740992 * Rabs r + / 36028797018963968
  /\ (Rabs r <= 1 -> Rabs (B2R (R2F 53 1024 r)) <= 1).
Proof.
  intros Hr. assert (Fm : forall e, (0 <= e)%Z -> generic_format radix2 (SpecFloat.fexp 53 1024) (bpow radix2 e))
    by (intros e He; apply (format_bpow 53 1024); cbn; lia).
  assert (B4 : bpow radix2 2 = 4) by (cbn; lra).
  assert (A := RN_abs_le 53 1024 r (bpow radix2 2) (Fm 2%Z ltac:(lia)) ltac:(lra)).
  destruct (R2F_ok 53 1024 r) as [R1 R2].
  { eapply Rle_lt_trans; [exact A|]. apply bpow_lt. lia. }
  rewrite R2. split; [exact R1|]. split.
  - eapply Rle_trans; [apply (RN_err 53 1024)|]. unfold eta, uro. change (- (53))%Z with (-53)%Z.
    replace (bpow radix2 (-53)) with (/ 9007199254740992) by (cbn; lra).
    assert (bpow radix2 (2 - 1024) <= / 4) by (replace (/ 4) with (bpow radix2 (-2)) by (cbn; lra); apply bpow_le; lia).
    apply Rplus_le_compat_l. lra.
  - intros H1. exact (RN_abs_le 53 1024 r (bpow radix2 0) (Fm 0%Z ltac:(lia)) H1).
Qed.

Definition demo_tone : nat -> f64 := fun n => R2F 53 1024 (sinusoid 1 1 0 n).

Lemma C144_hyps_aux : let O := f64_ops (cr_libm 53 1024) false in let V := ieee_view 53 1024 in
  let l := [demo_butter 0; demo_butter 1] in
  ieee O V /\ trig_close O V /\ audible V (fl64 44100 0) (fl64 1000 0)
  /\ map c_Q l = map (butter_q 2) (seq 0 2)
  /\ (forall kind, kind = LowPass \/ kind = HighPass -> sections_ok V kind (fl64 44100 0) (fl64 1000 0) l 1)
  /\ sections_error V l 1 (bpow radix2 (-52)) <= / 10
  /\ (forall n, fin V (demo_tone n) = true /\ Rabs (val V (demo_tone n)) <= 1)
  /\ (forall n, Rabs (val V (demo_tone n) - sinusoid 1 1 0 n) <= bpow radix2 (-52))
  /\ forall kind, kind = LowPass \/ kind = HighPass -> exists g, butter_gain kind 2 (val V (fl64 44100 0)) (val V (fl64 1000 0)) 1 g.
Proof.
  intros O V l. destruct C97_hyps_aux as [HO [HT [HP [Ha [_ [_ [_ [_ [_ [_ [_ [Hx _]]]]]]]]]]]].
  split; [exact HO|]. split; [exact HT|]. split; [exact Ha|]. split; [reflexivity|].
  assert (E1 : val V (fl64 44100 0) = 44100) by (unfold V; cbn [val ieee_view]; lit; lra).
  assert (E2 : val V (fl64 1000 0) = 1000) by (unfold V; cbn [val ieee_view]; lit; lra).
  assert (Uv : bpow radix2 (- fprec V) = / 9007199254740992) by (cbn; lra).
  assert (HS : 9 / 100 <= sin (2 * PI * val V (fl64 1000 0) / val V (fl64 44100 0)) <= 1).
  { rewrite E1, E2. split; [|apply SIN_bound]. eapply Rle_trans; [exact sin_tenth|]. assert (P := ConstLemmas.pi_20).
    apply sin_incr_1; lra. }
  assert (Hok : forall kind k, kind = LowPass \/ kind = HighPass -> (k < 2)%nat ->
    section_ok V kind (fl64 44100 0) (fl64 1000 0) (demo_butter k)).
  { intros kind k Hk Hn. assert (Q := butter_2 k Hn).
    destruct (nearest (butter_q 2 k) ltac:(apply Rabs_le; lra)) as [R1 [R2 _]]. rewrite (Rabs_pos_eq (butter_q 2 k)) in R2 by lra.
    assert (X : exists c0 c1 c2 d1 d2, rbj_coeffs R_ops kind (RbjQ (val V (fl64 44100 0)) (val V (fl64 1000 0)) (butter_q 2 k)) = Some (c0, c1, c2, d1, d2)).
    { destruct Hk as [-> | ->]; repeat eexists. }
    destruct X as [c0 [c1 [c2 [d1 [d2 Ed]]]]].
    assert (HG : peak_gain d1 d2 1200).
    { destruct (C94_rbj_gain_thm kind (val V (fl64 44100 0)) (val V (fl64 1000 0)) (butter_q 2 k) c0 c1 c2 d1 d2
        ltac:(lra) ltac:(lra) Ed) as [G _]. specialize (G ltac:(lra)).
      set (s := sin (2 * PI * val V (fl64 1000 0) / val V (fl64 44100 0))) in *. clearbody s.
      refine (peak_gain_mono _ _ _ _ _ G).
      assert (I : 0 < / s <= 100 / 9).
      { split; [apply Rinv_0_lt_compat; lra|]. replace (100 / 9) with (/ (9 / 100)) by field. apply Rinv_le_contravar; lra. }
      assert (Y : 0 <= 2 * butter_q 2 k / s <= 3 * (100 / 9)).
      { unfold Rdiv at 1 2. split; [apply Rmult_le_pos; lra|]. apply Rmult_le_compat; lra. }
      apply Rle_trans with ((1 + 3 * (100 / 9)) ^ 2); [apply pow_incr; lra|lra]. }
    split; [exact R1|]. split.
    { cbn [demo_butter c_q c_Q]. rewrite Uv. change (val V (R2F 53 1024 (butter_q 2 k))) with (B2R (R2F 53 1024 (butter_q 2 k))).
      lra. }
    split; [cbn [demo_butter c_Q]; lra|]. split; [exists c0, c1, c2, d1, d2; split; [exact Ed|exact HG]|]. split.
    - cbn [demo_butter c_H c_Q]. replace 4800 with (4 * 1200) by ring.
      apply (level_by_sum kind _ c0 c1 c2 d1 d2 1200 4 Ed HG).
      destruct (q_sums kind (val V (fl64 44100 0)) (val V (fl64 1000 0)) (butter_q 2 k) c0 c1 c2 d1 d2 ltac:(lra) ltac:(lra) Ed) as [SB _]. lra.
    - rewrite Uv. cbn [demo_butter c_G]. lra. }
  destruct (fmin_small _ O V HO) as [Fm _].
  assert (Fs : fmin V <= 1) by (change 1 with (bpow radix2 0); cbn [fmin V ieee_view]; apply bpow_le; lia).
  assert (FM : 68719476736 <= fmax V).
  { cbn [fmax V ieee_view]. change (- (53))%Z with (-53)%Z. assert (B1 : bpow radix2 37 <= bpow radix2 1024) by (apply bpow_le; lia).
    assert (B2 : bpow radix2 (-53) <= / 2) by (change (/ 2) with (bpow radix2 (-1)); apply bpow_le; lia).
    assert (B3 : bpow radix2 37 = 137438953472) by (cbn; lra). nra. }
  assert (St : forall k M, section_error V (demo_butter k) M = 2520000 * / 9007199254740992 * (4801 * M + fmin V)).
  { intros k M. unfold section_error. rewrite Uv. cbn [demo_butter c_G c_H]. field. }
  assert (HM : section_error V (demo_butter 0) 1 <= / 100000) by (rewrite St; lra).
  assert (H0 : 0 <= section_error V (demo_butter 0) 1) by (rewrite St; lra).
  assert (U52 : bpow radix2 (-52) = 2 * / 9007199254740992) by (cbn; lra).
  assert (SB : forall n, Rabs (sinusoid 1 1 0 n) <= 1).
  { intros n. unfold sinusoid. rewrite Rmult_1_l. apply Rabs_le. apply COS_bound. }
  split; [|split; [|split]].
  - intros kind Hk. cbn [l sections_ok]. split; [apply Hok; [exact Hk|lia]|].
    change (c_H (demo_butter 0)) with 4800. change (c_H (demo_butter 1)) with 4800.
    split; [lra|]. split; [apply Hok; [exact Hk|lia]|]. split; [lra|exact I].
  - cbn [l sections_error]. change (c_H (demo_butter 0)) with 4800. change (c_H (demo_butter 1)) with 4800.
    set (e := section_error V (demo_butter 0) 1) in *. clearbody e. rewrite St, U52. lra.
  - intros n. destruct (nearest (sinusoid 1 1 0 n)) as [N1 [_ N2]]; [assert (X := SB n); lra|]. split; [exact N1|exact (N2 (SB n))].
  - split.
    + intros n. assert (X := SB n). destruct (nearest (sinusoid 1 1 0 n)) as [_ [N1 _]]; [lra|].
      rewrite U52. eapply Rle_trans; [exact N1|]. lra.
    + assert (X := PI2_1). assert (VB : valid_band (val V (fl64 44100 0)) (val V (fl64 1000 0))) by (rewrite E1, E2; unfold valid_band; lra).
      intros kind [-> | ->]; eexists.
      * destruct (C140_gain_thm 2 _ _ 1 (1 / sqrt (1 + warped (omega (val V (fl64 44100 0)) (val V (fl64 1000 0))) 1 ^ (4 * 2)))
          ltac:(lia) VB ltac:(lra)) as [[_ P] _]. exact (P eq_refl).
      * destruct (C140_gain_thm 2 _ _ 1 (warped (omega (val V (fl64 44100 0)) (val V (fl64 1000 0))) 1 ^ (2 * 2)
          / sqrt (1 + warped (omega (val V (fl64 44100 0)) (val V (fl64 1000 0))) 1 ^ (4 * 2))) ltac:(lia) VB ltac:(lra)) as [_ [_ P]]. exact (P eq_refl).
Qed.

(*@PROP
(** C144 is met in [f64] by a library with correctly rounded functions: the Butterworth filters of
    order 4 at 1 kHz, the sample rate being 44100 Hz, whose Qs are the floats nearest to those of the
    table, on a tone of 1 radian per sample whose samples are rounded to the nearest float. *)
Example C144_hyps : let O := f64_ops (cr_libm 53 1024) false in let V := ieee_view 53 1024 in
  let l := [demo_butter 0; demo_butter 1] in
  ieee O V /\ trig_close O V /\ audible V (fl64 44100 0) (fl64 1000 0)
  /\ map c_Q l = map (butter_q 2) (seq 0 2)
  /\ (forall kind, kind = LowPass \/ kind = HighPass -> sections_ok V kind (fl64 44100 0) (fl64 1000 0) l 1)
  /\ sections_error V l 1 (bpow radix2 (-52)) <= / 10
  /\ (forall n, fin V (demo_tone n) = true /\ Rabs (val V (demo_tone n)) <= 1)
  /\ (forall n, Rabs (val V (demo_tone n) - sinusoid 1 1 0 n) <= bpow radix2 (-52))
  /\ forall kind, kind = LowPass \/ kind = HighPass -> exists g, butter_gain kind 2 (val V (fl64 44100 0)) (val V (fl64 1000 0)) 1 g.
Proof. exact C144_hyps_aux. Qed.
@*)
(*@PROP
Example C144_rating_hyps : (1 < 2)%nat /\ / 2 <= butter_q 2 1 /\ 0 < sin (omega 44100 1000).
Proof.
  split; [lia|]. split; [apply C144_rating_thm; lia|]. assert (X := PI_RGT_0). unfold omega. apply sin_gt_0; lra.
Qed.
@*)
