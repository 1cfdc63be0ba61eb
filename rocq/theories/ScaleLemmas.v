(** Lemmas behind property C122.  The [@PROP] blocks are copied into [PropScale.v]. *)
(*@PROP
(** Property C122: scaling a signal by a power of two scales what filters and detectors return,
    bit for bit.

    Vocabulary: [louder], [zero_or], [normal_terms], [reading] ([ScaleSpec]); [has_coeffs],
    [all_finite], [vals], [stream] ([FltFilterSpec]). *)
From Coq Require Import ZArith Reals List Bool Lra Lia.
From Flocq Require Import Core.Core IEEE754.BinarySingleNaN.
From Verif Require Import Base Num NumR NumF Witness FloatSpec FilterM RbjM AnalysisM Device Signal FltFilterSpec FltFilterLemmas
  ScaleSpec ScaleLemmas.
Import ListNotations.
Open Scope R_scope.
@*)
From Coq Require Import ZArith Reals List Bool Lra Lia.
From Flocq Require Import Core.Core Plus_error Mult_error IEEE754.BinarySingleNaN.
From Verif Require Import Base Num NumR NumF Witness FloatSpec FilterM RbjM AnalysisM Device Signal FltFilterSpec FltFilterFacts FltFilterLemmas
  FloatFacts SmoothF OrderLemmas ScaleSpec.
Import ListNotations.
Open Scope R_scope.

Section F.
  Context (prec emax : Z) {Hp : Prec_gt_0 prec} {Hm : Prec_lt_emax prec emax}.
  Notation F := (binary_float prec emax).
  Notation V := (ieee_view prec emax).
  Notation fexp := (SpecFloat.fexp prec emax).
  Notation RN := (round radix2 fexp (round_mode mode_NE)).
  Notation fadd := (f_add prec emax). Notation fsub := (f_sub prec emax). Notation fmul := (f_mul prec emax).
  Notation fb := (fb prec emax).
  Context (e : Z) (He : (0 <= e)%Z).
  Notation E := (bpow radix2 e).

  Lemma E1 : 1 <= E.
  Proof using He. apply (bpow_le radix2 0 e). exact He. Qed.

  (** Rounding commutes with scaling above the subnormal range ... *)
  Lemma RN_scale_normal r : bpow radix2 (2 - emax) <= Rabs r -> RN (r * E) = RN r * E.
  Proof using He Hp.
    intros H. assert (N0 : r <> 0). { intros ->. rewrite Rabs_R0 in H. assert (P := bpow_gt_0 radix2 (2 - emax)). lra. }
    assert (Hmag : (2 - emax < mag radix2 r)%Z) by (apply mag_gt_bpow; exact H).
    assert (Hc : cexp radix2 fexp (r * E) = (cexp radix2 fexp r + e)%Z).
    { unfold cexp. rewrite mag_mult_bpow by exact N0. unfold SpecFloat.fexp, SpecFloat.emin. assert (0 < prec)%Z by exact Hp. lia. }
    unfold round, scaled_mantissa. rewrite Hc. unfold F2R. cbn [Fnum Fexp].
    replace (r * E * bpow radix2 (- (cexp radix2 fexp r + e))) with (r * bpow radix2 (- cexp radix2 fexp r)).
    - rewrite bpow_plus. ring.
    - rewrite Z.opp_add_distr, bpow_plus, (bpow_opp radix2 e). field. apply Rgt_not_eq, bpow_gt_0.
  Qed.
  (** ... on numbers of the format ... *)
  Lemma fmt_scale r : generic_format radix2 fexp r -> generic_format radix2 fexp (r * E).
  Proof using He Hp. intros H. apply (mult_bpow_pos_exact_FLT radix2 (SpecFloat.emin prec emax) prec); assumption. Qed.
  (** ... and on sums. *)
  Lemma RN_scale_sum a b : generic_format radix2 fexp a -> generic_format radix2 fexp b -> RN ((a + b) * E) = RN (a + b) * E.
  Proof using He Hp.
    intros Ha Hb. destruct (Rle_or_lt (bpow radix2 (2 - emax)) (Rabs (a + b))) as [H|H]; [apply RN_scale_normal; exact H|].
    assert (Fs : generic_format radix2 fexp (a + b)).
    { apply (FLT_format_plus_small radix2 (SpecFloat.emin prec emax) prec); [exact Ha|exact Hb|].
      apply Rlt_le. eapply Rlt_le_trans; [exact H|]. apply bpow_le. unfold SpecFloat.emin. lia. }
    rewrite !round_generic; try apply valid_rnd_N; try assumption; [reflexivity|]. apply fmt_scale, Fs.
  Qed.

  Definition sc (a a' : F) : Prop := is_finite a' = true -> is_finite a = true /\ B2R a' = B2R a * E.

  Lemma fmax_fit (a : F) r : is_finite a = true -> Rabs r <= Rabs (B2R a) ->
    exists m, generic_format radix2 fexp m /\ m < bpow radix2 emax /\ Rabs r <= m.
  Proof.
    intros Fa H. exists (Rabs (B2R a)). split; [apply generic_format_abs, generic_format_B2R|].
    split; [apply abs_B2R_lt_emax|exact H].
  Qed.

  (** Overflow of the softer result would be overflow of the louder one. *)
  Lemma shrink r s : RN (r * E) = s -> RN (r * E) = RN r * E -> Rabs (RN r) <= Rabs s.
  Proof using He.
    intros <- ->. rewrite Rabs_mult, (Rabs_pos_eq E) by apply bpow_ge_0. assert (P := E1). assert (Q := Rabs_pos (RN r)). nra.
  Qed.

  Lemma sc_add a a' b b' : sc a a' -> sc b b' -> sc (fadd a b) (fadd a' b').
  Proof using He.
    intros Ha Hb H. destruct (fin_add prec emax a' b' H) as [A [B C]].
    destruct (Ha A) as [A1 A2]. destruct (Hb B) as [B1 B2].
    rewrite A2, B2 in C. replace (B2R a * E + B2R b * E) with ((B2R a + B2R b) * E) in C by ring.
    assert (S := RN_scale_sum (B2R a) (B2R b) (generic_format_B2R _ _ a) (generic_format_B2R _ _ b)).
    assert (L := shrink _ _ (eq_sym C) S).
    assert (G := Bplus_correct prec emax Hp Hm mode_NE a b A1 B1).
    rewrite Rlt_bool_true in G; [|eapply Rle_lt_trans; [exact L|apply abs_B2R_lt_emax]].
    destruct G as [G1 [G2 _]]. split; [exact G2|]. unfold f_add at 2. rewrite G1, <- S. exact C.
  Qed.
  Lemma sc_sub a a' b b' : sc a a' -> sc b b' -> sc (fsub a b) (fsub a' b').
  Proof using He.
    intros Ha Hb H. destruct (fin_sub prec emax a' b' H) as [A [B C]].
    destruct (Ha A) as [A1 A2]. destruct (Hb B) as [B1 B2].
    rewrite A2, B2 in C. replace (B2R a * E - B2R b * E) with ((B2R a - B2R b) * E) in C by ring.
    assert (S := RN_scale_sum (B2R a) (- B2R b) (generic_format_B2R _ _ a) (generic_format_opp _ _ _ (generic_format_B2R _ _ b))).
    fold (B2R a - B2R b) in S.
    assert (L := shrink _ _ (eq_sym C) S).
    assert (G := Bminus_correct prec emax Hp Hm mode_NE a b A1 B1).
    rewrite Rlt_bool_true in G; [|eapply Rle_lt_trans; [exact L|apply abs_B2R_lt_emax]].
    destruct G as [G1 [G2 _]]. split; [exact G2|]. unfold f_sub at 2. rewrite G1, <- S. exact C.
  Qed.
  Lemma sc_mul c a a' : sc a a' -> zero_or (fmin V) (B2R c * B2R a) -> sc (fmul c a) (fmul c a').
  Proof using He.
    intros Ha HC H. destruct (fin_mul prec emax c a' H) as [A [B C]]. destruct (Ha B) as [A1 A2].
    rewrite A2 in C. replace (B2R c * (B2R a * E)) with (B2R c * B2R a * E) in C by ring.
    assert (S : RN (B2R c * B2R a * E) = RN (B2R c * B2R a) * E).
    { destruct HC as [->|HC]; [rewrite Rmult_0_l, round_0 by apply valid_rnd_N; ring|].
      apply RN_scale_normal. cbn [fmin ieee_view] in HC. lra. }
    assert (L := shrink _ _ (eq_sym C) S).
    assert (G := Bmult_correct prec emax Hp Hm mode_NE c a).
    rewrite Rlt_bool_true in G; [|eapply Rle_lt_trans; [exact L|apply abs_B2R_lt_emax]].
    destruct G as [G1 [G2 _]]. split; [unfold f_mul; rewrite G2, A, A1; reflexivity|]. unfold f_mul at 2. rewrite G1, <- S. exact C.
  Qed.
  Lemma sc_zero : sc (B754_zero false) (B754_zero false).
  Proof. intros _. split; [reflexivity|cbn; ring]. Qed.

  Context (Ops : num_ops F).
  Hypothesis Hadd : n_add Ops = f_add prec emax.
  Hypothesis Hsub : n_sub Ops = f_sub prec emax.
  Hypothesis Hmul : n_mul Ops = f_mul prec emax.
  Hypothesis Hzero : n_zero Ops = (B754_zero false : F).

  Lemma sc_fb j x x' n : (forall i, (i + j <= n)%nat -> sc (x i) (x' i)) -> sc (fb j x n) (fb j x' n).
  Proof.
    intros H. unfold FltFilterFacts.fb. destruct (j <=? n)%nat eqn:L; [|apply sc_zero].
    apply H. apply Nat.leb_le in L. lia.
  Qed.

  Lemma scale_run {S K} (D : device S K F) k c (x x' : nat -> F) (N : nat) :
    has_coeffs Ops D k c -> louder V e x x' ->
    (forall n, (n <= N)%nat -> normal_terms V (vals V c) (fun i => B2R (x i)) (fun i => B2R (stream D k x i)) n) ->
    forall n, (n <= N)%nat -> sc (stream D k x n) (stream D k x' n).
  Proof using He Hadd Hsub Hmul Hzero.
    intros Hc Hx HN n Hn. induction n as [n IH] using lt_wf_ind.
    assert (Hy : forall i, (i < n)%nat -> sc (stream D k x i) (stream D k x' i)) by (intros i Hi; apply IH; lia). clear IH.
    assert (Sx : forall i, sc (x i) (x' i)) by (intros i _; destruct (Hx i) as [A [_ B]]; split; assumption).
    specialize (HN n Hn). destruct c as [[[[b0 b1] b2] a1] a2]. unfold normal_terms in HN. cbn [vals val ieee_view] in HN.
    destruct HN as [H0 [H1 [H2 [H3 H4]]]].
    assert (T0 : sc (fmul b0 (x n)) (fmul b0 (x' n))) by (apply sc_mul; auto).
    rewrite <- fb_val in H1, H2, H3, H4.
    assert (T1 : sc (fmul b1 (fb 1 x n)) (fmul b1 (fb 1 x' n))) by (apply sc_mul; auto; apply sc_fb; auto).
    assert (T2 : sc (fmul b2 (fb 2 x n)) (fmul b2 (fb 2 x' n))) by (apply sc_mul; auto; apply sc_fb; auto).
    assert (T3 : sc (fmul a1 (fb 1 (stream D k x) n)) (fmul a1 (fb 1 (stream D k x') n))) by (apply sc_mul; auto; apply sc_fb; intros; apply Hy; lia).
    assert (T4 : sc (fmul a2 (fb 2 (stream D k x) n)) (fmul a2 (fb 2 (stream D k x') n))) by (apply sc_mul; auto; apply sc_fb; intros; apply Hy; lia).
    assert (TZ : forall y y', sc (fmul a1 (fb 1 y n)) (fmul a1 (fb 1 y' n)) -> sc (fmul a2 (fb 2 y n)) (fmul a2 (fb 2 y' n)) ->
      sc (zz1 prec emax b1 b2 a1 a2 x y n) (zz1 prec emax b1 b2 a1 a2 x' y' n)).
    { clear - T1 T2 He. intros y y' T3 T4. destruct n as [|n]; [apply sc_zero|].
      rewrite !fb_SS, !fb_0 in *. cbn [zz1]. apply sc_sub; [|exact T3]. apply sc_add; [exact T1|].
      destruct n as [|n]; [apply sc_zero|]. rewrite !fb_SS, !fb_0 in *. cbn [zz2]. apply sc_sub; assumption. }
    remember (b0, b1, b2, a1, a2) as c eqn:Ec.
    destruct Hc.
    - injection Ec as <- <- <- <- <-.
      rewrite (unroll_one_pole prec emax Ops Hsub Hmul Hzero x _ _ n), (unroll_one_pole prec emax Ops Hsub Hmul Hzero x' _ _ n).
      apply sc_sub; assumption.
    - injection Ec as <- <- <- <- <-.
      rewrite (unroll_one_zero prec emax Ops Hadd Hmul Hzero x _ _ n), (unroll_one_zero prec emax Ops Hadd Hmul Hzero x' _ _ n).
      apply sc_add; assumption.
    - injection Ec as <- <- <- <- <-.
      rewrite (unroll_two_pole prec emax Ops Hsub Hmul Hzero x _ _ _ n), (unroll_two_pole prec emax Ops Hsub Hmul Hzero x' _ _ _ n).
      apply sc_sub; [apply sc_sub|]; assumption.
    - injection Ec as <- <- <- <- <-.
      rewrite (unroll_two_zero prec emax Ops Hadd Hmul Hzero x _ _ _ n), (unroll_two_zero prec emax Ops Hadd Hmul Hzero x' _ _ _ n).
      apply sc_add; [apply sc_add|]; assumption.
    - subst c. rewrite (unroll_biquad1 prec emax Ops Hadd Hsub Hmul Hzero x b0 b1 b2 a1 a2 n), (unroll_biquad1 prec emax Ops Hadd Hsub Hmul Hzero x' b0 b1 b2 a1 a2 n).
      apply sc_sub; [apply sc_sub; [apply sc_add; [apply sc_add|]|]|]; assumption.
    - subst c. rewrite (unroll_biquad2 prec emax Ops Hadd Hsub Hmul x (dev_biquad2 Ops) _ b0 b1 b2 a1 a2 n); [|reflexivity|rewrite <- Hzero; reflexivity].
      rewrite (unroll_biquad2 prec emax Ops Hadd Hsub Hmul x' (dev_biquad2 Ops) _ b0 b1 b2 a1 a2 n); [|reflexivity|rewrite <- Hzero; reflexivity].
      apply sc_add; [exact T0|]. apply TZ; assumption.
    - subst c.
      assert (Q1 : forall s v, d_process (dev_rbj Ops kind) s v = biquad2_process Ops s v) by (destruct kind; reflexivity).
      assert (Q2 : after (dev_rbj Ops kind) [CSet a] = Biquad2 (B754_zero false) (B754_zero false) (B754_zero false) b0 b1 b2 a1 a2).
      { rewrite <- Hzero. cbn. unfold rbj_set_coefficients. rewrite H. destruct kind; reflexivity. }
      rewrite (unroll_biquad2 prec emax Ops Hadd Hsub Hmul x (dev_rbj Ops kind) _ b0 b1 b2 a1 a2 n Q1 Q2).
      rewrite (unroll_biquad2 prec emax Ops Hadd Hsub Hmul x' (dev_rbj Ops kind) _ b0 b1 b2 a1 a2 n Q1 Q2).
      apply sc_add; [exact T0|]. apply TZ; assumption.
  Qed.
End F.

(*@PROP
(** C122: every filter.  Feed it once [x], once 2^e times [x].  Where the louder output is
    finite, and while none of the products of the quieter run is subnormal, the louder output is
    exactly 2^e times the quieter one: gain staging in steps of 6.02 dB costs no accuracy at all. *)
@*)
Lemma C122_filters_thm :
  forall (T : Type) (O : num_ops T) (V : float_view T), ieee O V ->
  forall (S K : Type) (D : device S K T) (k : K) (c : T * T * T * T * T), has_coeffs O D k c ->
  forall (x x' : nat -> T) (e : Z) (N : nat), (0 <= e)%Z -> louder V e x x' ->
    (forall n, (n <= N)%nat -> normal_terms V (vals V c) (fun i => val V (x i)) (fun i => val V (stream D k x i)) n) ->
    forall n, (n <= N)%nat -> fin V (stream D k x' n) = true -> fin V (stream D k x n) = true
      /\ val V (stream D k x' n) = val V (stream D k x n) * bpow radix2 e.
Proof.
  intros T O V HO. destruct HO as [lm b|lm b]; intros S K D k c Hc x x' e N He Hx HN n Hn HF.
  - exact (scale_run 24 128 e He (f32_ops lm b) eq_refl eq_refl eq_refl eq_refl D k c x x' N Hc Hx HN n Hn HF).
  - exact (scale_run 53 1024 e He (f64_ops lm b) eq_refl eq_refl eq_refl eq_refl D k c x x' N Hc Hx HN n Hn HF).
Qed.
(*@PROP
(** Averaging two samples, 18 dB (2^3) louder. *)
Example C122_filters_hyps :
  let V := ieee_view 24 128 in let c := (fl32 1 (-1), fl32 1 (-1), n_zero O32, n_zero O32, n_zero O32) in
  let x (_ : nat) := fl32 1 0 in
  has_coeffs O32 (dev_one_zero O32) (fl32 1 (-1), fl32 1 (-1)) c /\ louder V 3 x (fun _ => fl32 8 0)
  /\ (forall n y, normal_terms V (vals V c) (fun i => val V (x i)) y n)
  /\ fin V (stream (dev_one_zero O32) (fl32 1 (-1), fl32 1 (-1)) (fun _ => fl32 8 0) 5) = true.
Proof.
  assert (E1 : B2R (fl32 1 (-1)) = 1 / 2) by (lit; lra). assert (E2 : B2R (fl32 1 0) = 1) by (lit; lra).
  assert (E3 : B2R (fl32 8 0) = 8) by (lit; lra). assert (E0 : B2R (n_zero O32) = 0) by reflexivity.
  cbv zeta. split; [apply hc_one_zero|]. split.
  { intros n. split; [reflexivity|]. split; [reflexivity|]. cbn [val ieee_view]. rewrite E2, E3. cbn. lra. }
  split; [|reflexivity]. intros n y. unfold normal_terms. cbn [vals val fmin ieee_view]. rewrite E0, E1.
  assert (B : bpow radix2 (2 - 128) <= 1 / 2) by (apply Rle_trans with (bpow radix2 (-1)); [apply bpow_le; lia|cbn; lra]).
  assert (G : forall r, r = 0 \/ r = 1 -> zero_or (bpow radix2 (2 - 128)) (1 / 2 * r)).
  { intros r [->| ->]; [left; lra|right]. rewrite Rmult_1_r, Rabs_pos_eq by lra. exact B. }
  split; [apply G; right; exact E2|]. split; [apply G; unfold back; destruct (1 <=? n)%nat; [right; exact E2|left; reflexivity]|].
  repeat split; left; apply Rmult_0_l.
Qed.

(** C122: the proviso is needed: halving the smallest positive [f32] gives 0 (ties go to even), halving
    twice that number gives the smallest positive number. *)
@*)
Lemma C122_subnormal_refuted_thm :
  let V := ieee_view 24 128 in
  let x (_ : nat) := fl32 1 (-149) in let x' (_ : nat) := fl32 1 (-148) in
  louder V 1 x x'
  /\ fin V (stream (dev_one_zero O32) (fl32 1 (-1), n_zero O32) x' 0) = true
  /\ val V (stream (dev_one_zero O32) (fl32 1 (-1), n_zero O32) x' 0)
     <> val V (stream (dev_one_zero O32) (fl32 1 (-1), n_zero O32) x 0) * bpow radix2 1.
Proof.
  assert (A : stream (dev_one_zero O32) (fl32 1 (-1), n_zero O32) (fun _ => fl32 1 (-149)) 0 = n_zero O32) by (apply B2SF_inj; vm_compute; reflexivity).
  assert (B : stream (dev_one_zero O32) (fl32 1 (-1), n_zero O32) (fun _ => fl32 1 (-148)) 0 = fl32 1 (-149)) by (apply B2SF_inj; vm_compute; reflexivity).
  assert (E1 : B2R (fl32 1 (-149)) = bpow radix2 (-149)) by (lit; unfold F2R; cbn [Fnum Fexp]; ring).
  assert (E2 : B2R (fl32 1 (-148)) = bpow radix2 (-148)).
  { replace (fl32 1 (-148)) with (fl32 2 (-149)) by (apply B2SF_inj; vm_compute; reflexivity). lit. lra. }
  cbv zeta. split.
  { intros n. split; [reflexivity|]. split; [reflexivity|]. cbn [val ieee_view]. rewrite E1, E2, <- bpow_plus. reflexivity. }
  rewrite A, B. split; [reflexivity|]. cbn [val ieee_view]. rewrite E1. cbn [n_zero O32 f32_ops ieee_ops B2R].
  rewrite Rmult_0_l. apply Rgt_not_eq, bpow_gt_0.
Qed.

Section Det.
  Context (prec emax : Z) {Hp : Prec_gt_0 prec} {Hm : Prec_lt_emax prec emax}.
  Notation F := (binary_float prec emax).
  Notation V := (ieee_view prec emax).
  Notation fexp := (SpecFloat.fexp prec emax).
  Notation RN := (round radix2 fexp (round_mode mode_NE)).
  Notation fadd := (f_add prec emax). Notation fsub := (f_sub prec emax). Notation fmul := (f_mul prec emax).
  Notation fmt := (generic_format radix2 fexp).

  (** Numbers of the format that are not below 2^j are multiples of 2^(j + 1 - prec). *)
  Lemma fmt_grid r j : fmt r -> zero_or (bpow radix2 j) r -> exists k : Z, r = IZR k * bpow radix2 (j + 1 - prec).
  Proof using Hp.
    intros Fr [->|H]; [exists 0%Z; ring|].
    assert (Hmag : (j < mag radix2 r)%Z) by (apply mag_gt_bpow; exact H).
    assert (C : (j + 1 - prec <= cexp radix2 fexp r)%Z) by (unfold cexp, SpecFloat.fexp; lia).
    rewrite Fr. unfold F2R. cbn [Fnum Fexp]. set (mm := Ztrunc _). set (cc := cexp radix2 fexp r) in *.
    exists (mm * radix2 ^ (cc - (j + 1 - prec)))%Z. rewrite mult_IZR, IZR_Zpower by lia. rewrite Rmult_assoc, <- bpow_plus.
    do 2 f_equal. lia.
  Qed.
  Lemma grid_zero_or j a b : (exists k : Z, a = IZR k * bpow radix2 j) -> (exists k : Z, b = IZR k * bpow radix2 j) -> zero_or (bpow radix2 j) (a - b).
  Proof.
    intros [k ->] [l ->]. replace (IZR k * bpow radix2 j - IZR l * bpow radix2 j) with (IZR (k - l) * bpow radix2 j) by (rewrite minus_IZR; ring).
    destruct (Z.eq_dec (k - l) 0) as [->|N]; [left; ring|right].
    rewrite Rabs_mult, <- abs_IZR, (Rabs_pos_eq (bpow _ _)) by apply bpow_ge_0.
    assert (1 <= IZR (Z.abs (k - l))) by (apply (IZR_le 1); lia). assert (P := bpow_gt_0 radix2 j). nra.
  Qed.
  Lemma RN_zero_or j r : (SpecFloat.emin prec emax <= j)%Z -> zero_or (bpow radix2 j) r -> zero_or (bpow radix2 j) (RN r).
  Proof using Hp.
    intros Hj [->|H]; [left; apply round_0, valid_rnd_N|right].
    apply abs_round_ge_generic; try assumption; [apply fexp_correct; exact Hp|apply valid_rnd_N|].
    apply generic_format_bpow. unfold SpecFloat.fexp. assert (0 < prec)%Z by exact Hp. lia.
  Qed.
  Lemma zero_or_mul j k a b : zero_or (bpow radix2 j) a -> zero_or (bpow radix2 k) b -> zero_or (bpow radix2 (j + k)) (a * b).
  Proof.
    intros [->|Ha] [->|Hb]; [left; ring|left; ring|left; ring|right]. rewrite Rabs_mult, bpow_plus.
    apply Rmult_le_compat; try apply bpow_ge_0; assumption.
  Qed.
  Lemma zero_or_weaken m m' r : m' <= m -> zero_or m r -> zero_or m' r.
  Proof. intros H [->|G]; [left; reflexivity|right; lra]. Qed.

  (** One smoothing step, in any of the three devices. *)
  Lemma sc_smooth e (He : (0 <= e)%Z) j g (al v v' y y' : F) :
    (2 - emax <= g + (j + 1 - prec))%Z -> (SpecFloat.emin prec emax <= j + 1 - prec)%Z ->
    zero_or (bpow radix2 g) (B2R al) -> zero_or (bpow radix2 j) (B2R v) -> zero_or (bpow radix2 j) (B2R y) ->
    sc prec emax e v v' -> sc prec emax e y y' ->
    sc prec emax e (fadd v (fmul al (fsub y v))) (fadd v' (fmul al (fsub y' v'))).
  Proof.
    intros H1 H2 Hal Hv Hy Sv Sy. apply (sc_add prec emax e He); [exact Sv|].
    intros Hfin. revert Hfin. assert (S : sc prec emax e (fsub y v) (fsub y' v')) by (apply (sc_sub prec emax e He); assumption).
    intros Hfin. assert (Fd : is_finite (fsub y' v') = true) by (apply (fin_mul prec emax) in Hfin; tauto).
    revert Hfin. apply (sc_mul prec emax e He); [exact S|]. cbn [fmin ieee_view].
    apply zero_or_weaken with (bpow radix2 (g + (j + 1 - prec))); [apply bpow_le; lia|]. apply zero_or_mul; [exact Hal|].
    destruct (S Fd) as [Fs _]. apply (fin_sub prec emax) in Fs. destruct Fs as [_ [_ ->]].
    apply RN_zero_or; [exact H2|]. apply grid_zero_or; apply fmt_grid; auto using generic_format_B2R.
  Qed.

  Lemma sc_abs e x x' : sc prec emax e x x' -> sc prec emax e (Babs x) (Babs x').
  Proof.
    intros H Fx. rewrite is_finite_Babs in Fx. destruct (H Fx) as [A B]. rewrite is_finite_Babs, !B2R_Babs. split; [exact A|].
    rewrite B, Rabs_mult, (Rabs_pos_eq (bpow _ _)) by apply bpow_ge_0. reflexivity.
  Qed.
  Lemma zero_or_abs m r : zero_or m r -> zero_or m (Rabs r).
  Proof. intros [->|H]; [left; apply Rabs_R0|right; rewrite Rabs_Rabsolu; exact H]. Qed.
  Lemma lt_scaled e a b : Rlt_bool (a * bpow radix2 e) (b * bpow radix2 e) = Rlt_bool a b.
  Proof.
    assert (P := bpow_gt_0 radix2 e). destruct (Rlt_bool_spec a b) as [H|H].
    - apply Rlt_bool_true, Rmult_lt_compat_r; assumption.
    - apply Rlt_bool_false, Rmult_le_compat_r; [apply Rlt_le|]; assumption.
  Qed.

  (** The step with the gain chosen by a comparison. *)
  Lemma sc_follow e (He : (0 <= e)%Z) j g (at_ re v v' y y' : F) :
    (2 - emax <= g + (j + 1 - prec))%Z -> (SpecFloat.emin prec emax <= j + 1 - prec)%Z ->
    zero_or (bpow radix2 g) (B2R at_) -> zero_or (bpow radix2 g) (B2R re) -> zero_or (bpow radix2 j) (B2R v) -> zero_or (bpow radix2 j) (B2R y) ->
    sc prec emax e v v' -> sc prec emax e y y' ->
    sc prec emax e (fadd v (fmul (if Bltb y v then at_ else re) (fsub y v))) (fadd v' (fmul (if Bltb y' v' then at_ else re) (fsub y' v'))).
  Proof.
    intros H1 H2 Ha Hr Hv Hy Sv Sy Hfin.
    assert (Q : is_finite y' = true /\ is_finite v' = true).
    { assert (G := fin_add prec emax _ _ Hfin). destruct G as [G1 [G2 _]]. apply (fin_mul prec emax) in G2. destruct G2 as [_ [G2 _]].
      apply (fin_sub prec emax) in G2. tauto. }
    destruct Q as [Fy' Fv']. destruct (Sy Fy') as [Fy Ey]. destruct (Sv Fv') as [Fv Ev].
    assert (C : Bltb y' v' = Bltb y v) by (rewrite !Bltb_correct by assumption; rewrite Ey, Ev; apply lt_scaled).
    rewrite C in Hfin |- *. revert Hfin. apply (sc_smooth e He j g); auto. destruct (Bltb y v); assumption.
  Qed.

  (** Square and square root. *)
  Lemma sc_square e (He : (0 <= e)%Z) l (x x' : F) : (2 - emax <= 2 * l)%Z -> zero_or (bpow radix2 l) (B2R x) ->
    sc prec emax e x x' -> sc prec emax (2 * e) (fmul x x) (fmul x' x').
  Proof.
    intros Hl Hx Sx H. destruct (fin_mul prec emax x' x' H) as [A [_ C]]. destruct (Sx A) as [A1 A2].
    assert (EE : bpow radix2 (2 * e) = bpow radix2 e * bpow radix2 e) by (rewrite <- bpow_plus; f_equal; lia).
    rewrite A2 in C. replace (B2R x * bpow radix2 e * (B2R x * bpow radix2 e)) with (B2R x * B2R x * bpow radix2 (2 * e)) in C by (rewrite EE; ring).
    assert (S : RN (B2R x * B2R x * bpow radix2 (2 * e)) = RN (B2R x * B2R x) * bpow radix2 (2 * e)).
    { destruct (zero_or_mul l l _ _ Hx Hx) as [->|HC]; [rewrite Rmult_0_l, round_0 by apply valid_rnd_N; ring|].
      apply RN_scale_normal; [assumption|lia|]. eapply Rle_trans; [|exact HC]. apply bpow_le. lia. }
    assert (L := shrink prec emax (2 * e) ltac:(lia) _ _ (eq_sym C) S).
    assert (G := Bmult_correct prec emax Hp Hm mode_NE x x).
    rewrite Rlt_bool_true in G; [|eapply Rle_lt_trans; [exact L|apply abs_B2R_lt_emax]].
    destruct G as [G1 [G2 _]]. split; [unfold f_mul; rewrite G2, A1; reflexivity|]. unfold f_mul at 2. rewrite G1, <- S. exact C.
  Qed.

  Lemma sqrt_fin (y : F) : is_finite (f_sqrt prec emax y) = true -> is_finite y = true /\ 0 <= B2R y.
  Proof.
    intros H. destruct (Bsqrt_correct prec emax Hp Hm mode_NE y) as [_ [G _]]. unfold f_sqrt in H. rewrite G in H. clear G.
    destruct y as [s|[|]| |[|] m ex Hb]; try discriminate H; split; try reflexivity; [apply Rle_refl|].
    apply F2R_ge_0. cbn. lia.
  Qed.

  Lemma sqrt_normal (y : F) : is_finite y = true -> 0 < B2R y -> bpow radix2 (2 - emax) <= sqrt (B2R y).
  Proof.
    intros Fy Hy.
    assert (Hsm : bpow radix2 (SpecFloat.emin prec emax) <= B2R y).
    { rewrite <- (Rabs_pos_eq (B2R y)) by lra. apply abs_B2R_ge_emin.
      destruct y as [s|s| |s m ex Hb]; try discriminate Fy; [cbn in Hy; lra|reflexivity]. }
    rewrite <- (sqrt_square (bpow radix2 (2 - emax))) by apply bpow_ge_0. apply sqrt_le_1_alt.
    eapply Rle_trans; [|exact Hsm]. rewrite <- bpow_plus. apply bpow_le. unfold SpecFloat.emin. assert (prec < emax)%Z by exact Hm. lia.
  Qed.

  Lemma sc_sqrt e (He : (0 <= e)%Z) (y y' : F) : sc prec emax (2 * e) y y' -> sc prec emax e (f_sqrt prec emax y) (f_sqrt prec emax y').
  Proof.
    intros Sy H. destruct (sqrt_fin _ H) as [Fy' Py']. destruct (Sy Fy') as [Fy Ey].
    assert (P2 := bpow_gt_0 radix2 (2 * e)). assert (P1 := bpow_gt_0 radix2 e).
    assert (Py : 0 <= B2R y) by (rewrite Ey in Py'; nra).
    destruct (SmoothF.sqrt_ok prec emax y Fy Py) as [G1 G2]. destruct (SmoothF.sqrt_ok prec emax y' Fy' Py') as [_ G3].
    split; [exact G1|]. rewrite G3, G2, Ey.
    assert (EE : bpow radix2 (2 * e) = bpow radix2 e * bpow radix2 e) by (rewrite <- bpow_plus; f_equal; lia).
    rewrite sqrt_mult by lra. rewrite EE, sqrt_square by (apply Rlt_le; assumption).
    destruct (Req_dec (B2R y) 0) as [Z|NZ]; [rewrite Z, sqrt_0, Rmult_0_l, round_0 by apply valid_rnd_N; ring|].
    apply RN_scale_normal; [assumption|assumption|].
    rewrite Rabs_pos_eq by apply sqrt_pos. apply sqrt_normal; [exact Fy|lra].
  Qed.

  (** From the reading back to the power. *)
  Lemma power_zero_or l (y : F) : (SpecFloat.emin prec emax <= l - 2)%Z -> (2 <= prec)%Z -> is_finite (f_sqrt prec emax y) = true ->
    zero_or (bpow radix2 l) (B2R (f_sqrt prec emax y)) -> zero_or (bpow radix2 (2 * l - 1)) (B2R y).
  Proof.
    intros Hl H2 Hf Hz. destruct (sqrt_fin _ Hf) as [Fy Py]. destruct (SmoothF.sqrt_ok prec emax y Fy Py) as [_ G2].
    destruct (Rle_or_lt (bpow radix2 (2 * l - 1)) (B2R y)) as [H|H]; [right; rewrite Rabs_pos_eq; assumption|left].
    destruct (Req_dec (B2R y) 0) as [Z|NZ]; [exact Z|exfalso].
    assert (Hsm : 0 < B2R y) by lra.
    assert (B := bpow_gt_0 radix2 (l - 1)).
    assert (EL : bpow radix2 l = 2 * bpow radix2 (l - 1)).
    { replace l with (1 + (l - 1))%Z at 1 by lia. rewrite bpow_plus. reflexivity. }
    assert (E2 : bpow radix2 (2 * l - 1) = 2 * (bpow radix2 (l - 1) * bpow radix2 (l - 1))).
    { rewrite <- bpow_plus. replace (2 * l - 1)%Z with (1 + (l - 1 + (l - 1)))%Z by lia. rewrite bpow_plus. reflexivity. }
    assert (Up : sqrt (B2R y) <= 3 / 2 * bpow radix2 (l - 1)).
    { rewrite <- (sqrt_square (3 / 2 * bpow radix2 (l - 1))) by lra. apply sqrt_le_1_alt.
      apply Rlt_le. eapply Rlt_le_trans; [exact H|]. rewrite E2. assert (0 < bpow radix2 (l - 1) * bpow radix2 (l - 1)) by nra. lra. }
    assert (F3 : fmt (3 / 2 * bpow radix2 (l - 1))).
    { apply generic_format_FLT. exists (Float radix2 3 (l - 2)).
      - unfold F2R. cbn [Fnum Fexp]. replace (l - 1)%Z with (1 + (l - 2))%Z by lia. rewrite bpow_plus. cbn [bpow Z.pow_pos Pos.iter]. change (IZR (radix2 * 1)) with 2. lra.
      - cbn [Fnum]. apply Z.lt_le_trans with (2 ^ 2)%Z; [reflexivity|]. apply (Z.pow_le_mono_r 2); lia.
      - cbn [Fexp]. exact Hl. }
    assert (U2 : RN (sqrt (B2R y)) <= 3 / 2 * bpow radix2 (l - 1)) by (apply round_le_generic; try assumption; [apply fexp_correct; exact Hp|apply valid_rnd_N]).
    assert (Low : bpow radix2 (2 - emax) <= RN (sqrt (B2R y))).
    { apply round_ge_generic; [apply fexp_correct; exact Hp|apply valid_rnd_N| |apply sqrt_normal; assumption].
      apply generic_format_bpow. unfold SpecFloat.fexp, SpecFloat.emin. lia. }
    assert (Pm := bpow_gt_0 radix2 (2 - emax)).
    rewrite G2 in Hz. destruct Hz as [Hz|Hz]; [lra|]. rewrite Rabs_pos_eq in Hz by lra. lra.
  Qed.

  (** ** The three devices *)
  Context (Ops : num_ops F).
  Hypothesis Hadd : n_add Ops = f_add prec emax.
  Hypothesis Hsub : n_sub Ops = f_sub prec emax.
  Hypothesis Hmul : n_mul Ops = f_mul prec emax.
  Hypothesis Hzero : n_zero Ops = (B754_zero false : F).
  Hypothesis Habs : n_abs Ops = Babs.
  Hypothesis Hlt : n_lt Ops = Bltb.
  Hypothesis Hsqrt : n_sqrt Ops = f_sqrt prec emax.
  Context (e : Z) (He : (0 <= e)%Z) (x x' : nat -> F) (Hx : louder V e x x').
  Context (l g : Z) (N : nat).
  Notation sce := (sc prec emax e).

  Lemma scx n : sce (x n) (x' n).
  Proof using Hx. intros _. destruct (Hx n) as [A [_ B]]. split; assumption. Qed.

  Lemma zero_zero_or m : zero_or m (B2R (B754_zero false : F)).
  Proof. left. reflexivity. Qed.

  Lemma after_sets {S K} (D : device S K F) (P : S -> Prop) ks : P (d_new D) -> (forall s k, P s -> P (d_set D s k)) -> P (after D (map CSet ks)).
  Proof.
    intros H0 H1. unfold after. generalize dependent (d_new D). induction ks as [|k ks IH]; intros s Hs; [exact Hs|].
    cbn [map d_run d_step]. specialize (IH (d_set D s k) (H1 s k Hs)). destruct (d_run D (d_set D s k) (map CSet ks)). exact IH.
  Qed.

  Section Linear.
  Hypothesis H1 : (2 - emax <= g + (l + 1 - prec))%Z.
  Hypothesis H2 : (SpecFloat.emin prec emax <= l + 1 - prec)%Z.
  Hypothesis Fx : forall n, zero_or (bpow radix2 l) (B2R (x n)).

  Lemma leaky_scale ks : let D := dev_leaky Ops in let s := after D (map CSet ks) in
    zero_or (bpow radix2 g) (B2R (leaky_get_alpha s)) ->
    (forall n, (n < N)%nat -> zero_or (bpow radix2 l) (B2R (reading D s x n))) ->
    forall n, (n <= N)%nat -> sce (reading D s x n) (reading D s x' n).
  Proof using Hadd Hsub Hmul Hzero He Hx H1 H2 Fx.
    intros D s Hg Hr.
    assert (S0 : lk_y_z1 s = B754_zero false).
    { apply (after_sets D (fun s => lk_y_z1 s = B754_zero false)); [exact Hzero|]. intros s0 k Hs. cbn. unfold leaky_set_alpha. destruct (_ && _); exact Hs. }
    assert (I : forall n, (n <= N)%nat ->
      lk_alpha (fed D s x n) = lk_alpha s /\ lk_alpha (fed D s x' n) = lk_alpha s
      /\ sce (lk_y_z1 (fed D s x n)) (lk_y_z1 (fed D s x' n)) /\ zero_or (bpow radix2 l) (B2R (lk_y_z1 (fed D s x n)))).
    { induction n as [|n IH]; intros Hn.
      - cbn [fed]. rewrite S0. split; [reflexivity|]. split; [reflexivity|]. split; [apply sc_zero|apply zero_zero_or].
      - destruct (IH ltac:(lia)) as (A & A' & B & C). cbn [fed].
        assert (Y : forall s v, lk_y_z1 (fst (d_process D s v)) = fadd v (fmul (lk_alpha s) (fsub (lk_y_z1 s) v))).
        { intros s0 v. cbn. rewrite Hadd, Hmul, Hsub. reflexivity. }
        split; [exact A|]. split; [exact A'|]. split.
        + rewrite !Y, A, A'. apply (sc_smooth e He l g); auto using scx.
        + apply (Hr n). lia. }
    intros n Hn. destruct (I n Hn) as (A & A' & B & C). unfold reading.
    assert (Y : forall s v, snd (d_process D s v) = fadd v (fmul (lk_alpha s) (fsub (lk_y_z1 s) v))).
    { intros s0 v. cbn. rewrite Hadd, Hmul, Hsub. reflexivity. }
    rewrite !Y, A, A'. apply (sc_smooth e He l g); auto using scx.
  Qed.

  Lemma peak_scale ks : let D := dev_peak Ops in let s := after D (map CSet ks) in
    zero_or (bpow radix2 g) (B2R (peak_get_attack_gain s)) -> zero_or (bpow radix2 g) (B2R (peak_get_release_gain s)) ->
    (forall n, (n < N)%nat -> zero_or (bpow radix2 l) (B2R (reading D s x n))) ->
    forall n, (n <= N)%nat -> sce (reading D s x n) (reading D s x' n).
  Proof using Hadd Hsub Hmul Hzero Habs Hlt He Hx H1 H2 Fx.
    intros D s Ha Hg Hr.
    assert (S0 : pk_envelope s = B754_zero false).
    { apply (after_sets D (fun s => pk_envelope s = B754_zero false)); [exact Hzero|].
      intros s0 [len|len] Hs; cbn; unfold peak_set_attack, peak_set_release; destruct (_ && _); exact Hs. }
    assert (Y : forall s v, snd (d_process D s v)
      = fadd (Babs v) (fmul (if Bltb (pk_envelope s) (Babs v) then pk_attack_gain s else pk_release_gain s) (fsub (pk_envelope s) (Babs v)))).
    { intros s0 v. cbn. rewrite Hadd, Hmul, Hsub, Habs, Hlt. reflexivity. }
    assert (Fa : forall n, zero_or (bpow radix2 l) (B2R (Babs (x n)))) by (intros n; rewrite B2R_Babs; apply zero_or_abs, Fx).
    assert (I : forall n, (n <= N)%nat ->
      (pk_attack_gain (fed D s x n) = pk_attack_gain s /\ pk_attack_gain (fed D s x' n) = pk_attack_gain s)
      /\ (pk_release_gain (fed D s x n) = pk_release_gain s /\ pk_release_gain (fed D s x' n) = pk_release_gain s)
      /\ sce (pk_envelope (fed D s x n)) (pk_envelope (fed D s x' n)) /\ zero_or (bpow radix2 l) (B2R (pk_envelope (fed D s x n)))).
    { induction n as [|n IH]; intros Hn.
      - cbn [fed]. rewrite S0. repeat split; try reflexivity; [apply sc_zero; assumption..|apply zero_zero_or].
      - destruct (IH ltac:(lia)) as ((A & A') & (B & B') & C & Z). cbn [fed].
        split; [split; assumption|]. split; [split; assumption|]. split; [|apply (Hr n); lia].
        change (sce (snd (d_process D (fed D s x n) (x n))) (snd (d_process D (fed D s x' n) (x' n)))).
        rewrite !Y, A, A', B, B'. apply (sc_follow e He l g); auto using scx, sc_abs. }
    intros n Hn. destruct (I n Hn) as ((A & A') & (B & B') & C & Z). unfold reading.
    rewrite !Y, A, A', B, B'. apply (sc_follow e He l g); auto using scx, sc_abs.
  Qed.
  End Linear.

  Section Squares.
  Hypothesis H1 : (2 - emax <= g + (2 * l - prec))%Z.
  Hypothesis Hg0 : (g <= 0)%Z.
  Hypothesis Hl0 : (l <= 0)%Z.
  Hypothesis H3 : (2 <= prec)%Z.
  Hypothesis Fx : forall n, zero_or (bpow radix2 l) (B2R (x n)).

  Lemma rms_scale ks : let D := dev_rms Ops in let s := after D (map CSet ks) in
    zero_or (bpow radix2 g) (B2R (rms_get_attack_gain s)) -> zero_or (bpow radix2 g) (B2R (rms_get_release_gain s)) ->
    (forall n, (n < N)%nat -> zero_or (bpow radix2 l) (B2R (reading D s x n))) ->
    (forall n, (n <= N)%nat -> is_finite (reading D s x' n) = true) ->
    forall n, (n <= N)%nat -> is_finite (reading D s x n) = true /\ B2R (reading D s x' n) = B2R (reading D s x n) * bpow radix2 e.
  Proof using Hadd Hsub Hmul Hzero Hlt Hsqrt He Hx H1 Hg0 Hl0 H3 Fx.
    intros D s Ha Hg Hr HF.
    assert (Em : (SpecFloat.emin prec emax <= 2 * l - prec)%Z) by (unfold SpecFloat.emin; lia).
    assert (S0 : rm_envelope s = B754_zero false).
    { apply (after_sets D (fun s => rm_envelope s = B754_zero false)); [exact Hzero|].
      intros s0 [len|len] Hs; cbn; unfold rms_set_attack, rms_set_release; destruct (_ && _); exact Hs. }
    assert (Y : forall s v, rm_envelope (fst (d_process D s v))
      = fadd (fmul v v) (fmul (if Bltb (rm_envelope s) (fmul v v) then rm_attack_gain s else rm_release_gain s) (fsub (rm_envelope s) (fmul v v)))).
    { intros s0 v. cbn. rewrite Hadd, Hmul, Hsub, Hlt. reflexivity. }
    assert (Y2 : forall s v, snd (d_process D s v) = f_sqrt prec emax (rm_envelope (fst (d_process D s v)))) by (intros s0 v; cbn; rewrite Hsqrt; reflexivity).
    assert (Fa : forall n, is_finite (fmul (x' n) (x' n)) = true -> zero_or (bpow radix2 (2 * l - 1)) (B2R (fmul (x n) (x n)))).
    { intros n Hf. destruct (sc_square e He l (x n) (x' n) ltac:(lia) (Fx n) (scx n) Hf) as [Q _].
      apply (fin_mul prec emax) in Q. destruct Q as [_ [_ ->]]. apply zero_or_weaken with (bpow radix2 (2 * l)); [apply bpow_le; lia|].
      apply RN_zero_or; [lia|]. replace (2 * l)%Z with (l + l)%Z by lia. apply zero_or_mul; apply Fx. }
    assert (St : forall n, is_finite (rm_envelope (fst (d_process D (fed D s x' n) (x' n)))) = true ->
      (rm_attack_gain (fed D s x n) = rm_attack_gain s /\ rm_attack_gain (fed D s x' n) = rm_attack_gain s)
      /\ (rm_release_gain (fed D s x n) = rm_release_gain s /\ rm_release_gain (fed D s x' n) = rm_release_gain s)
      /\ sc prec emax (2 * e) (rm_envelope (fed D s x n)) (rm_envelope (fed D s x' n))
      /\ zero_or (bpow radix2 (2 * l - 1)) (B2R (rm_envelope (fed D s x n))) ->
      sc prec emax (2 * e) (rm_envelope (fst (d_process D (fed D s x n) (x n)))) (rm_envelope (fst (d_process D (fed D s x' n) (x' n))))).
    { intros n Hf ((A & A') & (B & B') & C & Z). rewrite Y in Hf.
      assert (Q : is_finite (fmul (x' n) (x' n)) = true) by (apply (fin_add prec emax) in Hf; tauto).
      rewrite !Y, A, A', B, B'. apply (sc_follow (2 * e) ltac:(lia) (2 * l - 1) g); auto; try lia.
      apply (sc_square e He l); auto using scx. lia. }
    assert (I : forall n, (n <= N)%nat ->
      (rm_attack_gain (fed D s x n) = rm_attack_gain s /\ rm_attack_gain (fed D s x' n) = rm_attack_gain s)
      /\ (rm_release_gain (fed D s x n) = rm_release_gain s /\ rm_release_gain (fed D s x' n) = rm_release_gain s)
      /\ sc prec emax (2 * e) (rm_envelope (fed D s x n)) (rm_envelope (fed D s x' n))
      /\ zero_or (bpow radix2 (2 * l - 1)) (B2R (rm_envelope (fed D s x n)))).
    { induction n as [|n IH]; intros Hn.
      - cbn [fed]. rewrite S0. repeat split; try reflexivity; [apply sc_zero; assumption..|apply zero_zero_or].
      - specialize (IH ltac:(lia)). assert (Hf := HF n ltac:(lia)). unfold reading in Hf. rewrite Y2 in Hf.
        assert (Sn := St n (proj1 (sqrt_fin _ Hf)) IH). destruct IH as ((A & A') & (B & B') & C & Z). cbn [fed].
        split; [split; assumption|]. split; [split; assumption|]. split; [exact Sn|].
        apply power_zero_or; [lia|exact H3| |].
        + assert (G := sc_sqrt e He _ _ Sn Hf). tauto.
        + rewrite <- Y2. apply (Hr n). lia. }
    intros n Hn. assert (Hf := HF n Hn). unfold reading in *. rewrite Y2 in Hf. rewrite !Y2.
    apply (sc_sqrt e He _ _ (St n (proj1 (sqrt_fin _ Hf)) (I n Hn)) Hf).
  Qed.
  End Squares.
End Det.

(*@PROP
(** C122: LeakyIntegrator.  [2^l] is a floor for the non-zero samples and readings of the quieter run,
    [2^g] for the gain; in [f32], [g + l >= -103]: for [g = -24], non-zero samples and readings
    not below 2^-79 (-475 dB). *)
@*)
Lemma C122_leaky_thm :
  forall (T : Type) (O : num_ops T) (V : float_view T), ieee O V ->
  forall (ks : list T) (x x' : nat -> T) (e l g : Z) (N : nat),
    let D := dev_leaky O in let s := after D (map CSet ks) in
    (0 <= e)%Z -> (g <= 0)%Z -> fmin V <= bpow radix2 (g + l + 1 - fprec V) -> louder V e x x' ->
    zero_or (bpow radix2 g) (val V (leaky_get_alpha s)) ->
    (forall n, zero_or (bpow radix2 l) (val V (x n))) ->
    (forall n, (n < N)%nat -> zero_or (bpow radix2 l) (val V (reading D s x n))) ->
    forall n, (n <= N)%nat -> fin V (reading D s x' n) = true ->
      fin V (reading D s x n) = true /\ val V (reading D s x' n) = val V (reading D s x n) * bpow radix2 e.
Proof.
  intros T O V HO. destruct HO as [lm b|lm b]; intros ks x x' e l g N D s He Hg HV Hx Ha Fx Fr n Hn HF; cbn [fmin fprec ieee_view] in HV; apply le_bpow in HV.
  - exact (leaky_scale 24 128 (f32_ops lm b) eq_refl eq_refl eq_refl eq_refl e He x x' Hx l g N ltac:(lia) ltac:(unfold SpecFloat.emin; lia) Fx ks Ha Fr n Hn HF).
  - exact (leaky_scale 53 1024 (f64_ops lm b) eq_refl eq_refl eq_refl eq_refl e He x x' Hx l g N ltac:(lia) ltac:(unfold SpecFloat.emin; lia) Fx ks Ha Fr n Hn HF).
Qed.
(*@PROP
(** A gain of 1/2, a constant signal, 6 dB louder, the first two readings. *)
Example C122_leaky_hyps :
  let V := ieee_view 24 128 in let D := dev_leaky O32 in let s := after D (map CSet [fl32 1 (-1)]) in
  let x (_ : nat) := fl32 1 0 in let x' (_ : nat) := fl32 2 0 in
  (0 <= 1)%Z /\ (-1 <= 0)%Z /\ fmin V <= bpow radix2 (-1 + -40 + 1 - fprec V) /\ louder V 1 x x'
  /\ zero_or (bpow radix2 (-1)) (val V (leaky_get_alpha s)) /\ (forall n, zero_or (bpow radix2 (-40)) (val V (x n)))
  /\ zero_or (bpow radix2 (-40)) (val V (reading D s x 0)) /\ fin V (reading D s x' 1) = true /\ val V (reading D s x' 1) = 3 / 2.
Proof.
  assert (E1 : B2R (fl32 1 (-1)) = 1 / 2) by (lit; lra). assert (E2 : B2R (fl32 1 0) = 1) by (lit; lra).
  assert (E3 : B2R (fl32 2 0) = 2) by (lit; lra). assert (E4 : B2R (fl32 3 (-1)) = 3 / 2) by (lit; lra).
  assert (B : bpow radix2 (-40) <= 1 / 2) by (apply Rle_trans with (bpow radix2 (-1)); [apply bpow_le; lia|cbn; lra]).
  set (D := dev_leaky O32). set (s := after D (map CSet [fl32 1 (-1)])).
  assert (A : leaky_get_alpha s = fl32 1 (-1)) by (apply B2SF_inj; vm_compute; reflexivity).
  assert (R0 : reading D s (fun _ => fl32 1 0) 0 = fl32 1 (-1)) by (apply B2SF_inj; vm_compute; reflexivity).
  assert (R1 : reading D s (fun _ => fl32 2 0) 1 = fl32 3 (-1)) by (apply B2SF_inj; vm_compute; reflexivity).
  cbv zeta. fold D. fold s. rewrite A, R0, R1. cbn [val fin fmin fprec ieee_view]. rewrite E1, E2, E4.
  split; [lia|]. split; [lia|]. split; [apply bpow_le; lia|]. split.
  { intros n. split; [reflexivity|]. split; [reflexivity|]. cbn [val ieee_view]. rewrite E2, E3. change (bpow radix2 1) with 2. lra. }
  split; [right; rewrite Rabs_pos_eq by lra; cbn; lra|]. split; [intros _; right; rewrite Rabs_pos_eq by lra; lra|].
  split; [right; rewrite Rabs_pos_eq by lra; lra|]. split; reflexivity.
Qed.

(** C122: PeakEnvDetector with any settings; the same floors, for both gains. *)
@*)
Lemma C122_peak_thm :
  forall (T : Type) (O : num_ops T) (V : float_view T), ieee O V ->
  forall (ks : list (@det_set T)) (x x' : nat -> T) (e l g : Z) (N : nat),
    let D := dev_peak O in let s := after D (map CSet ks) in
    (0 <= e)%Z -> (g <= 0)%Z -> fmin V <= bpow radix2 (g + l + 1 - fprec V) -> louder V e x x' ->
    zero_or (bpow radix2 g) (val V (peak_get_attack_gain s)) -> zero_or (bpow radix2 g) (val V (peak_get_release_gain s)) ->
    (forall n, zero_or (bpow radix2 l) (val V (x n))) ->
    (forall n, (n < N)%nat -> zero_or (bpow radix2 l) (val V (reading D s x n))) ->
    forall n, (n <= N)%nat -> fin V (reading D s x' n) = true ->
      fin V (reading D s x n) = true /\ val V (reading D s x' n) = val V (reading D s x n) * bpow radix2 e.
Proof.
  intros T O V HO. destruct HO as [lm b|lm b]; intros ks x x' e l g N D s He Hg HV Hx Ha Hr Fx Fr n Hn HF; cbn [fmin fprec ieee_view] in HV; apply le_bpow in HV.
  - exact (peak_scale 24 128 (f32_ops lm b) eq_refl eq_refl eq_refl eq_refl eq_refl eq_refl e He x x' Hx l g N ltac:(lia) ltac:(unfold SpecFloat.emin; lia) Fx ks Ha Hr Fr n Hn HF).
  - exact (peak_scale 53 1024 (f64_ops lm b) eq_refl eq_refl eq_refl eq_refl eq_refl eq_refl e He x x' Hx l g N ltac:(lia) ltac:(unfold SpecFloat.emin; lia) Fx ks Ha Hr Fr n Hn HF).
Qed.
(*@PROP
(** A mathematical library whose [exp] returns 1/2, to have simple gains in the examples. *)
Definition lm_half : libm f32 :=
  {| m_sin := fun x => x; m_cos := fun x => x; m_exp := fun _ => fl32 1 (-1); m_log10 := fun x => x; m_powf := fun x _ => x |}.

Example C122_peak_hyps :
  let V := ieee_view 24 128 in let O := f32_ops lm_half false in let D := dev_peak O in
  let s := after D (map CSet [SetAttack (fl32 2 0); SetRelease (fl32 2 0)]) in
  let x (_ : nat) := fl32 (-1) 0 in let x' (_ : nat) := fl32 (-2) 0 in
  fmin V <= bpow radix2 (-1 + -40 + 1 - fprec V) /\ louder V 1 x x'
  /\ zero_or (bpow radix2 (-1)) (val V (peak_get_attack_gain s)) /\ zero_or (bpow radix2 (-1)) (val V (peak_get_release_gain s))
  /\ (forall n, zero_or (bpow radix2 (-40)) (val V (x n)))
  /\ zero_or (bpow radix2 (-40)) (val V (reading D s x 0)) /\ fin V (reading D s x' 1) = true /\ val V (reading D s x' 1) = 3 / 2.
Proof.
  assert (E1 : B2R (fl32 1 (-1)) = 1 / 2) by (lit; lra). assert (E2 : B2R (fl32 (-1) 0) = -1) by (lit; lra).
  assert (E3 : B2R (fl32 (-2) 0) = -2) by (lit; lra). assert (E4 : B2R (fl32 3 (-1)) = 3 / 2) by (lit; lra).
  assert (B : bpow radix2 (-40) <= 1 / 2) by (apply Rle_trans with (bpow radix2 (-1)); [apply bpow_le; lia|cbn; lra]).
  set (D := dev_peak (f32_ops lm_half false)). set (s := after D (map CSet [SetAttack (fl32 2 0); SetRelease (fl32 2 0)])).
  assert (A : peak_get_attack_gain s = fl32 1 (-1)) by (apply B2SF_inj; vm_compute; reflexivity).
  assert (A2 : peak_get_release_gain s = fl32 1 (-1)) by (apply B2SF_inj; vm_compute; reflexivity).
  assert (R0 : reading D s (fun _ => fl32 (-1) 0) 0 = fl32 1 (-1)) by (apply B2SF_inj; vm_compute; reflexivity).
  assert (R1 : reading D s (fun _ => fl32 (-2) 0) 1 = fl32 3 (-1)) by (apply B2SF_inj; vm_compute; reflexivity).
  cbv zeta. fold D. fold s. rewrite A, A2, R0, R1. cbn [val fin fmin fprec ieee_view]. rewrite E1, E2, E4.
  assert (Q : zero_or (bpow radix2 (-40)) (1 / 2)) by (right; rewrite Rabs_pos_eq by lra; lra).
  assert (Q1 : zero_or (bpow radix2 (-1)) (1 / 2)) by (right; rewrite Rabs_pos_eq by lra; cbn; lra).
  split; [apply bpow_le; lia|]. split.
  { intros n. split; [reflexivity|]. split; [reflexivity|]. cbn [val ieee_view]. rewrite E2, E3. change (bpow radix2 1) with 2. lra. }
  repeat split; try assumption. intros _. right. rewrite Rabs_left by lra. lra.
Qed.

(** C122: RmsEnvDetector.  Squaring doubles the exponents: in [f32], [g + 2 l >= -102]: for
    [g = -24], non-zero samples and readings not below 2^-39 (-234 dB). *)
@*)
Lemma C122_rms_thm :
  forall (T : Type) (O : num_ops T) (V : float_view T), ieee O V ->
  forall (ks : list (@det_set T)) (x x' : nat -> T) (e l g : Z) (N : nat),
    let D := dev_rms O in let s := after D (map CSet ks) in
    (0 <= e)%Z -> (g <= 0)%Z -> (l <= 0)%Z -> fmin V <= bpow radix2 (g + 2 * l - fprec V) -> louder V e x x' ->
    zero_or (bpow radix2 g) (val V (rms_get_attack_gain s)) -> zero_or (bpow radix2 g) (val V (rms_get_release_gain s)) ->
    (forall n, zero_or (bpow radix2 l) (val V (x n))) ->
    (forall n, (n < N)%nat -> zero_or (bpow radix2 l) (val V (reading D s x n))) ->
    (forall n, (n <= N)%nat -> fin V (reading D s x' n) = true) ->
    forall n, (n <= N)%nat ->
      fin V (reading D s x n) = true /\ val V (reading D s x' n) = val V (reading D s x n) * bpow radix2 e.
Proof.
  intros T O V HO. destruct HO as [lm b|lm b]; intros ks x x' e l g N D s He Hg Hl HV Hx Ha Hr Fx Fr HF n Hn; cbn [fmin fprec ieee_view] in HV; apply le_bpow in HV.
  - exact (rms_scale 24 128 (f32_ops lm b) eq_refl eq_refl eq_refl eq_refl eq_refl eq_refl e He x x' Hx l g N ltac:(lia) Hg Hl ltac:(lia) Fx ks Ha Hr Fr HF n Hn).
  - exact (rms_scale 53 1024 (f64_ops lm b) eq_refl eq_refl eq_refl eq_refl eq_refl eq_refl e He x x' Hx l g N ltac:(lia) Hg Hl ltac:(lia) Fx ks Ha Hr Fr HF n Hn).
Qed.
(*@PROP
Example C122_rms_hyps :
  let V := ieee_view 24 128 in let O := f32_ops lm_half false in let D := dev_rms O in
  let s := after D (map CSet [SetAttack (fl32 2 0); SetRelease (fl32 2 0)]) in
  let x (_ : nat) := fl32 (-1) 0 in let x' (_ : nat) := fl32 (-4) 0 in
  fmin V <= bpow radix2 (-1 + 2 * -20 - fprec V) /\ louder V 2 x x'
  /\ zero_or (bpow radix2 (-1)) (val V (rms_get_attack_gain s)) /\ zero_or (bpow radix2 (-1)) (val V (rms_get_release_gain s))
  /\ (forall n, zero_or (bpow radix2 (-20)) (val V (x n)))
  /\ zero_or (bpow radix2 (-20)) (val V (reading D s x 0))
  /\ fin V (reading D s x' 0) = true /\ fin V (reading D s x' 1) = true.
Proof.
  assert (E1 : B2R (fl32 1 (-1)) = 1 / 2) by (lit; lra). assert (E2 : B2R (fl32 (-1) 0) = -1) by (lit; lra).
  assert (E3 : B2R (fl32 (-4) 0) = -4) by (lit; lra).
  assert (B : bpow radix2 (-20) <= 1 / 2) by (apply Rle_trans with (bpow radix2 (-1)); [apply bpow_le; lia|cbn; lra]).
  set (D := dev_rms (f32_ops lm_half false)). set (s := after D (map CSet [SetAttack (fl32 2 0); SetRelease (fl32 2 0)])).
  assert (A : rms_get_attack_gain s = fl32 1 (-1)) by (apply B2SF_inj; vm_compute; reflexivity).
  assert (A2 : rms_get_release_gain s = fl32 1 (-1)) by (apply B2SF_inj; vm_compute; reflexivity).
  assert (R0 : reading D s (fun _ => fl32 (-1) 0) 0 = fl32 11863283 (-24)) by (apply B2SF_inj; vm_compute; reflexivity).
  assert (E5 : 1 / 2 <= B2R (fl32 11863283 (-24))) by (lit; lra).
  cbv zeta. fold D. fold s. rewrite A, A2, R0. cbn [val fin fmin fprec ieee_view]. rewrite E1, E2.
  assert (Q1 : zero_or (bpow radix2 (-1)) (1 / 2)) by (right; rewrite Rabs_pos_eq by lra; cbn; lra).
  split; [apply bpow_le; lia|]. split.
  { intros n. split; [reflexivity|]. split; [reflexivity|]. cbn [val ieee_view]. rewrite E2, E3. change (bpow radix2 2) with 4. lra. }
  split; [assumption|]. split; [assumption|]. split; [intros _; right; rewrite Rabs_left by lra; lra|].
  split; [right; rewrite Rabs_pos_eq by lra; lra|]. split; vm_compute; reflexivity.
Qed.
@*)
