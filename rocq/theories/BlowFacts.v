(** Float arithmetic on plain data ([spec_float]), for long computations, and the
    coefficients of a high-pass filter at 1 Hz in [f32]. *)
From Coq Require Import ZArith NArith Nnat Reals Lra Lia Psatz List Bool.
From Flocq Require Import Core.Core IEEE754.BinarySingleNaN.
From Verif Require Import Base Num NumF FloatSpec FloatFacts Witness FilterM RbjM Device Signal FltFilterSpec
  FltFilterFacts ConstLemmas RbjFltSpec RbjFltFacts RbjFltFacts2.
Import ListNotations.
Open Scope R_scope.

(** ** [binary_float] operations as [spec_float] operations *)
Section Equiv.
  Context (prec emax : Z) {Hp : Prec_gt_0 prec} {Hm : Prec_lt_emax prec emax}.
  Notation F := (binary_float prec emax).

  Lemma aux_equiv sx mx ex lx :
    SpecFloat.binary_round_aux prec emax sx mx ex lx = binary_round_aux prec emax mode_NE sx mx ex lx.
  Proof.
    unfold SpecFloat.binary_round_aux, binary_round_aux. set (mrse' := SpecFloat.shr_fexp _ _ _ _ _).
    destruct mrse' as [mrs' e']. cbn.
    assert (G : forall s m l, SpecFloat.round_nearest_even m l = choice_mode mode_NE s m l).
    { intros s m l. destruct l as [|c]; [reflexivity|]. destruct c; try reflexivity.
      cbn. unfold Round.cond_incr. destruct (Z.even m); reflexivity. }
    rewrite (G sx). reflexivity.
  Qed.
  Lemma norm_equiv m e szero : B2SF (binary_normalize prec emax Hp Hm mode_NE m e szero) = SpecFloat.binary_normalize prec emax m e szero.
  Proof.
    assert (G : forall s m e, SpecFloat.binary_round prec emax s m e = binary_round prec emax mode_NE s m e).
    { intros s m' e'. unfold SpecFloat.binary_round, binary_round, shl_align_fexp.
      destruct (SpecFloat.shl_align _ _ _) as [mz ez]. apply aux_equiv. }
    destruct m as [|p|p]; [reflexivity| |]; cbn; rewrite B2SF_SF2B; symmetry; apply G.
  Qed.
  Lemma sf_mul (x y : F) : B2SF (f_mul prec emax x y) = SpecFloat.SFmul prec emax (B2SF x) (B2SF y).
  Proof.
    unfold f_mul. destruct x as [sx|sx| |sx mx ex Bx]; destruct y as [sy|sy| |sy my ey By]; try reflexivity.
    cbn. rewrite B2SF_SF2B. symmetry. apply aux_equiv.
  Qed.
  Lemma sf_add (x y : F) : B2SF (f_add prec emax x y) = SpecFloat.SFadd prec emax (B2SF x) (B2SF y).
  Proof.
    unfold f_add. destruct x as [sx|sx| |sx mx ex Bx]; destruct y as [sy|sy| |sy my ey By];
      try reflexivity; try (cbn; destruct (Bool.eqb _ _); reflexivity).
    apply norm_equiv.
  Qed.
  Lemma sf_sub (x y : F) : B2SF (f_sub prec emax x y) = SpecFloat.SFsub prec emax (B2SF x) (B2SF y).
  Proof.
    unfold f_sub. destruct x as [sx|sx| |sx mx ex Bx]; destruct y as [sy|sy| |sy my ey By];
      try reflexivity; try (cbn; destruct (Bool.eqb _ _); reflexivity).
    cbn. unfold Zminus. rewrite <- cond_Zopp_negb. apply norm_equiv.
  Qed.
End Equiv.

Lemma sin_low3 x : 0 <= x <= 1 -> x - x * x * x / 6 <= sin x.
Proof.
  intros H. assert (B := pi_20). destruct (sin_bound x 0 ltac:(lra) ltac:(lra)) as [L _].
  unfold sin_approx, sum_f_R0, sin_term in L. cbn in L. lra.
Qed.

(** ** 48000 Hz, 1 Hz, Q = 1/sqrt 2 *)
Notation HP_SR := (fl32 48000 0).
Notation HP_F := (fl32 1 0).
Notation HP_Q := (fl32 11863283 (-24)).

Section Coeffs.
  Context (lm : libm f32) (b : bool).
  Notation O := (f32_ops lm b).
  Notation V := (ieee_view 24 128).
  Hypothesis HT : trig_rounded O V.
  Notation w := (n_div O (n_mul O (n_mul O (n_two O) (n_pi O)) HP_F) HP_SR).
  Notation RN := (round radix2 (SpecFloat.fexp 24 128) (round_mode mode_NE)).

  Definition w_lit : f32 := @B754_finite 24 128 false 8995359 (-36) eq_refl.

  Lemma w_val : w = w_lit.
  Proof. apply B2SF_inj. vm_compute. reflexivity. Qed.

  Lemma w_R : B2R w_lit = 8995359 * / 68719476736.
  Proof. cbn. unfold F2R. cbn. lra. Qed.

  Lemma cos_w : n_cos O w = n_one O.
  Proof.
    destruct (HT w) as [_ [C1 C2]]; [rewrite w_val; reflexivity|]. rewrite w_val in *. cbn [val fin rnd ieee_view] in *.
    destruct (one_ok 24 128 ltac:(lia) 13176795 (-22) 4 lm b (eq_refl true)) as [O1 O2].
    change (ieee_ops 24 128 13176795 (-22) 4 lm b) with O in O1, O2.
    assert (E : B2R (n_cos O w_lit) = 1).
    { rewrite C2. apply (near_one 24 128 ltac:(lia) ltac:(lia) 13176795 (-22) 4 lm b (eq_refl true)).
      assert (L := cos_low (B2R w_lit)). rewrite w_R in *. split; [|apply COS_bound].
      unfold uro. cbn. assert (L' := L ltac:(lra)). lra. }
    apply B2R_inj.
    - destruct (n_cos O w_lit); try discriminate; [cbn in E; lra|reflexivity].
    - vm_compute. reflexivity.
    - rewrite E, O2. reflexivity.
  Qed.

  Lemma sin_w : n_sin O w = w_lit.
  Proof.
    destruct (HT w) as [[S1 S2] _]; [rewrite w_val; reflexivity|]. rewrite w_val in *. cbn [val fin rnd ieee_view] in *.
    assert (E : B2R (n_sin O w_lit) = B2R w_lit).
    { rewrite S2. assert (W := w_R). assert (B := pi_20).
      assert (L := sin_low3 (B2R w_lit) ltac:(lra)).
      assert (Up := sin_lt_x (B2R w_lit) ltac:(lra)).
      assert (Lo : 8995359 * / 68719476736 - / 3 * / 68719476736 <= sin (B2R w_lit)).
      { rewrite W in L |- *. lra. }
      rewrite W in Up |- *. rewrite W in Lo. set (x := sin (8995359 * / 68719476736)) in *. clearbody x.
      assert (Ec : cexp radix2 (SpecFloat.fexp 24 128) x = (-36)%Z).
      { unfold cexp. rewrite (mag_unique radix2 x (-12)); [reflexivity|]. cbn. rewrite Rabs_pos_eq by lra. lra. }
      unfold round. rewrite Ec. unfold F2R, scaled_mantissa. rewrite Ec. cbn [Fnum Fexp round_mode].
      rewrite (Znearest_imp _ _ 8995359).
      - cbn. lra.
      - cbn. apply Rabs_def1; lra. }
    apply B2R_inj; [|reflexivity|exact E].
    rewrite w_R in E. destruct (n_sin O w_lit); try discriminate; [cbn in E; lra|reflexivity].
  Qed.

  Notation HP := (RbjQ HP_SR HP_F HP_Q).
  Lemma hp_coeffs : exists b0 b1 b2 a1 a2,
    rbj_coeffs O HighPass HP = Some (b0, b1, b2, a1, a2)
    /\ B2SF b0 = SpecFloat.S754_finite false 16775664 (-24)
    /\ B2SF b1 = SpecFloat.S754_finite true 16775664 (-23)
    /\ B2SF b2 = SpecFloat.S754_finite false 16775664 (-24)
    /\ B2SF a1 = SpecFloat.S754_finite true 16775664 (-23)
    /\ B2SF a2 = SpecFloat.S754_finite false 16774111 (-24).
  Proof.
    cbn [rbj_coeffs]. unfold highpass_coeffs. cbv zeta. rewrite cos_w, sin_w. unfold normalised.
    eexists _, _, _, _, _. split; [reflexivity|]. vm_compute. repeat split.
  Qed.

  (** ** A click, then silence *)
  Notation sf := SpecFloat.spec_float.
  Notation mul := (SpecFloat.SFmul 24 128).
  Notation add := (SpecFloat.SFadd 24 128).
  Notation sub := (SpecFloat.SFsub 24 128).
  Definition sB0 : sf := SpecFloat.S754_finite false 16775664 (-24).
  Definition sB1 : sf := SpecFloat.S754_finite true 16775664 (-23).
  Definition sA2 : sf := SpecFloat.S754_finite false 16774111 (-24).
  Definition s_step (x : sf) (z : sf * sf) : sf * sf :=
    let y := add (mul sB0 x) (fst z) in
    (sub (add (mul sB1 x) (snd z)) (mul sB1 y), sub (mul sB0 x) (mul sA2 y)).

  Definition like (s : biquad2 f32) (z : sf * sf) : Prop :=
    B2SF (b2_b0 s) = sB0 /\ B2SF (b2_b1 s) = sB1 /\ B2SF (b2_b2 s) = sB0 /\ B2SF (b2_a1 s) = sB1 /\ B2SF (b2_a2 s) = sA2
    /\ B2SF (b2_z1 s) = fst z /\ B2SF (b2_z2 s) = snd z.

  Lemma like_step s z x : like s z -> like (fst (rbj_process O HighPass s x)) (s_step (B2SF x) z).
  Proof.
    intros [H0 [H1 [H2 [H3 [H4 [H5 H6]]]]]]. unfold like, s_step.
    cbn [rbj_process biquad2_process fst snd b2_b0 b2_b1 b2_b2 b2_a1 b2_a2 b2_z1 b2_z2 n_add n_sub n_mul f32_ops ieee_ops].
    repeat first [rewrite sf_sub | rewrite sf_add | rewrite sf_mul]. rewrite H0, H1, H2, H3, H4, H5, H6. repeat split; assumption || reflexivity.
  Qed.
  Lemma like_out s z x : like s z -> B2SF (snd (rbj_process O HighPass s x)) = add (mul sB0 (B2SF x)) (fst z).
  Proof.
    intros [H0 [H1 [H2 [H3 [H4 [H5 H6]]]]]].
    cbn [rbj_process biquad2_process fst snd n_add n_mul f32_ops ieee_ops]. rewrite sf_add, sf_mul, H0, H5. reflexivity.
  Qed.

  Notation sZ := (SpecFloat.S754_zero false).
  Notation sOne := (SpecFloat.S754_finite false 8388608 (-23)).
  Definition s_run (n : N) : sf * sf := N.iter n (s_step sZ) (s_step sOne (sZ, sZ)).

  Lemma like_fed n : like (fed (dev_rbj O HighPass) (after (dev_rbj O HighPass) [CSet HP]) (click O) (S n)) (s_run (N.of_nat n)).
  Proof.
    unfold s_run. induction n as [|n IH].
    - cbn [N.of_nat N.iter fed]. change (d_process (dev_rbj O HighPass)) with (rbj_process O HighPass).
      replace sOne with (B2SF (click O 0)) by (vm_compute; reflexivity). apply like_step.
      destruct hp_coeffs as [b0 [b1 [b2 [a1 [a2 [E [E0 [E1 [E2 [E3 E4]]]]]]]]]].
      unfold after. cbn [d_run d_step fst dev_rbj d_set d_new]. unfold rbj_set_coefficients. rewrite E.
      unfold like. cbn. repeat split; assumption.
    - rewrite Nat2N.inj_succ, N.iter_succ.
      change (fed (dev_rbj O HighPass) (after (dev_rbj O HighPass) [CSet HP]) (click O) (S (S n)))
        with (fst (rbj_process O HighPass (fed (dev_rbj O HighPass) (after (dev_rbj O HighPass) [CSet HP]) (click O) (S n)) (click O (S n)))).
      change sZ with (B2SF (click O (S n))) at 1. apply like_step. exact IH.
  Qed.

  Lemma click_out n z : s_run n = z -> B2SF (stream (dev_rbj O HighPass) HP (click O) (S (N.to_nat n))) = add (mul sB0 sZ) (fst z).
  Proof.
    intros <-. unfold stream. change (d_process (dev_rbj O HighPass)) with (rbj_process O HighPass).
    rewrite (like_out _ (s_run n)); [reflexivity|].
    assert (G := like_fed (N.to_nat n)). rewrite N2Nat.id in G. exact G.
  Qed.
End Coeffs.

Lemma run_loud : (fst (s_run 95999)) = SpecFloat.S754_finite false 9583834 (-14).
Proof. vm_cast_no_check (eq_refl (SpecFloat.S754_finite false 9583834 (-14))). Qed.

(** Facts stated with variables, so that no tactic looks into the long run. *)
Lemma feedback_eq {A : Type} (x0 x1 x2 x3 x4 y0 y1 y2 y3 y4 : A) :
  Some (x0, x1, x2, x3, x4) = Some (y0, y1, y2, y3, y4) -> x3 = y3 /\ x4 = y4.
Proof. intros H. injection H. auto. Qed.
Lemma sf_finite (Y : f32) s m e : B2SF Y = SpecFloat.S754_finite s m e -> is_finite Y = true.
Proof. destruct Y; intros H; (discriminate H || reflexivity). Qed.
Lemma sf_loud (Y : f32) z : B2SF Y = SpecFloat.SFadd 24 128 (SpecFloat.SFmul 24 128 sB0 (SpecFloat.S754_zero false)) z ->
  z = SpecFloat.S754_finite false 9583834 (-14) -> B2SF Y = SpecFloat.S754_finite false 9583834 (-14).
Proof. intros H ->. rewrite H. vm_compute. reflexivity. Qed.
