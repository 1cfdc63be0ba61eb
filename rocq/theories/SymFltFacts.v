(** Powers of two in front of a rounded product and quotient (property C104). *)
From Coq Require Import ZArith Reals Bool Lra Lia.
From Flocq Require Import Core.Core IEEE754.BinarySingleNaN.
From Verif Require Import Base Num NumF FloatSpec FloatFacts.
Open Scope R_scope.

Section SF.
  Context (prec emax : Z) {Hp : Prec_gt_0 prec} {Hm : Prec_lt_emax prec emax}.
  Notation F := (binary_float prec emax).
  Notation fexp := (SpecFloat.fexp prec emax).
  Notation RN := (round radix2 fexp (round_mode mode_NE)).
  Notation tiny := (bpow radix2 (2 - emax)).

  Lemma flx_scale x k : x <> 0 ->
    round radix2 (FLX_exp prec) ZnearestE (x * bpow radix2 k) = round radix2 (FLX_exp prec) ZnearestE x * bpow radix2 k.
  Proof.
    intros Hx. unfold round, scaled_mantissa, cexp, FLX_exp. rewrite mag_mult_bpow by exact Hx.
    replace (x * bpow radix2 k * bpow radix2 (- (mag radix2 x + k - prec))) with (x * bpow radix2 (- (mag radix2 x - prec))).
    2:{ rewrite Rmult_assoc, <- bpow_plus. do 2 f_equal. lia. }
    unfold F2R; cbn [Fnum Fexp]. rewrite Rmult_assoc, <- bpow_plus. do 2 f_equal. lia.
  Qed.

  Lemma rn_scale x k : tiny <= Rabs x -> tiny <= Rabs (x * bpow radix2 k) ->
    RN (x * bpow radix2 k) = RN x * bpow radix2 k.
  Proof.
    intros H1 H2. change fexp with (FLT_exp (SpecFloat.emin prec emax) prec). cbn [round_mode].
    assert (E : (SpecFloat.emin prec emax + prec - 1 = 2 - emax)%Z) by (unfold SpecFloat.emin; lia).
    rewrite !round_FLT_FLX by (rewrite E; assumption). apply flx_scale.
    intros ->. rewrite Rabs_R0 in H1. assert (0 < tiny) by apply bpow_gt_0. lra.
  Qed.

  Lemma div_same (x y x' y' : F) : is_finite x = true -> is_finite x' = true -> B2R y <> 0 -> B2R y' <> 0 ->
    B2R x / B2R y = B2R x' / B2R y' -> Bsign x = Bsign x' -> Bsign y = Bsign y' ->
    f_div prec emax x y = f_div prec emax x' y'.
  Proof.
    intros Fx Fx' Hy Hy' E Sx Sy.
    assert (G := Bdiv_correct prec emax Hp Hm mode_NE x y Hy).
    assert (G' := Bdiv_correct prec emax Hp Hm mode_NE x' y' Hy'). rewrite <- E in G'. unfold f_div.
    destruct (Rlt_bool _ _) in G, G'.
    - destruct G as [G1 [G2 G3]]. destruct G' as [G1' [G2' G3']]. rewrite Fx in G2. rewrite Fx' in G2'.
      apply B2R_Bsign_inj; [assumption..|congruence|].
      rewrite G3, G3' by (match goal with |- is_nan ?v = _ => destruct v; (discriminate || reflexivity) end). congruence.
    - apply B2SF_inj. rewrite G, G'. congruence.
  Qed.

  Lemma sign_pos (x : F) : B2R x <> 0 -> Bsign x = Rlt_bool (B2R x) 0.
  Proof.
    intros H. destruct x as [s|s| |s m e He]; try (exfalso; apply H; reflexivity).
    cbn [Bsign B2R]. destruct s; cbn [cond_Zopp].
    - rewrite Rlt_bool_true; [reflexivity|]. apply F2R_lt_0. reflexivity.
    - rewrite Rlt_bool_false; [reflexivity|]. apply F2R_ge_0. discriminate.
  Qed.

  Lemma sign_scale (x x' : F) k : B2R x <> 0 -> B2R x' = B2R x * bpow radix2 k -> Bsign x = Bsign x'.
  Proof.
    intros H E. assert (K : 0 < bpow radix2 k) by apply bpow_gt_0.
    assert (H' : B2R x' <> 0) by (rewrite E; apply Rmult_integral_contrapositive_currified; lra).
    rewrite !sign_pos by assumption. rewrite E. destruct (Rlt_bool_spec (B2R x) 0).
    - symmetry. apply Rlt_bool_true. nra.
    - symmetry. apply Rlt_bool_false. nra.
  Qed.

  Lemma angle_scale (tp sr f sr' f' : F) k :
    is_finite tp = true -> 1 <= B2R tp <= 8 ->
    is_finite f = true -> is_finite f' = true -> is_finite sr = true -> is_finite sr' = true ->
    B2R sr <> 0 -> B2R sr' = B2R sr * bpow radix2 k -> B2R f' = B2R f * bpow radix2 k ->
    tiny <= Rabs (B2R f) -> tiny <= Rabs (B2R f') ->
    Rabs (B2R f) <= bpow radix2 (emax - 4) -> Rabs (B2R f') <= bpow radix2 (emax - 4) ->
    f_div prec emax (f_mul prec emax tp f') sr' = f_div prec emax (f_mul prec emax tp f) sr.
  Proof.
    intros Ft Bt Ff Ff' Fs Fs' Hs Es Ef L L' U U'.
    assert (K : 0 < bpow radix2 k) by apply bpow_gt_0. assert (Tn : 0 < tiny) by apply bpow_gt_0.
    assert (Hpp := Hp). unfold Prec_gt_0 in Hpp. assert (Hmm := Hm). unfold Prec_lt_emax in Hmm.
    assert (M : forall g : F, is_finite g = true -> Rabs (B2R g) <= bpow radix2 (emax - 4) ->
        is_finite (f_mul prec emax tp g) = true /\ B2R (f_mul prec emax tp g) = RN (B2R tp * B2R g)).
    { intros g Fg Ug. apply (mul_ok prec emax tp g (bpow radix2 (emax - 1))); try assumption.
      - apply format_bpow; [exact Hp|]. unfold SpecFloat.emin. lia.
      - apply bpow_lt. lia.
      - rewrite Rabs_mult, (Rabs_pos_eq (B2R tp)) by lra.
        replace (emax - 1)%Z with (3 + (emax - 4))%Z by lia. rewrite bpow_plus. change (bpow radix2 3) with 8.
        apply Rmult_le_compat; try apply Rabs_pos; lra. }
    destruct (M f Ff U) as [M1 M2]. destruct (M f' Ff' U') as [M1' M2'].
    assert (N : forall g : R, tiny <= Rabs g -> tiny <= Rabs (B2R tp * g)).
    { intros g Hg. rewrite Rabs_mult, (Rabs_pos_eq (B2R tp)) by lra. nra. }
    assert (Z : RN (B2R tp * B2R f) <> 0).
    { assert (Q := N _ L). intros Z. assert (tiny <= Rabs (RN (B2R tp * B2R f))).
      { apply abs_round_ge_generic; try apply valid_rnd_round_mode; try apply fexp_correct; try assumption.
        apply format_bpow; [exact Hp|]. unfold SpecFloat.emin. lia. }
      rewrite Z, Rabs_R0 in H. lra. }
    assert (E : B2R (f_mul prec emax tp f') = B2R (f_mul prec emax tp f) * bpow radix2 k).
    { rewrite M2, M2', Ef, <- Rmult_assoc. apply rn_scale; [apply N, L|].
      rewrite Rmult_assoc, <- Ef. apply N, L'. }
    symmetry. apply div_same; try assumption.
    - rewrite Es. apply Rmult_integral_contrapositive_currified; lra.
    - rewrite E, Es. field. split; [lra|exact Hs].
    - apply (sign_scale _ _ k); [rewrite M2; exact Z|exact E].
    - apply (sign_scale _ _ k); [exact Hs|exact Es].
  Qed.
End SF.
