(** Facts about the IEEE operations of [NumF], for any precision. *)
From Coq Require Import ZArith Reals Bool Lra Lia Psatz.
From Flocq Require Import Core.Core IEEE754.BinarySingleNaN.
From Verif Require Import Base Num NumF.
Open Scope R_scope.

Section FF.
  Context (prec emax : Z) {Hp : Prec_gt_0 prec} {Hm : Prec_lt_emax prec emax}.
  Notation F := (binary_float prec emax).
  Notation fexp := (SpecFloat.fexp prec emax).
  Notation RN := (round radix2 fexp (round_mode mode_NE)).
  Notation fadd := (f_add prec emax).
  Notation fsub := (f_sub prec emax).
  Notation fmul := (f_mul prec emax).
  Notation fone := (f_of_Z prec emax 1).

  Lemma one_lt_emax : bpow radix2 0 < bpow radix2 emax.
  Proof. apply bpow_lt. unfold Prec_lt_emax, Prec_gt_0 in *. lia. Qed.

  Lemma format_F2R_1 : generic_format radix2 fexp 1.
  Proof.
    change 1 with (bpow radix2 0). apply generic_format_bpow.
    unfold SpecFloat.fexp, SpecFloat.emin, Prec_lt_emax, Prec_gt_0 in *. lia.
  Qed.

  Lemma fone_correct : B2R fone = 1 /\ is_finite fone = true /\ Bsign fone = false.
  Proof.
    unfold f_of_Z.
    assert (H := binary_normalize_correct prec emax Hp Hm mode_NE 1 0 false). cbn zeta in H.
    assert (E : F2R (Float radix2 1 0) = 1) by (unfold F2R; cbn; lra).
    rewrite E in H. rewrite round_generic in H; [|apply valid_rnd_round_mode|apply format_F2R_1].
    rewrite Rabs_R1 in H. rewrite Rlt_bool_true in H by exact one_lt_emax.
    destruct H as [H1 [H2 H3]]. split; [exact H1|]. split; [exact H2|].
    rewrite H3. rewrite Rcompare_Gt by lra. reflexivity.
  Qed.

  (** Same finite value (signed zeros are the same value). *)
  Definition same_value (x y : F) : Prop :=
    is_finite x = true /\ is_finite y = true /\ B2R x = B2R y.

  Lemma sv_refl x : is_finite x = true -> same_value x x.
  Proof. repeat split; auto. Qed.
  Lemma sv_trans x y z : same_value x y -> same_value y z -> same_value x z.
  Proof. intros [A [B C]] [D [E G]]. repeat split; auto. congruence. Qed.
  Lemma sv_sym x y : same_value x y -> same_value y x.
  Proof. intros [A [B C]]. repeat split; auto. Qed.

  Lemma mul_one x : is_finite x = true -> same_value (fmul fone x) x.
  Proof.
    intros Hx. destruct fone_correct as [H1 [H2 H3]].
    assert (H := Bmult_correct prec emax Hp Hm mode_NE fone x).
    rewrite H1, Rmult_1_l in H.
    rewrite round_generic in H; [|apply valid_rnd_round_mode|apply generic_format_B2R].
    rewrite Rlt_bool_true in H by apply abs_B2R_lt_emax.
    destruct H as [Ha [Hb _]]. unfold f_mul. repeat split; auto.
    rewrite Hb, H2, Hx. reflexivity.
  Qed.

  Definition is_zero (x : F) : Prop := exists s, x = B754_zero s.

  Lemma is_zero_finite x : is_zero x -> is_finite x = true /\ B2R x = 0.
  Proof. intros [s ->]. split; reflexivity. Qed.

  Lemma mul_zero z x : is_zero z -> is_finite x = true -> is_zero (fmul z x).
  Proof. intros [s ->] Hx. destruct x; try discriminate; eexists; reflexivity. Qed.

  Lemma zero_add z w : is_zero z -> is_zero w -> is_zero (fadd z w).
  Proof.
    intros [s ->] [t ->]. unfold f_add. cbn. destruct (Bool.eqb s t); eexists; reflexivity.
  Qed.
  Lemma zero_sub z w : is_zero z -> is_zero w -> is_zero (fsub z w).
  Proof.
    intros [s ->] [t ->]. unfold f_sub, Bminus. cbn. destruct (Bool.eqb s (negb t)); eexists; reflexivity.
  Qed.
  Lemma add_zero x z : is_finite x = true -> is_zero z -> same_value (fadd x z) x.
  Proof.
    intros Hx [s ->]. destruct x; try discriminate; unfold f_add; cbn.
    - destruct (Bool.eqb s0 s); repeat split; reflexivity.
    - repeat split; reflexivity.
  Qed.
  Lemma sub_zero x z : is_finite x = true -> is_zero z -> same_value (fsub x z) x.
  Proof.
    intros Hx [s ->]. destruct x; try discriminate; unfold f_sub, Bminus; cbn.
    - destruct (Bool.eqb s0 (negb s)); repeat split; reflexivity.
    - repeat split; reflexivity.
  Qed.

  (** ** Infinities and NaN *)
  Lemma zero_mul_inf z s : is_zero z -> fmul z (B754_infinity s) = B754_nan.
  Proof. intros [t ->]. reflexivity. Qed.
  Lemma mul_nan x : fmul x B754_nan = B754_nan.
  Proof. destruct x; reflexivity. Qed.
  Lemma sub_nan x : fsub x B754_nan = B754_nan.
  Proof. destruct x; reflexivity. Qed.
  Lemma add_nan x : fadd x B754_nan = B754_nan.
  Proof. destruct x; reflexivity. Qed.
  Lemma nan_sub x : fsub B754_nan x = B754_nan.
  Proof. destruct x; reflexivity. Qed.
  Lemma nan_add x : fadd B754_nan x = B754_nan.
  Proof. destruct x; reflexivity. Qed.
  Lemma nan_mul x : fmul B754_nan x = B754_nan.
  Proof. destruct x; reflexivity. Qed.
  Lemma one_mul_inf s : fmul fone (B754_infinity s) = B754_infinity s.
  Proof.
    destruct fone_correct as [H1 [H2 H3]]. unfold f_mul.
    destruct fone; try discriminate; cbn in *.
    - lra.
    - subst s0. destruct s; reflexivity.
  Qed.
  Lemma inf_add_fin s x : is_finite x = true -> fadd (B754_infinity s) x = B754_infinity s.
  Proof. destruct x; try discriminate; reflexivity. Qed.
  Lemma inf_sub_fin s x : is_finite x = true -> fsub (B754_infinity s) x = B754_infinity s.
  Proof. destruct x; try discriminate; reflexivity. Qed.

  (** ** Rounding *)
  #[local] Instance vexp : Valid_exp fexp := fexp_correct prec emax Hp.
  #[local] Instance vrnd : Valid_rnd (round_mode mode_NE) := valid_rnd_round_mode mode_NE.

  Lemma RN_le x y : x <= y -> RN x <= RN y.
  Proof. apply round_le; typeclasses eauto. Qed.

  Lemma RN_id x : generic_format radix2 fexp x -> RN x = x.
  Proof. intros H. apply round_generic; [typeclasses eauto|exact H]. Qed.

  Lemma RN_B2R (x : F) : RN (B2R x) = B2R x.
  Proof. apply RN_id, generic_format_B2R. Qed.

  Lemma RN_0 : RN 0 = 0.
  Proof. apply round_0; typeclasses eauto. Qed.

  Lemma RN_format x : generic_format radix2 fexp (RN x).
  Proof. apply generic_format_round; typeclasses eauto. Qed.

  Lemma RN_opp x : RN (- x) = - RN x.
  Proof. cbn [round_mode]. apply round_NE_opp. Qed.

  Lemma RN_abs_le x m : generic_format radix2 fexp m -> Rabs x <= m -> Rabs (RN x) <= m.
  Proof. intros Hf H. apply abs_round_le_generic; auto; typeclasses eauto. Qed.

  Lemma format_bpow e : (SpecFloat.emin prec emax <= e)%Z -> generic_format radix2 fexp (bpow radix2 e).
  Proof.
    intros H. apply generic_format_bpow. unfold SpecFloat.fexp, SpecFloat.emin in *.
    unfold Prec_gt_0 in *. lia.
  Qed.

  (** Integers up to 2^prec are exact. *)
  Lemma format_IZR n : (Z.abs n <= 2 ^ prec)%Z -> generic_format radix2 fexp (IZR n).
  Proof.
    intros H.
    assert (He : (SpecFloat.emin prec emax <= 0)%Z)
      by (unfold SpecFloat.emin, Prec_lt_emax, Prec_gt_0 in *; lia).
    assert (Hp' : (0 < prec)%Z) by exact Hp.
    destruct (Z.eq_dec (Z.abs n) (2 ^ prec)) as [E|E].
    - assert (G : generic_format radix2 fexp (IZR (2 ^ prec))).
      { replace (IZR (2 ^ prec)) with (bpow radix2 prec).
        - apply format_bpow. lia.
        - rewrite <- IZR_Zpower by lia. reflexivity. }
      destruct (Z.abs_eq_or_opp n) as [A|A]; rewrite A in E.
      + rewrite E. exact G.
      + replace n with (- (2 ^ prec))%Z by lia. rewrite opp_IZR. apply generic_format_opp. exact G.
    - replace (IZR n) with (F2R (Float radix2 n 0)) by (unfold F2R; cbn; ring).
      apply generic_format_F2R. intros Hn. cbn [Fnum Fexp].
      unfold cexp, SpecFloat.fexp.
      assert (Hmag : (mag radix2 (F2R (Float radix2 n 0)) <= prec)%Z).
      { apply mag_le_bpow.
        - unfold F2R; cbn. rewrite Rmult_1_r. apply IZR_neq. exact Hn.
        - unfold F2R; cbn. rewrite Rmult_1_r, <- abs_IZR, <- IZR_Zpower by lia. apply IZR_lt.
          change (radix_val radix2) with 2%Z. lia. }
      lia.
  Qed.

  Lemma sub_ok (x y : F) m : is_finite x = true -> is_finite y = true ->
    generic_format radix2 fexp m -> m < bpow radix2 emax -> Rabs (B2R x - B2R y) <= m ->
    is_finite (fsub x y) = true /\ B2R (fsub x y) = RN (B2R x - B2R y).
  Proof.
    intros Hx Hy Hf Hlt H. assert (G := Bminus_correct prec emax Hp Hm mode_NE x y Hx Hy).
    rewrite Rlt_bool_true in G; [unfold f_sub; tauto|].
    apply Rle_lt_trans with m; [|exact Hlt]. apply RN_abs_le; assumption.
  Qed.

  Lemma add_ok (x y : F) m : is_finite x = true -> is_finite y = true ->
    generic_format radix2 fexp m -> m < bpow radix2 emax -> Rabs (B2R x + B2R y) <= m ->
    is_finite (fadd x y) = true /\ B2R (fadd x y) = RN (B2R x + B2R y).
  Proof.
    intros Hx Hy Hf Hlt H. assert (G := Bplus_correct prec emax Hp Hm mode_NE x y Hx Hy).
    rewrite Rlt_bool_true in G; [unfold f_add; tauto|].
    apply Rle_lt_trans with m; [|exact Hlt]. apply RN_abs_le; assumption.
  Qed.

  Lemma mul_ok (x y : F) m : is_finite x = true -> is_finite y = true ->
    generic_format radix2 fexp m -> m < bpow radix2 emax -> Rabs (B2R x * B2R y) <= m ->
    is_finite (fmul x y) = true /\ B2R (fmul x y) = RN (B2R x * B2R y).
  Proof.
    intros Hx Hy Hf Hlt H. assert (G := Bmult_correct prec emax Hp Hm mode_NE x y).
    rewrite Rlt_bool_true in G.
    - destruct G as [G1 [G2 _]]. unfold f_mul. rewrite G1, G2, Hx, Hy. split; reflexivity.
    - apply Rle_lt_trans with m; [|exact Hlt]. apply RN_abs_le; assumption.
  Qed.

  (** Integer conversion. *)
  Lemma of_Z_ok n m : generic_format radix2 fexp m -> m < bpow radix2 emax -> Rabs (IZR n) <= m ->
    is_finite (f_of_Z prec emax n) = true /\ B2R (f_of_Z prec emax n) = RN (IZR n).
  Proof.
    intros Hf Hlt H. assert (G := binary_normalize_correct prec emax Hp Hm mode_NE n 0 false).
    cbn zeta in G.
    assert (E : F2R (Float radix2 n 0) = IZR n) by (unfold F2R; cbn; ring). rewrite E in G.
    rewrite Rlt_bool_true in G; [unfold f_of_Z; tauto|].
    apply Rle_lt_trans with m; [|exact Hlt]. apply RN_abs_le; assumption.
  Qed.

  Lemma of_Z_exact n : (Z.abs n <= 2 ^ prec)%Z ->
    is_finite (f_of_Z prec emax n) = true /\ B2R (f_of_Z prec emax n) = IZR n.
  Proof.
    intros H. assert (Hp' : (0 < prec)%Z) by exact Hp.
    destruct (of_Z_ok n (bpow radix2 prec)) as [A B].
    - apply format_bpow. unfold SpecFloat.emin, Prec_lt_emax, Prec_gt_0 in *; lia.
    - apply bpow_lt. unfold Prec_lt_emax in *. lia.
    - rewrite <- abs_IZR, <- IZR_Zpower by lia. apply IZR_le. exact H.
    - split; [exact A|]. rewrite B. apply RN_id, format_IZR, H.
  Qed.
End FF.
