(** IEEE arithmetic and signs: facts for C103. *)
From Coq Require Import ZArith Reals List Bool Lra Lia.
From Flocq Require Import Core.Core IEEE754.BinarySingleNaN.
From Verif Require Import Base Num NumF FloatSpec FloatFacts PoisonLemmas.
Import ListNotations.
Open Scope R_scope.

Section Sim.
  Context (prec emax : Z) {Hp : Prec_gt_0 prec} {Hm : Prec_lt_emax prec emax}.
  Notation F := (binary_float prec emax).
  Notation RN := (round radix2 (SpecFloat.fexp prec emax) (round_mode mode_NE)).
  Notation fadd := (f_add prec emax).
  Notation fsub := (f_sub prec emax).
  Notation fmul := (f_mul prec emax).
  Notation isz := (is_zero prec emax).

  Definition turn (fl : bool) (x : F) : F := if fl then Bopp x else x.
  Definition sim (fl : bool) (x y : F) : Prop := y = turn fl x \/ isz x /\ isz y.

  Lemma isz_opp x : isz x -> isz (Bopp x).
  Proof. intros [s ->]. eexists; reflexivity. Qed.
  Lemma sim_opp fl x y : sim fl x y -> sim fl (Bopp x) (Bopp y).
  Proof.
    intros [->|[A B]]; [left; destruct fl; reflexivity|right; split; apply isz_opp; assumption].
  Qed.
  Lemma sim_zero fl x y : isz x -> isz y -> sim fl x y.
  Proof. intros; right; split; assumption. Qed.
  Lemma sim_isz fl x y : sim fl x y -> isz x -> isz y.
  Proof. intros [->|[A B]] H; [destruct fl; [apply isz_opp|]; exact H|exact B]. Qed.
  Lemma sim_isz' fl x y : sim fl x y -> isz y -> isz x.
  Proof.
    intros [->|[A B]] H; [|exact A]. destruct fl; [|exact H]. cbn in H.
    rewrite <- (Bopp_involutive prec emax x). apply isz_opp. exact H.
  Qed.

  Lemma opp_finite_zero (x y : F) : is_finite x = true -> is_finite y = true -> B2R y = - B2R x ->
    y = Bopp x \/ isz x /\ isz y.
  Proof.
    intros Fx Fy E. destruct (Req_dec (B2R x) 0) as [Z|N].
    - right. split; apply (zero_form prec emax); split; auto. rewrite E, Z; lra.
    - left. apply B2R_inj.
      + destruct y as [s|s| |s m e He]; try discriminate; [exfalso; cbn in E; lra|reflexivity].
      + destruct x as [s|s| |s m e He]; try discriminate; [exfalso; cbn in N; lra|reflexivity].
      + rewrite B2R_Bopp. exact E.
  Qed.

  Lemma SF_over (z : F) s : B2SF z = binary_overflow prec emax mode_NE s -> z = B754_infinity s.
  Proof. intros H. destruct z; cbn in H; unfold binary_overflow in H; cbn in H; congruence. Qed.

  Lemma add_opp x y : fadd (Bopp x) (Bopp y) = Bopp (fadd x y) \/ isz (fadd x y) /\ isz (fadd (Bopp x) (Bopp y)).
  Proof.
    destruct (is_finite x) eqn:Fx; [destruct (is_finite y) eqn:Fy|].
    - assert (H := Bplus_correct prec emax Hp Hm mode_NE x y Fx Fy).
      assert (H' := Bplus_correct prec emax Hp Hm mode_NE (Bopp x) (Bopp y)).
      rewrite !is_finite_Bopp in H'. specialize (H' Fx Fy). rewrite !B2R_Bopp in H'.
      replace (- B2R x + - B2R y) with (- (B2R x + B2R y)) in H' by ring.
      rewrite (RN_opp prec emax), Rabs_Ropp in H'. unfold f_add.
      destruct (Rlt_bool (Rabs (RN (B2R x + B2R y))) (bpow radix2 emax)).
      + destruct H as (A & B & _). destruct H' as (A' & B' & _).
        destruct (opp_finite_zero _ _ B B') as [E|[Z Z']]; [rewrite A, A'; reflexivity|left; exact E|right; split; assumption].
      + destruct H as (A & B). destruct H' as (A' & B').
        left. apply SF_over in A. apply SF_over in A'. rewrite A, A'.
        destruct x; try discriminate; reflexivity.
    - left. destruct y as [s|s| |s m e He]; try discriminate;
        destruct x as [t|t| |t m' e' He']; try discriminate; reflexivity.
    - left. unfold f_add. destruct x as [s|s| |s m e He]; try discriminate; destruct y as [t|t| |t m' e' He']; try reflexivity.
      cbn. destruct s, t; reflexivity.
  Qed.

  Lemma mul_opp c x : fmul c (Bopp x) = Bopp (fmul c x) \/ isz (fmul c x) /\ isz (fmul c (Bopp x)).
  Proof.
    assert (H := Bmult_correct prec emax Hp Hm mode_NE c x).
    assert (H' := Bmult_correct prec emax Hp Hm mode_NE c (Bopp x)).
    rewrite B2R_Bopp in H'. replace (B2R c * - B2R x) with (- (B2R c * B2R x)) in H' by ring.
    rewrite (RN_opp prec emax), Rabs_Ropp in H'. unfold f_mul.
    destruct (is_finite c && is_finite x) eqn:Fcx.
    - apply andb_prop in Fcx. destruct Fcx as [Fc Fx].
      destruct (Rlt_bool (Rabs (RN (B2R c * B2R x))) (bpow radix2 emax)).
      + destruct H as (A & B & _). destruct H' as (A' & B' & _). 
        rewrite is_finite_Bopp in B'. rewrite Fc, Fx in B'.
        destruct (opp_finite_zero _ _ B B') as [E|[Z Z']]; [rewrite A, A'; reflexivity|left; exact E|right; split; assumption].
      + left. apply SF_over in H. apply SF_over in H'. rewrite H, H'. rewrite Bsign_Bopp.
        * cbn. f_equal. destruct (Bsign c), (Bsign x); reflexivity.
        * destruct x; try discriminate; reflexivity.
    - left. destruct c as [t|t| |t m' e' He']; destruct x as [s|s| |s m e He]; try discriminate; try reflexivity;
        cbn; f_equal; destruct t, s; reflexivity.
  Qed.

  Lemma add_zero_l z y : isz z -> fadd z y = y \/ isz y /\ isz (fadd z y).
  Proof.
    intros [s ->]. destruct y as [t|t| |t m e He]; try (left; reflexivity).
    right. split; [eexists; reflexivity|]. apply zero_add; eexists; reflexivity.
  Qed.
  Lemma add_zero_r z y : isz z -> fadd y z = y \/ isz y /\ isz (fadd y z).
  Proof.
    intros [s ->]. destruct y as [t|t| |t m e He]; try (left; reflexivity).
    right. split; [eexists; reflexivity|]. apply zero_add; eexists; reflexivity.
  Qed.

  Lemma sim_add fl x x' y y' : sim fl x x' -> sim fl y y' -> sim fl (fadd x y) (fadd x' y').
  Proof.
    intros Hx Hy. destruct Hx as [->|[Zx Zx']].
    - destruct Hy as [->|[Zy Zy']].
      + destruct fl; [|left; reflexivity]. cbn. destruct (add_opp x y) as [E|[A B]]; [left; exact E|right; split; assumption].
      + destruct (add_zero_r y x Zy) as [E|[A B]].
        * destruct (add_zero_r y' (turn fl x) Zy') as [E'|[A' B']]; [rewrite E, E'; left; reflexivity|].
          right. rewrite E. split; [|exact B']. apply (sim_isz' fl x (turn fl x)); [left; reflexivity|exact A'].
        * right. split; [exact B|]. apply zero_add; [|exact Zy'].
          apply (sim_isz fl x); [left; reflexivity|exact A].
    - destruct (add_zero_l x y Zx) as [E|[A B]].
      + destruct (add_zero_l x' y' Zx') as [E'|[A' B']]; [rewrite E, E'; exact Hy|].
        right. rewrite E. split; [|exact B']. apply (sim_isz' fl y y'); assumption.
      + right. split; [exact B|]. apply zero_add; [exact Zx'|]. apply (sim_isz fl y); assumption.
  Qed.

  Lemma sim_sub fl x x' y y' : sim fl x x' -> sim fl y y' -> sim fl (fsub x y) (fsub x' y').
  Proof.
    assert (E : forall a b : F, fsub a b = fadd a (Bopp b)).
    { intros a b. destruct a as [s|s| |s m e He], b as [t|t| |t m' e' He']; reflexivity. }
    intros Hx Hy. rewrite !E. apply sim_add; [exact Hx|apply sim_opp; exact Hy].
  Qed.

  Lemma sim_mul fl c x x' : sim fl x x' -> sim fl (fmul c x) (fmul c x').
  Proof.
    intros [->|[[s ->] [s' ->]]].
    - destruct fl; [|left; reflexivity]. cbn. destruct (mul_opp c x) as [E|[A B]]; [left; exact E|right; split; assumption].
    - destruct c as [t|t| |t m e He]; try (right; split; eexists; reflexivity); left; destruct fl; reflexivity.
  Qed.

  Lemma sim_mul_r fl c x x' : sim fl x x' -> sim fl (fmul x c) (fmul x' c).
  Proof.
    assert (C : forall a b : F, fmul a b = fmul b a).
    { intros a b. destruct a as [s|s| |s m e He], b as [t|t| |t m' e' He'];
        try reflexivity; try (destruct s, t; reflexivity).
      apply B2SF_inj. unfold f_mul, Bmult. rewrite !B2SF_SF2B.
      rewrite (xorb_comm s t), (Pos.mul_comm m m'), (Z.add_comm e e'). reflexivity. }
    intros H. rewrite !(C _ c). apply sim_mul. exact H.
  Qed.

  Lemma sim_refl x : sim false x x.
  Proof. left; reflexivity. Qed.

  (** ** Comparisons, magnitude, square, root: for [sim false] *)
  Lemma sim_abs x y : sim false x y -> sim false (Babs x) (Babs y).
  Proof. intros [->|[[s ->] [t ->]]]; [left; reflexivity|right; split; eexists; reflexivity]. Qed.
  Lemma sim_sq x y : sim false x y -> sim false (fmul x x) (fmul y y).
  Proof.
    intros [->|[[s ->] [t ->]]]; [left; reflexivity|right; split; eexists; reflexivity].
  Qed.
  Lemma sim_sqrt x y : sim false x y -> sim false (f_sqrt prec emax x) (f_sqrt prec emax y).
  Proof. intros [->|[[s ->] [t ->]]]; [left; reflexivity|right; split; eexists; reflexivity]. Qed.
  Lemma sim_lt x x' y y' : sim false x x' -> sim false y y' -> Bltb x y = Bltb x' y'.
  Proof.
    intros [->|[[s ->] [t ->]]] [->|[[s' ->] [t' ->]]]; try reflexivity; cbn [turn].
  Qed.
End Sim.
