(** A mathematical library that is correctly rounded wherever the result does not
    overflow: it shows that the assumptions some theorems make about the library
    can be met.  (Not computable; it lives in the reals.  At infinities the power is a
    placeholder.) *)
From Coq Require Import ZArith Reals Bool Lra Lia.
From Flocq Require Import Core.Core IEEE754.BinarySingleNaN.
From Verif Require Import Base Num NumF FloatFacts.
Open Scope R_scope.

Section Cr.
  Context (prec emax : Z) {Hp : Prec_gt_0 prec} {Hm : Prec_lt_emax prec emax}.
  Notation F := (binary_float prec emax).
  Notation fexp := (SpecFloat.fexp prec emax).
  Notation RN := (round radix2 fexp (round_mode mode_NE)).

  (** The float nearest to a real. *)
  Definition R2F (r : R) : F :=
    binary_normalize prec emax Hp Hm mode_NE (ZnearestE (scaled_mantissa radix2 fexp r)) (cexp radix2 fexp r) false.

  Lemma R2F_ok r : Rabs (RN r) < bpow radix2 emax -> is_finite (R2F r) = true /\ B2R (R2F r) = RN r.
  Proof.
    intros H.
    assert (G := binary_normalize_correct prec emax Hp Hm mode_NE (ZnearestE (scaled_mantissa radix2 fexp r)) (cexp radix2 fexp r) false).
    cbn zeta in G. change (F2R (Float radix2 (ZnearestE (scaled_mantissa radix2 fexp r)) (cexp radix2 fexp r))) with (RN r) in G.
    rewrite (RN_id prec emax (RN r) (RN_format prec emax r)) in G. rewrite Rlt_bool_true in G by exact H.
    unfold R2F. tauto.
  Qed.

  Definition lift1 (f : R -> R) (x : F) : F :=
    match x with B754_nan => B754_nan | B754_infinity _ => B754_nan | _ => R2F (f (B2R x)) end.

  Definition cr_exp (x : F) : F :=
    match x with
    | B754_nan => B754_nan
    | B754_infinity true => B754_zero false
    | B754_infinity false => B754_infinity false
    | _ => R2F (exp (B2R x))
    end.

  Definition cr_libm : libm F := {|
    m_sin := lift1 sin;
    m_cos := lift1 cos;
    m_exp := cr_exp;
    m_log10 := fun x => match x with
      | B754_zero _ => B754_infinity true
      | B754_finite false _ _ _ => R2F (ln (B2R x) / ln 10)
      | B754_infinity false => B754_infinity false
      | _ => B754_nan end;
    m_powf := fun x y => match x, y with
      | B754_finite false _ _ _, (B754_zero _ | B754_finite _ _ _ _) => R2F (Rpower (B2R x) (B2R y))
      | _, _ => B754_nan end
  |}.
End Cr.
