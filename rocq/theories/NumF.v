(** IEEE-754 binary floating-point instances of [num_ops], round to nearest
    even, built on Flocq's [BinarySingleNaN] (one NaN, no payload).

    [libm F] stands for the functions whose results IEEE-754 does not fix; it
    is universally quantified in all theorems. *)
From Coq Require Import ZArith Reals Bool.
From Flocq Require Import Core.Core IEEE754.BinarySingleNaN.
From Verif Require Import Base Num.

Record libm (F : Type) := Libm {
  m_sin : F -> F;
  m_cos : F -> F;
  m_exp : F -> F;
  m_log10 : F -> F;
  m_powf : F -> F -> F
}.
Arguments m_sin {F}.
Arguments m_cos {F}.
Arguments m_exp {F}.
Arguments m_log10 {F}.
Arguments m_powf {F}.

#[global] Instance Hprec32 : Prec_gt_0 24 := eq_refl.
#[global] Instance Hmax32 : Prec_lt_emax 24 128 := eq_refl.
#[global] Instance Hprec64 : Prec_gt_0 53 := eq_refl.
#[global] Instance Hmax64 : Prec_lt_emax 53 1024 := eq_refl.

(** The Rust types [f32] and [f64]. *)
Notation f32 := (binary_float 24 128).
Notation f64 := (binary_float 53 1024).

Section Generic.
  Context (prec emax : Z) {Hp : Prec_gt_0 prec} {Hm : Prec_lt_emax prec emax}.
  Notation F := (binary_float prec emax).

  (** [n as f32] / [n as f64] for an integer [n]: nearest even. *)
  Definition f_of_Z (n : Z) : F := binary_normalize prec emax Hp Hm mode_NE n 0 false.

  (** [x as usize]: truncation toward zero, saturating, NaN to 0 (Rust >= 1.45;
      earlier compilers left out-of-range values undefined). *)
  Definition f_to_usize (x : F) : Z :=
    match x with
    | B754_nan => 0
    | B754_infinity s => if s then 0 else usize_max
    | _ => Z.min usize_max (Z.max 0 (Btrunc x))
    end.

  Definition f_add : F -> F -> F := Bplus mode_NE.
  Definition f_sub : F -> F -> F := Bminus mode_NE.
  Definition f_mul : F -> F -> F := Bmult mode_NE.
  Definition f_div : F -> F -> F := Bdiv mode_NE.
  Definition f_sqrt : F -> F := Bsqrt mode_NE.

  (** [is_sign_negative]: the sign bit.  [nan_neg] is the (unspecified) sign
      bit of NaN. *)
  Definition f_is_sign_negative (nan_neg : bool) (x : F) : bool :=
    match x with
    | B754_nan => nan_neg
    | _ => Bsign x
    end.
End Generic.

(** Conversion between formats, [x as f32] / [x as f64]. *)
Definition f_conv (p1 e1 p2 e2 : Z) {Hp : Prec_gt_0 p2} {Hm : Prec_lt_emax p2 e2}
  (x : binary_float p1 e1) : binary_float p2 e2 :=
  match x with
  | B754_zero s => B754_zero s
  | B754_infinity s => B754_infinity s
  | B754_nan => B754_nan
  | B754_finite s m e _ =>
      binary_normalize p2 e2 Hp Hm mode_NE (cond_Zopp s (Zpos m)) e s
  end.

(** Value of a compile-time [f64] constant.  A decimal literal n/d is
    correctly rounded; here n and d are small enough to be exact in [f64], so
    one correctly rounded division gives the same result. *)
Fixpoint f64_const_f64 (c : f64_const) : f64 :=
  match c with
  | F64lit n d => f_div 53 1024 (f_of_Z 53 1024 n) (f_of_Z 53 1024 (Zpos d))
  | F64sub a b => f_sub 53 1024 (f64_const_f64 a) (f64_const_f64 b)
  | F64div a b => f_div 53 1024 (f64_const_f64 a) (f64_const_f64 b)
  end.

Section Ops.
  Context (prec emax : Z) {Hp : Prec_gt_0 prec} {Hm : Prec_lt_emax prec emax}.
  Notation F := (binary_float prec emax).

  (** [pi_m * 2^pi_e] is the constant [PI] of the type, [size] its size in bytes. *)
  Definition ieee_ops (pi_m pi_e size : Z) (lm : libm F) (nan_neg : bool) : num_ops F := {|
    n_zero := B754_zero false;
    n_one := f_of_Z prec emax 1;
    n_two := f_of_Z prec emax 2;
    n_pi := binary_normalize prec emax Hp Hm mode_NE pi_m pi_e false;
    n_add := f_add prec emax;
    n_sub := f_sub prec emax;
    n_mul := f_mul prec emax;
    n_div := f_div prec emax;
    n_neg := Bopp;
    n_abs := Babs;
    n_sqrt := f_sqrt prec emax;
    n_sin := m_sin lm;
    n_cos := m_cos lm;
    n_exp := m_exp lm;
    n_log10 := m_log10 lm;
    n_powf := m_powf lm;
    n_is_finite := is_finite;
    n_is_sign_negative := f_is_sign_negative prec emax nan_neg;
    n_lt := Bltb;
    n_le := Bleb;
    n_of_usize := f_of_Z prec emax;
    n_of_f64 := fun c => f_conv 53 1024 prec emax (f64_const_f64 c);
    n_size_of := size
  |}.
End Ops.

(** [std::f32::consts::PI] = 0x40490FDB, [std::f64::consts::PI] =
    0x400921FB54442D18 (/repo/src/traits.rs:11-29). *)
Definition f32_ops : libm f32 -> bool -> num_ops f32 := ieee_ops 24 128 13176795 (-22) 4.
Definition f64_ops : libm f64 -> bool -> num_ops f64 := ieee_ops 53 1024 7074237752028440 (-51) 8.

(** [f32] control arithmetic of [LinearDelay<f32>] and [LinearDelay<f64>]. *)
Definition f32_ctl_gen {T} (cast : f32 -> T) : ctl_ops f32 T := {|
  c_zero := B754_zero false;
  c_lt := Bltb;
  c_sub := f_sub 24 128;
  c_add := f_add 24 128;
  c_of_usize := f_of_Z 24 128;
  c_to_usize := f_to_usize 24 128;
  c_cast := cast
|}.
Definition f32_ctl_f32 : ctl_ops f32 f32 := f32_ctl_gen (fun x => x).
Definition f32_ctl_f64 : ctl_ops f32 f64 := f32_ctl_gen (f_conv 24 128 53 1024).
