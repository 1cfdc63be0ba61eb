(** Exact real arithmetic instance of [num_ops]: the ideal semantics.

    Division by zero, square roots of negative numbers, logarithms and powers of
    non-positive numbers have arbitrary values in Coq's reals; theorems about
    this instance carry the guards that keep the code away from them. *)
From Coq Require Import Reals ZArith Bool.
From Flocq Require Import Core.Raux.
From Verif Require Import Base Num.

Fixpoint f64_const_R (c : f64_const) : R :=
  match c with
  | F64lit n d => IZR n / IZR (Zpos d)
  | F64sub a b => f64_const_R a - f64_const_R b
  | F64div a b => f64_const_R a / f64_const_R b
  end%R.

Definition Rltb (x y : R) : bool := if Rlt_dec x y then true else false.
Definition Rleb (x y : R) : bool := if Rle_dec x y then true else false.

Definition R_ops : num_ops R := {|
  n_zero := 0%R;
  n_one := 1%R;
  n_two := 2%R;
  n_pi := PI;
  n_add := Rplus;
  n_sub := Rminus;
  n_mul := Rmult;
  n_div := Rdiv;
  n_neg := Ropp;
  n_abs := Rabs;
  n_sqrt := sqrt;
  n_sin := sin;
  n_cos := cos;
  n_exp := exp;
  n_log10 := fun x => (ln x / ln 10)%R;
  n_powf := Rpower;
  n_is_finite := fun _ => true;
  n_is_sign_negative := fun x => Rltb x 0;
  n_lt := Rltb;
  n_le := Rleb;
  n_of_usize := IZR;
  n_of_f64 := f64_const_R;
  n_size_of := 8
|}.

(** Exact control arithmetic for [LinearDelay]: [as usize] of a real truncates
    and saturates. *)
Definition R_to_usize (x : R) : Z :=
  Z.min usize_max (Z.max 0 (Ztrunc x)).

Definition R_ctl : ctl_ops R R := {|
  c_zero := 0%R;
  c_lt := Rltb;
  c_sub := Rminus;
  c_add := Rplus;
  c_of_usize := IZR;
  c_to_usize := R_to_usize;
  c_cast := fun x => x
|}.
