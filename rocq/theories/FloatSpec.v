(** [f32] and [f64] seen as numbers. *)
From Coq Require Import ZArith Reals Bool.
From Flocq Require Import Core.Core IEEE754.BinarySingleNaN.
From Verif Require Import Base Num NumF.
Open Scope R_scope.

(** How to read a float type [T] as numbers. *)
Record float_view (T : Type) := FloatView {
  val : T -> R;          (* the number a finite float denotes *)
  fin : T -> bool;       (* neither infinite nor NaN *)
  rnd : R -> R;          (* rounding to nearest, ties to even, as if the exponent were unbounded above *)
  fmax : R;              (* T::MAX *)
  fmin : R;              (* the smallest normal number, T::MIN_POSITIVE *)
  fprec : Z              (* bits of precision *)
}.
Arguments val {T}.
Arguments fin {T}.
Arguments rnd {T}.
Arguments fmax {T}.
Arguments fmin {T}.
Arguments fprec {T}.

Definition ieee_view (prec emax : Z) : float_view (binary_float prec emax) := {|
  val := B2R;
  fin := is_finite;
  rnd := round radix2 (SpecFloat.fexp prec emax) (round_mode mode_NE);
  fmax := (1 - bpow radix2 (- prec)) * bpow radix2 emax;
  fmin := bpow radix2 (2 - emax);
  fprec := prec
|}.

(** [ieee O V]: [O] is the arithmetic of [f32] or [f64] (any mathematical library,
    any sign of NaN) and [V] reads it as numbers. *)
Inductive ieee : forall {T : Type}, num_ops T -> float_view T -> Prop :=
| ieee_f32 lm b : ieee (f32_ops lm b) (ieee_view 24 128)
| ieee_f64 lm b : ieee (f64_ops lm b) (ieee_view 53 1024).
