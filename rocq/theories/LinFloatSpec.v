(** What the [f32] control arithmetic of [LinearDelay] computes, as numbers. *)
From Coq Require Import ZArith Reals Bool.
From Flocq Require Import Core.Core IEEE754.BinarySingleNaN.
From Verif Require Import Base Num NumF.
Open Scope R_scope.

(** Rounding to the nearest [f32] / [f64], ties to even. *)
Notation fexp32 := (SpecFloat.fexp 24 128).
Notation RN32 := (round radix2 fexp32 (round_mode mode_NE)).
Notation fexp64 := (SpecFloat.fexp 53 1024).
Notation RN64 := (round radix2 fexp64 (round_mode mode_NE)).

(** [d] clipped to [0, m]. *)
Definition clipR (d : R) (m : R) : R := Rmax 0 (Rmin d m).

(** An [f32] clipped to [0, m], as a number; infinities are clipped too. *)
Definition clip32 (d : f32) (m : R) : R :=
  match d with
  | B754_infinity false => m
  | B754_infinity true => 0
  | _ => clipR (B2R d) m
  end.

(** The position [w - c] taken modulo [len], with both operations rounded. *)
Definition pos32 (len w : Z) (c : R) : R :=
  let st := RN32 (IZR w - c) in
  if Rlt_bool st 0 then RN32 (st + IZR len) else st.

(** Its integer part, with [len] identified with 0. *)
Definition read32 (len w : Z) (c : R) : Z :=
  let r := Zfloor (pos32 len w c) in if (r =? len)%Z then 0%Z else r.

(** Number of samples from slot [r] to the write position [w]. *)
Definition lag32 (len w : Z) (c : R) : Z := ((w - read32 len w c) mod len)%Z.

(** [LinearDelay<f32>] and [LinearDelay<f64>] with their control arithmetic;
    [val] and [fin] are the numerical value of a sample and whether it has one,
    [rnd] the rounding of the sample type. *)
Inductive float_line : forall {T : Type},
  ctl_ops f32 T -> num_ops T -> (T -> R) -> (T -> bool) -> (R -> R) -> Prop :=
| fl_f32 lm b : float_line f32_ctl_f32 (f32_ops lm b) B2R is_finite RN32
| fl_f64 lm b : float_line f32_ctl_f64 (f64_ops lm b) B2R is_finite RN64.
