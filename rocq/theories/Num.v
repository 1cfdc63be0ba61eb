(** The numeric operations rasp uses on its sample type [T].

    rasp is generic in [T: num::traits::Float (+ FloatConst)]
    (/repo/src/traits.rs:6-29 and the [use num::traits::Float] of every file).
    [num_ops T] lists exactly the operations the library calls on [T]; every
    model function takes it as a parameter. *)
From Coq Require Import ZArith.

(** Compile-time [f64] constants that the code converts with
    [num::cast(..).unwrap()].  [F64lit n d] is the decimal literal n/d (rounded to
    [f64] by the compiler), the other two are the constant arithmetic of
    /repo/src/window/blackman.rs:7. *)
Inductive f64_const :=
| F64lit (n : Z) (d : positive)
| F64sub (a b : f64_const)
| F64div (a b : f64_const).

Record num_ops (T : Type) := NumOps {
  (* num::zero(), num::one() / T::one(); FloatConst::two, FloatConst::pi
     (/repo/src/traits.rs:6-29) *)
  n_zero : T;
  n_one : T;
  n_two : T;
  n_pi : T;
  (* + - * / and unary minus *)
  n_add : T -> T -> T;
  n_sub : T -> T -> T;
  n_mul : T -> T -> T;
  n_div : T -> T -> T;
  n_neg : T -> T;
  (* Float methods *)
  n_abs : T -> T;
  n_sqrt : T -> T;
  n_sin : T -> T;
  n_cos : T -> T;
  n_exp : T -> T;
  n_log10 : T -> T;
  n_powf : T -> T -> T;
  n_is_finite : T -> bool;
  n_is_sign_negative : T -> bool;
  (* a < b and a <= b; a > b is b < a, a >= b is b <= a *)
  n_lt : T -> T -> bool;
  n_le : T -> T -> bool;
  (* num::cast::<usize, T>(n).unwrap() *)
  n_of_usize : Z -> T;
  (* num::cast::<f64, T>(c).unwrap() *)
  n_of_f64 : f64_const -> T;
  (* std::mem::size_of::<T>() *)
  n_size_of : Z
}.

Arguments n_zero {T} _.
Arguments n_one {T} _.
Arguments n_two {T} _.
Arguments n_pi {T} _.
Arguments n_add {T} _ _ _.
Arguments n_sub {T} _ _ _.
Arguments n_mul {T} _ _ _.
Arguments n_div {T} _ _ _.
Arguments n_neg {T} _ _.
Arguments n_abs {T} _ _.
Arguments n_sqrt {T} _ _.
Arguments n_sin {T} _ _.
Arguments n_cos {T} _ _.
Arguments n_exp {T} _ _.
Arguments n_log10 {T} _ _.
Arguments n_powf {T} _ _ _.
Arguments n_is_finite {T} _ _.
Arguments n_is_sign_negative {T} _ _.
Arguments n_lt {T} _ _ _.
Arguments n_le {T} _ _ _.
Arguments n_of_usize {T} _ _.
Arguments n_of_f64 {T} _ _.
Arguments n_size_of {T} _.

(** The operations on the [f32] control values of [LinearDelay]
    (/repo/src/delay/linear_delay.rs:46-113): [C] stands for [f32].
    [c_to_usize] is [x as usize], [c_of_usize] is [n as f32], [c_cast] is
    [num::cast::<f32, T>(x).unwrap()]. *)
Record ctl_ops (C T : Type) := CtlOps {
  c_zero : C;
  c_lt : C -> C -> bool;
  c_sub : C -> C -> C;
  c_add : C -> C -> C;
  c_of_usize : Z -> C;
  c_to_usize : C -> Z;
  c_cast : C -> T
}.
Arguments c_zero {C T} _.
Arguments c_lt {C T} _ _ _.
Arguments c_sub {C T} _ _ _.
Arguments c_add {C T} _ _ _.
Arguments c_of_usize {C T} _ _.
Arguments c_to_usize {C T} _ _.
Arguments c_cast {C T} _ _.
