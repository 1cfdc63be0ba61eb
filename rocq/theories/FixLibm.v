(** A computable [f32] math library, used only by [RepoTests] to run the
    repository's own tests on the model.  No theorem depends on it: everywhere
    else the math library is universally quantified.

    Every function works in fixed point with 60 fraction bits and rounds the
    result to [f32]: good to a few units in the 50th bit in the argument ranges
    the tests use. *)
From Coq Require Import ZArith.
From Flocq Require Import Core.Core IEEE754.BinarySingleNaN.
From Verif Require Import NumF.
Open Scope Z_scope.

Definition fx_one : Z := 1152921504606846976.          (* 2^60 *)
Definition fx_ln2 : Z := 799144290325165978.           (* floor (2^60 ln 2) *)
Definition fx_ln10 : Z := 2654699869899991813.         (* floor (2^60 ln 10) *)
Definition fx_2pi : Z := 7244019458077122842.          (* floor (2^60 2 pi) *)
Definition fx_pi : Z := 3622009729038561421.           (* floor (2^60 pi) *)

Definition fx_mul (a b : Z) : Z := Z.shiftr (a * b) 60.

(** [x * 2^60], rounded down; 0 for infinities and NaN. *)
Definition fx_of (x : f32) : Z :=
  match x with
  | B754_finite s m e _ => Z.shiftl (cond_Zopp s (Zpos m)) (e + 60)
  | _ => 0
  end.

(** [z * 2^(e - 60)] rounded to [f32]. *)
Definition fx_to (z e : Z) : f32 := binary_normalize 24 128 eq_refl eq_refl mode_NE z (e - 60) false.

(** [term + term x/k + term x^2/(k (k+1)) + ...], [n] terms. *)
Fixpoint fx_exp_series (n : nat) (k term x : Z) : Z :=
  match n with
  | 0%nat => 0
  | S n' => term + fx_exp_series n' (k + 1) (fx_mul term x / k) x
  end.

(** [e^(x 2^-60)]: [x = j ln 2 + r]. *)
Definition fx_exp (x : Z) : f32 :=
  let j := (x + fx_ln2 / 2) / fx_ln2 in
  fx_to (fx_exp_series 20 1 fx_one (x - j * fx_ln2)) j.

(** [term - term x2/(k (k+1)) + ...], [n] terms. *)
Fixpoint fx_trig_series (n : nat) (k term x2 : Z) : Z :=
  match n with
  | 0%nat => 0
  | S n' => term - fx_trig_series n' (k + 2) (fx_mul term x2 / (k * (k + 1))) x2
  end.

(** The argument reduced to [-pi, pi]. *)
Definition fx_red (x : Z) : Z := (x + fx_pi) mod fx_2pi - fx_pi.
Definition fx_sin (x : Z) : f32 :=
  let r := fx_red x in fx_to (fx_trig_series 16 2 r (fx_mul r r)) 0.
Definition fx_cos (x : Z) : f32 :=
  let r := fx_red x in fx_to (fx_trig_series 16 1 fx_one (fx_mul r r)) 0.

(** [z/k + z^3/(k+2) + ...] with [zk] the current power. *)
Fixpoint fx_atanh_series (n : nat) (k zk z2 : Z) : Z :=
  match n with
  | 0%nat => 0
  | S n' => zk / k + fx_atanh_series n' (k + 2) (fx_mul zk z2) z2
  end.

(** [2^60 ln x] for a positive finite [x = m 2^e]: [m] scaled into [1, 2). *)
Definition fx_ln (x : f32) : Z :=
  match x with
  | B754_finite false m e _ =>
      let d := Z.log2 (Zpos m) in
      let t := Z.shiftl (Zpos m) (60 - d) in
      let z := Z.shiftl (t - fx_one) 60 / (t + fx_one) in
      2 * fx_atanh_series 22 1 z (fx_mul z z) + (d + e) * fx_ln2
  | _ => 0
  end.

Definition fix_libm : libm f32 := {|
  m_sin := fun x => fx_sin (fx_of x);
  m_cos := fun x => fx_cos (fx_of x);
  m_exp := fun x => fx_exp (fx_of x);
  m_log10 := fun x => fx_to (Z.shiftl (fx_ln x) 60 / fx_ln10) 0;
  m_powf := fun x y => fx_exp (fx_mul (fx_ln x) (fx_of y))
|}.
