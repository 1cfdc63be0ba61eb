(** Concrete instances used in the [Example]s that show the hypotheses of the
    property theorems to be satisfiable.  The transcendental functions of [lm0]
    are placeholders; no example below depends on their values unless it says
    so. *)
From Coq Require Import ZArith List.
From Flocq Require Import IEEE754.BinarySingleNaN.
From Verif Require Import Base Num NumF.

Definition lm0 {F : Type} : libm F :=
  {| m_sin := fun x => x; m_cos := fun x => x; m_exp := fun x => x;
     m_log10 := fun x => x; m_powf := fun x _ => x |}.

Definition O32 : num_ops f32 := f32_ops lm0 false.
Definition O64 : num_ops f64 := f64_ops lm0 false.

(** Float literals: [fl32 m e] = m * 2^e. *)
Definition fl32 (m e : Z) : f32 := binary_normalize 24 128 eq_refl eq_refl mode_NE m e false.
Definition fl64 (m e : Z) : f64 := binary_normalize 53 1024 eq_refl eq_refl mode_NE m e false.
