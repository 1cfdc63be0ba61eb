(** Vocabulary of C122: signals scaled by powers of two. *)
From Coq Require Import ZArith Reals List Bool.
From Flocq Require Import Core.Core.
From Verif Require Import Num NumF FloatSpec Signal Device FltFilterSpec.
Open Scope R_scope.

Section Scale.
  Context {T : Type} (V : float_view T).

  (** [x'] is the signal [x] times 2^e; all samples are finite. *)
  Definition louder (e : Z) (x x' : nat -> T) : Prop :=
    forall n, fin V (x n) = true /\ fin V (x' n) = true /\ val V (x' n) = val V (x n) * bpow radix2 e.

  (** [r] is zero or not below [m] in magnitude. *)
  Definition zero_or (m r : R) : Prop := r = 0 \/ m <= Rabs r.

  (** None of the five products in the difference equation falls among the subnormal numbers. *)
  Definition normal_terms (c : R * R * R * R * R) (x y : signal) (n : nat) : Prop :=
    let '(b0, b1, b2, a1, a2) := c in
    zero_or (fmin V) (b0 * x n) /\ zero_or (fmin V) (b1 * back 1 x n) /\ zero_or (fmin V) (b2 * back 2 x n)
    /\ zero_or (fmin V) (a1 * back 1 y n) /\ zero_or (fmin V) (a2 * back 2 y n).
End Scale.

(** What an object in state [s] returns for sample [n] of [x]. *)
Definition reading {S K T : Type} (D : device S K T) (s : S) (x : nat -> T) (n : nat) : T :=
  snd (d_process D (fed D s x n) (x n)).
