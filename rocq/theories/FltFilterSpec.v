(** Filters in floating point against the exact difference equation: vocabulary
    of C81. *)
From Coq Require Import ZArith Reals List.
From Flocq Require Import Core.Core.
From Verif Require Import Num NumR FilterM RbjM Device Signal FloatSpec.
Import ListNotations.
Open Scope R_scope.

Section Stream.
  Context {S K T : Type} (D : device S K T).

  (** State after processing the first [n] samples of [x] from state [s]. *)
  Fixpoint fed (s : S) (x : nat -> T) (n : nat) : S :=
    match n with
    | O => s
    | Datatypes.S n' => fst (d_process D (fed s x n') (x n'))
    end.

  (** What a new object configured with [k] returns for sample [n] of [x]. *)
  Definition stream (k : K) (x : nat -> T) (n : nat) : T :=
    snd (d_process D (fed (after D [CSet k]) x n) (x n)).
End Stream.

(** [has_coeffs O D k c]: after its setter was called with [k], filter [D] works
    with the coefficients [c = (b0, b1, b2, a1, a2)] (for the RBJ filters: those
    that the setter computed). *)
Inductive has_coeffs {T : Type} (O : num_ops T)
  : forall {S K : Type}, device S K T -> K -> (T * T * T * T * T)%type -> Prop :=
| hc_one_pole b0 a1 : has_coeffs O (dev_one_pole O) (b0, a1) (b0, n_zero O, n_zero O, a1, n_zero O)
| hc_one_zero b0 b1 : has_coeffs O (dev_one_zero O) (b0, b1) (b0, b1, n_zero O, n_zero O, n_zero O)
| hc_two_pole b0 a1 a2 : has_coeffs O (dev_two_pole O) (b0, a1, a2) (b0, n_zero O, n_zero O, a1, a2)
| hc_two_zero b0 b1 b2 : has_coeffs O (dev_two_zero O) (b0, b1, b2) (b0, b1, b2, n_zero O, n_zero O)
| hc_biquad1 c : has_coeffs O (dev_biquad1 O) c c
| hc_biquad2 c : has_coeffs O (dev_biquad2 O) c c
| hc_rbj kind a c : rbj_coeffs O kind a = Some c -> has_coeffs O (dev_rbj O kind) a c.

(** [G] bounds the gain of the exact feedback with coefficients [a1], [a2]:
    y[n] = x[n] - a1 y[n-1] - a2 y[n-2] has |y| <= G M whenever |x| <= M. *)
Definition peak_gain (a1 a2 G : R) : Prop :=
  forall (x y : signal) (M : R), obeys (1, 0, 0, a1, a2) x y ->
    (forall n, Rabs (x n) <= M) -> forall n, Rabs (y n) <= G * M.

(** The five coefficients as numbers. *)
Definition vals {T : Type} (V : float_view T) (c : T * T * T * T * T) : R * R * R * R * R :=
  let '(b0, b1, b2, a1, a2) := c in (val V b0, val V b1, val V b2, val V a1, val V a2).

Definition all_finite {T : Type} (V : float_view T) (c : T * T * T * T * T) : Prop :=
  let '(b0, b1, b2, a1, a2) := c in
  fin V b0 = true /\ fin V b1 = true /\ fin V b2 = true /\ fin V a1 = true /\ fin V a2 = true.
