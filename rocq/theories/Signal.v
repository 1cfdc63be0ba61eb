(** Signals and responses, in exact arithmetic: the vocabulary of the filter
    properties. *)
From Coq Require Import Reals List Arith.
From Coquelicot Require Import Coquelicot.
From Verif Require Import Num NumR FilterM RbjM Device.
Import ListNotations.
Open Scope R_scope.

(** A signal: sample [n] for every [n >= 0]. *)
Definition signal := nat -> R.

(** [x] delayed by [j] samples, zero before the start. *)
Definition back (j : nat) (x : signal) : signal :=
  fun n => if (j <=? n)%nat then x (n - j)%nat else 0.

(** The documented second-order difference equation
    y[n] = b0 x[n] + b1 x[n-1] + b2 x[n-2] - a1 y[n-1] - a2 y[n-2]. *)
Definition obeys (c : R * R * R * R * R) (x y : signal) : Prop :=
  let '(b0, b1, b2, a1, a2) := c in
  forall n, y n = b0 * x n + b1 * back 1 x n + b2 * back 2 x n
                  - a1 * back 1 y n - a2 * back 2 y n.

Section Response.
  Context {S K : Type} (D : device S K R).

  (** State after processing the first [n] samples of [x] from state [s]. *)
  Fixpoint state_at (s : S) (x : signal) (n : nat) : S :=
    match n with
    | O => s
    | Datatypes.S n' => fst (d_process D (state_at s x n') (x n'))
    end.

  (** The signal that [process] returns when fed [x] from state [s]. *)
  Definition out (s : S) (x : signal) : signal :=
    fun n => snd (d_process D (state_at s x n) (x n)).

  (** A new object with coefficients [k]. *)
  Definition configured (k : K) : S := after D [CSet k].
End Response.

(** The stability triangle: all poles strictly inside the unit circle. *)
Definition stable (a1 a2 : R) : Prop := Rabs a2 < 1 /\ Rabs a1 < 1 + a2.

(** [y] approaches [z]. *)
Definition approaches (y z : signal) : Prop := is_lim_seq (fun n => y n - z n) 0.

(** A sinusoid of amplitude [A], [w] radians per sample, phase [phi].
    [w = 0] is a constant, [w = PI] the alternating (Nyquist) signal. *)
Definition sinusoid (A w phi : R) : signal := fun n => A * cos (INR n * w + phi).

(** Fed a sinusoid of [w] radians per sample, of any amplitude and phase, the
    output approaches the same sinusoid with amplitude times [g] and phase plus
    [theta]. *)
Definition passes {S K} (D : device S K R) (s : S) (w g theta : R) : Prop :=
  forall A phi, approaches (out D s (sinusoid A w phi)) (sinusoid (g * A) w (phi + theta)).

(** ** The filters and their difference equations *)

(** [filter_eq D k c]: the documentation of filter [D] promises the equation
    with coefficients [c = (b0, b1, b2, a1, a2)] after its setter was called with
    [k]. *)
Inductive filter_eq : forall {S K : Type}, device S K R -> K -> (R * R * R * R * R)%type -> Prop :=
| fe_one_pole b0 a1 : filter_eq (dev_one_pole R_ops) (b0, a1) (b0, 0, 0, a1, 0)
| fe_one_zero b0 b1 : filter_eq (dev_one_zero R_ops) (b0, b1) (b0, b1, 0, 0, 0)
| fe_two_pole b0 a1 a2 : filter_eq (dev_two_pole R_ops) (b0, a1, a2) (b0, 0, 0, a1, a2)
| fe_two_zero b0 b1 b2 : filter_eq (dev_two_zero R_ops) (b0, b1, b2) (b0, b1, b2, 0, 0)
| fe_biquad1 c : filter_eq (dev_biquad1 R_ops) c c
| fe_biquad2 c : filter_eq (dev_biquad2 R_ops) c c
| fe_rbj kind a c : rbj_coeffs R_ops kind a = Some c -> filter_eq (dev_rbj R_ops kind) a c.

(** Calls other than the coefficient setter. *)
Definition no_set {K T} (cs : list (call K T)) : Prop := List.Forall (fun c => is_set c = false) cs.
