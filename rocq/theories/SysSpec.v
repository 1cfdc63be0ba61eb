(** Filters as systems: vocabulary of C82-C84 and of the converse of C34. *)
From Coq Require Import Reals List Arith.
From Verif Require Import Num NumR FilterM RbjM Device Signal.
Import ListNotations.
Open Scope R_scope.

(** 1, 0, 0, ... *)
Definition impulse : signal := fun n => match n with O => 1 | _ => 0 end.

(** (h * x)[n] = h[0] x[n] + h[1] x[n-1] + ... + h[n] x[0]. *)
Definition convolve (h x : signal) : signal :=
  fun n => sum_f_R0 (fun k => h k * x (n - k)%nat) n.

Definition bounded (x : signal) : Prop := exists M, forall n, Rabs (x n) <= M.

(** What a new filter with coefficients [k] makes of [x]. *)
Definition response {S K : Type} (D : device S K R) (k : K) (x : signal) : signal :=
  out D (configured D k) x.

(** [swept D k]: a filter with feedback coefficients that can be changed while it
    runs; [k a1 a2] are the settings with these feedback coefficients and unit
    input gain. *)
Inductive swept : forall {S K : Type}, device S K R -> (R -> R -> K) -> Prop :=
| swept_two_pole : swept (dev_two_pole R_ops) (fun a1 a2 => (1, a1, a2))
| swept_biquad1 : swept (dev_biquad1 R_ops) (fun a1 a2 => (1, 0, 0, a1, a2))
| swept_biquad2 : swept (dev_biquad2 R_ops) (fun a1 a2 => (1, 0, 0, a1, a2)).

(** [n] rounds of: choose [k], process a zero, choose [k'], process a zero. *)
Fixpoint alternate {K : Type} (k k' : K) (n : nat) : list (call K R) :=
  match n with
  | O => []
  | S n' => [CSet k; CProcess 0; CSet k'; CProcess 0] ++ alternate k k' n'
  end.
