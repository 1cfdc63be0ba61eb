(** Vocabulary of property C134. *)
From Coq Require Import ZArith Reals.
From Flocq Require Import Core.Core.
From Verif Require Import LinRun.
Open Scope R_scope.

(** The value [d] samples before number [n] of [y], interpolated linearly between the two neighbouring samples, zero before the start:
    (1 - f) y[n - k] + f y[n - k - 1] for d = k + f. *)
Definition interpolated (d : R) (y : nat -> R) (n : nat) : R :=
  let k := Z.to_nat (Zfloor d) in
  let f := d - IZR (Zfloor d) in
  (1 - f) * behind 0 y k n + f * behind 0 y (S k) n.
