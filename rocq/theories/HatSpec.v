(** The triangle of linear interpolation (spec of property C15 for [LinearDelay]). *)
From Coq Require Import Reals.

(** The triangle of height 1 and width 2 around 0. *)
Definition hat (z : R) : R := Rmax 0 (1 - Rabs z).
