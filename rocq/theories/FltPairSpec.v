(** Vocabulary of property C146: RBJ filters with the same settings side by side, their outputs
    added or taken away in floating point. *)
From Coq Require Import ZArith Reals List.
From Verif Require Import Num FloatSpec RbjM Device FltFilterSpec FltChainSpec.
Import ListNotations.
Open Scope R_scope.

Section Pair.
  Context {T : Type} (O : num_ops T) (V : float_view T).

  (** What a new filter with these settings returns. *)
  Definition branch (kind : rbj_kind) (args : rbj_args T) (x : nat -> T) : nat -> T := stream (dev_rbj O kind) args x.

  (** Two filters side by side; three; and the input without what a filter returns. *)
  Definition both (k k' : rbj_kind) (args : rbj_args T) (x : nat -> T) (n : nat) : T :=
    n_add O (branch k args x n) (branch k' args x n).
  Definition three (k k' k'' : rbj_kind) (args : rbj_args T) (x : nat -> T) (n : nat) : T :=
    n_add O (both k k' args x n) (branch k'' args x n).
  Definition without (kind : rbj_kind) (args : rbj_args T) (x : nat -> T) (n : nat) : T :=
    n_sub O (x n) (branch kind args x n).

  (** The input mixed with what a filter returns. *)
  Definition mixed (kind : rbj_kind) (args : rbj_args T) (x : nat -> T) (n : nat) : T :=
    n_add O (x n) (branch kind args x n).

  (** How loud a filter can be for an input up to [M], its rounding errors included. *)
  Definition branch_level (r : rated T) (M : R) : R := r_H r * M + stage_error V r M.

  (** [r] rates the filter [kind] with these settings, which are in range and leave head room. *)
  Definition rates (r : rated T) (kind : rbj_kind) (args : rbj_args T) (M : R) : Prop :=
    r_set r = (kind, args) /\ rated_ok V r /\ 256 * (M + r_H r * M) <= fmax V.
End Pair.
