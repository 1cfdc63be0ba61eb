(** Vocabulary of property C143: a Linkwitz-Riley crossover in floating point. *)
From Coq Require Import Reals List.
From Verif Require Import Num FloatSpec RbjM FltChainSpec.
Import ListNotations.
Open Scope R_scope.

Section Cross.
  Context {T : Type} (O : num_ops T) (V : float_view T).

  (** The two bands of [x], two filters in series each, and their sum. *)
  Definition low_band (args : rbj_args T) : (nat -> T) -> nat -> T := flt_chain O [(LowPass, args); (LowPass, args)].
  Definition high_band (args : rbj_args T) : (nat -> T) -> nat -> T := flt_chain O [(HighPass, args); (HighPass, args)].
  Definition recombined (args : rbj_args T) (x : nat -> T) (n : nat) : T := n_add O (low_band args x n) (high_band args x n).

  (** What rounding may change in the two bands, and how loud they can be together, for an input
      up to [M]; [lo] and [hi] are the ratings of the two filters. *)
  Definition cross_error (lo hi : rated T) (M : R) : R := chain_error V [lo; lo] M 0 + chain_error V [hi; hi] M 0.
  Definition cross_level (lo hi : rated T) (M : R) : R := (r_H lo * r_H lo + r_H hi * r_H hi) * M + cross_error lo hi M.
End Cross.
