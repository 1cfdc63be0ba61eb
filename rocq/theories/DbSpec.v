(** Vocabulary of C92: the level conversions in floating point. *)
From Coq Require Import ZArith Reals.
From Flocq Require Import Core.Core.
From Verif Require Import Num FloatSpec.
Open Scope R_scope.

(** The level of an amplitude in dB, and the amplitude of a level. *)
Definition decibels (x : R) : R := 20 * (ln x / ln 10).
Definition amplitude (d : R) : R := Rpower 10 (d / 20).

Section Libm.
  Context {T : Type} (O : num_ops T) (V : float_view T).

  (** Half a unit in the last place of 1, and of the smallest normal number. *)
  Definition unit_off : R := bpow radix2 (- fprec V).
  Definition tiny_off : R := unit_off * fmin V.

  (** [log10] of positive numbers is off by at most 2^(1-p) of its value, where p is the
      number of bits of the type (and by what is lost where results are subnormal). *)
  Definition log10_close : Prop :=
    forall x, fin V x = true -> 0 < val V x ->
      fin V (n_log10 O x) = true
      /\ Rabs (val V (n_log10 O x) - ln (val V x) / ln 10) <= bpow radix2 (1 - fprec V) * Rabs (ln (val V x) / ln 10) + tiny_off.

  (** [log10] is correctly rounded. *)
  Definition log10_rounded : Prop :=
    forall x, fin V x = true -> 0 < val V x ->
      fin V (n_log10 O x) = true /\ val V (n_log10 O x) = rnd V (ln (val V x) / ln 10).

  (** [10.powf(y)] is off by at most 2^(1-p) of its value, where the value is a normal
      number of the type. *)
  Definition pow10_close : Prop :=
    forall ten y, fin V ten = true -> val V ten = 10 -> fin V y = true ->
      fmin V <= Rpower 10 (val V y) <= fmax V ->
      fin V (n_powf O ten y) = true
      /\ Rabs (val V (n_powf O ten y) - Rpower 10 (val V y)) <= bpow radix2 (1 - fprec V) * Rpower 10 (val V y).
End Libm.
