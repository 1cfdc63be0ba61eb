(** Vocabulary of C87-C89: the setters of the RBJ filters in floating point. *)
From Coq Require Import ZArith Reals.
From Flocq Require Import Core.Core.
From Verif Require Import Num FloatSpec.
Open Scope R_scope.

Section Libm.
  Context {T : Type} (O : num_ops T) (V : float_view T).

  (** [sin] and [cos] are correctly rounded. *)
  Definition trig_rounded : Prop :=
    forall x, fin V x = true ->
      (fin V (n_sin O x) = true /\ val V (n_sin O x) = rnd V (sin (val V x)))
      /\ (fin V (n_cos O x) = true /\ val V (n_cos O x) = rnd V (cos (val V x))).

  (** [sin] and [cos] of angles up to 4 are off by at most 2^(1-p), where p is the
      number of bits of the type, and do not leave [-1, 1]. *)
  Definition trig_close : Prop :=
    forall x, fin V x = true -> Rabs (val V x) <= 4 ->
      (fin V (n_sin O x) = true /\ Rabs (val V (n_sin O x) - sin (val V x)) <= bpow radix2 (1 - fprec V)
       /\ Rabs (val V (n_sin O x)) <= 1)
      /\ (fin V (n_cos O x) = true /\ Rabs (val V (n_cos O x) - cos (val V x)) <= bpow radix2 (1 - fprec V)
          /\ Rabs (val V (n_cos O x)) <= 1).

  (** [10.powf(y)] is correctly rounded where it does not overflow. *)
  Definition pow10_rounded : Prop :=
    forall ten y, fin V ten = true -> val V ten = 10 -> fin V y = true ->
      Rabs (rnd V (Rpower 10 (val V y))) <= fmax V ->
      fin V (n_powf O ten y) = true /\ val V (n_powf O ten y) = rnd V (Rpower 10 (val V y)).
End Libm.

(** Sample rates considered: 1 Hz to 2^50 Hz. *)
Definition usual_rate {T} (V : float_view T) (sr : T) : Prop :=
  fin V sr = true /\ 1 <= val V sr <= bpow radix2 50.

(** The fraction of the sample rate below which a frequency is lost in rounding:
    2^-15 for [f32] (1.3 Hz at 44100 Hz), 2^-30 for [f64]. *)
Definition lost {T} (V : float_view T) : R := bpow radix2 (- ((fprec V + 1) / 2) - 3).

(** A safe distance from zero and from half the sample rate: 2^-10 of the sample
    rate for [f32] (43 Hz at 44100 Hz), 2^-24 for [f64]. *)
Definition margin {T} (V : float_view T) : R := bpow radix2 (2 - fprec V / 2).
Definition safe_band {T} (V : float_view T) (sr f : T) : Prop :=
  usual_rate V sr /\ fin V f = true
  /\ margin V * val V sr <= val V f <= (1 / 2 - margin V) * val V sr.

(** A single sample of 1, then silence. *)
Definition click {T} (O : num_ops T) (n : nat) : T :=
  match n with 0%nat => n_one O | _ => n_zero O end.
