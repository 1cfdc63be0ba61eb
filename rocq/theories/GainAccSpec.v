(** Vocabulary of C97: the RBJ filters with a gain in floating point. *)
From Coq Require Import ZArith Reals.
From Flocq Require Import Core.Core.
From Verif Require Import Num FloatSpec RbjM.
Open Scope R_scope.

(** The settings considered: for [Peak] a gain of up to 24 dB either way and a Q of 1/16
    to 256, for the shelves a gain of up to 12 dB and a slope of 1/4 to 1. *)
Definition gain_setting {T} (V : float_view T) (kind : rbj_kind) (g x : T) : Prop :=
  fin V g = true /\ fin V x = true
  /\ match kind with
     | Peak => Rabs (val V g) <= 24 /\ / 16 <= val V x <= 256
     | LowShelf | HighShelf => Rabs (val V g) <= 12 /\ / 4 <= val V x <= 1
     | _ => False
     end.

(** The error of their coefficients. *)
Definition gain_error {T} (V : float_view T) (kind : rbj_kind) (x : R) : R :=
  match kind with
  | Peak => (120 + 3800 / x) * bpow radix2 (- fprec V)
  | _ => 4600 * bpow radix2 (- fprec V)
  end.

(** A shelf slope so steep, for this gain, that no ideal filter exists: the quantity
    (A + 1/A) (1/S - 1) + 2 under the square root, with A = 10^(gain/40), is below
    -1/100. *)
Definition too_steep {T} (V : float_view T) (g x : T) : Prop :=
  fin V g = true /\ Rabs (val V g) <= 24 /\ fin V x = true /\ 1 <= val V x
  /\ (Rpower 10 (val V g / 40) + / Rpower 10 (val V g / 40)) * (/ val V x - 1) + 2 <= - / 100.
