(** Vocabulary of the level-conversion properties. *)
From Coq Require Import ZArith Reals.
From Verif Require Import Base Num FloatSpec.
Open Scope R_scope.

(** The decimal logarithm of positive numbers is a number, on the right side of the
    whole numbers: it is right (or within its rounding) wherever a level is a multiple
    of 20 dB. *)
Definition log10_sound {T} (O : num_ops T) (V : float_view T) : Prop :=
  forall x, fin V x = true -> 0 < val V x ->
    fin V (n_log10 O x) = true
    /\ (forall k : Z, powerRZ 10 k <= val V x -> IZR k <= val V (n_log10 O x))
    /\ (forall k : Z, val V x <= powerRZ 10 k -> val V (n_log10 O x) <= IZR k).

(** Ten to a power that is negative or zero is a number in [0, 1]. *)
Definition pow10_sound {T} (O : num_ops T) (V : float_view T) : Prop :=
  forall ten y, fin V ten = true -> val V ten = 10 -> fin V y = true -> val V y <= 0 ->
    fin V (n_powf O ten y) = true /\ 0 <= val V (n_powf O ten y) <= 1.

(** [x] is the answer of the conversion. *)
Definition level {T} (V : float_view T) (r : outcome T) (v : R) : Prop :=
  exists y, r = Ok y /\ fin V y = true /\ val V y = v.
