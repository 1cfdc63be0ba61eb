(** Vocabulary of C91: the accuracy of the windows in floating point. *)
From Coq Require Import ZArith Reals.
From Flocq Require Import Core.Core.
From Verif Require Import Num FloatSpec WindowM.
Open Scope R_scope.

(** The cosine of angles up to 20 is off by at most 2^(1-p), where p is the number of
    bits of the type. *)
Definition cos_close {T} (O : num_ops T) (V : float_view T) : Prop :=
  forall x, fin V x = true -> Rabs (val V x) <= 20 ->
    fin V (n_cos O x) = true /\ Rabs (val V (n_cos O x) - cos (val V x)) <= bpow radix2 (1 - fprec V).

(** Units of 2^-p by which a window sample may be off. *)
Definition window_error (k : win_kind) : R :=
  match k with
  | WTriangular | WBartlett => 8
  | WHann => 20
  | WHamming => 22
  | WBlackman => 30
  | WBlackmanHarris => 40
  end.
