(** Vocabulary of C123: oscillators and spectrum meters made of a TwoPole. *)
From Coq Require Import ZArith Reals.
From Verif Require Import Num Signal.
Open Scope R_scope.

(** The first n+1 samples of [x] compared with a cosine and a sine of [w] radians per sample:
    the two parts of the discrete Fourier transform at that frequency. *)
Definition cos_part (w : R) (x : signal) (n : nat) : R := sum_f_R0 (fun k => x k * cos (INR k * w)) n.
Definition sin_part (w : R) (x : signal) (n : nat) : R := sum_f_R0 (fun k => x k * sin (INR k * w)) n.

(** The sample [a], then silence. *)
Definition struck {T : Type} (O : num_ops T) (a : T) (n : nat) : T :=
  match n with O => a | _ => n_zero O end.
