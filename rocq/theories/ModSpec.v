(** Vocabulary of property C108: a modulated delay line (vibrato, chorus, flanger).  The
    program changes the delay before every sample:

      for i in 0..n { line.set_delay(d(i)); output.push(line.process(x(i))); } *)
From Coq Require Import ZArith Reals List.
From Flocq Require Import Core.Raux.
From Verif Require Import Base DelaySpec LinRun.
Import ListNotations.

Section Modulated.
  Context {D T : Type}.

  (** The calls of the loop ... *)
  Definition modulated (d : nat -> D) (x : nat -> T) (n : nat) : list (dl_op D T) :=
    flat_map (fun i => [DSetDelay (d i); DProcess (x i)]) (seq 0 n).

  (** ... and what they return if the output is [y]. *)
  Definition heard (y : nat -> T) (n : nat) : list (obs D T) :=
    flat_map (fun i => [ONone; OSample (y i)]) (seq 0 n).
End Modulated.

Open Scope R_scope.

(** The signal [x] a time of [c] = k + f samples before sample [i], by linear interpolation
    between the samples k and k + 1 earlier; silence before the start. *)
Definition earlier (x : nat -> R) (c : R) (i : nat) : R :=
  let k := Z.to_nat (Zfloor c) in
  let f := c - IZR (Zfloor c) in
  (1 - f) * behind 0 x k i + f * behind 0 x (k + 1) i.

(** Steps of at most [L]: the signal starts from silence and moves by at most [L] per sample. *)
Definition steps_within (L : R) (x : nat -> R) : Prop :=
  Rabs (x 0%nat) <= L /\ forall i, Rabs (x (S i) - x i) <= L.
