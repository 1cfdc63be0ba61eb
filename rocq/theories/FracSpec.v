(** Vocabulary of property C128: Schroeder's all-pass section around a [LinearDelay], so that its delay
    need not be a whole number of samples:

      for x in input {
        let v = line.next_out();
        let w = x + g * v;
        line.process(w);
        output.push(v - g * w);
      } *)
From Coq Require Import ZArith Reals List.
From Verif Require Import Base Num NumR LinDelayM EchoSpec EqSpec LinRun.
Import ListNotations.

Section Frac.
  Context {C T : Type} (K : ctl_ops C T) (O : num_ops T) (p : profile) (g : T).

  Fixpoint lin_diffuse (line : lin_delay C T) (input : list T) : outcome (lin_delay C T * list T) :=
    match input with
    | [] => Ok (line, [])
    | x :: rest =>
        let* (line1, v) := lin_next_out O p line in
        let w := n_add O x (n_mul O g v) in
        let* (line2, _) := lin_process O p line1 w in
        let y := n_sub O v (n_mul O g w) in
        let* (line3, ys) := lin_diffuse line2 rest in
        Ok (line3, y :: ys)
    end.

  (** On [LinearDelay::new(d, m)]. *)
  Definition lin_diffuser (d : C) (m : Z) (input : list T) : outcome (lin_delay C T * list T) :=
    let* line := lin_new K O p d m in lin_diffuse line input.
End Frac.

(** The signal [w], k + f samples later, by linear interpolation. *)
Definition frac_behind (k : nat) (f : R) (w : nat -> R) (n : nat) : R :=
  ((1 - f) * behind 0 w k n + f * behind 0 w (k + 1) n)%R.

(** The energy of [w] that is on a line of k + f samples after [n] samples. *)
Definition on_line (k : nat) (f : R) (w : nat -> R) (n : nat) : R :=
  (energy w n - (1 - f) * energy w (n - k) - f * energy w (n - (k + 1)))%R.

(** The steps of the delayed signal, which interpolation smooths. *)
Definition steps (k : nat) (w : nat -> R) (n : nat) : R := (behind 0 w k n - behind 0 w (k + 1) n)%R.
