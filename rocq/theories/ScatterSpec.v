(** Vocabulary of property C127: an FIR filter that writes ahead.  Instead of reading a tap per
    coefficient (C121), the user adds every input sample to all the output samples it will contribute to:

      let d = line.get_delay();
      for x in input {
        for k in 0..h.len() { line.add_to(h[k] * x, d - 1 - k); }
        output.push(line.process(0.0));
      } *)
From Coq Require Import ZArith List.
From Verif Require Import Base Num DelayM.
Import ListNotations.

Section Scatter.
  Context {T : Type} (O : num_ops T) (p : profile).

  (** The inner loop from coefficient [k] on. *)
  Fixpoint strew (line : delay T) (d k : Z) (h : list T) (x : T) : outcome (delay T) :=
    match h with
    | [] => Ok line
    | hk :: rest =>
        let* (line1, _) := delay_add_to O p line (n_mul O hk x) (d - 1 - k) in
        strew line1 d (k + 1) rest x
    end.

  (** The outer loop. *)
  Fixpoint scatter (h : list T) (line : delay T) (input : list T) : outcome (delay T * list T) :=
    match input with
    | [] => Ok (line, [])
    | x :: rest =>
        let* line1 := strew line (delay_get_delay line) 0 h x in
        let* (line2, y) := delay_process p line1 (n_zero O) in
        let* (line3, ys) := scatter h line2 rest in
        Ok (line3, y :: ys)
    end.

  (** ((v + h[l] x[n-l]) + ...) + h[k] x[n-k]: the terms that exist (n - l >= 0), oldest sample first. *)
  Fixpoint piled (v : T) (k : nat) (h : list T) (x : nat -> T) (n : nat) : T :=
    match h with
    | [] => v
    | hk :: rest =>
        let later := piled v (S k) rest x n in
        if Nat.leb k n then n_add O later (n_mul O hk (x (n - k)%nat)) else later
    end.
End Scatter.
