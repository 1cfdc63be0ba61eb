(** Vocabulary of property C121: an FIR filter of any length, built by the user from a delay line
    and its taps:

      for x in input {
        line.process(x);
        let mut y = h[0] * line.tap_out(0);
        for k in 1..h.len() { y = y + h[k] * line.tap_out(k); }
        output.push(y);
      } *)
From Coq Require Import ZArith Reals List.
From Verif Require Import Base Num Signal DelayM LinDelayM LinRun.
Import ListNotations.

Section Fir.
  Context {L T : Type} (O : num_ops T).
  Context (process : L -> T -> outcome (L * T)) (tap : L -> Z -> outcome T).

  (** The inner loop, from [y] and tap [k] on. *)
  Fixpoint gather (line : L) (y : T) (k : Z) (h : list T) : outcome T :=
    match h with
    | [] => Ok y
    | hk :: rest => let* v := tap line k in gather line (n_add O y (n_mul O hk v)) (k + 1)%Z rest
    end.

  (** The outer loop; [h0] and [h] are the coefficients. *)
  Fixpoint fir (h0 : T) (h : list T) (line : L) (input : list T) : outcome (L * list T) :=
    match input with
    | [] => Ok (line, [])
    | x :: rest =>
        let* (line1, _) := process line x in
        let* v := tap line1 0%Z in
        let* y := gather line1 (n_mul O h0 v) 1%Z h in
        let* (line2, ys) := fir h0 h line1 rest in
        Ok (line2, y :: ys)
    end.
End Fir.

Section Lines.
  Context {C T : Type} (K : ctl_ops C T) (O : num_ops T) (p : profile) (h0 : T) (h : list T).
  (** On [Delay::new(d, m)] ... *)
  Definition delay_fir (d m : Z) (input : list T) : outcome (delay T * list T) :=
    let* line := delay_new O p d m in fir O (delay_process p) (delay_tap_out p) h0 h line input.
  (** ... and on [LinearDelay::new(d, m)]. *)
  Definition lin_fir (d : C) (m : Z) (input : list T) : outcome (lin_delay C T * list T) :=
    let* line := lin_new K O p d m in fir O (lin_process O p) (lin_tap_out p) h0 h line input.
End Lines.

(** ((h0 x[n] + h1 x[n-1]) + h2 x[n-2]) + ..., added in this order in the arithmetic [O]. *)
Section Weighted.
  Context {T : Type} (O : num_ops T).
  Fixpoint add_taps (y : T) (k : nat) (h : list T) (x : nat -> T) (n : nat) : T :=
    match h with
    | [] => y
    | hk :: rest => add_taps (n_add O y (n_mul O hk (behind (n_zero O) x k n))) (Datatypes.S k) rest x n
    end.
  Definition weighted (h0 : T) (h : list T) (x : nat -> T) (n : nat) : T :=
    add_taps (n_mul O h0 (x n)) 1 h x n.
End Weighted.

(** The number h0 x[n-k] + h1 x[n-k-1] + ..., and the same with all terms made positive. *)
Fixpoint convolved (h : list R) (k : nat) (x : signal) (n : nat) : R :=
  match h with
  | [] => 0
  | hk :: rest => (hk * back k x n + convolved rest (Datatypes.S k) x n)%R
  end.
Fixpoint loudness (h : list R) (k : nat) (x : signal) (n : nat) : R :=
  match h with
  | [] => 0
  | hk :: rest => (Rabs (hk * back k x n) + loudness rest (Datatypes.S k) x n)%R
  end.
