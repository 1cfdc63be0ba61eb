(** Vocabulary of property C120: a moving sum (boxcar) that costs the same however long it is,
    built by the user from a [Delay] and a [OnePole] used as an accumulator:

      let mut line = Delay::new(d, m);
      let mut acc = OnePole::new(); acc.set_coefficients(1, -1);
      for x in input {
        let old = line.process(x);
        output.push(acc.process(x - old));
      } *)
From Coq Require Import ZArith Reals List.
From Verif Require Import Base Num FilterM Device Signal DelayM.
Import ListNotations.

Section Slide.
  Context {S K T : Type} (O : num_ops T) (p : profile) (D : device S K T).

  Fixpoint slide (line : delay T) (acc : S) (input : list T) : outcome (delay T * S * list T) :=
    match input with
    | [] => Ok (line, acc, [])
    | x :: rest =>
        let* (line1, old) := delay_process p line x in
        let (acc1, y) := d_process D acc (n_sub O x old) in
        let* (end_, ys) := slide line1 acc1 rest in
        Ok (end_, y :: ys)
    end.

  (** On [Delay::new(d, m)] and a new filter configured with [k]. *)
  Definition comb_into (k : K) (d m : Z) (input : list T) : outcome (delay T * S * list T) :=
    let* line := delay_new O p d m in slide line (after D [CSet k]) input.
End Slide.

Definition moving_sum {T} (O : num_ops T) (p : profile) (d m : Z) (input : list T)
  : outcome (delay T * one_pole T * list T) :=
  comb_into O p (dev_one_pole O) (n_one O, n_neg O (n_one O)) d m input.

(** The sum of the last [d] samples up to number [n]: x[n] + x[n-1] + ... + x[n-d+1]. *)
Fixpoint last_sum (x : nat -> R) (d n : nat) : R :=
  match d with
  | O => 0
  | Datatypes.S d' => (last_sum x d' n + back d' x n)%R
  end.
