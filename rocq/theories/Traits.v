(** Model of /repo/src/traits.rs: the [Processor] trait. *)
From Coq Require Import ZArith List.
From Verif Require Import Base.
Import ListNotations.

Section Processor.
  Context {S T : Type}.
  (** A processor's [process(&mut self, sample) -> T]
      (/repo/src/traits.rs:35): the new state is returned. *)
  Variable process : S -> T -> outcome (S * T).

  (** The loop of [process_block], /repo/src/traits.rs:40-42: every element of
      the slice is replaced by [process] of it, front to back.  Returns the
      final processor state and the final contents of the slice. *)
  Fixpoint process_each (s : S) (samples : list T) : outcome (S * list T) :=
    match samples with
    | [] => Ok (s, [])
    | x :: rest =>
        let* (s1, y) := process s x in
        let* (s2, ys) := process_each s1 rest in
        Ok (s2, y :: ys)
    end.

  (** [Processor::process_block], /repo/src/traits.rs:39-44, including the
      [unwrap] of [samples.last()] which panics on an empty slice.
      Returns processor state, slice contents, returned sample. *)
  Definition process_block (s : S) (samples : list T) : outcome (S * list T * T) :=
    let* (s', ys) := process_each s samples in
    match ys with
    | [] => Panic
    | y :: ys' => Ok (s', ys, last ys' y)
    end.
End Processor.
