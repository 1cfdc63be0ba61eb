(** Specification of block processing: calling [process] once per sample. *)
From Coq Require Import List.
From Verif Require Import Base Traits.
Import ListNotations.

Section Block.
  Context {S T : Type} (process : S -> T -> outcome (S * T)).

  (** [one_by_one s xs s' ys]: calling [process] on the samples [xs], one after
      the other, starting in state [s], returns the samples [ys] and ends in
      [s']. *)
  Inductive one_by_one : S -> list T -> S -> list T -> Prop :=
  | obo_nil s : one_by_one s [] s []
  | obo_cons s x s1 y xs s2 ys :
      process s x = Ok (s1, y) -> one_by_one s1 xs s2 ys ->
      one_by_one s (x :: xs) s2 (y :: ys).

  (** Several blocks, one [process_block] call each; the contents of the blocks
      afterwards. *)
  Fixpoint feed_blocks (s : S) (blocks : list (list T)) : outcome (S * list (list T)) :=
    match blocks with
    | [] => Ok (s, [])
    | b :: rest =>
        let* (s1, ys, _) := process_block process s b in
        let* (s2, yss) := feed_blocks s1 rest in
        Ok (s2, ys :: yss)
    end.
End Block.
