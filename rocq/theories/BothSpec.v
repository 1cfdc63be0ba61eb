(** Vocabulary of property C125: filtering a block forwards and then backwards, which the user
    does to filter without shifting anything in time:

      filter.clear();
      filter.process_block(&mut block);
      block.reverse();
      filter.clear();
      filter.process_block(&mut block);
      block.reverse(); *)
From Coq Require Import Reals List.
From Verif Require Import Base Num Traits Device.
Import ListNotations.

Section Both.
  Context {S K T : Type} (D : device S K T).

  Definition play (filter : S) (block : list T) : outcome (S * list T * T) :=
    process_block (fun s x => Ok (d_process D s x)) filter block.

  Definition both_ways (filter : S) (block : list T) : outcome (S * list T) :=
    let* (filter1, once, _) := play (d_clear D filter) block in
    let* (filter2, twice, _) := play (d_clear D filter1) (rev once) in
    Ok (filter2, rev twice).
End Both.

(** u0 v0 + u1 v1 + ... *)
Fixpoint dot (u v : list R) : R :=
  match u, v with
  | a :: u', b :: v' => (a * b + dot u' v')%R
  | _, _ => 0%R
  end.
