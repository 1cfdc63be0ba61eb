(** Vocabulary of property C109: processing a long signal in overlapping windowed frames.
    The program cuts [n] samples out of the signal every [h] samples, applies the window [c]
    times (once before, once after the processing, say) and adds the frames up again:

      for r in 0..frames {
          let mut frame = x[r * h .. r * h + n].to_vec();
          for _ in 0..c { apply_window(&mut frame, w); }
          for i in 0..n { out[r * h + i] += frame[i]; }
      } *)
From Coq Require Import ZArith Reals List Bool.
From Verif Require Import Base Num NumR WindowM WinSpec SpectrumSpec.
Import ListNotations.
Open Scope R_scope.

Definition frame (x : nat -> R) (s n : nat) : list R := map (fun i => x (s + i)%nat) (seq 0 n).

Fixpoint windowed (p : profile) (w : window) (c : nat) (xs : list R) : outcome (list R) :=
  match c with
  | 0%nat => Ok xs
  | S c' => let* ys := apply_window R_ops p xs w in windowed p w c' ys
  end.

(** [out] with [ys] added from position [s] on. *)
Definition add_at (out : nat -> R) (s : nat) (ys : list R) (t : nat) : R :=
  if (s <=? t)%nat && (t <? s + length ys)%nat then out t + nth (t - s) ys 0 else out t.

Fixpoint overlap_add (p : profile) (w : window) (c n h : nat) (x : nat -> R) (frames : nat) : outcome (nat -> R) :=
  match frames with
  | 0%nat => Ok (fun _ => 0)
  | S r =>
      let* out := overlap_add p w c n h x r in
      let* ys := windowed p w c (frame x (r * h) n) in
      Ok (add_at out (r * h) ys)
  end.

(** The mean of a cosine window (c = 1), and of its square (c = 2). *)
Definition strength (k : win_kind) (c : nat) : R :=
  match c with
  | 1%nat => mean k
  | _ => mean k ^ 2 + 2 * (bin_gain k 1 ^ 2 + bin_gain k 2 ^ 2 + bin_gain k 3 ^ 2)
  end.
