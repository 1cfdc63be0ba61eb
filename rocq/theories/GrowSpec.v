(** Specification: the timing of an interpolating delay line in terms of the calls
    made on it alone, growths included. *)
From Coq Require Import ZArith Reals List.
From Verif Require Import DelaySpec.
Import ListNotations.
Open Scope R_scope.

Section LinTiming.
  Context {T : Type}.

  (** Its maximum, its write position (the slot the next sample goes to), the delay
      it reports and the latency it really has. *)
  Record lin_timing := LinTiming { lt_max : Z; lt_write : Z; lt_reported : R; lt_latency : R }.

  (** The nearest delay in [0, m]. *)
  Definition in_range (d : R) (m : Z) : R := Rmax 0 (Rmin d (IZR m)).

  (** Growth keeps the latency if it is not above the write position, and adds the
      growth to it otherwise; the reported delay is kept in both cases. *)
  Definition lin_timing_step (t : lin_timing) (op : dl_op R T) : lin_timing :=
    let (m, w, r, l) := t in
    match op with
    | DProcess _ => LinTiming m ((w + 1) mod (m + 1)) r l
    | DSetDelay d => LinTiming m w (in_range d m) (in_range d m)
    | DSetMaxDelay m' =>
        if (m' <=? m)%Z then t
        else LinTiming m' w r (if Rle_dec l (IZR w) then l else l + IZR (m' - m))
    | _ => t
    end.

  (** After [LinearDelay::new(d, m)] and the calls [ops]. *)
  Definition lin_timing_after (d : R) (m : Z) (ops : list (dl_op R T)) : lin_timing :=
    fold_left lin_timing_step ops (LinTiming m 0 (in_range d m) (in_range d m)).
End LinTiming.
