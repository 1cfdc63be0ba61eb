(** Specification: what a history of calls does to the length of a delay line, to
    its write position and to its timing, in terms of the calls alone. *)
From Coq Require Import ZArith List.
From Verif Require Import DelaySpec.
Import ListNotations.
Open Scope Z_scope.

Section Place.
  Context {C T : Type}.

  (** The maximum delay and the write position (the slot the next sample goes to).
      [process] moves the write position on by one slot, round the line;
      [set_max_delay] only ever lengthens the line and leaves the position. *)
  Definition place_step (mw : Z * Z) (op : dl_op C T) : Z * Z :=
    let (m, w) := mw in
    match op with
    | DProcess _ => (m, (w + 1) mod (m + 1))
    | DSetMaxDelay m' => (Z.max m m', w)
    | _ => (m, w)
    end.

  (** After [new(_, m)] and the calls [ops]. *)
  Definition max_after (m : Z) (ops : list (dl_op C T)) : Z := fst (fold_left place_step ops (m, 0)).
  Definition write_after (m : Z) (ops : list (dl_op C T)) : Z := snd (fold_left place_step ops (m, 0)).
End Place.

Section Timing.
  Context {T : Type}.

  (** The timing of a [Delay]: its maximum, its write position, the delay it
      reports and the latency it really has. *)
  Record timing := Timing { t_max : Z; t_write : Z; t_reported : Z; t_latency : Z }.

  Definition timing_step (t : timing) (op : dl_op Z T) : timing :=
    let (m, w, r, l) := t in
    match op with
    | DProcess _ => Timing m ((w + 1) mod (m + 1)) r l
    | DSetDelay d => Timing m w (Z.min d m) (Z.min d m)
    | DSetMaxDelay m' =>
        if m' <=? m then t
        else Timing m' w r (if l <=? w then l else l + (m' - m))
    | _ => t
    end.

  (** After [Delay::new(d, m)] and the calls [ops]. *)
  Definition timing_after (d m : Z) (ops : list (dl_op Z T)) : timing :=
    fold_left timing_step ops (Timing m 0 (Z.min d m) (Z.min d m)).
End Timing.
