(** Specification of an interpolating delay line: the tapped line of [DelaySpec]
    with a reader that blends two neighbouring values and a one-sample look-ahead
    cache. *)
From Coq Require Import ZArith Reals List Bool.
From Flocq Require Import Core.Raux.
From Verif Require Import Base DelaySpec.
Import ListNotations.

(** [i_line] holds the values, newest first, and the lag of the older of the two
    values read ([l_delay] is not used).  [i_new] and [i_old] are the weights of
    the newer and the older value, [i_delay] the reported delay, [i_peek] the
    value handed out by [next_out] since the last [process], if any. *)
Record ilin (C T : Type) := ILin {
  i_line : line T;
  i_new : T;
  i_old : T;
  i_delay : C;
  i_peek : option T
}.
Arguments ILin {C T}. Arguments i_line {C T}. Arguments i_new {C T}. Arguments i_old {C T}.
Arguments i_delay {C T}. Arguments i_peek {C T}.

Section Spec.
  Context {C T : Type} (zero : T) (add mul : T -> T -> T) (max_slots : Z).

  (** How a requested delay is realised on a line with so many slots in a given
      phase: reported delay, lag of the older value, weights of the newer and the
      older value. *)
  Context (aim : nat -> nat -> C -> C * nat * T * T).

  (** Value [t] of [h] with the older weight plus value [t - 1] (cyclically) with
      the newer weight. *)
  Definition blend (h : list T) (t : nat) (wn wo : T) : T :=
    add (mul (nth t h zero) wo)
        (mul (nth (match t with O => length h - 1 | S k => k end) h zero) wn).

  Definition ilin_aim (l : line T) (d : C) (last : T) (peek : option T) : ilin C T :=
    let '(rep, lag, wn, wo) := aim (slots l) (l_phase l) d in
    ILin (Line (l_hist l) (l_phase l) lag 0 last) wn wo rep peek.

  Definition ilin_new (d : C) (m : nat) : ilin C T :=
    ilin_aim (line_new zero 0 m) d zero None.

  Definition with_line (i : ilin C T) (l : line T) : ilin C T :=
    ILin l (i_new i) (i_old i) (i_delay i) (i_peek i).

  (** Push [x], then hand out the cached value if there is one, otherwise the
      blend at the lag. *)
  Definition ilin_process (i : ilin C T) (x : T) : ilin C T * T :=
    let l := i_line i in
    let h := push x (l_hist l) in
    let y := match i_peek i with
             | Some v => v
             | None => blend h (l_lag l) (i_new i) (i_old i)
             end in
    (ILin (Line h ((l_phase l + 1) mod slots l) (l_lag l) (l_delay l) y)
          (i_new i) (i_old i) (i_delay i) None, y).

  (** The same blend before the push: the lag is one less, cyclically. *)
  Definition ilin_next (i : ilin C T) : ilin C T * T :=
    let l := i_line i in
    let v := match i_peek i with
             | Some v => v
             | None => blend (l_hist l) (match l_lag l with O => slots l - 1 | S k => k end)
                             (i_new i) (i_old i)
             end in
    (ILin l (i_new i) (i_old i) (i_delay i) (Some v), v).

  (** One call; [None] outside the documented domain (tap beyond the maximum
      delay, growth beyond [max_slots]). *)
  Definition ilin_step (i : ilin C T) (op : dl_op C T) : option (ilin C T * obs C T) :=
    let l := i_line i in
    match op with
    | DProcess x => let (i', y) := ilin_process i x in Some (i', OSample y)
    | DClear => Some (with_line i (line_clear zero l), ONone)
    | DSetDelay d => Some (ilin_aim l d (l_last l) (i_peek i), ONone)
    | DSetMaxDelay m =>
        if (m <? Z.of_nat (slots l))%Z then Some (i, ONone)
        else if (m + 1 <=? max_slots)%Z
             then Some (with_line i (line_grow zero l (Z.to_nat (m + 1) - slots l)), ONone)
             else None
    | DGetDelay => Some (i, ODelay (i_delay i))
    | DGetMaxDelay => Some (i, OSize (Z.of_nat (slots l) - 1))
    | DNextOut => let (i', y) := ilin_next i in Some (i', OSample y)
    | DLastOut => Some (i, OSample (l_last l))
    | DTapOut t =>
        if (t <? Z.of_nat (slots l))%Z
        then Some (i, OSample (nth (Z.to_nat t) (l_hist l) zero)) else None
    | DTapIn v t =>
        if (t <? Z.of_nat (slots l))%Z
        then Some (with_line i (line_put l (Z.to_nat t) v), ONone) else None
    | DAddTo v t =>
        if (t <? Z.of_nat (slots l))%Z
        then let r := add (nth (Z.to_nat t) (l_hist l) zero) v in
             Some (with_line i (line_put l (Z.to_nat t) r), OSample r)
        else None
    end.

  Fixpoint ilin_run (i : ilin C T) (ops : list (dl_op C T)) : option (ilin C T * list (obs C T)) :=
    match ops with
    | [] => Some (i, [])
    | op :: rest =>
        match ilin_step i op with
        | None => None
        | Some (i1, o) =>
            match ilin_run i1 rest with
            | None => None
            | Some (i2, os) => Some (i2, o :: os)
            end
        end
    end.
End Spec.

(** The ideal reader: the delay is clipped to [0, max]; the older value read is
    ceil(delay) behind, the newer one a sample less, and the weights are the
    distances: a delay k + f reads (1 - f) times the value k behind plus f times
    the value k + 1 behind. *)
Definition ideal_aim (slots phase : nat) (d : R) : R * nat * R * R :=
  let c := Rmax 0 (Rmin d (INR slots - 1)) in
  (c, Z.to_nat (Zceil c), IZR (Zceil c) - c, 1 - (IZR (Zceil c) - c))%R.

(** Arguments of type [usize]. *)
Definition op_usize_lin {C T} (op : dl_op C T) : Prop :=
  match op with
  | DSetMaxDelay m => is_usize m
  | DTapOut t | DTapIn _ t | DAddTo _ t => is_usize t
  | _ => True
  end.
