(** Specification of a tappable, growable, time-varying delay line, written
    without reference to the implementation's ring buffer.

    A line is the list of its last [max_delay + 1] values, newest first.
    Processing a sample pushes it in front and drops the oldest value; the
    output is the value [lag] positions behind the newest. *)
From Coq Require Import ZArith List Bool.
From Verif Require Import Base.
Import ListNotations.

(** Calls of the public API of [Delay] (and, with [D = f32], of
    [LinearDelay]); [D] is the type of the delay argument. *)
Inductive dl_op (D T : Type) :=
| DProcess (x : T)
| DClear
| DSetDelay (d : D)
| DSetMaxDelay (m : Z)
| DGetDelay
| DGetMaxDelay
| DNextOut
| DLastOut
| DTapOut (t : Z)
| DTapIn (v : T) (t : Z)
| DAddTo (v : T) (t : Z).
Arguments DProcess {D T}. Arguments DClear {D T}. Arguments DSetDelay {D T}.
Arguments DSetMaxDelay {D T}. Arguments DGetDelay {D T}. Arguments DGetMaxDelay {D T}.
Arguments DNextOut {D T}. Arguments DLastOut {D T}. Arguments DTapOut {D T}.
Arguments DTapIn {D T}. Arguments DAddTo {D T}.

(** What a call returns: nothing, a sample, a size, or a delay time. *)
Inductive obs (D T : Type) :=
| ONone
| OSample (x : T)
| OSize (n : Z)
| ODelay (d : D).
Arguments ONone {D T}. Arguments OSample {D T}. Arguments OSize {D T}. Arguments ODelay {D T}.

(** The abstract line.  [l_phase] counts samples since the ring buffer last
    wrapped; it only matters when the line grows.  [l_lag] is the latency the
    line really has, [l_delay] the one it reports. *)
Record line (T : Type) := Line {
  l_hist : list T;
  l_phase : nat;
  l_lag : nat;
  l_delay : nat;
  l_last : T
}.
Arguments Line {T}. Arguments l_hist {T}. Arguments l_phase {T}.
Arguments l_lag {T}. Arguments l_delay {T}. Arguments l_last {T}.

Section Spec.
  Context {T : Type} (zero : T) (add : T -> T -> T) (max_slots : Z).

  Definition slots (l : line T) : nat := length (l_hist l).

  Definition line_new (d m : nat) : line T :=
    Line (repeat zero (S m)) 0 (Nat.min d m) (Nat.min d m) zero.

  Definition push (x : T) (h : list T) : list T := x :: removelast h.

  Definition line_process (l : line T) (x : T) : line T * T :=
    let h := push x (l_hist l) in
    let y := nth (l_lag l) h zero in
    (Line h ((l_phase l + 1) mod slots l) (l_lag l) (l_delay l) y, y).

  Definition line_clear (l : line T) : line T :=
    Line (repeat zero (slots l)) (l_phase l) (l_lag l) (l_delay l) zero.

  Definition line_set_delay (l : line T) (d : nat) : line T :=
    Line (l_hist l) (l_phase l) d d (l_last l).

  (** Growth by [g] slots: [g] zeros appear in the line [l_phase] positions
      behind the newest value; if the read position lies beyond them the real
      latency grows by [g]. *)
  Definition line_grow (l : line T) (g : nat) : line T :=
    Line (firstn (l_phase l) (l_hist l) ++ repeat zero g ++ skipn (l_phase l) (l_hist l))
         (l_phase l)
         (if (l_lag l <=? l_phase l)%nat then l_lag l else l_lag l + g)%nat
         (l_delay l) (l_last l).

  (** [hist] with position [t] replaced. *)
  Definition put (h : list T) (t : nat) (v : T) : list T :=
    firstn t h ++ v :: skipn (S t) h.

  Definition line_put (l : line T) (t : nat) (v : T) : line T :=
    Line (put (l_hist l) t v) (l_phase l) (l_lag l) (l_delay l) (l_last l).

  (** The value read by the output before the next sample is pushed. *)
  Definition line_next (l : line T) : T :=
    match l_lag l with
    | O => nth (slots l - 1) (l_hist l) zero
    | S k => nth k (l_hist l) zero
    end.

  (** One call; [None] when the call is outside the documented domain (tap
      beyond the maximum delay, growth beyond the allocation limit). *)
  Definition line_step (l : line T) (op : dl_op Z T) : option (line T * obs Z T) :=
    match op with
    | DProcess x => let (l', y) := line_process l x in Some (l', OSample y)
    | DClear => Some (line_clear l, ONone)
    | DSetDelay d =>
        Some (line_set_delay l (Z.to_nat (Z.min d (Z.of_nat (slots l) - 1))), ONone)
    | DSetMaxDelay m =>
        if (m <? Z.of_nat (slots l))%Z then Some (l, ONone)
        else if (m + 1 <=? max_slots)%Z
             then Some (line_grow l (Z.to_nat (m + 1) - slots l), ONone)
             else None
    | DGetDelay => Some (l, OSize (Z.of_nat (l_delay l)))
    | DGetMaxDelay => Some (l, OSize (Z.of_nat (slots l) - 1))
    | DNextOut => Some (l, OSample (line_next l))
    | DLastOut => Some (l, OSample (l_last l))
    | DTapOut t =>
        if (t <? Z.of_nat (slots l))%Z
        then Some (l, OSample (nth (Z.to_nat t) (l_hist l) zero)) else None
    | DTapIn v t =>
        if (t <? Z.of_nat (slots l))%Z
        then Some (line_put l (Z.to_nat t) v, ONone) else None
    | DAddTo v t =>
        if (t <? Z.of_nat (slots l))%Z
        then let r := add (nth (Z.to_nat t) (l_hist l) zero) v in
             Some (line_put l (Z.to_nat t) r, OSample r)
        else None
    end.

  Fixpoint line_run (l : line T) (ops : list (dl_op Z T)) : option (line T * list (obs Z T)) :=
    match ops with
    | [] => Some (l, [])
    | op :: rest =>
        match line_step l op with
        | None => None
        | Some (l1, o) =>
            match line_run l1 rest with
            | None => None
            | Some (l2, os) => Some (l2, o :: os)
            end
        end
    end.
End Spec.

(** Arguments of type [usize] are between 0 and 2^64 - 1. *)
Definition is_usize (z : Z) : Prop := (0 <= z < two64)%Z.

Definition op_usize {T} (op : dl_op Z T) : Prop :=
  match op with
  | DSetDelay d => is_usize d
  | DSetMaxDelay m => is_usize m
  | DTapOut t | DTapIn _ t | DAddTo _ t => is_usize t
  | _ => True
  end.
