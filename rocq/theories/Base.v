(** Base vocabulary of the model: results of Rust calls, build profiles,
    64-bit machine integers and [Vec] indexing.

    Nothing here is specific to rasp; it fixes the meaning of the Rust
    constructs the library uses.  [usize] and [isize] are modelled as [Z] on a
    64-bit target. *)
From Coq Require Import ZArith List Bool.
Import ListNotations.
Open Scope Z_scope.

(** Result of a Rust call: a value, a panic, or a loop that did not stop within
    the fuel given to it (see [LinDelayM.norm_loop], the only loop of the
    library that is not bounded by construction). *)
Inductive outcome (A : Type) : Type :=
| Ok (a : A)
| Panic
| Hang.
Arguments Ok {A} a.
Arguments Panic {A}.
Arguments Hang {A}.

Definition bind {A B} (m : outcome A) (k : A -> outcome B) : outcome B :=
  match m with
  | Ok a => k a
  | Panic => Panic
  | Hang => Hang
  end.

Notation "'let*' x ':=' e 'in' k" :=
  (bind e (fun x => k)) (at level 200, x pattern, e at level 100, k at level 200).

(** Build profile: [Debug] has overflow checks and [debug_assert!],
    [Release] has neither. *)
Inductive profile := Debug | Release.

Definition two64 : Z := 18446744073709551616.   (* 2^64 *)
Definition two63 : Z := 9223372036854775808.    (* 2^63 *)
Definition usize_max : Z := two64 - 1.
Definition isize_max : Z := two63 - 1.

(** [x as usize] / [x as isize]: reduction modulo 2^64. *)
Definition as_usize (z : Z) : Z := z mod two64.
Definition as_isize (z : Z) : Z := (z + two63) mod two64 - two63.

(** Overflow: panic in [Debug], wrap in [Release]. *)
Definition chk_usize (p : profile) (z : Z) : outcome Z :=
  if (0 <=? z) && (z <? two64) then Ok z
  else match p with Debug => Panic | Release => Ok (as_usize z) end.
Definition chk_isize (p : profile) (z : Z) : outcome Z :=
  if (- two63 <=? z) && (z <? two63) then Ok z
  else match p with Debug => Panic | Release => Ok (as_isize z) end.

Definition uadd p a b := chk_usize p (a + b).
Definition usub p a b := chk_usize p (a - b).
Definition iadd p a b := chk_isize p (a + b).
Definition isub p a b := chk_isize p (a - b).

(** [a % b] on [usize]; division by zero panics in every profile. *)
Definition urem (a b : Z) : outcome Z :=
  if b =? 0 then Panic else Ok (a mod b).

(** [Vec<T>]: a list; [v.len()]. *)
Definition vlen {T} (v : list T) : Z := Z.of_nat (length v).

(** [v[i]] (read): bounds-checked. *)
Definition vget {T} (v : list T) (i : Z) : outcome T :=
  if i <? 0 then Panic
  else if vlen v <=? i then Panic
  else match nth_error v (Z.to_nat i) with
       | Some x => Ok x
       | None => Panic
       end.

Fixpoint list_set {T} (v : list T) (i : nat) (x : T) : list T :=
  match v, i with
  | [], _ => []
  | _ :: v', O => x :: v'
  | y :: v', S i' => y :: list_set v' i' x
  end.

(** [v[i] = x] (write): bounds-checked. *)
Definition vset {T} (v : list T) (i : Z) (x : T) : outcome (list T) :=
  if i <? 0 then Panic
  else if vlen v <=? i then Panic
  else Ok (list_set v (Z.to_nat i) x).

(** Allocation limit of [Vec<T>]: a buffer of more than [isize::MAX] bytes
    panics with "capacity overflow".  (Running out of memory below that limit
    aborts the process and is not modelled.) *)
Definition alloc_ok (size_of n : Z) : bool := n * size_of <=? isize_max.

(** [vec![x; n]]. *)
Definition vec_repeat {T} (size_of : Z) (x : T) (n : Z) : outcome (list T) :=
  if alloc_ok size_of n then Ok (repeat x (Z.to_nat n)) else Panic.

(** [v.resize(n, x)]. *)
Definition vec_resize {T} (size_of : Z) (v : list T) (n : Z) (x : T) : outcome (list T) :=
  if n <=? vlen v then Ok (firstn (Z.to_nat n) v)
  else if alloc_ok size_of n then Ok (v ++ repeat x (Z.to_nat (n - vlen v)))
  else Panic.
