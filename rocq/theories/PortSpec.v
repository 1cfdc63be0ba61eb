(** Vocabulary of property C107: calls that mean the same on a 64-bit target and on a target
    with [w]-bit [usize]. *)
From Coq Require Import ZArith List.
From Verif Require Import Base Num DelaySpec.
Import ListNotations.
Open Scope Z_scope.

(** A buffer for a maximum delay of [m] can be allocated: m + 1 samples take at most
    [isize::MAX] bytes of the target. *)
Definition fits_w {T} (w : Z) (O : num_ops T) (m : Z) : Prop := (m + 1) * n_size_of O <= 2 ^ (w - 1) - 1.

(** The [usize] arguments of a call exist on the target, tap positions are at most
    [isize::MAX] of the target, and a requested maximum delay can be allocated there.  (The
    delay of a [LinearDelay] is an [f32] on every target.) *)
Definition port_op {T} (w : Z) (O : num_ops T) (op : dl_op Z T) : Prop :=
  match op with
  | DSetDelay d => 0 <= d < 2 ^ w
  | DSetMaxDelay m => 0 <= m /\ fits_w w O m
  | DTapOut t | DTapIn _ t | DAddTo _ t => 0 <= t < 2 ^ (w - 1)
  | _ => True
  end.

Definition port_op_lin {C T} (w : Z) (O : num_ops T) (op : dl_op C T) : Prop :=
  match op with
  | DSetMaxDelay m => 0 <= m /\ fits_w w O m
  | DTapOut t | DTapIn _ t | DAddTo _ t => 0 <= t < 2 ^ (w - 1)
  | _ => True
  end.
