(** The filters in floating point: vocabulary of C32. *)
From Coq Require Import ZArith List.
From Flocq Require Import IEEE754.BinarySingleNaN.
From Verif Require Import Base Num FilterM RbjM Device.
Import ListNotations.

Section Devices.
  Context {T : Type} (O : num_ops T).

  (** Every filter of the library ... *)
  Inductive filter_device : forall {S K : Type}, device S K T -> Prop :=
  | fd_one_pole : filter_device (dev_one_pole O)
  | fd_one_zero : filter_device (dev_one_zero O)
  | fd_two_pole : filter_device (dev_two_pole O)
  | fd_two_zero : filter_device (dev_two_zero O)
  | fd_biquad1 : filter_device (dev_biquad1 O)
  | fd_biquad2 : filter_device (dev_biquad2 O)
  | fd_rbj kind : filter_device (dev_rbj O kind).

  (** ... and those with feedback. *)
  Inductive iir_filter_device : forall {S K : Type}, device S K T -> Prop :=
  | id_one_pole : iir_filter_device (dev_one_pole O)
  | id_two_pole : iir_filter_device (dev_two_pole O)
  | id_biquad1 : iir_filter_device (dev_biquad1 O)
  | id_biquad2 : iir_filter_device (dev_biquad2 O)
  | id_rbj kind : iir_filter_device (dev_rbj O kind).
End Devices.

(** Calls that process finite samples, clear or read; no setter. *)
Definition finite_calls {prec emax : Z} {K : Type}
  (cs : list (call K (binary_float prec emax))) : Prop :=
  Forall (fun c => match c with
                   | CProcess x => is_finite x = true
                   | CSet _ => False
                   | _ => True
                   end) cs.
