(** Vocabulary of property C138: filters that preserve the order of signals, and overshoot,
    in exact arithmetic. *)
From Coq Require Import Reals List.
From Verif Require Import Num NumR FilterM RbjM Device Signal SysSpec.
Open Scope R_scope.

Section Order.
  Context {S K : Type} (D : device S K R) (k : K).

  (** A signal that is nowhere below another one comes out nowhere below it. *)
  Definition keeps_order : Prop :=
    forall x x' : signal, (forall n, x n <= x' n) -> forall n, response D k x n <= response D k x' n.

  (** A signal that rises from silence comes out rising from silence. *)
  Definition rising (x : signal) : Prop := 0 <= x 0%nat /\ forall n, x n <= x (Datatypes.S n).
  Definition keeps_rising : Prop := forall x : signal, rising x -> rising (response D k x).

  (** No output sample is outside the range of the input. *)
  Definition no_overshoot : Prop :=
    forall (x : signal) (m : R), (forall n, 0 <= x n <= m) -> forall n, 0 <= response D k x n <= m.
End Order.
