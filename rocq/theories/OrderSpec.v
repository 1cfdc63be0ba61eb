(** Vocabulary of C118: filters that preserve the order of signals in floating point. *)
From Coq Require Import ZArith Reals List Bool.
From Verif Require Import Base Num NumF FloatSpec FilterM RbjM AnalysisM Device.
Import ListNotations.
Open Scope R_scope.

Section Order.
  Context {T : Type} (O : num_ops T) (V : float_view T).

  (** [x] is not above [y]; nothing is said when one of them is infinite or NaN. *)
  Definition below (x y : T) : Prop := fin V x = true -> fin V y = true -> val V x <= val V y.

  (** The same call, or [process] with a sample that is not smaller. *)
  Inductive raised {K : Type} : call K T -> call K T -> Prop :=
  | raised_same c : raised c c
  | raised_more x y : below x y -> raised (CProcess x) (CProcess y).

  (** What two calls returned, in order. *)
  Definition answers_below (r r' : option T) : Prop :=
    match r, r' with
    | Some x, Some y => below x y
    | None, None => True
    | _, _ => False
    end.

  (** Forward coefficients not negative, feedback coefficients not positive: every past
      sample pushes the output in its own direction. *)
  Definition pushing (c : T * T * T * T * T) : Prop :=
    let '(b0, b1, b2, a1, a2) := c in
    0 <= val V b0 /\ 0 <= val V b1 /\ 0 <= val V b2 /\ val V a1 <= 0 /\ val V a2 <= 0.

  (** The filters and their settings with such coefficients (for the RBJ filters, those that
      the setter computes). *)
  Inductive orderly : forall {S K : Type}, device S K T -> (K -> Prop) -> Prop :=
  | or_one_pole : orderly (dev_one_pole O) (fun '(b0, a1) => 0 <= val V b0 /\ val V a1 <= 0)
  | or_one_zero : orderly (dev_one_zero O) (fun '(b0, b1) => 0 <= val V b0 /\ 0 <= val V b1)
  | or_two_pole : orderly (dev_two_pole O) (fun '(b0, a1, a2) => 0 <= val V b0 /\ val V a1 <= 0 /\ val V a2 <= 0)
  | or_two_zero : orderly (dev_two_zero O) (fun '(b0, b1, b2) => 0 <= val V b0 /\ 0 <= val V b1 /\ 0 <= val V b2)
  | or_biquad1 : orderly (dev_biquad1 O) pushing
  | or_biquad2 : orderly (dev_biquad2 O) pushing
  | or_rbj k : orderly (dev_rbj O k) (fun a => forall c, rbj_coeffs O k a = Some c -> pushing c).

  Definition sets_ok {K : Type} (ok : K -> Prop) (cs : list (call K T)) : Prop :=
    Forall (fun c => match c with CSet k => ok k | _ => True end) cs.
End Order.
