(** Vocabulary of property C144: LowPass or HighPass filters in series in floating point, whose Qs
    are floats near to given real numbers, such as those of a Butterworth filter. *)
From Coq Require Import ZArith Reals List.
From Flocq Require Import Core.Core.
From Verif Require Import Num NumR FloatSpec RbjM Device FltFilterSpec RbjAccSpec FltChainSpec.
Import ListNotations.
Open Scope R_scope.

Section Sections.
  Context {T : Type} (O : num_ops T) (V : float_view T).
  Notation u := (bpow radix2 (- fprec V)).

  (** One filter: the float given to the setter, the real number it stands for, and what is known
      about the ideal filter with the real number: [c_G] bounds the gain of its feedback, [c_H]
      what it makes of samples up to 1. *)
  Record section := { c_q : T; c_Q : R; c_G : R; c_H : R }.

  Definition section_ok (kind : rbj_kind) (sr f : T) (s : section) : Prop :=
    fin V (c_q s) = true /\ Rabs (val V (c_q s) - c_Q s) <= 2 * u * c_Q s /\ / 2 <= c_Q s <= 1000
    /\ (exists b0 b1 b2 a1 a2, rbj_coeffs R_ops kind (RbjQ (val V sr) (val V f) (c_Q s)) = Some (b0, b1, b2, a1, a2)
          /\ peak_gain a1 a2 (c_G s))
    /\ peak_level kind (RbjQ (val V sr) (val V f) (c_Q s)) (c_H s)
    /\ 1500 * u * c_G s <= 1.

  (** New filters of one kind with one corner, one for every Q, in series. *)
  Definition flt_cascade (kind : rbj_kind) (sr f : T) (qs : list T) (x : nat -> T) : nat -> T :=
    fold_left (fun y q => stream (dev_rbj O kind) (RbjQ sr f q) y) qs x.

  (** What one filter adds to the error when its input is up to [M]. *)
  Definition section_error (s : section) (M : R) : R := 2100 * u * c_G s * (M + c_H s * M + fmin V).

  (** The settings are in range, with head room in front of every filter, for an input up to [M]. *)
  Fixpoint sections_ok (kind : rbj_kind) (sr f : T) (l : list section) (M : R) : Prop :=
    match l with
    | [] => True
    | s :: l => section_ok kind sr f s /\ 64 * (M + c_H s * M) <= fmax V
                /\ sections_ok kind sr f l (c_H s * M + section_error s M)
    end.

  (** The error behind the filters for an input up to [M] that is wrong by up to [D]. *)
  Fixpoint sections_error (l : list section) (M D : R) : R :=
    match l with
    | [] => D
    | s :: l => sections_error l (c_H s * M + section_error s M) (section_error s M + c_H s * D)
    end.
End Sections.
Arguments section : clear implicits.
