(** Vocabulary of property C142: RBJ filters in series in floating point. *)
From Coq Require Import ZArith Reals List.
From Verif Require Import Base Num NumR FloatSpec FilterM RbjM Device Signal FltFilterSpec RbjSpec RbjAccSpec GainAccSpec.
Import ListNotations.
Open Scope R_scope.

(** The largest output that an ideal filter makes of samples up to 1 is at most [H]. *)
Definition peak_level (kind : rbj_kind) (args : rbj_args R) (H : R) : Prop :=
  forall x : signal, (forall n, Rabs (x n) <= 1) -> forall n, Rabs (rbj_out kind args x n) <= H.

Section Chain.
  Context {T : Type} (O : num_ops T) (V : float_view T).

  (** New filters with these settings in series, and what they return for [x]. *)
  Definition flt_chain (l : list (rbj_kind * rbj_args T)) (x : nat -> T) : nat -> T :=
    fold_left (fun y s => stream (dev_rbj O (fst s)) (snd s) y) l x.

  (** The same settings in exact arithmetic. *)
  Definition ideal_args (a : rbj_args T) : rbj_args R :=
    match a with
    | RbjQ sr f q => RbjQ (val V sr) (val V f) (val V q)
    | RbjGain sr f g q => RbjGain (val V sr) (val V f) (val V g) (val V q)
    end.
  Definition ideal_chain (l : list (rbj_kind * rbj_args T)) (x : signal) : signal :=
    fold_left (fun y s => rbj_out (fst s) (ideal_args (snd s)) y) l x.

  (** The settings of C94 and C97, and the error of their coefficients. *)
  Definition in_range (s : rbj_kind * rbj_args T) : Prop :=
    match snd s with
    | RbjQ sr f q => audible V sr f /\ fin V q = true /\ / 64 <= val V q <= 1024
    | RbjGain sr f g q => audible V sr f /\ gain_setting V (fst s) g q
    end.
  Definition coef_error (s : rbj_kind * rbj_args T) : R :=
    match snd s with
    | RbjQ _ _ q => q_error V (val V q)
    | RbjGain _ _ _ q => gain_error V (fst s) (val V q)
    end.

  (** A filter together with what is known about it: [r_G] bounds the gain of its ideal
      feedback, [r_H] what the ideal filter makes of samples up to 1. *)
  Record rated := { r_set : rbj_kind * rbj_args T; r_G : R; r_H : R }.

  Definition rated_ok (r : rated) : Prop :=
    in_range (r_set r)
    /\ (exists b0 b1 b2 a1 a2, rbj_coeffs R_ops (fst (r_set r)) (ideal_args (snd (r_set r))) = Some (b0, b1, b2, a1, a2)
          /\ peak_gain a1 a2 (r_G r))
    /\ peak_level (fst (r_set r)) (ideal_args (snd (r_set r))) (r_H r)
    /\ 5 * coef_error (r_set r) * r_G r <= 1.

  (** What one filter adds to the error when its input is up to [M]. *)
  Definition stage_error (r : rated) (M : R) : R :=
    11 * coef_error (r_set r) * r_G r * (M + r_H r * M + fmin V).

  (** The settings are in range, and there is head room in front of every filter, for an input
      up to [M]. *)
  Fixpoint chain_ok (l : list rated) (M : R) : Prop :=
    match l with
    | [] => True
    | r :: l => rated_ok r /\ 256 * (M + r_H r * M) <= fmax V /\ chain_ok l (r_H r * M + stage_error r M)
    end.

  (** The error behind the chain for an input up to [M] that is wrong by up to [D]: every filter
      amplifies the error it receives by up to [r_H] and adds its own. *)
  Fixpoint chain_error (l : list rated) (M D : R) : R :=
    match l with
    | [] => D
    | r :: l => chain_error l (r_H r * M + stage_error r M) (stage_error r M + r_H r * D)
    end.

  (** The same filter with the opposite gain. *)
  Definition opposite (s : rbj_kind * rbj_args T) : rbj_kind * rbj_args T :=
    match snd s with
    | RbjGain sr f g q => (fst s, RbjGain sr f (n_neg O g) q)
    | RbjQ _ _ _ => s
    end.
End Chain.
Arguments rated : clear implicits.
