(** Vocabulary of property C147: a bank of filter chains side by side, fed the same input, their
    outputs added up one after the other in floating point. *)
From Coq Require Import ZArith Reals List.
From Flocq Require Import Core.Core.
From Verif Require Import Num FloatSpec RbjM Device Signal FltFilterSpec FltChainSpec.
Import ListNotations.
Open Scope R_scope.

Section Bank.
  Context {T : Type} (O : num_ops T) (V : float_view T).
  Notation u := (bpow radix2 (- fprec V)).

  Definition flt_bank (ls : list (list (rbj_kind * rbj_args T))) (x : nat -> T) (n : nat) : T :=
    fold_left (fun acc l => n_add O acc (flt_chain O l x n)) ls (n_zero O).

  (** The same settings in exact arithmetic. *)
  Definition ideal_bank (ls : list (list (rbj_kind * rbj_args T))) (x : signal) (n : nat) : R :=
    fold_right (fun l acc => ideal_chain V l x n + acc) 0 ls.

  (** How loud a chain can be for an input up to [M]. *)
  Fixpoint chain_level (l : list (rated T)) (M : R) : R :=
    match l with
    | [] => M
    | r :: l => chain_level l (r_H r * M + stage_error V r M)
    end.

  (** How loud the sum can get when it is [L] before these chains are added. *)
  Fixpoint bank_level (ls : list (list (rated T))) (M L : R) : R :=
    match ls with
    | [] => L
    | l :: ls => bank_level ls M ((1 + u) * (L + chain_level l M))
    end.

  (** The error of the sum: those of the chains, and one rounding per addition. *)
  Fixpoint bank_error (ls : list (list (rated T))) (M L : R) : R :=
    match ls with
    | [] => 0
    | l :: ls => chain_error V l M 0 + u * (L + chain_level l M) + bank_error ls M ((1 + u) * (L + chain_level l M))
    end.
End Bank.
