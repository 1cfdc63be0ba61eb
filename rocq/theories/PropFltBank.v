(** Property C147: banks of filter chains side by side in [f32] and [f64].

    Vocabulary: [flt_bank], [ideal_bank], [bank_level], [bank_error] ([FltBankSpec]); [rated],
    [chain_ok] ([FltChainSpec], as in C142). *)
From Coq Require Import ZArith Reals List Bool Lra Lia Permutation.
From Flocq Require Import Core.Core IEEE754.BinarySingleNaN.
From Verif Require Import Base Num NumR NumF FloatSpec FloatFacts Witness CrLibm FilterM RbjM Device Signal FltFilterSpec
  RbjSpec RbjFltSpec RbjAccSpec DbSpec GainAccSpec FltChainSpec FltChainLemmas FltCrossLemmas FltBankSpec FltBankLemmas.
Import ListNotations.
Open Scope R_scope.

(** C147: any number of chains side by side, of any lengths, added up in floating point: the sum is
    finite and stays for ever within [bank_error] of the sum of the ideal chains. *)

Theorem C147_bank :
  forall (T : Type) (O : num_ops T) (V : float_view T), ieee O V -> trig_close O V -> pow10_close O V ->
  forall (ls : list (list (rated T))) (M : R) (x : nat -> T), List.Forall (fun l => chain_ok V l M) ls ->
    2 * bank_level V ls M 0 <= fmax V -> (forall n, fin V (x n) = true /\ Rabs (val V (x n)) <= M) ->
    forall n, let y := flt_bank O (map (map r_set) ls) x n in
      fin V y = true /\ Rabs (val V y - ideal_bank V (map (map r_set) ls) (fun n => val V (x n)) n) <= bank_error V ls M 0.
Proof. exact C147_bank_thm. Qed.
Print Assumptions C147_bank.

(** C147: the order in which the chains are added changes the sum at most by the two errors. *)

Theorem C147_order :
  forall (T : Type) (O : num_ops T) (V : float_view T), ieee O V -> trig_close O V -> pow10_close O V ->
  forall (ls ls' : list (list (rated T))) (M : R) (x : nat -> T), Permutation ls ls' -> List.Forall (fun l => chain_ok V l M) ls ->
    2 * bank_level V ls M 0 <= fmax V -> 2 * bank_level V ls' M 0 <= fmax V ->
    (forall n, fin V (x n) = true /\ Rabs (val V (x n)) <= M) ->
    forall n, Rabs (val V (flt_bank O (map (map r_set) ls) x n) - val V (flt_bank O (map (map r_set) ls') x n))
      <= bank_error V ls M 0 + bank_error V ls' M 0.
Proof. exact C147_order_thm. Qed.
Print Assumptions C147_order.

(** C147 is met in [f64] by a library with correctly rounded functions: two LowPass in series, a
    HighPass, and the input itself, at 1 kHz, the sample rate being 44100 Hz, on 1, 1, 1, ... *)
Example C147_hyps : let O := f64_ops (cr_libm 53 1024) false in let V := ieee_view 53 1024 in
  let ls := [[demo_cross LowPass; demo_cross LowPass]; [demo_cross HighPass]; []] in
  ieee O V /\ trig_close O V /\ pow10_close O V /\ List.Forall (fun l => chain_ok V l 1) ls
  /\ 2 * bank_level V ls 1 0 <= fmax V /\ bank_error V ls 1 0 <= / 1000
  /\ forall n : nat, fin V ((fun _ => fl64 1 0) n) = true /\ Rabs (val V ((fun _ => fl64 1 0) n)) <= 1.
Proof. exact C147_hyps_aux. Qed.
