(** Property C148: the same filters on another platform or with another sample type.

    Vocabulary: [rated], [chain_ok], [chain_error], [flt_chain], [ideal_args] ([FltChainSpec], as in
    C142); [flt_bank], [bank_level], [bank_error] ([FltBankSpec], as in C147).  [O] and [O'] are two arithmetics, [V] and [V'] their formats: [f32] or [f64], each with
    a math library of its own. *)
From Coq Require Import ZArith Reals List Bool Lra Lia.
From Flocq Require Import Core.Core IEEE754.BinarySingleNaN.
From Verif Require Import Base Num NumR NumF FloatSpec FloatFacts Witness CrLibm FilterM RbjM Device Signal FltFilterSpec
  RbjSpec RbjFltSpec RbjAccSpec DbSpec GainAccSpec FltChainSpec FltChainLemmas FltToneLemmas FltBankSpec FltPlatLemmas.
Import ListNotations.
Open Scope R_scope.

(** C148: two programs that run the same chain of filters, with settings of the same values, on
    inputs that differ by at most [D], in [f32] or [f64] and with any two accurate math libraries,
    stay for ever within the sum of their error bounds of each other. *)

Theorem C148_agree :
  forall (T T' : Type) (O : num_ops T) (V : float_view T) (O' : num_ops T') (V' : float_view T'),
    ieee O V -> trig_close O V -> pow10_close O V -> ieee O' V' -> trig_close O' V' -> pow10_close O' V' ->
  forall (l : list (rated T)) (l' : list (rated T')) (M M' D : R) (x : nat -> T) (x' : nat -> T'),
    map (fun r => let (kind, args) := r_set r in (kind, ideal_args V args)) l
    = map (fun r => let (kind, args) := r_set r in (kind, ideal_args V' args)) l' ->
    chain_ok V l M -> chain_ok V' l' M' ->
    (forall n, fin V (x n) = true /\ Rabs (val V (x n)) <= M) -> (forall n, fin V' (x' n) = true /\ Rabs (val V' (x' n)) <= M') ->
    (forall n, Rabs (val V' (x' n) - val V (x n)) <= D) ->
    forall n, Rabs (val V' (flt_chain O' (map r_set l') x' n) - val V (flt_chain O (map r_set l) x n))
      <= chain_error V l M 0 + chain_error V' l' M' D.
Proof. exact C148_agree_thm. Qed.
Print Assumptions C148_agree.

(** C148: the same for banks of chains side by side, on inputs of the same values. *)

Theorem C148_banks :
  forall (T T' : Type) (O : num_ops T) (V : float_view T) (O' : num_ops T') (V' : float_view T'),
    ieee O V -> trig_close O V -> pow10_close O V -> ieee O' V' -> trig_close O' V' -> pow10_close O' V' ->
  forall (ls : list (list (rated T))) (ls' : list (list (rated T'))) (M M' : R) (x : nat -> T) (x' : nat -> T'),
    map (map (fun r => let (kind, args) := r_set r in (kind, ideal_args V args))) ls
    = map (map (fun r => let (kind, args) := r_set r in (kind, ideal_args V' args))) ls' ->
    List.Forall (fun l => chain_ok V l M) ls -> List.Forall (fun l => chain_ok V' l M') ls' ->
    2 * bank_level V ls M 0 <= fmax V -> 2 * bank_level V' ls' M' 0 <= fmax V' ->
    (forall n, fin V (x n) = true /\ Rabs (val V (x n)) <= M) -> (forall n, fin V' (x' n) = true /\ Rabs (val V' (x' n)) <= M') ->
    (forall n, val V' (x' n) = val V (x n)) ->
    forall n, Rabs (val V' (flt_bank O' (map (map r_set) ls') x' n) - val V (flt_bank O (map (map r_set) ls) x n))
      <= bank_error V ls M 0 + bank_error V' ls' M' 0.
Proof. exact C148_banks_thm. Qed.
Print Assumptions C148_banks.

(** C148 is met by libraries with correctly rounded functions: a LowPass and a HighPass at 1 kHz
    with Q = 11/16, the sample rate being 44100 Hz, in [f32] and in [f64] ([demo_q] and
    [demo_wide]), both on the input 1, 1, 1, ... *)
Example C148_hyps : let O := f32_ops (cr_libm 24 128) false in let V := ieee_view 24 128 in
  let O' := f64_ops (cr_libm 53 1024) false in let V' := ieee_view 53 1024 in
  let l := [demo_q LowPass; demo_q HighPass] in let l' := [demo_wide LowPass; demo_wide HighPass] in
  ieee O V /\ trig_close O V /\ pow10_close O V /\ ieee O' V' /\ trig_close O' V' /\ pow10_close O' V'
  /\ map (fun r => let (kind, args) := r_set r in (kind, ideal_args V args)) l
     = map (fun r => let (kind, args) := r_set r in (kind, ideal_args V' args)) l'
  /\ chain_ok V l 1 /\ chain_ok V' l' 1
  /\ (forall n : nat, fin V ((fun _ => fl32 1 0) n) = true /\ Rabs (val V ((fun _ => fl32 1 0) n)) <= 1)
  /\ (forall n : nat, fin V' ((fun _ => fl64 1 0) n) = true /\ Rabs (val V' ((fun _ => fl64 1 0) n)) <= 1)
  /\ Rabs (val V' (fl64 1 0) - val V (fl32 1 0)) <= 0.
Proof. exact C148_hyps_aux. Qed.

(** The further hypotheses of the theorem on banks are met by the same two filters side by side. *)
Example C148_banks_hyps : let V := ieee_view 24 128 in let V' := ieee_view 53 1024 in
  let ls := [[demo_q LowPass]; [demo_q HighPass]] in let ls' := [[demo_wide LowPass]; [demo_wide HighPass]] in
  map (map (fun r => let (kind, args) := r_set r in (kind, ideal_args V args))) ls
  = map (map (fun r => let (kind, args) := r_set r in (kind, ideal_args V' args))) ls'
  /\ List.Forall (fun l => chain_ok V l 1) ls /\ List.Forall (fun l => chain_ok V' l 1) ls'
  /\ 2 * bank_level V ls 1 0 <= fmax V /\ 2 * bank_level V' ls' 1 0 <= fmax V'
  /\ val V' (fl64 1 0) = val V (fl32 1 0).
Proof. exact C148_banks_hyps_aux. Qed.
