(** Property C143: a Linkwitz-Riley crossover in [f32] and [f64] adds up to the ideal all-pass.

    Vocabulary: [recombined], [cross_error], [cross_level] ([FltCrossSpec]); [rated], [chain_ok],
    [ideal_args] ([FltChainSpec]); [rbj_out] ([RbjSpec]); [trig_close], [pow10_close]: sine,
    cosine and power of the platform ([RbjFltSpec], [DbSpec]). *)
From Coq Require Import ZArith Reals List Bool Lra Lia.
From Flocq Require Import Core.Core IEEE754.BinarySingleNaN.
From Verif Require Import Base Num NumR NumF FloatSpec FloatFacts Witness CrLibm FilterM RbjM Device Signal FltFilterSpec
  RbjSpec RbjFltSpec RbjAccSpec DbSpec FltChainSpec FltCrossSpec FltCrossLemmas.
Import ListNotations.
Open Scope R_scope.

(** C143: for any Q the two bands add up, within the rounding errors, to the ideal [AllPass] plus
    (1/q^2 - 2) times the ideal [LowPass] and [HighPass] in series. *)
Theorem C143_sum :
  forall (T : Type) (O : num_ops T) (V : float_view T), ieee O V -> trig_close O V -> pow10_close O V ->
  forall sr f q (lo hi : rated T) (M : R) (x : nat -> T),
    let args := RbjQ sr f q in let ideal kind := rbj_out kind (ideal_args V args) in let q' := val V q in
    r_set lo = (LowPass, args) -> r_set hi = (HighPass, args) -> chain_ok V [lo; lo] M -> chain_ok V [hi; hi] M ->
    2 * cross_level V lo hi M <= fmax V -> (forall n, fin V (x n) = true /\ Rabs (val V (x n)) <= M) ->
    forall n, fin V (recombined O args x n) = true
      /\ Rabs (val V (recombined O args x n)
               - (ideal AllPass (fun n => val V (x n)) n + (/ (q' * q') - 2) * ideal LowPass (ideal HighPass (fun n => val V (x n))) n))
         <= cross_error V lo hi M + bpow radix2 (- fprec V) * cross_level V lo hi M.
Proof. exact C143_sum_thm. Qed.
Print Assumptions C143_sum.

(** C143: with a float next to 1/sqrt 2 for Q, the sum is the ideal [AllPass] up to the rounding
    errors, those of Q included.  So the crossover is flat for ever. *)
Theorem C143_flat :
  forall (T : Type) (O : num_ops T) (V : float_view T), ieee O V -> trig_close O V -> pow10_close O V ->
  forall sr f q (lo hi : rated T) (M : R) (x : nat -> T),
    let args := RbjQ sr f q in let u := bpow radix2 (- fprec V) in
    r_set lo = (LowPass, args) -> r_set hi = (HighPass, args) -> chain_ok V [lo; lo] M -> chain_ok V [hi; hi] M ->
    2 * cross_level V lo hi M <= fmax V -> Rabs (val V q - / sqrt 2) <= u ->
    (forall n, fin V (x n) = true /\ Rabs (val V (x n)) <= M) ->
    forall n, fin V (recombined O args x n) = true
      /\ Rabs (val V (recombined O args x n) - rbj_out AllPass (ideal_args V args) (fun n => val V (x n)) n)
         <= cross_error V lo hi M + u * cross_level V lo hi M + 6 * u * (r_H lo * r_H hi * M).
Proof. exact C143_flat_thm. Qed.
Print Assumptions C143_flat.

(** C143 is met in [f64] by a library with correctly rounded functions: a crossover at 1 kHz, the
    sample rate being 44100 Hz, with the float next to 1/sqrt 2, on the input 1, 1, 1, ... *)
Example C143_hyps : let O := f64_ops (cr_libm 53 1024) false in let V := ieee_view 53 1024 in
  let lo := demo_cross LowPass in let hi := demo_cross HighPass in let q := fl64 6369051672525773 (-53) in
  ieee O V /\ trig_close O V /\ pow10_close O V
  /\ chain_ok V [lo; lo] 1 /\ chain_ok V [hi; hi] 1 /\ 2 * cross_level V lo hi 1 <= fmax V
  /\ Rabs (val V q - / sqrt 2) <= bpow radix2 (- fprec V)
  /\ forall n : nat, fin V ((fun _ => fl64 1 0) n) = true /\ Rabs (val V ((fun _ => fl64 1 0) n)) <= 1.
Proof. exact C143_hyps_aux. Qed.
