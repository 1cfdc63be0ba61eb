(** Property C146: complementary filters side by side in [f32] and [f64].

    Vocabulary: [branch], [both], [three], [without], [mixed], [branch_level], [rates] ([FltPairSpec]);
    [rated], [stage_error], [ideal_args] ([FltChainSpec], as in C142); [rbj_out]: the ideal filter
    ([RbjSpec]). *)
From Coq Require Import ZArith Reals List Bool Lra Lia.
From Flocq Require Import Core.Core IEEE754.BinarySingleNaN.
From Verif Require Import Base Num NumR NumF FloatSpec FloatFacts Witness CrLibm FilterM RbjM Device Signal FltFilterSpec
  RbjSpec RbjFltSpec RbjAccSpec DbSpec GainAccSpec FltChainSpec FltPairSpec FltCrossLemmas FltPairLemmas.
Import ListNotations.
Open Scope R_scope.

(** C146: the float sum of LowPass and HighPass is the ideal BandStop, and the float sum of BandStop
    and BandPass2 is the input, up to the rounding errors of the two filters and of the addition. *)

Theorem C146_pairs :
  forall (T : Type) (O : num_ops T) (V : float_view T), ieee O V -> trig_close O V -> pow10_close O V ->
  forall sr f q (a b : rated T) (M : R) (x : nat -> T),
    let args := RbjQ sr f q in let level := branch_level V a M + branch_level V b M in
    let error := stage_error V a M + stage_error V b M + bpow radix2 (- fprec V) * level in
    2 * level <= fmax V -> (forall n, fin V (x n) = true /\ Rabs (val V (x n)) <= M) ->
    (rates V a LowPass args M -> rates V b HighPass args M ->
       forall n, fin V (both O LowPass HighPass args x n) = true
         /\ Rabs (val V (both O LowPass HighPass args x n) - rbj_out BandStop (ideal_args V args) (fun n => val V (x n)) n) <= error)
    /\ (rates V a BandStop args M -> rates V b BandPass2 args M ->
       forall n, fin V (both O BandStop BandPass2 args x n) = true
         /\ Rabs (val V (both O BandStop BandPass2 args x n) - val V (x n)) <= error).
Proof. exact C146_pairs_thm. Qed.
Print Assumptions C146_pairs.

(** C146: the bands of LowPass, HighPass and BandPass2 add up to the input in floating point. *)

Theorem C146_three_bands :
  forall (T : Type) (O : num_ops T) (V : float_view T), ieee O V -> trig_close O V -> pow10_close O V ->
  forall sr f q (a b c : rated T) (M : R) (x : nat -> T),
    let args := RbjQ sr f q in let u := bpow radix2 (- fprec V) in
    let two := branch_level V a M + branch_level V b M in let all := (1 + u) * two + branch_level V c M in
    rates V a LowPass args M -> rates V b HighPass args M -> rates V c BandPass2 args M ->
    2 * all <= fmax V -> (forall n, fin V (x n) = true /\ Rabs (val V (x n)) <= M) ->
    forall n, fin V (three O LowPass HighPass BandPass2 args x n) = true
      /\ Rabs (val V (three O LowPass HighPass BandPass2 args x n) - val V (x n))
         <= stage_error V a M + stage_error V b M + stage_error V c M + u * (two + all).
Proof. exact C146_three_bands_thm. Qed.
Print Assumptions C146_three_bands.

(** C146: the input without BandPass2 is the ideal BandStop, and the input without BandStop the
    ideal BandPass2, up to rounding errors: the missing filter need not be run. *)

Theorem C146_without :
  forall (T : Type) (O : num_ops T) (V : float_view T), ieee O V -> trig_close O V -> pow10_close O V ->
  forall sr f q k k' (r : rated T) (M : R) (x : nat -> T),
    let args := RbjQ sr f q in let level := M + branch_level V r M in
    (k, k') = (BandPass2, BandStop) \/ (k, k') = (BandStop, BandPass2) -> rates V r k args M ->
    2 * level <= fmax V -> (forall n, fin V (x n) = true /\ Rabs (val V (x n)) <= M) ->
    forall n, fin V (without O k args x n) = true
      /\ Rabs (val V (without O k args x n) - rbj_out k' (ideal_args V args) (fun n => val V (x n)) n)
         <= stage_error V r M + bpow radix2 (- fprec V) * level.
Proof. exact C146_without_thm. Qed.
Print Assumptions C146_without.

(** C146: half a phaser: the input plus AllPass is twice the ideal BandStop, the input minus AllPass
    twice the ideal BandPass2, up to rounding errors. *)

Theorem C146_phaser :
  forall (T : Type) (O : num_ops T) (V : float_view T), ieee O V -> trig_close O V -> pow10_close O V ->
  forall sr f q (r : rated T) (M : R) (x : nat -> T),
    let args := RbjQ sr f q in let level := M + branch_level V r M in
    let error := stage_error V r M + bpow radix2 (- fprec V) * level in
    let ideal kind := rbj_out kind (ideal_args V args) (fun n => val V (x n)) in
    rates V r AllPass args M -> 2 * level <= fmax V -> (forall n, fin V (x n) = true /\ Rabs (val V (x n)) <= M) ->
    forall n,
      (fin V (mixed O AllPass args x n) = true /\ Rabs (val V (mixed O AllPass args x n) - 2 * ideal BandStop n) <= error)
      /\ (fin V (without O AllPass args x n) = true /\ Rabs (val V (without O AllPass args x n) - 2 * ideal BandPass2 n) <= error).
Proof. exact C146_phaser_thm. Qed.
Print Assumptions C146_phaser.

(** C146 is met in [f64] by a library with correctly rounded functions: filters at 1 kHz, the sample
    rate being 44100 Hz, with the float next to 1/sqrt 2 for Q, on the input 1, 1, 1, ...; the errors
    of each filter are under 1/1000000, and the levels leave more than enough head room. *)
Example C146_hyps : let O := f64_ops (cr_libm 53 1024) false in let V := ieee_view 53 1024 in
  let args := RbjQ (fl64 44100 0) (fl64 1000 0) (fl64 6369051672525773 (-53)) in
  ieee O V /\ trig_close O V /\ pow10_close O V
  /\ (forall kind, In kind [LowPass; HighPass; BandStop; BandPass2; AllPass] -> rates V (demo_cross kind) kind args 1)
  /\ (forall kind, branch_level V (demo_cross kind) 1 <= 1201) /\ (forall kind, stage_error V (demo_cross kind) 1 <= / 1000000)
  /\ 100000 <= fmax V
  /\ forall n : nat, fin V ((fun _ => fl64 1 0) n) = true /\ Rabs (val V ((fun _ => fl64 1 0) n)) <= 1.
Proof. exact C146_hyps_aux. Qed.
