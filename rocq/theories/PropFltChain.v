(** Property C142: RBJ filters in series in [f32] and [f64] follow the ideal filters for ever.

    Vocabulary: [flt_chain], [ideal_chain], [rated], [chain_ok], [chain_error], [peak_level],
    [opposite] ([FltChainSpec]); [trig_close], [pow10_close]: sine, cosine and power of the
    platform ([RbjFltSpec], [DbSpec]). *)
From Coq Require Import ZArith Reals List Bool Lra Lia Permutation.
From Flocq Require Import Core.Core IEEE754.BinarySingleNaN.
From Verif Require Import Base Num NumR NumF FloatSpec FloatFacts Witness CrLibm FilterM RbjM Device Signal FltFilterSpec
  RbjSpec RbjFltSpec RbjAccSpec DbSpec GainAccSpec FltChainSpec FltChainLemmas.
Import ListNotations.
Open Scope R_scope.

(** C142: any of the nine filters in series.  For an input of finite samples up to [M], everything
    that comes out of the chain is finite and within [chain_error] of the output of the ideal
    chain, for ever, whatever the number of filters. *)
Theorem C142_chain :
  forall (T : Type) (O : num_ops T) (V : float_view T), ieee O V -> trig_close O V -> pow10_close O V ->
  forall (l : list (rated T)) (M : R) (x : nat -> T), chain_ok V l M ->
    (forall n, fin V (x n) = true /\ Rabs (val V (x n)) <= M) ->
    forall n, fin V (flt_chain O (map r_set l) x n) = true
      /\ Rabs (val V (flt_chain O (map r_set l) x n) - ideal_chain V (map r_set l) (fun n => val V (x n)) n) <= chain_error V l M 0.
Proof. exact C142_chain_thm. Qed.
Print Assumptions C142_chain.

(** C142: the same filters in another order give other samples in floating point, but never by
    more than the two errors together. *)
Theorem C142_order :
  forall (T : Type) (O : num_ops T) (V : float_view T), ieee O V -> trig_close O V -> pow10_close O V ->
  forall (l l' : list (rated T)) (M : R) (x : nat -> T), chain_ok V l M -> chain_ok V l' M ->
    Permutation (map r_set l) (map r_set l') -> (forall n, fin V (x n) = true /\ Rabs (val V (x n)) <= M) ->
    forall n, Rabs (val V (flt_chain O (map r_set l) x n) - val V (flt_chain O (map r_set l') x n))
      <= chain_error V l M 0 + chain_error V l' M 0.
Proof. exact C142_order_thm. Qed.
Print Assumptions C142_order.

(** C142: a difference there is.  In [f32] already two plain gains ([OneZero] filters that
    multiply by 4097 and by 8191) give different samples in the two orders, whatever the math
    library. *)
Theorem C142_order_exact_refuted :
  forall (lm : libm f32) (b : bool), let D := dev_one_zero (f32_ops lm b) in
  ~ (forall (k k' : f32 * f32) (x : nat -> f32) (n : nat), stream D k' (stream D k x) n = stream D k (stream D k' x) n).
Proof. exact C142_order_exact_refuted_thm. Qed.
Print Assumptions C142_order_exact_refuted.

(** C142: an equaliser of any number of bands, followed by the equaliser with the opposite gains,
    its bands in any order, gives back the input up to [chain_error]. *)
Theorem C142_undo :
  forall (T : Type) (O : num_ops T) (V : float_view T), ieee O V -> trig_close O V -> pow10_close O V ->
  forall (l l' : list (rated T)) (M : R) (x : nat -> T), chain_ok V (l ++ l') M ->
    List.Forall (fun r => In (fst (r_set r)) [Peak; LowShelf; HighShelf] /\ valid (fst (r_set r)) (ideal_args V (snd (r_set r)))) l ->
    Permutation (map (fun r => opposite O (r_set r)) l) (map r_set l') ->
    (forall n, fin V (x n) = true /\ Rabs (val V (x n)) <= M) ->
    forall n, Rabs (val V (flt_chain O (map r_set (l ++ l')) x n) - val V (x n)) <= chain_error V (l ++ l') M 0.
Proof. exact C142_undo_thm. Qed.
Print Assumptions C142_undo.

(** C142: what may be taken for [r_H]: always 4 times the gain of the feedback for the filters
    with a Q, 34 times for those with a gain; and 1, the best possible, for the low passes that
    do not overshoot. *)
Theorem C142_levels :
  (forall (T : Type) (V : float_view T) s b0 b1 b2 a1 a2 G, in_range V s ->
     rbj_coeffs R_ops (fst s) (ideal_args V (snd s)) = Some (b0, b1, b2, a1, a2) -> peak_gain a1 a2 G ->
     peak_level (fst s) (ideal_args V (snd s)) (match snd s with RbjQ _ _ _ => 4 | RbjGain _ _ _ _ => 34 end * G))
  /\ (forall sr f q, valid_band sr f -> 0 < q <= / 2 -> f <= sr / 4 -> peak_level LowPass (RbjQ sr f q) 1)
  /\ (forall sr f q H, valid LowPass (RbjQ sr f q) -> peak_level LowPass (RbjQ sr f q) H -> 1 <= H).
Proof. exact C142_levels_thm. Qed.
Print Assumptions C142_levels.

(** C142: a cascade of [n] equal filters whose ideal never exceeds its input (such as a [LowPass]
    that does not overshoot).  The error grows with the number of filters like compound
    interest, starting from zero; it does not grow with time. *)
Theorem C142_cascade :
  forall (T : Type) (O : num_ops T) (V : float_view T), ieee O V -> trig_close O V -> pow10_close O V ->
  forall (r : rated T) (n : nat) (M : R) (x : nat -> T), rated_ok V r -> r_H r = 1 -> 0 <= M ->
    let growth := (1 + 22 * coef_error V (r_set r) * r_G r) ^ n in
    512 * (growth * (M + fmin V / 2)) <= fmax V -> (forall i, fin V (x i) = true /\ Rabs (val V (x i)) <= M) ->
    forall i, fin V (flt_chain O (repeat (r_set r) n) x i) = true
      /\ Rabs (val V (flt_chain O (repeat (r_set r) n) x i) - ideal_chain V (repeat (r_set r) n) (fun i => val V (x i)) i)
         <= (growth - 1) * (M + fmin V / 2).
Proof. exact C142_cascade_thm. Qed.
Print Assumptions C142_cascade.

(** C142 is met in [f32] by a library with correctly rounded functions: a [LowPass] and a
    [HighPass] in series, in either order, at 44100 Hz with cutoff 1 kHz and Q = 0.6875, on the
    input 1, 1, 1, ...; *)
Example C142_hyps : let O := f32_ops (cr_libm 24 128) false in let V := ieee_view 24 128 in
  let low := demo_q LowPass in let high := demo_q HighPass in
  ieee O V /\ trig_close O V /\ pow10_close O V /\ chain_ok V [low; high] 1 /\ chain_ok V [high; low] 1
  /\ Permutation (map r_set [low; high]) (map r_set [high; low])
  /\ forall n : nat, fin V ((fun _ => fl32 1 0) n) = true /\ Rabs (val V ((fun _ => fl32 1 0) n)) <= 1.
Proof. exact C142_hyps_aux. Qed.

(** and in [f64] by a [Peak] and a [LowShelf] of 6 dB at 1 kHz, undone in the other order. *)
Example C142_undo_hyps : let O := f64_ops (cr_libm 53 1024) false in let V := ieee_view 53 1024 in
  let six := fl64 6 0 in let l := [demo_eq Peak six; demo_eq LowShelf six] in
  let l' := [demo_eq LowShelf (n_neg O six); demo_eq Peak (n_neg O six)] in
  ieee O V /\ trig_close O V /\ pow10_close O V /\ chain_ok V (l ++ l') 1
  /\ List.Forall (fun r => In (fst (r_set r)) [Peak; LowShelf; HighShelf] /\ valid (fst (r_set r)) (ideal_args V (snd (r_set r)))) l
  /\ Permutation (map (fun r => opposite O (r_set r)) l) (map r_set l')
  /\ forall n : nat, fin V ((fun _ => fl64 1 0) n) = true /\ Rabs (val V ((fun _ => fl64 1 0) n)) <= 1.
Proof. exact C142_undo_hyps_aux. Qed.

(** Ten equal low passes in [f64] are within 10^-8 of the ideal cascade for ever. *)
Example C142_cascade_hyps : let O := f64_ops (cr_libm 53 1024) false in let V := ieee_view 53 1024 in
  let growth := (1 + 22 * coef_error V (r_set demo_half) * r_G demo_half) ^ 10 in
  ieee O V /\ trig_close O V /\ pow10_close O V /\ rated_ok V demo_half /\ r_H demo_half = 1
  /\ 512 * (growth * (1 + fmin V / 2)) <= fmax V /\ (growth - 1) * (1 + fmin V / 2) <= / 100000000
  /\ forall i : nat, fin V ((fun _ => fl64 1 0) i) = true /\ Rabs (val V ((fun _ => fl64 1 0) i)) <= 1.
Proof. exact C142_cascade_hyps_aux. Qed.
