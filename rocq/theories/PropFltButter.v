(** Property C144: Butterworth filters of any even order in [f32] and [f64].

    Vocabulary: [section], [flt_cascade], [sections_ok], [sections_error] ([FltButterSpec]);
    [cascade], [butter_q], [butterworth], [butter_gain] ([ButterSpec]); [sinusoid] ([Signal]);
    [warped] ([EqSpec]); [trig_close]: sine and cosine of the platform ([RbjFltSpec]). *)
From Coq Require Import ZArith Reals List Bool Lra Lia.
From Flocq Require Import Core.Core IEEE754.BinarySingleNaN.
From Verif Require Import Base Num NumR NumF FloatSpec FloatFacts Witness CrLibm FilterM RbjM Device Signal FltFilterSpec
  RbjSpec RbjFltSpec RbjAccSpec EqSpec ButterSpec FltChainSpec FltButterSpec FltButterLemmas.
Import ListNotations.
Open Scope R_scope.

(** C144: LowPass (or HighPass) filters in series, each with a float within two roundings of its
    real Q, stay for ever within [sections_error] of the ideal filters with the real Qs, the error
    [D] of the input included. *)

Theorem C144_cascade :
  forall (T : Type) (O : num_ops T) (V : float_view T), ieee O V -> trig_close O V ->
  forall kind sr f (l : list (section T)) (M D : R) (x : nat -> T) (z : signal), kind = LowPass \/ kind = HighPass ->
    audible V sr f -> sections_ok V kind sr f l M ->
    (forall n, fin V (x n) = true /\ Rabs (val V (x n)) <= M) -> (forall n, Rabs (val V (x n) - z n) <= D) ->
    let y := flt_cascade O kind sr f (map c_q l) x in
    forall n, fin V (y n) = true
      /\ Rabs (val V (y n) - cascade kind (val V sr) (val V f) (map c_Q l) z n) <= sections_error V l M D.
Proof. exact C144_cascade_thm. Qed.
Print Assumptions C144_cascade.

(** C144: with floats next to the Qs of the Butterworth table, the filter of order 2 N stays for
    ever within [sections_error] of the ideal Butterworth filter of that order. *)

Theorem C144_butterworth :
  forall (T : Type) (O : num_ops T) (V : float_view T), ieee O V -> trig_close O V ->
  forall N kind sr f (l : list (section T)) (M : R) (x : nat -> T), kind = LowPass \/ kind = HighPass ->
    audible V sr f -> map c_Q l = map (butter_q N) (seq 0 N) -> sections_ok V kind sr f l M ->
    (forall n, fin V (x n) = true /\ Rabs (val V (x n)) <= M) ->
    let y := flt_cascade O kind sr f (map c_q l) x in
    forall n, fin V (y n) = true
      /\ Rabs (val V (y n) - butterworth kind N (val V sr) (val V f) (fun n => val V (x n)) n) <= sections_error V l M 0.
Proof. exact C144_butterworth_thm. Qed.
Print Assumptions C144_butterworth.

(** C144: so a tone, sampled in floating point with an error up to [D], comes out with the gain of
    the Butterworth filter, up to the errors and whatever is left of the transient. *)

Theorem C144_tone :
  forall (T : Type) (O : num_ops T) (V : float_view T), ieee O V -> trig_close O V ->
  forall N kind sr f w g, kind = LowPass \/ kind = HighPass -> audible V sr f ->
    butter_gain kind N (val V sr) (val V f) w g ->
    exists theta, forall (l : list (section T)) (M D A phi : R) (x : nat -> T),
      map c_Q l = map (butter_q N) (seq 0 N) -> sections_ok V kind sr f l M ->
      (forall n, fin V (x n) = true /\ Rabs (val V (x n)) <= M) ->
      (forall n, Rabs (val V (x n) - sinusoid A w phi n) <= D) ->
      forall eps, 0 < eps -> exists n0, forall n, (n0 <= n)%nat ->
        Rabs (val V (flt_cascade O kind sr f (map c_q l) x n) - sinusoid (g * A) w (phi + theta) n)
        <= sections_error V l M D + eps.
Proof. exact C144_tone_thm. Qed.
Print Assumptions C144_tone.

(** C144: how the hypotheses are met: the Qs of the Butterworth table of order 2 N lie between 1/2
    and N, and for every such Q the two bounds of [section_ok] are explicit. *)

Theorem C144_rating :
  (forall N k, (k < N)%nat -> / 2 <= butter_q N k <= INR N)
  /\ (forall kind sr f Q, kind = LowPass \/ kind = HighPass -> / 2 <= Q -> 0 < sin (omega sr f) ->
       let G := (1 + 2 * Q / sin (omega sr f)) ^ 2 in
       exists b0 b1 b2 a1 a2, rbj_coeffs R_ops kind (RbjQ sr f Q) = Some (b0, b1, b2, a1, a2)
         /\ peak_gain a1 a2 G /\ peak_level kind (RbjQ sr f Q) (4 * G)).
Proof. exact C144_rating_thm. Qed.
Print Assumptions C144_rating.

(** C144 is met in [f64] by a library with correctly rounded functions: the Butterworth filters of
    order 4 at 1 kHz, the sample rate being 44100 Hz, whose Qs are the floats nearest to those of the
    table, on a tone of 1 radian per sample whose samples are rounded to the nearest float. *)
Example C144_hyps : let O := f64_ops (cr_libm 53 1024) false in let V := ieee_view 53 1024 in
  let l := [demo_butter 0; demo_butter 1] in
  ieee O V /\ trig_close O V /\ audible V (fl64 44100 0) (fl64 1000 0)
  /\ map c_Q l = map (butter_q 2) (seq 0 2)
  /\ (forall kind, kind = LowPass \/ kind = HighPass -> sections_ok V kind (fl64 44100 0) (fl64 1000 0) l 1)
  /\ sections_error V l 1 (bpow radix2 (-52)) <= / 10
  /\ (forall n, fin V (demo_tone n) = true /\ Rabs (val V (demo_tone n)) <= 1)
  /\ (forall n, Rabs (val V (demo_tone n) - sinusoid 1 1 0 n) <= bpow radix2 (-52))
  /\ forall kind, kind = LowPass \/ kind = HighPass -> exists g, butter_gain kind 2 (val V (fl64 44100 0)) (val V (fl64 1000 0)) 1 g.
Proof. exact C144_hyps_aux. Qed.

Example C144_rating_hyps : (1 < 2)%nat /\ / 2 <= butter_q 2 1 /\ 0 < sin (omega 44100 1000).
Proof.
  split; [lia|]. split; [apply C144_rating_thm; lia|]. assert (X := PI_RGT_0). unfold omega. apply sin_gt_0; lra.
Qed.
