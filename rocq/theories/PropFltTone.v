(** Property C145: tones through filters in series in [f32] and [f64].

    Vocabulary: [rated], [chain_ok], [chain_error], [flt_chain] ([FltChainSpec], as in C142);
    [gain kind args w g]: the gain of one ideal filter ([EqSpec], C76 gives its value); [valid]
    ([RbjSpec]); [band], [good_band], [boosts], [cuts] ([GraphSpec], as in C141). *)
From Coq Require Import ZArith Reals List Bool Lra Lia.
From Coquelicot Require Import Coquelicot.
From Flocq Require Import Core.Core IEEE754.BinarySingleNaN.
From Verif Require Import Base Num NumR NumF FloatSpec FloatFacts Witness CrLibm FilterM RbjM Device Signal FltFilterSpec
  RbjSpec RbjFltSpec RbjAccSpec DbSpec GainAccSpec EqSpec GraphSpec FltChainSpec FltChainLemmas FltButterLemmas FltToneLemmas.
Import ListNotations.
Open Scope R_scope.

(** C145: a tone, sampled in floating point with an error up to [D], comes out of any filters in
    series as the tone whose amplitude is multiplied by the product of the ideal gains, with one
    phase shift, up to [chain_error] and whatever is left of the transient. *)

Theorem C145_tone :
  forall (T : Type) (O : num_ops T) (V : float_view T), ieee O V -> trig_close O V -> pow10_close O V ->
  forall w (l : list (rated T)) (gs : list R), 0 < w < PI ->
    List.Forall2 (fun r g => let (kind, args) := r_set r in
                    valid kind (ideal_args V args) /\ gain kind (ideal_args V args) w g) l gs ->
    exists theta, forall (M D A phi : R) (x : nat -> T), chain_ok V l M ->
      (forall n, fin V (x n) = true /\ Rabs (val V (x n)) <= M) ->
      (forall n, Rabs (val V (x n) - sinusoid A w phi n) <= D) ->
      forall eps, 0 < eps -> exists n0, forall n, (n0 <= n)%nat ->
        Rabs (val V (flt_chain O (map r_set l) x n) - sinusoid (fold_right Rmult 1 gs * A) w (phi + theta) n)
        <= chain_error V l M D + eps.
Proof. exact C145_tone_thm. Qed.
Print Assumptions C145_tone.

(** C145: an equaliser of any number of bands in floating point changes the amplitude of a tone by
    a factor between all its cuts together and all its boosts together, up to [chain_error]. *)

Theorem C145_equaliser :
  forall (T : Type) (O : num_ops T) (V : float_view T), ieee O V -> trig_close O V -> pow10_close O V ->
  forall sr w (l : list (rated T)) (bands : list band), 0 < w < PI -> List.Forall (good_band sr) bands ->
    map (fun r => let (kind, args) := r_set r in (kind, ideal_args V args)) l = map (fun b => (b_kind b, b_args sr b)) bands ->
    exists g theta, db_factor (cuts bands) <= g <= db_factor (boosts bands)
      /\ forall (M D A phi : R) (x : nat -> T), chain_ok V l M ->
        (forall n, fin V (x n) = true /\ Rabs (val V (x n)) <= M) ->
        (forall n, Rabs (val V (x n) - sinusoid A w phi n) <= D) ->
        forall eps, 0 < eps -> exists n0, forall n, (n0 <= n)%nat ->
          Rabs (val V (flt_chain O (map r_set l) x n) - sinusoid (g * A) w (phi + theta) n) <= chain_error V l M D + eps
          /\ Rabs (val V (flt_chain O (map r_set l) x n)) <= db_factor (boosts bands) * Rabs A + chain_error V l M D + eps.
Proof. exact C145_equaliser_thm. Qed.
Print Assumptions C145_equaliser.

(** C145: a constant input, and an alternating one (half the sample rate), settle to the input times
    the product of the gains that the filters have for such inputs; in particular one HighPass in the
    series removes an offset, up to [chain_error]. *)

Theorem C145_ends :
  forall (T : Type) (O : num_ops T) (V : float_view T), ieee O V -> trig_close O V -> pow10_close O V ->
  forall (l : list (rated T)) (gs : list R) (M D c : R) (x : nat -> T), chain_ok V l M ->
    (forall n, fin V (x n) = true /\ Rabs (val V (x n)) <= M) ->
    (List.Forall2 (fun r g => let (kind, args) := r_set r in
                    valid kind (ideal_args V args) /\ dc_gain kind (ideal_args V args) g) l gs ->
     (forall n, Rabs (val V (x n) - c) <= D) ->
     forall eps, 0 < eps -> exists n0, forall n, (n0 <= n)%nat ->
       Rabs (val V (flt_chain O (map r_set l) x n) - fold_right Rmult 1 gs * c) <= chain_error V l M D + eps)
    /\ (List.Forall2 (fun r g => let (kind, args) := r_set r in
                    valid kind (ideal_args V args) /\ nyquist_gain kind (ideal_args V args) g) l gs ->
     (forall n, Rabs (val V (x n) - (-1) ^ n * c) <= D) ->
     forall eps, 0 < eps -> exists n0, forall n, (n0 <= n)%nat ->
       Rabs (val V (flt_chain O (map r_set l) x n) - (-1) ^ n * (fold_right Rmult 1 gs * c)) <= chain_error V l M D + eps).
Proof. exact C145_ends_thm. Qed.
Print Assumptions C145_ends.

(** C145 is met in [f64] by a library with correctly rounded functions: a Peak and a LowShelf of 6 dB
    each at 1 kHz, the sample rate being 44100 Hz, on a tone of 1 radian per sample whose samples are
    rounded to the nearest float; *)
Example C145_hyps : let O := f64_ops (cr_libm 53 1024) false in let V := ieee_view 53 1024 in
  let six := fl64 6 0 in let l := [demo_eq Peak six; demo_eq LowShelf six] in
  let bands := [ {| b_kind := Peak; b_freq := 1000; b_db := 6; b_shape := 1 |}; {| b_kind := LowShelf; b_freq := 1000; b_db := 6; b_shape := 1 |} ] in
  ieee O V /\ trig_close O V /\ pow10_close O V /\ chain_ok V l 1 /\ List.Forall (good_band 44100) bands
  /\ map (fun r => let (kind, args) := r_set r in (kind, ideal_args V args)) l = map (fun b => (b_kind b, b_args 44100 b)) bands
  /\ (exists gs, List.Forall2 (fun r g => let (kind, args) := r_set r in
                    valid kind (ideal_args V args) /\ gain kind (ideal_args V args) 1 g) l gs)
  /\ (forall n, fin V (demo_tone n) = true /\ Rabs (val V (demo_tone n)) <= 1)
  /\ (forall n, Rabs (val V (demo_tone n) - sinusoid 1 1 0 n) <= bpow radix2 (-52))
  (** for the Peak alone the bound is under 1/100. *)
  /\ chain_error V [demo_eq Peak six] 1 (bpow radix2 (-52)) <= / 100.
Proof. exact C145_hyps_aux. Qed.

(** and for constant and alternating inputs, with the gains of the two filters: *)
Example C145_ends_hyps : let V := ieee_view 53 1024 in
  let six := fl64 6 0 in let l := [demo_eq Peak six; demo_eq LowShelf six] in
  chain_ok V l 1
  /\ List.Forall2 (fun r g => let (kind, args) := r_set r in
       valid kind (ideal_args V args) /\ dc_gain kind (ideal_args V args) g) l [1; db_factor 6]
  /\ List.Forall2 (fun r g => let (kind, args) := r_set r in
       valid kind (ideal_args V args) /\ nyquist_gain kind (ideal_args V args) g) l [1; 1]
  /\ (forall n : nat, fin V ((fun _ => fl64 1 0) n) = true /\ Rabs (val V ((fun _ => fl64 1 0) n)) <= 1)
  /\ forall n : nat, Rabs (val V ((fun _ => fl64 1 0) n) - 1) <= 0.
Proof. exact C145_ends_hyps_aux. Qed.
