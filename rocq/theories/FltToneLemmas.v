(** Proofs of C145.  The [@PROP] blocks are copied into [PropFltTone.v]. *)
(*@PROP
(** Property C145: tones through filters in series in [f32] and [f64].

    Vocabulary: [rated], [chain_ok], [chain_error], [flt_chain] ([FltChainSpec], as in C142);
    [gain kind args w g]: the gain of one ideal filter ([EqSpec], C76 gives its value); [valid]
    ([RbjSpec]); [band], [good_band], [boosts], [cuts] ([GraphSpec], as in C141). *)
From Coq Require Import ZArith Reals List Bool Lra Lia.
From Coquelicot Require Import Coquelicot.
From Flocq Require Import Core.Core IEEE754.BinarySingleNaN.
From Verif Require Import Base Num NumR NumF FloatSpec FloatFacts Witness CrLibm FilterM RbjM Device Signal FltFilterSpec
  RbjSpec RbjFltSpec RbjAccSpec DbSpec GainAccSpec EqSpec GraphSpec FltChainSpec FltChainLemmas FltButterLemmas FltToneLemmas.
Import ListNotations.
Open Scope R_scope.
@*)
From Coq Require Import ZArith Reals List Bool Lra Lia.
From Coquelicot Require Import Coquelicot.
From Flocq Require Import Core.Core IEEE754.BinarySingleNaN.
From Verif Require Import Base Num NumR NumF FloatSpec FloatFacts Witness CrLibm FilterM RbjM Device Signal SignalFacts FilterFacts FilterLemmas
  FltFilterSpec FltFilterLemmas RbjSpec RbjFacts RbjLemmas RbjFltSpec RbjFltLemmas RbjAccSpec RbjAccLemmas DbSpec GainAccSpec GainAccLemmas
  EqSpec EqFacts EqLemmas CrossLemmas GraphSpec GraphLemmas FltChainSpec FltChainLemmas FltButterLemmas.
Import ListNotations.
Open Scope R_scope.

Lemma chain_tracks (T : Type) (O : num_ops T) (V : float_view T) (HO : ieee O V) (HT : trig_close O V) (HP : pow10_close O V)
  (l : list (rated T)) : forall M D (x : nat -> T) (z : signal), chain_ok V l M ->
  (forall n, fin V (x n) = true /\ Rabs (val V (x n)) <= M) -> (forall n, Rabs (val V (x n) - z n) <= D) ->
  forall n, Rabs (val V (flt_chain O (map r_set l) x n) - ideal_chain V (map r_set l) z n) <= chain_error V l M D.
Proof.
  induction l as [|r l IH]; intros M D x z Hl Hx Hz n; [apply Hz|].
  destruct Hl as [Hr [Hm Hl]]. assert (S := stage_tracks T O V HO HT HP r M D x z Hr Hm Hx Hz). cbn zeta in S.
  apply (IH _ _ (stream (dev_rbj O (fst (r_set r))) (snd (r_set r)) x) _ Hl); intros m; [split|]; apply (S m).
Qed.

Lemma late_tone (y z : signal) (E A w phi : R) : (forall n, Rabs (y n - z n) <= E) -> approaches z (sinusoid A w phi) ->
  forall eps, 0 < eps -> exists n0, forall n, (n0 <= n)%nat -> Rabs (y n - sinusoid A w phi n) <= E + eps.
Proof.
  intros Hy Hz eps He. apply is_lim_seq_spec in Hz. destruct (Hz (mkposreal eps He)) as [n0 H0]. exists n0. intros n Hn.
  specialize (H0 n Hn). cbn [pos] in H0. rewrite Rminus_0_r in H0. specialize (Hy n).
  apply Rabs_le_inv in Hy. apply Rabs_lt_between in H0. apply Rabs_le. lra.
Qed.

Lemma ideal_passes {T} (V : float_view T) w (l : list (rated T)) gs : 0 < w < PI ->
  List.Forall2 (fun r g => valid (fst (r_set r)) (ideal_args V (snd (r_set r))) /\ gain (fst (r_set r)) (ideal_args V (snd (r_set r))) w g) l gs ->
  exists theta, forall A phi u, approaches u (sinusoid A w phi) ->
    approaches (ideal_chain V (map r_set l) u) (sinusoid (fold_right Rmult 1 gs * A) w (phi + theta)).
Proof.
  intros Hw H. induction H as [|r g l gs [Vd [G0 [th P]]] _ [T' IH]].
  - exists 0. intros A phi u Hu. cbn. rewrite Rmult_1_l, Rplus_0_r. exact Hu.
  - exists (th + T'). intros A phi u Hu.
    cbn [map ideal_chain fold_left fold_right].
    replace (g * fold_right Rmult 1 gs * A) with (fold_right Rmult 1 gs * (g * A)) by ring.
    replace (phi + (th + T')) with (phi + th + T') by ring. apply IH.
    apply approaches_trans with (rbj_out (fst (r_set r)) (ideal_args V (snd (r_set r))) (sinusoid A w phi)); [|apply P].
    destruct (norm_stable _ _ Vd) as [b0 [b1 [b2 [a1 [a2 [F St]]]]]].
    exact (CrossLemmas.settle _ _ _ _ _ _ _ _ _ _ _ F St Hu).
Qed.

(*@PROP
(** C145: a tone, sampled in floating point with an error up to [D], comes out of any filters in
    series as the tone whose amplitude is multiplied by the product of the ideal gains, with one
    phase shift, up to [chain_error] and whatever is left of the transient. *)
@*)
Lemma C145_tone_thm :
  forall (T : Type) (O : num_ops T) (V : float_view T), ieee O V -> trig_close O V -> pow10_close O V ->
  forall w (l : list (rated T)) (gs : list R), 0 < w < PI ->
    List.Forall2 (fun r g => let (kind, args) := r_set r in
                    valid kind (ideal_args V args) /\ gain kind (ideal_args V args) w g) l gs ->
    exists theta, forall (M D A phi : R) (x : nat -> T), chain_ok V l M ->
      (forall n, fin V (x n) = true /\ Rabs (val V (x n)) <= M) ->
      (forall n, Rabs (val V (x n) - sinusoid A w phi n) <= D) ->
      forall eps, 0 < eps -> exists n0, forall n, (n0 <= n)%nat ->
        Rabs (val V (flt_chain O (map r_set l) x n) - sinusoid (fold_right Rmult 1 gs * A) w (phi + theta) n)
        <= chain_error V l M D + eps.
Proof.
  intros T O V HO HT HP w l gs Hw Hg.
  assert (Hg' : List.Forall2 (fun r g => valid (fst (r_set r)) (ideal_args V (snd (r_set r))) /\ gain (fst (r_set r)) (ideal_args V (snd (r_set r))) w g) l gs).
  { clear - Hg. induction Hg as [|r g l gs H _ IH]; constructor; [|exact IH]. destruct (r_set r); exact H. }
  destruct (ideal_passes V w l gs Hw Hg') as [theta P]. exists theta. intros M D A phi x Hl Hx Hz.
  exact (late_tone _ _ _ _ _ _ (chain_tracks T O V HO HT HP l M D x _ Hl Hx Hz) (P A phi _ (self_app _))).
Qed.

(*@PROP
(** C145: an equaliser of any number of bands in floating point changes the amplitude of a tone by
    a factor between all its cuts together and all its boosts together, up to [chain_error]. *)
@*)
Lemma C145_equaliser_thm :
  forall (T : Type) (O : num_ops T) (V : float_view T), ieee O V -> trig_close O V -> pow10_close O V ->
  forall sr w (l : list (rated T)) (bands : list band), 0 < w < PI -> List.Forall (good_band sr) bands ->
    map (fun r => let (kind, args) := r_set r in (kind, ideal_args V args)) l = map (fun b => (b_kind b, b_args sr b)) bands ->
    exists g theta, db_factor (cuts bands) <= g <= db_factor (boosts bands)
      /\ forall (M D A phi : R) (x : nat -> T), chain_ok V l M ->
        (forall n, fin V (x n) = true /\ Rabs (val V (x n)) <= M) ->
        (forall n, Rabs (val V (x n) - sinusoid A w phi n) <= D) ->
        forall eps, 0 < eps -> exists n0, forall n, (n0 <= n)%nat ->
          Rabs (val V (flt_chain O (map r_set l) x n) - sinusoid (g * A) w (phi + theta) n) <= chain_error V l M D + eps
          /\ Rabs (val V (flt_chain O (map r_set l) x n)) <= db_factor (boosts bands) * Rabs A + chain_error V l M D + eps.
Proof.
  intros T O V HO HT HP sr w l bands Hw Hb El.
  destruct (gains_exist sr w bands Hw Hb) as [gs Hs].
  assert (R := C141_range_thm sr w bands (fold_right Rmult 1 gs) Hw Hb (proj2 (C141_product_thm sr w bands gs _ Hw Hb Hs) eq_refl)).
  assert (Hg : List.Forall2 (fun r g => let (kind, args) := r_set r in
                    valid kind (ideal_args V args) /\ gain kind (ideal_args V args) w g) l gs).
  { clear R Hw. revert l El Hb. induction Hs as [|b g bands gs H _ IH]; intros l El Hb.
    - destruct l; [constructor|discriminate].
    - destruct l as [|r l]; [discriminate|]. cbn [map] in El. injection El as E1 E2. inversion Hb as [|? ? [_ Vd] Hb']; subst.
      constructor; [|exact (IH l E2 Hb')]. destruct (r_set r) as [kind args]. injection E1 as -> ->. split; assumption. }
  destruct (C145_tone_thm T O V HO HT HP w l gs Hw Hg) as [theta P]. set (g := fold_right Rmult 1 gs) in *.
  exists g, theta. split; [exact R|]. intros M D A phi x Hl Hx Hz eps He.
  destruct (P M D A phi x Hl Hx Hz eps He) as [n0 H0]. exists n0. intros n Hn. specialize (H0 n Hn). split; [exact H0|].
  assert (G0 : 0 <= g) by (assert (X := factor_pos (cuts bands)); lra).
  assert (S : Rabs (sinusoid (g * A) w (phi + theta) n) <= db_factor (boosts bands) * Rabs A).
  { unfold sinusoid. rewrite !Rabs_mult, (Rabs_pos_eq g) by exact G0.
    assert (C : Rabs (cos (INR n * w + (phi + theta))) <= 1) by (apply Rabs_le, COS_bound).
    assert (X := Rabs_pos A). assert (0 <= g * Rabs A) by (apply Rmult_le_pos; assumption).
    apply Rle_trans with (g * Rabs A * 1); [apply Rmult_le_compat_l; assumption|]. rewrite Rmult_1_r.
    apply Rmult_le_compat_r; [exact X|apply R]. }
  set (y := val V (flt_chain O (map r_set l) x n)) in *. set (s := sinusoid (g * A) w (phi + theta) n) in *. clearbody y s. replace y with ((y - s) + s) by ring.
  eapply Rle_trans; [apply Rabs_triang|]. lra.
Qed.

Lemma late_level (y z v : signal) (E : R) : (forall n, Rabs (y n - z n) <= E) -> approaches z v ->
  forall eps, 0 < eps -> exists n0, forall n, (n0 <= n)%nat -> Rabs (y n - v n) <= E + eps.
Proof.
  intros Hy Hz eps He. apply is_lim_seq_spec in Hz. destruct (Hz (mkposreal eps He)) as [n0 H0]. exists n0. intros n Hn.
  specialize (H0 n Hn). cbn [pos] in H0. rewrite Rminus_0_r in H0. specialize (Hy n).
  apply Rabs_le_inv in Hy. apply Rabs_lt_between in H0. apply Rabs_le. lra.
Qed.

(** Signals [s c], scaled by every filter, are scaled by the chain. *)
Lemma ideal_scales {T} (V : float_view T) (s : R -> signal) (l : list (rated T)) gs :
  List.Forall2 (fun r g => valid (fst (r_set r)) (ideal_args V (snd (r_set r)))
    /\ forall c, approaches (rbj_out (fst (r_set r)) (ideal_args V (snd (r_set r))) (s c)) (s (g * c))) l gs ->
  forall c u, approaches u (s c) -> approaches (ideal_chain V (map r_set l) u) (s (fold_right Rmult 1 gs * c)).
Proof.
  intros H. induction H as [|r g l gs [Vd P] _ IH]; intros c u Hu.
  - cbn. rewrite Rmult_1_l. exact Hu.
  - cbn [map ideal_chain fold_left fold_right].
    replace (g * fold_right Rmult 1 gs * c) with (fold_right Rmult 1 gs * (g * c)) by ring. apply IH.
    apply approaches_trans with (rbj_out (fst (r_set r)) (ideal_args V (snd (r_set r))) (s c)); [|apply P].
    destruct (norm_stable _ _ Vd) as [b0 [b1 [b2 [a1 [a2 [F St]]]]]].
    exact (CrossLemmas.settle _ _ _ _ _ _ _ _ _ _ _ F St Hu).
Qed.

(*@PROP
(** C145: a constant input, and an alternating one (half the sample rate), settle to the input times
    the product of the gains that the filters have for such inputs; in particular one HighPass in the
    series removes an offset, up to [chain_error]. *)
@*)
Lemma C145_ends_thm :
  forall (T : Type) (O : num_ops T) (V : float_view T), ieee O V -> trig_close O V -> pow10_close O V ->
  forall (l : list (rated T)) (gs : list R) (M D c : R) (x : nat -> T), chain_ok V l M ->
    (forall n, fin V (x n) = true /\ Rabs (val V (x n)) <= M) ->
    (List.Forall2 (fun r g => let (kind, args) := r_set r in
                    valid kind (ideal_args V args) /\ dc_gain kind (ideal_args V args) g) l gs ->
     (forall n, Rabs (val V (x n) - c) <= D) ->
     forall eps, 0 < eps -> exists n0, forall n, (n0 <= n)%nat ->
       Rabs (val V (flt_chain O (map r_set l) x n) - fold_right Rmult 1 gs * c) <= chain_error V l M D + eps)
    /\ (List.Forall2 (fun r g => let (kind, args) := r_set r in
                    valid kind (ideal_args V args) /\ nyquist_gain kind (ideal_args V args) g) l gs ->
     (forall n, Rabs (val V (x n) - (-1) ^ n * c) <= D) ->
     forall eps, 0 < eps -> exists n0, forall n, (n0 <= n)%nat ->
       Rabs (val V (flt_chain O (map r_set l) x n) - (-1) ^ n * (fold_right Rmult 1 gs * c)) <= chain_error V l M D + eps).
Proof.
  intros T O V HO HT HP l gs M D c x Hl Hx. split; intros Hg Hz.
  - apply (late_level (fun n => val V (flt_chain O (map r_set l) x n)) _ (fun _ => fold_right Rmult 1 gs * c) _
      (chain_tracks T O V HO HT HP l M D x _ Hl Hx Hz)).
    apply (ideal_scales V (fun c _ => c) l gs); [|apply self_app]. clear - Hg.
    induction Hg as [|r g l gs H _ IH]; constructor; [|exact IH]. destruct (r_set r); exact H.
  - apply (late_level (fun n => val V (flt_chain O (map r_set l) x n)) _ (fun n => (-1) ^ n * (fold_right Rmult 1 gs * c)) _
      (chain_tracks T O V HO HT HP l M D x _ Hl Hx Hz)).
    apply (ideal_scales V (fun c n => (-1) ^ n * c) l gs); [|apply self_app]. clear - Hg.
    induction Hg as [|r g l gs H0 _ IH]; constructor; [|exact IH]. destruct (r_set r) as [kind args]. destruct H0 as [Vd H]. cbn [fst snd].
    split; [exact Vd|]. intros c. assert (P := H c). unfold approaches in *. eapply is_lim_seq_ext; [|exact P]. intros n. cbv beta. ring.
Qed.

Lemma C145_hyps_aux : let O := f64_ops (cr_libm 53 1024) false in let V := ieee_view 53 1024 in
  let six := fl64 6 0 in let l := [demo_eq Peak six; demo_eq LowShelf six] in
  let bands := [ {| b_kind := Peak; b_freq := 1000; b_db := 6; b_shape := 1 |}; {| b_kind := LowShelf; b_freq := 1000; b_db := 6; b_shape := 1 |} ] in
  ieee O V /\ trig_close O V /\ pow10_close O V /\ chain_ok V l 1 /\ List.Forall (good_band 44100) bands
  /\ map (fun r => let (kind, args) := r_set r in (kind, ideal_args V args)) l = map (fun b => (b_kind b, b_args 44100 b)) bands
  /\ (exists gs, List.Forall2 (fun r g => let (kind, args) := r_set r in
                    valid kind (ideal_args V args) /\ gain kind (ideal_args V args) 1 g) l gs)
  /\ (forall n, fin V (demo_tone n) = true /\ Rabs (val V (demo_tone n)) <= 1)
  /\ (forall n, Rabs (val V (demo_tone n) - sinusoid 1 1 0 n) <= bpow radix2 (-52))
  /\ chain_error V [demo_eq Peak six] 1 (bpow radix2 (-52)) <= / 100.
Proof.
  intros O V six l bands. destruct C97_hyps_aux as [HO [HT [HP _]]]. split; [exact HO|]. split; [exact HT|]. split; [exact HP|].
  assert (E1 : val V (fl64 44100 0) = 44100) by (unfold V; cbn [val ieee_view]; lit; lra).
  assert (E2 : val V (fl64 1000 0) = 1000) by (unfold V; cbn [val ieee_view]; lit; lra).
  assert (E4 : val V (fl64 1 0) = 1) by (unfold V; cbn [val ieee_view]; lit; lra).
  assert (E6 : val V six = 6) by (unfold V, six; cbn [val ieee_view]; lit; lra).
  assert (F6 : fin V six = true) by (vm_compute; reflexivity).
  assert (A6 : Rabs (val V six) <= 6) by (rewrite E6, Rabs_pos_eq; lra).
  assert (B60 : 200000 <= bpow radix2 60) by (replace 200000 with (200000 * 1) by ring; apply Rle_trans with (bpow radix2 20);
    [replace (bpow radix2 20) with 1048576 by (cbn; lra); lra|apply bpow_le; lia]).
  split.
  { apply (demo_eq_step Peak six _ 1 1); [tauto|exact F6|exact A6|lra|lra|]. intros M' HM.
    apply (demo_eq_step LowShelf six _ M' 200000); [tauto|exact F6|exact A6|lra|lra|]. intros M'' _. exact I. }
  assert (Hb : List.Forall (good_band 44100) bands).
  { assert (Vs : forall d, valid_slope d 1) by (intros d; unfold valid_slope; split; [lra|]; replace (1 / 1 - 1) with 0 by field; lra).
    unfold bands, good_band, valid_band. repeat (apply List.Forall_cons || apply List.Forall_nil); cbn; unfold valid_band.
    - split; [left; reflexivity|]. lra.
    - split; [right; split; [left; reflexivity|lra]|]. split; [lra|apply Vs]. }
  split; [exact Hb|].
  assert (El : map (fun r => let (kind, args) := r_set r in (kind, ideal_args V args)) l = map (fun b => (b_kind b, b_args 44100 b)) bands).
  { unfold l, bands, demo_eq, b_args. cbn [map r_set ideal_args b_kind b_freq b_db b_shape]. rewrite E1, E2, E4, E6. reflexivity. }
  split; [exact El|].
  assert (W : 0 < 1 < PI) by (assert (X := PI2_1); lra).
  split.
  { destruct (gains_exist 44100 1 bands W Hb) as [gs Hs]. exists gs. unfold l, bands in *.
    inversion Hs as [|? g ? gs1 G1 Hs1]; subst. inversion Hs1 as [|? h ? gs2 G2 Hs2]; subst. inversion Hs2; subst.
    inversion Hb as [|? ? [_ V1] Hb1]; subst. inversion Hb1 as [|? ? [_ V2] _]; subst.
    unfold demo_eq, b_args in *. cbn [r_set ideal_args b_kind b_freq b_db b_shape] in *.
    constructor; [|constructor; [|constructor]]; cbn [r_set]; cbn [ideal_args]; rewrite E1, E2, E4, E6; split; assumption. }
  destruct C144_hyps_aux as [_ [_ [_ [_ [_ [_ [Hx [Hz _]]]]]]]]. split; [exact Hx|]. split; [exact Hz|].
  assert (Uv : bpow radix2 (- fprec V) = / 9007199254740992) by (cbn; lra).
  assert (U52 : bpow radix2 (-52) = 2 * / 9007199254740992) by (cbn; lra).
  destruct (fmin_small _ O V HO) as [Fm _].
  assert (Fs : fmin V <= 1) by (change 1 with (bpow radix2 0); cbn [fmin V ieee_view]; apply bpow_le; lia).
  cbn [chain_error]. rewrite U52. unfold stage_error. change (r_H (demo_eq Peak six)) with 105400. change (r_G (demo_eq Peak six)) with 3100.
  assert (C : 0 <= coef_error V (r_set (demo_eq Peak six)) <= / 1000000000000).
  { unfold coef_error, gain_error, demo_eq. cbn [r_set fst snd]. rewrite E4, Uv. lra. }
  set (e := coef_error V (r_set (demo_eq Peak six))) in *. clearbody e. set (m := fmin V) in *. clearbody m.
  assert (0 <= e * (1 + 105400 * 1 + m) <= / 1000000000000 * 105402) by (split; [apply Rmult_le_pos; lra|apply Rmult_le_compat; lra]).
  lra.
Qed.

(*@PROP
(** C145 is met in [f64] by a library with correctly rounded functions: a Peak and a LowShelf of 6 dB
    each at 1 kHz, the sample rate being 44100 Hz, on a tone of 1 radian per sample whose samples are
    rounded to the nearest float; *)
Example C145_hyps : let O := f64_ops (cr_libm 53 1024) false in let V := ieee_view 53 1024 in
  let six := fl64 6 0 in let l := [demo_eq Peak six; demo_eq LowShelf six] in
  let bands := [ {| b_kind := Peak; b_freq := 1000; b_db := 6; b_shape := 1 |}; {| b_kind := LowShelf; b_freq := 1000; b_db := 6; b_shape := 1 |} ] in
  ieee O V /\ trig_close O V /\ pow10_close O V /\ chain_ok V l 1 /\ List.Forall (good_band 44100) bands
  /\ map (fun r => let (kind, args) := r_set r in (kind, ideal_args V args)) l = map (fun b => (b_kind b, b_args 44100 b)) bands
  /\ (exists gs, List.Forall2 (fun r g => let (kind, args) := r_set r in
                    valid kind (ideal_args V args) /\ gain kind (ideal_args V args) 1 g) l gs)
  /\ (forall n, fin V (demo_tone n) = true /\ Rabs (val V (demo_tone n)) <= 1)
  /\ (forall n, Rabs (val V (demo_tone n) - sinusoid 1 1 0 n) <= bpow radix2 (-52))
  (** for the Peak alone the bound is under 1/100. *)
  /\ chain_error V [demo_eq Peak six] 1 (bpow radix2 (-52)) <= / 100.
Proof. exact C145_hyps_aux. Qed.
@*)

Lemma C145_ends_hyps_aux : let V := ieee_view 53 1024 in
  let six := fl64 6 0 in let l := [demo_eq Peak six; demo_eq LowShelf six] in
  chain_ok V l 1
  /\ List.Forall2 (fun r g => let (kind, args) := r_set r in
       valid kind (ideal_args V args) /\ dc_gain kind (ideal_args V args) g) l [1; db_factor 6]
  /\ List.Forall2 (fun r g => let (kind, args) := r_set r in
       valid kind (ideal_args V args) /\ nyquist_gain kind (ideal_args V args) g) l [1; 1]
  /\ (forall n : nat, fin V ((fun _ => fl64 1 0) n) = true /\ Rabs (val V ((fun _ => fl64 1 0) n)) <= 1)
  /\ forall n : nat, Rabs (val V ((fun _ => fl64 1 0) n) - 1) <= 0.
Proof.
  intros V six l. destruct C145_hyps_aux as [_ [_ [_ [Hl _]]]]. split; [exact Hl|].
  assert (E1 : val V (fl64 44100 0) = 44100) by (unfold V; cbn [val ieee_view]; lit; lra).
  assert (E2 : val V (fl64 1000 0) = 1000) by (unfold V; cbn [val ieee_view]; lit; lra).
  assert (E4 : val V (fl64 1 0) = 1) by (unfold V; cbn [val ieee_view]; lit; lra).
  assert (E6 : val V six = 6) by (unfold V, six; cbn [val ieee_view]; lit; lra).
  assert (Vs : valid_slope 6 1) by (unfold valid_slope; split; [lra|]; replace (1 / 1 - 1) with 0 by field; lra).
  assert (Vp : valid Peak (RbjGain 44100 1000 6 1)) by (cbn; unfold valid_band; lra).
  assert (Vl : valid LowShelf (RbjGain 44100 1000 6 1)) by (cbn; unfold valid_band; split; [lra|exact Vs]).
  destruct (C43_peak_thm _ _ _ _ Vp) as [_ [P1 P2]].
  destruct (C44_shelves_thm _ _ _ _ Vl) as [L1 [L2 _]].
  split; [|split; [|split]].
  - unfold l, demo_eq. constructor; [|constructor; [|constructor]]; cbn [r_set]; cbn [ideal_args]; rewrite E1, E2, E4, E6; split; assumption.
  - unfold l, demo_eq. constructor; [|constructor; [|constructor]]; cbn [r_set]; cbn [ideal_args]; rewrite E1, E2, E4, E6; split; assumption.
  - intros n. split; [vm_compute; reflexivity|]. rewrite E4, Rabs_R1. lra.
  - intros n. rewrite E4, Rminus_eq_0, Rabs_R0. lra.
Qed.

(*@PROP
(** and for constant and alternating inputs, with the gains of the two filters: *)
Example C145_ends_hyps : let V := ieee_view 53 1024 in
  let six := fl64 6 0 in let l := [demo_eq Peak six; demo_eq LowShelf six] in
  chain_ok V l 1
  /\ List.Forall2 (fun r g => let (kind, args) := r_set r in
       valid kind (ideal_args V args) /\ dc_gain kind (ideal_args V args) g) l [1; db_factor 6]
  /\ List.Forall2 (fun r g => let (kind, args) := r_set r in
       valid kind (ideal_args V args) /\ nyquist_gain kind (ideal_args V args) g) l [1; 1]
  /\ (forall n : nat, fin V ((fun _ => fl64 1 0) n) = true /\ Rabs (val V ((fun _ => fl64 1 0) n)) <= 1)
  /\ forall n : nat, Rabs (val V ((fun _ => fl64 1 0) n) - 1) <= 0.
Proof. exact C145_ends_hyps_aux. Qed.
@*)
