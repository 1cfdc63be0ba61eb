(** Proofs of C47, C48, C50-C54, C56, C70: the integrator and the detectors in
    floating point. *)
From Coq Require Import ZArith Reals List Bool Lra Lia.
From Flocq Require Import Core.Core IEEE754.BinarySingleNaN.
From Verif Require Import Base Num NumR NumF FloatSpec FloatFacts SmoothF CrLibm Witness AnalysisM Device AnaSpec AnaFacts.
Import ListNotations.
Open Scope R_scope.

(*@PROP
(** Properties C47, C48, C50-C54, C56, C70: [LeakyIntegrator], [PeakEnvDetector] and
    [RmsEnvDetector] in [f32] and [f64] arithmetic.

    Vocabulary: [ieee O V] says that [O] is the arithmetic of [f32] or [f64] and
    [V] reads its values as numbers ([FloatSpec]); [after D cs] is a new object
    after the calls [cs], [returns D before cs] what the calls [cs] return after
    the calls [before] ([Device]); the rest is in [AnaSpec]. *)
From Coq Require Import ZArith Reals List Bool Lra Lia.
From Flocq Require Import Core.Core IEEE754.BinarySingleNaN.
From Verif Require Import Base Num NumR NumF Witness FloatSpec AnalysisM Device AnaSpec CrLibm AnaLemmas.
Import ListNotations.
Open Scope R_scope.

@*)

Lemma leaky_smooth' prec emax {Hp : Prec_gt_0 prec} {Hm : Prec_lt_emax prec emax} pim pie sz lm nn O :
  O = ieee_ops prec emax pim pie sz lm nn -> forall s x,
  leaky_process O s x = (Leaky (lk_alpha s) (fsmooth prec emax (lk_alpha s) (lk_y_z1 s) x), fsmooth prec emax (lk_alpha s) (lk_y_z1 s) x).
Proof. intros ->. reflexivity. Qed.
Lemma peak_smooth' prec emax {Hp : Prec_gt_0 prec} {Hm : Prec_lt_emax prec emax} pim pie sz lm nn O :
  O = ieee_ops prec emax pim pie sz lm nn -> forall s x,
  peak_process O s x = (PeakDet (pk_attack_gain s) (pk_release_gain s) (fsmooth prec emax (pk_gain prec emax s x) (pk_envelope s) (Babs x)),
                          fsmooth prec emax (pk_gain prec emax s x) (pk_envelope s) (Babs x)).
Proof. intros ->. reflexivity. Qed.
Lemma rms_smooth' prec emax {Hp : Prec_gt_0 prec} {Hm : Prec_lt_emax prec emax} pim pie sz lm nn O :
  O = ieee_ops prec emax pim pie sz lm nn -> forall s x,
  rms_process O s x = (RmsDet (rm_attack_gain s) (rm_release_gain s) (fsmooth prec emax (rm_gain prec emax s x) (rm_envelope s) (f_mul prec emax x x)),
                          f_sqrt prec emax (fsmooth prec emax (rm_gain prec emax s x) (rm_envelope s) (f_mul prec emax x x))).
Proof. intros ->. reflexivity. Qed.

(** MAX is large (used in the examples). *)
Lemma big32 : 1024 <= fmax (ieee_view 24 128).
Proof.
  cbn [fmax ieee_view]. change (- (24))%Z with (-24)%Z.
  assert (bpow radix2 (-24) <= / 2) by (change (/ 2) with (bpow radix2 (-1)); apply bpow_le; lia).
  assert (2048 <= bpow radix2 128) by (change 2048 with (bpow radix2 11); apply bpow_le; lia).
  replace 1024 with (/ 2 * 2048) by lra. apply Rmult_le_compat; lra.
Qed.

(** [f32] and [f64] are instances of the generic development. *)
Lemma le3_32 : (3 <= 128)%Z. Proof. discriminate. Qed.
Lemma le3_64 : (3 <= 1024)%Z. Proof. discriminate. Qed.

(** C47: after any calls, alpha is a number in [0, 1); a [set_alpha] with a number in
    [0, 1) sets it, any other argument (NaN and infinities included) leaves it. *)
Lemma C47_alpha_thm :
  forall (T : Type) (O : num_ops T) (V : float_view T) (history : list (call T T)) (gain : T),
    ieee O V ->
    let alpha cs := leaky_get_alpha (after (dev_leaky O) cs) in
    unit_interval V (alpha history)
    /\ (unit_interval V gain -> alpha (history ++ [CSet gain]) = gain)
    /\ (~ unit_interval V gain -> alpha (history ++ [CSet gain]) = alpha history).
Proof.
  assert (G : forall prec emax (Hp : Prec_gt_0 prec) (Hm : Prec_lt_emax prec emax) pim pie sz lm nn history gain,
    let O := ieee_ops prec emax pim pie sz lm nn in let V := ieee_view prec emax in
    let alpha cs := leaky_get_alpha (after (dev_leaky O) cs) in
    unit_interval V (alpha history)
    /\ (unit_interval V gain -> alpha (history ++ [CSet gain]) = gain)
    /\ (~ unit_interval V gain -> alpha (history ++ [CSet gain]) = alpha history)).
  { intros. split; [apply leaky_alpha|]. unfold alpha. rewrite after_snoc.
    cbn [d_step dev_leaky d_set fst]. unfold leaky_set_alpha, leaky_get_alpha.
    pose proof (alpha_guard prec emax pim pie sz lm nn gain) as H. fold O in H. fold V in H.
    destruct (n_le O (n_zero O) gain && n_lt O gain (n_one O)); cbn [lk_alpha]; split; intros Hg; auto.
    - exfalso. tauto.
    - apply H in Hg. discriminate. }
  intros T O V history gain HO. destruct HO; apply G.
Qed.

(*@PROP
(* 0.3 as an f32 fraction, and what is not in the interval *)
Example C47_alpha_hyps :
  unit_interval (ieee_view 24 128) (fl32 5033165 (-24)) /\ ~ unit_interval (ieee_view 24 128) (fl32 1 0)
  /\ ~ unit_interval (ieee_view 53 1024) B754_nan.
Proof.
  split; [split; [reflexivity|]; cbn; unfold F2R; cbn; lra|]. split.
  - intros [_ H]. revert H. cbn. unfold F2R; cbn. lra.
  - intros [H _]. discriminate.
Qed.
@*)

(** C48: after any calls, if the last output [y0] and the new sample [x] are numbers
    and their difference does not overflow, [process(x)] returns a number between
    [y0] and [x]. *)
Lemma C48_no_overshoot_thm :
  forall (T : Type) (O : num_ops T) (V : float_view T) (history : list (call T T)) (x : T),
    ieee O V ->
    let y0 := leaky_last_out (after (dev_leaky O) history) in
    fin V y0 = true -> fin V x = true -> fin V (n_sub O y0 x) = true ->
    exists y, returns (dev_leaky O) history [CProcess x] = [Some y] /\ fin V y = true
      /\ Rmin (val V y0) (val V x) <= val V y <= Rmax (val V y0) (val V x).
Proof.
  intros T O V history x HO. destruct HO.
  - exact (leaky_between 24 128 le3_32 _ _ _ lm b history x).
  - exact (leaky_between 53 1024 le3_64 _ _ _ lm b history x).
Qed.

(*@PROP
Example C48_no_overshoot_hyps (lm : libm f32) :
  let O := f32_ops lm false in
  let y0 := leaky_last_out (after (dev_leaky O) [CSet (fl32 1 (-1)); CProcess (fl32 3 0)]) in
  let x := fl32 (-7) 2 in
  fin (ieee_view 24 128) y0 = true /\ fin (ieee_view 24 128) x = true
  /\ fin (ieee_view 24 128) (n_sub O y0 x) = true.
Proof. vm_compute. repeat split. Qed.
@*)

(** C48: over any history of samples in an interval [lo, hi] around 0 that is not
    longer than MAX, everything returned is a number in [lo, hi]. *)
Lemma C48_range_thm :
  forall (T : Type) (O : num_ops T) (V : float_view T) (lo hi : R) (history : list (call T T)),
    ieee O V -> lo <= 0 <= hi -> hi - lo <= fmax V ->
    samples_ok (within V lo hi) history ->
    all_returned (within V lo hi) (returns (dev_leaky O) [] history).
Proof.
  intros T O V lo hi history HO. destruct HO.
  - exact (leaky_range 24 128 le3_32 _ _ _ lm b lo hi history).
  - exact (leaky_range 53 1024 le3_64 _ _ _ lm b lo hi history).
Qed.

(*@PROP
Example C48_range_hyps :
  -1 <= 0 <= 1 /\ 1 - -1 <= fmax (ieee_view 24 128)
  /\ samples_ok (K := f32) (within (ieee_view 24 128) (-1) 1)
       [CSet (fl32 1 (-1)); CProcess (fl32 (-3) (-2)); CClear; CProcess (fl32 1 0)].
Proof.
  split; [lra|]. split.
  - pose proof big32. lra.
  - repeat constructor; cbn; unfold F2R; cbn; lra.
Qed.
@*)

(** C48, the exception: if the difference of two finite values overflows, the output
    is infinite or NaN. *)
Lemma C48_overflow_refuted_thm :
  forall (T : Type) (O : num_ops T) (V : float_view T) (history : list (call T T)) (x : T),
    ieee O V ->
    let y0 := leaky_last_out (after (dev_leaky O) history) in
    fin V y0 = true -> fin V x = true -> fin V (n_sub O y0 x) = false ->
    exists y, returns (dev_leaky O) history [CProcess x] = [Some y] /\ fin V y = false.
Proof.
  assert (G : forall prec emax (Hp : Prec_gt_0 prec) (Hm : Prec_lt_emax prec emax) pim pie sz lm nn history x,
    let O := ieee_ops prec emax pim pie sz lm nn in let V := ieee_view prec emax in
    let y0 := leaky_last_out (after (dev_leaky O) history) in
    fin V y0 = true -> fin V x = true -> fin V (n_sub O y0 x) = false ->
    exists y, returns (dev_leaky O) history [CProcess x] = [Some y] /\ fin V y = false).
  { intros prec emax Hp Hm pim pie sz lm nn history x O V y0 F0 Fx Fs. rewrite returns_one.
    cbn [d_step dev_leaky d_process]. rewrite (leaky_smooth' prec emax pim pie sz lm nn O eq_refl). cbn [snd].
    eexists. split; [reflexivity|]. destruct (leaky_alpha prec emax pim pie sz lm nn history) as [A1 A2].
    fold O in A1, A2 |- *. change (lk_y_z1 (after (dev_leaky O) history)) with y0.
    set (a := lk_alpha (after (dev_leaky O) history)) in *. clearbody a y0.
    cbn [fin val V ieee_view n_sub O ieee_ops] in *. unfold fsmooth.
    assert (K := Bminus_correct prec emax Hp Hm mode_NE y0 x F0 Fx). unfold f_sub in *.
    destruct (Rlt_bool _ _) in K; [destruct K as [_ [K _]]; rewrite K in Fs; discriminate|].
    destruct K as [K _]. destruct (Bminus mode_NE y0 x) as [s|s| |s m e Hb]; cbn in K; try discriminate.
    unfold f_add, f_mul. destruct a as [sa|sa| |sa ma ea Ha]; try discriminate;
      destruct x as [sx|sx| |sx mx ex Hx]; try discriminate; reflexivity. }
  intros T O V history x HO. destruct HO; apply G.
Qed.

(*@PROP
(* the largest f32 and its opposite *)
Example C48_overflow_refuted_hyps (lm : libm f32) :
  let O := f32_ops lm false in
  let y0 := leaky_last_out (after (dev_leaky O) [CProcess (Bmax_float : f32)]) in
  let x := Bopp (Bmax_float : f32) in
  fin (ieee_view 24 128) y0 = true /\ fin (ieee_view 24 128) x = true
  /\ fin (ieee_view 24 128) (n_sub O y0 x) = false.
Proof. vm_compute. repeat split. Qed.
@*)

(** C50: a [LeakyIntegrator] whose alpha was never set returns the value of each
    sample, for samples up to MAX/2 in magnitude. *)
Lemma C50_new_is_transparent_thm :
  forall (T : Type) (O : num_ops T) (V : float_view T) (history : list (call T T)) (x : T),
    ieee O V -> (forall gain, ~ In (CSet gain) history) ->
    samples_ok (within V (- (fmax V / 2)) (fmax V / 2)) history ->
    within V (- (fmax V / 2)) (fmax V / 2) x ->
    exists y, returns (dev_leaky O) history [CProcess x] = [Some y] /\ fin V y = true /\ val V y = val V x.
Proof.
  intros T O V history x HO. destruct HO.
  - exact (leaky_new_passes 24 128 le3_32 _ _ _ lm b history x).
  - exact (leaky_new_passes 53 1024 le3_64 _ _ _ lm b history x).
Qed.

(*@PROP
Example C50_new_is_transparent_hyps :
  let h := fmax (ieee_view 24 128) / 2 in
  (forall gain : f32, ~ In (CSet gain) [CProcess (fl32 5 3); CClear; CProcess (fl32 (-9) 1)])
  /\ samples_ok (K := f32) (within (ieee_view 24 128) (- h) h) [CProcess (fl32 5 3); CClear; CProcess (fl32 (-9) 1)].
Proof.
  intros h. assert (100 <= h).
  { pose proof big32. unfold h. lra. }
  split.
  - intros gain [E|[E|[E|[]]]]; discriminate.
  - repeat constructor; cbn [val ieee_view]; cbn; unfold F2R; cbn; lra.
Qed.
@*)

(** C50, the exception: MAX followed by -MAX gives NaN. *)
Lemma C50_loud_signal_refuted_thm :
  (forall (lm : libm f32) (b : bool),
     returns (dev_leaky (f32_ops lm b)) [] [CProcess (Bmax_float : f32); CProcess (Bopp (Bmax_float : f32))]
     = [Some (Bmax_float : f32); Some B754_nan])
  /\ (forall (lm : libm f64) (b : bool),
     returns (dev_leaky (f64_ops lm b)) [] [CProcess (Bmax_float : f64); CProcess (Bopp (Bmax_float : f64))]
     = [Some (Bmax_float : f64); Some B754_nan]).
Proof. split; intros; vm_compute; reflexivity. Qed.

(** C51: [set_attack(len)] and [set_release(len)] set their own gain to exp(-1/len)
    when [len] is a positive number, and do nothing otherwise (zero, negative,
    infinite and NaN lengths); the other gain and [last_out] never change. *)
Lemma C51_setters_thm :
  forall (T : Type) (O : num_ops T) (V : float_view T) (S : Type) (D : detector S T)
         (history : list (call (det_set T) T)) (ph : phase) (len : T),
    ieee O V -> lib_detector O D ->
    let s := after (det_dev D) history in
    let s' := after (det_dev D) (history ++ [CSet (set_phase ph len)]) in
    (good_length V len -> det_gain D ph s' = gain_of O len)
    /\ (~ good_length V len -> det_gain D ph s' = det_gain D ph s)
    /\ det_gain D (other ph) s' = det_gain D (other ph) s
    /\ d_last_out (det_dev D) s' = d_last_out (det_dev D) s.
Proof.
  assert (G : forall prec emax (Hp : Prec_gt_0 prec) (Hm : Prec_lt_emax prec emax) pim pie sz lm nn
     S (D : detector S (binary_float prec emax)) history ph len,
    let O := ieee_ops prec emax pim pie sz lm nn in let V := ieee_view prec emax in
    lib_detector O D ->
    let s := after (det_dev D) history in
    let s' := after (det_dev D) (history ++ [CSet (set_phase ph len)]) in
    (good_length V len -> det_gain D ph s' = gain_of O len)
    /\ (~ good_length V len -> det_gain D ph s' = det_gain D ph s)
    /\ det_gain D (other ph) s' = det_gain D (other ph) s
    /\ d_last_out (det_dev D) s' = d_last_out (det_dev D) s).
  { intros prec emax Hp Hm pim pie sz lm nn S D history ph len O V HD s s'.
    assert (Hg := length_guard prec emax pim pie sz lm nn len). fold O in Hg. fold V in Hg.
    unfold s'. rewrite after_snoc. fold s.
    destruct HD; destruct ph;
      cbn [d_step det_dev det_gain peak_detector rms_detector dev_peak dev_rms d_set d_last_out fst set_phase other];
      unfold peak_set_attack, peak_set_release, rms_set_attack, rms_set_release;
      destruct (n_lt O (n_zero O) len && n_is_finite O len) eqn:E;
      (split; [intros Hl|split; [intros Hl|split]]); try reflexivity;
      exfalso; try (apply Hl, Hg; reflexivity); try (apply Hg in Hl; discriminate). }
  intros T O V S D history ph len HO. destruct HO; apply G.
Qed.

(*@PROP
Example C51_setters_hyps :
  good_length (ieee_view 24 128) (fl32 441 1) /\ ~ good_length (ieee_view 24 128) (fl32 0 0)
  /\ ~ good_length (ieee_view 24 128) (fl32 (-5) 0) /\ ~ good_length (ieee_view 24 128) (B754_infinity false)
  /\ ~ good_length (ieee_view 24 128) B754_nan.
Proof.
  unfold good_length. cbn. unfold F2R; cbn.
  split; [split; [reflexivity|lra]|]. repeat split; intros [H1 H2]; try discriminate; lra.
Qed.
@*)

(** C51: if the exponential maps the floats up to zero into [0, 1], the two gains are
    numbers in [0, 1] after any calls. *)
Lemma C51_gains_thm :
  forall (T : Type) (O : num_ops T) (V : float_view T) (S : Type) (D : detector S T)
         (history : list (call (det_set T) T)) (ph : phase),
    ieee O V -> exp_sound O V -> lib_detector O D ->
    let g := det_gain D ph (after (det_dev D) history) in
    fin V g = true /\ 0 <= val V g <= 1.
Proof.
  assert (G : forall prec emax (Hp : Prec_gt_0 prec) (Hm : Prec_lt_emax prec emax) pim pie sz lm nn
     S (D : detector S (binary_float prec emax)) history,
    let O := ieee_ops prec emax pim pie sz lm nn in let V := ieee_view prec emax in
    exp_sound O V -> lib_detector O D ->
    forall ph, let g := det_gain D ph (after (det_dev D) history) in
    fin V g = true /\ 0 <= val V g <= 1).
  { intros prec emax Hp Hm pim pie sz lm nn S D history O V He HD.
    apply (after_inv (det_dev D) (fun s => forall ph, fin V (det_gain D ph s) = true /\ 0 <= val V (det_gain D ph s) <= 1)
             (fun _ => True) (fun _ => True)).
    - intros s c Hs _. split; [|auto]. intros ph.
      assert (Hk : forall len, n_lt O (n_zero O) len && n_is_finite O len = true ->
                fin V (gain_of O len) = true /\ 0 <= val V (gain_of O len) <= 1).
      { intros len H. apply (exp_guard prec emax pim pie sz lm nn len He).
        apply (length_guard prec emax pim pie sz lm nn len). exact H. }
      assert (Hs' := Hs ph). clear Hs.
      destruct HD; destruct c as [x| |[l|l]|]; destruct ph;
        cbn [d_step det_dev det_gain peak_detector rms_detector dev_peak dev_rms d_process d_clear d_set d_last_out fst] in *;
        try exact Hs';
        unfold peak_set_attack, peak_set_release, rms_set_attack, rms_set_release;
        destruct (n_lt O (n_zero O) l && n_is_finite O l) eqn:E; try exact Hs'; exact (Hk l E).
    - intros ph. destruct HD; destruct ph; cbn; split; try reflexivity; lra.
    - apply Forall_forall. auto. }
  intros T O V S D history ph HO He HD. destruct HO.
  - exact (G 24%Z 128%Z _ _ _ _ _ lm b S D history He HD ph).
  - exact (G 53%Z 1024%Z _ _ _ _ _ lm b S D history He HD ph).
Qed.

(** The correctly rounded exponential is sound in this sense. *)
Lemma cr_exp_sound : exp_sound (f32_ops (cr_libm 24 128) false) (ieee_view 24 128).
Proof.
  intros x Hx. cbn [n_le n_zero n_exp f32_ops ieee_ops fin val ieee_view m_exp cr_libm] in *. unfold cr_exp.
  assert (K : forall r, r <= 0 -> is_finite (R2F 24 128 (exp r)) = true /\ 0 <= B2R (R2F 24 128 (exp r)) <= 1).
  { intros r Hr. assert (0 < exp r <= 1) by (split; [apply exp_pos|rewrite <- exp_0; destruct Hr as [Hr| ->]; [apply Rlt_le, exp_increasing, Hr|lra]]).
    assert (R1 := RN_id 24 128 1 (format_F2R_1 24 128)).
    assert (B : 0 <= round radix2 (SpecFloat.fexp 24 128) (round_mode mode_NE) (exp r) <= 1).
    { split; [rewrite <- (RN_0 24 128) at 1|rewrite <- R1]; apply (RN_le 24 128); lra. }
    destruct (R2F_ok 24 128 (exp r)) as [A1 A2].
    - rewrite Rabs_pos_eq by lra. apply Rle_lt_trans with 1; [lra|]. apply (one_lt_emax 24 128).
    - rewrite A2. auto. }
  destruct x as [s|s| |s m e Hb].
  - apply K. cbn. lra.
  - destruct s; [cbn; split; [reflexivity|lra]|discriminate].
  - discriminate.
  - apply K. rewrite Bleb_correct in Hx by reflexivity. destruct (Rle_bool_spec (B2R (B754_finite s m e Hb)) (B2R (B754_zero false : f32))); [assumption|discriminate].
Qed.

(*@PROP
(* a correctly rounded exponential is sound *)
Example C51_gains_hyps : exp_sound (f32_ops (cr_libm 24 128) false) (ieee_view 24 128).
Proof. exact cr_exp_sound. Qed.
@*)

(** C52: for any history of samples of magnitude at most [m] with gains in [0, 1),
    everything a [PeakEnvDetector] returns is a number in [0, m]. *)
Lemma C52_peak_range_thm :
  forall (T : Type) (O : num_ops T) (V : float_view T) (m : R) (history : list (call (det_set T) T)),
    ieee O V -> 0 <= m -> calls_ok O V (within V (- m) m) history ->
    all_returned (within V 0 m) (returns (dev_peak O) [] history).
Proof.
  intros T O V m history HO. destruct HO.
  - exact (peak_range 24 128 le3_32 _ _ _ lm b m history).
  - exact (peak_range 53 1024 le3_64 _ _ _ lm b m history).
Qed.

(** A library whose exponential of -1/2 is 1/2, enough for the examples. *)
Definition lm_half : libm f32 :=
  {| m_sin := fun x => x; m_cos := fun x => x; m_exp := fun _ => fl32 1 (-1);
     m_log10 := fun x => x; m_powf := fun x _ => x |}.

(*@PROP
(* set_attack(2), set_release(NaN), samples up to 1; [lm_half] has exp(-1/2) = 1/2 *)
Example C52_peak_range_hyps :
  calls_ok (f32_ops lm_half false) (ieee_view 24 128) (within (ieee_view 24 128) (-1) 1)
    [CSet (SetAttack (fl32 1 1)); CSet (SetRelease B754_nan); CProcess (fl32 (-3) (-2)); CLastOut; CClear; CProcess (fl32 1 0)].
Proof.
  repeat (apply Forall_cons || apply Forall_nil); try exact I; try (intros _); try reflexivity;
    (split; [reflexivity|]); cbn; unfold F2R; cbn; lra.
Qed.
@*)

(** C52: after such a history, with envelope [y0], [process(x)] returns a number
    between [y0] and |x|: it rises only towards a larger magnitude and falls only
    towards a smaller one. *)
Lemma C52_peak_no_overshoot_thm :
  forall (T : Type) (O : num_ops T) (V : float_view T) (history : list (call (det_set T) T)) (x : T),
    ieee O V -> calls_ok O V (fun x => fin V x = true) history -> fin V x = true ->
    let y0 := d_last_out (dev_peak O) (after (dev_peak O) history) in
    exists y, returns (dev_peak O) history [CProcess x] = [Some y]
      /\ fin V y0 = true /\ fin V y = true /\ 0 <= val V y0
      /\ Rmin (val V y0) (Rabs (val V x)) <= val V y <= Rmax (val V y0) (Rabs (val V x)).
Proof.
  assert (G : forall prec emax (Hp : Prec_gt_0 prec) (Hm : Prec_lt_emax prec emax) (Hm3 : (3 <= emax)%Z) pim pie sz lm nn
     history x,
    let O := ieee_ops prec emax pim pie sz lm nn in let V := ieee_view prec emax in
    calls_ok O V (fun x => fin V x = true) history -> fin V x = true ->
    let y0 := d_last_out (dev_peak O) (after (dev_peak O) history) in
    exists y, returns (dev_peak O) history [CProcess x] = [Some y]
      /\ fin V y0 = true /\ fin V y = true /\ 0 <= val V y0
      /\ Rmin (val V y0) (Rabs (val V x)) <= val V y <= Rmax (val V y0) (Rabs (val V x))).
  { intros prec emax Hp Hm Hm3 pim pie sz lm nn history x O V Hc Fx y0.
    set (M := (1 - bpow radix2 (- prec)) * bpow radix2 emax).
    assert (Hi : pinv prec emax M (after (dev_peak O) history)).
    { apply (peak_after prec emax Hm3 pim pie sz lm nn M); [apply Rlt_le, (MAX_pos prec emax)|].
      apply Forall_forall. intros c Hin. assert (K := proj1 (Forall_forall _ _) Hc c Hin). destruct c; try exact K.
      split; [exact K|]. apply Rabs_le_inv. apply (abs_le_MAX prec emax). }
    destruct (peak_step_between prec emax Hm3 M _ x Hi Fx) as [B1 B2].
    rewrite returns_one. cbn [d_step dev_peak d_process].
    rewrite (peak_smooth' prec emax pim pie sz lm nn O eq_refl). cbn [snd]. eexists. split; [reflexivity|].
    destruct Hi as [_ [_ [E1 E2]]]. split; [exact E1|]. split; [exact B1|]. split; [apply E2|exact B2]. }
  intros T O V history x HO. destruct HO; [apply (G 24%Z 128%Z _ _ le3_32)|apply (G 53%Z 1024%Z _ _ le3_64)].
Qed.

(*@PROP
Example C52_peak_no_overshoot_hyps :
  calls_ok (f32_ops lm_half false) (ieee_view 24 128) (fun x => fin (ieee_view 24 128) x = true)
    [CSet (SetAttack (fl32 1 1)); CSet (SetRelease (fl32 1 0)); CProcess (fl32 (-3) (-2)); CProcess (Bmax_float : f32)].
Proof.
  repeat (apply Forall_cons || apply Forall_nil); try exact I; try (intros _); try reflexivity;
    (split; [reflexivity|]); cbn; unfold F2R; cbn; lra.
Qed.
@*)

(** C53: changing the signs of any samples changes nothing a detector returns, bit
    for bit, whatever the samples (NaN and infinities included). *)
Lemma C53_sign_blind_thm :
  forall (T : Type) (O : num_ops T) (V : float_view T) (S : Type) (D : detector S T)
         (cs cs' : list (call (det_set T) T)),
    ieee O V -> lib_detector O D ->
    Forall2 (same_up_to_sign O) cs cs' ->
    returns (det_dev D) [] cs = returns (det_dev D) [] cs'.
Proof.
  assert (Hneg : forall prec emax (Hp : Prec_gt_0 prec) (Hm : Prec_lt_emax prec emax) (x : binary_float prec emax),
    f_mul prec emax (Bopp x) (Bopp x) = f_mul prec emax x x).
  { intros prec emax Hp Hm x. destruct x as [s|s| |s m e Hb]; try reflexivity; unfold f_mul; cbn.
    - now destruct s.
    - now destruct s.
    - apply B2SF_inj. rewrite !B2SF_SF2B. now destruct s. }
  assert (G : forall prec emax (Hp : Prec_gt_0 prec) (Hm : Prec_lt_emax prec emax) pim pie sz lm nn
     S (D : detector S (binary_float prec emax)) cs cs',
    let O := ieee_ops prec emax pim pie sz lm nn in
    lib_detector O D -> Forall2 (same_up_to_sign O) cs cs' ->
    returns (det_dev D) [] cs = returns (det_dev D) [] cs').
  { intros prec emax Hp Hm pim pie sz lm nn S D cs cs' O HD Hcs. unfold returns.
    assert (K := lockstep (det_dev D) (det_dev D) eq (same_up_to_sign O) eq).
    assert (St : forall s1 s2 c1 c2, s1 = s2 -> same_up_to_sign O c1 c2 ->
      fst (d_step (det_dev D) s1 c1) = fst (d_step (det_dev D) s2 c2)
      /\ opt_rel eq (snd (d_step (det_dev D) s1 c1)) (snd (d_step (det_dev D) s2 c2))).
    { intros s1 s2 c1 c2 <- Hc. assert (E : d_step (det_dev D) s1 c1 = d_step (det_dev D) s1 c2).
      { destruct Hc as [c|x]; [reflexivity|].
        destruct HD; cbn [d_step det_dev peak_detector rms_detector dev_peak dev_rms d_process].
        - unfold peak_process. cbn [n_abs n_neg O ieee_ops]. rewrite Babs_Bopp. reflexivity.
        - unfold rms_process. cbn [n_mul n_neg O ieee_ops]. rewrite Hneg. reflexivity. }
      rewrite E. split; [reflexivity|]. destruct (snd (d_step (det_dev D) s1 c2)); reflexivity. }
    destruct (K St cs cs' (after (det_dev D) []) (after (det_dev D) []) eq_refl Hcs) as [_ H].
    clear - H. induction H as [|o1 o2 l1 l2 H1 H2 IH]; [reflexivity|]. f_equal; [|exact IH].
    destruct o1, o2; cbn in H1; congruence || contradiction. }
  intros T O V S D cs cs' HO. destruct HO; apply G.
Qed.

(*@PROP
Example C53_sign_blind_hyps (lm : libm f32) :
  Forall2 (same_up_to_sign (f32_ops lm false))
    [CSet (SetAttack (fl32 1 1)); CProcess (fl32 3 0); CProcess (B754_infinity true); CProcess (fl32 5 0)]
    [CSet (SetAttack (fl32 1 1)); CProcess (Bopp (fl32 3 0)); CProcess (Bopp (B754_infinity true)); CProcess (fl32 5 0)].
Proof.
  constructor; [apply sus_same|]. constructor; [apply (sus_neg (f32_ops lm false))|].
  constructor; [apply (sus_neg (f32_ops lm false))|]. constructor; [apply sus_same|]. constructor.
Qed.
@*)

(** C54: for any history of samples no louder than [loudest], whose square neither
    overflows nor leaves the normal range (or which is zero), with gains in [0, 1),
    everything an [RmsEnvDetector] returns is a number in [0, |loudest|]. *)
Lemma C54_rms_range_thm :
  forall (T : Type) (O : num_ops T) (V : float_view T) (loudest : T) (history : list (call (det_set T) T)),
    ieee O V ->
    let m := Rabs (val V loudest) in
    fin V loudest = true -> m * m <= fmax V -> fmin V <= m * m \/ m = 0 ->
    calls_ok O V (within V (- m) m) history ->
    all_returned (within V 0 m) (returns (dev_rms O) [] history).
Proof.
  assert (G : forall prec emax (Hp : Prec_gt_0 prec) (Hm : Prec_lt_emax prec emax) (Hm3 : (3 <= emax)%Z) pim pie sz lm nn
     loudest history,
    let O := ieee_ops prec emax pim pie sz lm nn in let V := ieee_view prec emax in
    let m := Rabs (val V loudest) in
    fin V loudest = true -> m * m <= fmax V -> fmin V <= m * m \/ m = 0 ->
    calls_ok O V (within V (- m) m) history ->
    all_returned (within V 0 m) (returns (dev_rms O) [] history)).
  { intros prec emax Hp Hm Hm3 pim pie sz lm nn loudest history O V m Fl H2 H1 Hc.
    apply (rms_range prec emax Hm3 pim pie sz lm nn m); try assumption.
    - unfold m, V. cbn [val ieee_view]. rewrite <- B2R_Babs. apply generic_format_B2R.
    - apply Rabs_pos. }
  intros T O V loudest history HO. destruct HO; [apply (G 24%Z 128%Z _ _ le3_32)|apply (G 53%Z 1024%Z _ _ le3_64)].
Qed.

(*@PROP
Example C54_rms_range_hyps :
  let m := Rabs (val (ieee_view 24 128) (fl32 1 0)) in
  fmin (ieee_view 24 128) <= m * m <= fmax (ieee_view 24 128)
  /\ calls_ok (f32_ops lm_half false) (ieee_view 24 128) (within (ieee_view 24 128) (- m) m)
    [CSet (SetAttack (fl32 1 1)); CProcess (fl32 (-3) (-2)); CLastOut; CClear; CProcess (fl32 1 0)].
Proof.
  intros m. assert (Em : m = 1).
  { unfold m. cbn [val ieee_view]. cbn. unfold F2R; cbn. rewrite Rabs_pos_eq; lra. }
  rewrite Em. split.
  - pose proof big32.
    assert (fmin (ieee_view 24 128) <= 1) by (change 1 with (bpow radix2 0); apply bpow_le; lia). lra.
  - repeat (apply Forall_cons || apply Forall_nil); try exact I; try (intros _);
      (split; [reflexivity|]); cbn; unfold F2R; cbn; lra.
Qed.
@*)

(** C56: a [PeakEnvDetector] whose times were never set returns |x| for every finite
    sample, after any finite samples. *)
Lemma C56_new_peak_rectifies_thm :
  forall (T : Type) (O : num_ops T) (V : float_view T) (history : list (call (det_set T) T)) (x : T),
    ieee O V -> (forall k, ~ In (CSet k) history) ->
    samples_ok (fun x => fin V x = true) history -> fin V x = true ->
    exists y, returns (dev_peak O) history [CProcess x] = [Some y]
      /\ fin V y = true /\ val V y = Rabs (val V x).
Proof.
  assert (G : forall prec emax (Hp : Prec_gt_0 prec) (Hm : Prec_lt_emax prec emax) (Hm3 : (3 <= emax)%Z) pim pie sz lm nn
     history x,
    let O := ieee_ops prec emax pim pie sz lm nn in let V := ieee_view prec emax in
    (forall k, ~ In (CSet k) history) ->
    samples_ok (fun x => fin V x = true) history -> fin V x = true ->
    exists y, returns (dev_peak O) history [CProcess x] = [Some y]
      /\ fin V y = true /\ val V y = Rabs (val V x)).
  { intros prec emax Hp Hm Hm3 pim pie sz lm nn history x O V Hk Hs Fx.
    set (M := (1 - bpow radix2 (- prec)) * bpow radix2 emax).
    assert (HM : 0 <= M) by apply Rlt_le, (MAX_pos prec emax).
    assert (Hsub : forall (e z : binary_float prec emax), within V 0 M e -> is_finite z = true -> is_finite (f_sub prec emax e (Babs z)) = true).
    { intros e z [E1 E2] Fz. apply (sub_in prec emax Hm3 _ _ 0 M); [exact E1|rewrite is_finite_Babs; exact Fz|exact E2| |unfold M; lra].
      rewrite B2R_Babs. split; [apply Rabs_pos|apply (abs_le_MAX prec emax)]. }
    assert (Hz : forall (s : peak (binary_float prec emax)) z, is_zero prec emax (pk_attack_gain s) -> is_zero prec emax (pk_release_gain s) ->
               within V 0 M (pk_envelope s) -> is_finite z = true ->
               is_finite (fsmooth prec emax (pk_gain prec emax s z) (pk_envelope s) (Babs z)) = true
               /\ B2R (fsmooth prec emax (pk_gain prec emax s z) (pk_envelope s) (Babs z)) = Rabs (B2R z)).
    { intros s z Ha Hr He Fz. rewrite <- B2R_Babs.
      destruct (smooth_zero prec emax (pk_gain prec emax s z) (pk_envelope s) (Babs z)) as [S1 [S2 S3]].
      - unfold pk_gain. destruct Bltb; assumption.
      - rewrite is_finite_Babs; exact Fz.
      - apply Hsub; assumption.
      - auto. }
    assert (I : (fun s => is_zero prec emax (pk_attack_gain s) /\ is_zero prec emax (pk_release_gain s) /\ within V 0 M (pk_envelope s)) (after (dev_peak O) history)).
    { apply (after_inv (dev_peak O) (fun s => is_zero prec emax (pk_attack_gain s) /\ is_zero prec emax (pk_release_gain s) /\ within V 0 M (pk_envelope s))
         (fun c => match c with CProcess x => fin V x = true | CSet _ => False | _ => True end) (fun _ => True)).
      - intros s c [Ha [Hr He]] Hc. split; [|auto].
        destruct c as [z| |k|]; cbn [d_step dev_peak d_process d_clear d_set d_last_out fst snd]; try contradiction.
        + rewrite (peak_smooth' prec emax pim pie sz lm nn O eq_refl). cbn [fst pk_attack_gain pk_release_gain pk_envelope].
          split; [exact Ha|]. split; [exact Hr|]. destruct (Hz s z Ha Hr He Hc) as [Z1 Z2]. split; [exact Z1|].
          cbn [val V ieee_view]. rewrite Z2. split; [apply Rabs_pos|apply (abs_le_MAX prec emax)].
        + split; [exact Ha|]. split; [exact Hr|]. split; [reflexivity|]. cbn. lra.
        + auto.
      - split; [exists false; reflexivity|]. split; [exists false; reflexivity|]. split; [reflexivity|]. cbn. lra.
      - apply Forall_forall. intros c Hin. assert (K := proj1 (Forall_forall _ _) Hs c Hin).
        destruct c; auto. apply (Hk k). exact Hin. }
    destruct I as [Ha [Hr He]]. rewrite returns_one. cbn [d_step dev_peak d_process].
    rewrite (peak_smooth' prec emax pim pie sz lm nn O eq_refl). cbn [snd]. eexists. split; [reflexivity|].
    apply Hz; assumption. }
  intros T O V history x HO. destruct HO; [apply (G 24%Z 128%Z _ _ le3_32)|apply (G 53%Z 1024%Z _ _ le3_64)].
Qed.

(*@PROP
Example C56_new_peak_rectifies_hyps :
  (forall k, ~ In (CSet k) [CProcess (fl32 (-5) 3); @CClear (det_set f32) f32])
  /\ samples_ok (K := det_set f32) (fun x => fin (ieee_view 24 128) x = true) [CProcess (fl32 (-5) 3); CClear].
Proof.
  split; [intros k [E|[E|[]]]; discriminate|]. repeat constructor.
Qed.
@*)

(** C56: an [RmsEnvDetector] whose times were never set returns |x| for every sample
    whose square neither overflows nor leaves the normal range (and for zero),
    after any samples whose squares do not overflow. *)
Lemma C56_new_rms_rectifies_thm :
  forall (T : Type) (O : num_ops T) (V : float_view T) (history : list (call (det_set T) T)) (x : T),
    ieee O V -> (forall k, ~ In (CSet k) history) ->
    samples_ok (fun x => fin V (n_mul O x x) = true) history -> fin V (n_mul O x x) = true ->
    fmin V <= val V x * val V x \/ val V x = 0 ->
    exists y, returns (dev_rms O) history [CProcess x] = [Some y]
      /\ fin V y = true /\ val V y = Rabs (val V x).
Proof.
  assert (G : forall prec emax (Hp : Prec_gt_0 prec) (Hm : Prec_lt_emax prec emax) (Hm3 : (3 <= emax)%Z) pim pie sz lm nn
     history x,
    let O := ieee_ops prec emax pim pie sz lm nn in let V := ieee_view prec emax in
    (forall k, ~ In (CSet k) history) ->
    samples_ok (fun x => fin V (n_mul O x x) = true) history -> fin V (n_mul O x x) = true ->
    fmin V <= val V x * val V x \/ val V x = 0 ->
    exists y, returns (dev_rms O) history [CProcess x] = [Some y]
      /\ fin V y = true /\ val V y = Rabs (val V x)).
  { intros prec emax Hp Hm Hm3 pim pie sz lm nn history x O V Hk Hs Fx Hx.
    set (M := (1 - bpow radix2 (- prec)) * bpow radix2 emax).
    assert (HM : 0 <= M) by apply Rlt_le, (MAX_pos prec emax).
    assert (Hsq : forall z : binary_float prec emax, is_finite (f_mul prec emax z z) = true -> 0 <= B2R (f_mul prec emax z z) <= M).
    { intros z Fz. destruct (sq_finite prec emax z Fz) as [_ E].
      assert (P : 0 <= B2R (f_mul prec emax z z)).
      { rewrite E, <- (RN_0 prec emax). apply (RN_le prec emax). nra. }
      split; [exact P|]. rewrite <- (Rabs_pos_eq _ P). apply (abs_le_MAX prec emax). }
    assert (Hz : forall (s : rms (binary_float prec emax)) z, is_zero prec emax (rm_attack_gain s) -> is_zero prec emax (rm_release_gain s) ->
               within V 0 M (rm_envelope s) -> is_finite (f_mul prec emax z z) = true ->
               is_finite (fsmooth prec emax (rm_gain prec emax s z) (rm_envelope s) (f_mul prec emax z z)) = true
               /\ B2R (fsmooth prec emax (rm_gain prec emax s z) (rm_envelope s) (f_mul prec emax z z)) = B2R (f_mul prec emax z z)).
    { intros s z Ha Hr [He1 He2] Fz.
      destruct (smooth_zero prec emax (rm_gain prec emax s z) (rm_envelope s) (f_mul prec emax z z)) as [S1 [S2 S3]].
      - unfold rm_gain. destruct Bltb; assumption.
      - exact Fz.
      - apply (sub_in prec emax Hm3 _ _ 0 M); try assumption; [apply Hsq, Fz|unfold M; lra].
      - auto. }
    assert (I : (fun s => is_zero prec emax (rm_attack_gain s) /\ is_zero prec emax (rm_release_gain s) /\ within V 0 M (rm_envelope s)) (after (dev_rms O) history)).
    { apply (after_inv (dev_rms O) (fun s => is_zero prec emax (rm_attack_gain s) /\ is_zero prec emax (rm_release_gain s) /\ within V 0 M (rm_envelope s))
         (fun c => match c with CProcess x => fin V (n_mul O x x) = true | CSet _ => False | _ => True end) (fun _ => True)).
      - intros s c [Ha [Hr He]] Hc. split; [|auto].
        destruct c as [z| |k|]; cbn [d_step dev_rms d_process d_clear d_set d_last_out fst snd]; try contradiction.
        + rewrite (rms_smooth' prec emax pim pie sz lm nn O eq_refl). cbn [fst rm_attack_gain rm_release_gain rm_envelope].
          split; [exact Ha|]. split; [exact Hr|]. destruct (Hz s z Ha Hr He Hc) as [Z1 Z2]. split; [exact Z1|].
          cbn [val V ieee_view]. rewrite Z2. apply Hsq, Hc.
        + split; [exact Ha|]. split; [exact Hr|]. split; [reflexivity|]. cbn. lra.
        + auto.
      - split; [exists false; reflexivity|]. split; [exists false; reflexivity|]. split; [reflexivity|]. cbn. lra.
      - apply Forall_forall. intros c Hin. assert (K := proj1 (Forall_forall _ _) Hs c Hin).
        destruct c; auto. apply (Hk k). exact Hin. }
    destruct I as [Ha [Hr He]]. rewrite returns_one. cbn [d_step dev_rms d_process].
    rewrite (rms_smooth' prec emax pim pie sz lm nn O eq_refl). cbn [snd]. eexists. split; [reflexivity|].
    destruct (Hz _ x Ha Hr He Fx) as [Z1 Z2]. destruct (sq_finite prec emax x Fx) as [_ Esq].
    destruct (sqrt_ok prec emax _ Z1) as [S1 S2]; [rewrite Z2; apply Hsq, Fx|].
    split; [exact S1|]. cbn [val V ieee_view] in *. rewrite S2, Z2, Esq.
    destruct Hx as [Hx|Hx].
    - rewrite <- (Rabs_pos_eq (B2R x * B2R x)) by nra. rewrite Rabs_mult.
      apply (sqrt_sq prec emax Hm3); [rewrite <- B2R_Babs; apply generic_format_B2R|apply Rabs_pos|].
      rewrite <- Rabs_mult, Rabs_pos_eq by nra. exact Hx.
    - rewrite Hx, Rmult_0_l, (RN_0 prec emax), sqrt_0, (RN_0 prec emax), Rabs_R0. reflexivity. }
  intros T O V history x HO. destruct HO; [apply (G 24%Z 128%Z _ _ le3_32)|apply (G 53%Z 1024%Z _ _ le3_64)].
Qed.

(*@PROP
Example C56_new_rms_rectifies_hyps (lm : libm f32) :
  let O := f32_ops lm false in let V := ieee_view 24 128 in let x := fl32 (-3) 0 in
  (forall k, ~ In (CSet k) [CProcess (fl32 (-5) 3); @CClear (det_set f32) f32])
  /\ samples_ok (K := det_set f32) (fun x => fin V (n_mul O x x) = true) [CProcess (fl32 (-5) 3); CClear]
  /\ fin V (n_mul O x x) = true /\ fmin V <= val V x * val V x.
Proof.
  intros O V x. split; [intros k [E|[E|[]]]; discriminate|]. split; [repeat constructor|].
  split; [reflexivity|]. unfold x, V. cbn [val fmin ieee_view].
  assert (bpow radix2 (2 - 128) <= 1) by (change 1 with (bpow radix2 0); apply bpow_le; lia).
  assert (E : B2R (fl32 (-3) 0) = -3) by (cbn; unfold F2R; cbn; lra). rewrite E. lra.
Qed.
@*)


Lemma le4_32 : (4 <= 128)%Z. Proof. discriminate. Qed.
Lemma le4_64 : (4 <= 1024)%Z. Proof. discriminate. Qed.
(** A long enough time rounds the gain to 1. *)
Lemma gain_one prec emax {Hp : Prec_gt_0 prec} {Hm : Prec_lt_emax prec emax} (Hm3 : (3 <= emax)%Z) (Hm4 : (4 <= emax)%Z) pim pie sz lm nn
    (len : binary_float prec emax) :
  let O := ieee_ops prec emax pim pie sz lm nn in let V := ieee_view prec emax in
  exp_rounded O V -> fin V len = true -> bpow radix2 (prec + 1) <= val V len ->
  fin V (gain_of O len) = true /\ val V (gain_of O len) = 1.
Proof.
  intros O V He Fl Hl. cbn [fin val V ieee_view] in Fl, Hl.
  set (RN := round radix2 (SpecFloat.fexp prec emax) (round_mode mode_NE)).
  assert (Pp : 0 < bpow radix2 (prec + 1)) by apply bpow_gt_0.
  assert (Hpe := Hm). unfold Prec_lt_emax in Hpe.
  assert (Hpp := Hp). unfold Prec_gt_0 in Hpp.
  assert (P1 : 0 < bpow radix2 (- (prec + 1)) <= / 4).
  { split; [apply bpow_gt_0|]. change (/ 4) with (bpow radix2 (-2)). apply bpow_le. lia. }
  assert (Ei : / bpow radix2 (prec + 1) = bpow radix2 (- (prec + 1))) by (symmetry; apply bpow_opp).
  assert (Hi : 0 < / B2R len <= bpow radix2 (- (prec + 1))).
  { rewrite <- Ei. split; [apply Rinv_0_lt_compat; lra|]. apply Rinv_le; lra. }
  destruct (fone_correct prec emax) as [O1 [O2 _]].
  assert (Fe : generic_format radix2 (SpecFloat.fexp prec emax) (bpow radix2 (- (prec + 1)))).
  { apply (format_bpow prec emax). unfold SpecFloat.emin. lia. }
  assert (Hq : - bpow radix2 (- (prec + 1)) <= RN (- / B2R len) <= 0).
  { split.
    - unfold RN. rewrite (RN_opp prec emax). apply Ropp_le_contravar.
      rewrite <- (RN_id prec emax _ Fe). apply (RN_le prec emax). lra.
    - unfold RN. rewrite <- (RN_0 prec emax). apply (RN_le prec emax). lra. }
  assert (D := Bdiv_correct prec emax Hp Hm mode_NE (Bopp (f_of_Z prec emax 1)) len ltac:(lra)).
  rewrite B2R_Bopp, O1 in D. replace (-(1) / B2R len) with (- / B2R len) in D by (unfold Rdiv; lra).
  fold RN in D. rewrite Rlt_bool_true in D.
  2:{ assert (1 < bpow radix2 emax) by (change 1 with (bpow radix2 0); apply bpow_lt; lia).
      apply Rabs_def1; lra. }
  destruct D as [D1 [D2 _]]. rewrite is_finite_Bopp, O2 in D2.
  set (q := f_div prec emax (Bopp (f_of_Z prec emax 1)) len).
  change (gain_of O len) with (n_exp O q).
  assert (Eq : val V q = RN (- / B2R len)) by exact D1.
  assert (Fq : fin V q = true) by exact D2.
  assert (Hexp : 1 - bpow radix2 (- (prec + 1)) < exp (val V q) <= 1).
  { rewrite Eq. split.
    - destruct (Req_dec (RN (- / B2R len)) 0) as [E|E]; [rewrite E, exp_0; lra|].
      apply Rle_lt_trans with (1 + RN (- / B2R len)); [lra|]. apply exp_ineq1. exact E.
    - rewrite <- exp_0. destruct (proj2 Hq) as [H|H]; [apply Rlt_le, exp_increasing, H|rewrite H; lra]. }
  assert (F1 := format_F2R_1 prec emax).
  assert (Ern : rnd V (exp (val V q)) = 1).
  { apply Rle_antisym.
    - cbn [rnd V ieee_view]. rewrite <- (RN_id prec emax 1 F1). apply (RN_le prec emax). apply Hexp.
    - apply (round_N_ge_midp radix2 (SpecFloat.fexp prec emax) _ _ _ F1).
      assert (Ep : pred radix2 (SpecFloat.fexp prec emax) 1 = 1 - bpow radix2 (- prec)).
      { change 1 with (bpow radix2 0). rewrite pred_bpow. f_equal. f_equal.
        unfold SpecFloat.fexp, SpecFloat.emin. lia. }
      assert (Eh : bpow radix2 (- prec) = 2 * bpow radix2 (- (prec + 1))).
      { replace (- prec)%Z with (1 + - (prec + 1))%Z by lia. rewrite bpow_plus. change (bpow radix2 1) with 2. reflexivity. }
      rewrite Ep, Eh. lra. }
  destruct (He q Fq) as [H1 H2].
  - rewrite Ern, Rabs_R1. cbn [fmax V ieee_view].
    assert (bpow radix2 (- prec) <= / 2) by (change (/ 2) with (bpow radix2 (-1)); apply bpow_le; lia).
    assert (4 <= bpow radix2 emax) by (change 4 with (bpow radix2 2); apply bpow_le; lia).
    assert (0 < bpow radix2 (- prec)) by apply bpow_gt_0. nra.
  - split; [exact H1|]. rewrite H2. exact Ern.
Qed.

(** A smoothing step from zero with gain 1 gives zero. *)
Lemma smooth_one_zero prec emax {Hp : Prec_gt_0 prec} {Hm : Prec_lt_emax prec emax} (Hm3 : (3 <= emax)%Z)
    (a v x : binary_float prec emax) :
  is_finite a = true -> B2R a = 1 -> is_zero prec emax v -> is_finite x = true ->
  is_finite (fsmooth prec emax a v x) = true /\ B2R (fsmooth prec emax a v x) = 0.
Proof.
  intros Fa Ea Hv Fx. destruct (is_zero_finite prec emax v Hv) as [Fv Ev]. unfold fsmooth.
  assert (Hmax : Rabs (B2R x) <= (1 - bpow radix2 (- prec)) * bpow radix2 emax) by exact (abs_le_MAX prec emax x).
  assert (Hlt := MAX_lt prec emax). assert (Hfm := MAX_fmt prec emax Hm3).
  set (M := (1 - bpow radix2 (- prec)) * bpow radix2 emax) in *. clearbody M.
  destruct (sub_ok prec emax v x M Fv Fx Hfm Hlt) as [S1 S2].
  { rewrite Ev. replace (0 - B2R x) with (- B2R x) by lra. rewrite Rabs_Ropp. exact Hmax. }
  rewrite Ev in S2. replace (0 - B2R x) with (- B2R x) in S2 by lra.
  rewrite (RN_opp prec emax), (RN_B2R prec emax) in S2.
  destruct (mul_ok prec emax a (f_sub prec emax v x) M Fa S1 Hfm Hlt) as [M1 M2].
  { rewrite Ea, S2, Rmult_1_l, Rabs_Ropp. exact Hmax. }
  rewrite Ea, S2, Rmult_1_l, (RN_opp prec emax), (RN_B2R prec emax) in M2.
  destruct (add_ok prec emax x (f_mul prec emax a (f_sub prec emax v x)) M Fx M1 Hfm Hlt) as [A1 A2].
  { rewrite M2. replace (B2R x + - B2R x) with 0 by lra. rewrite Rabs_R0.
    apply Rle_trans with (2 := Hmax). apply Rabs_pos. }
  split; [exact A1|]. rewrite A2, M2. replace (B2R x + - B2R x) with 0 by lra. apply (RN_0 prec emax).
Qed.

(** C70: with a correctly rounded exponential, a length of 2^(p+1) samples or more (p
    bits of precision: 2^25 samples in [f32]) makes the gain exactly 1. *)
Lemma C70_long_gain_is_one_thm :
  forall (T : Type) (O : num_ops T) (V : float_view T) (S : Type) (D : detector S T)
         (history : list (call (det_set T) T)) (ph : phase) (len : T),
    ieee O V -> exp_rounded O V -> lib_detector O D ->
    fin V len = true -> bpow radix2 (fprec V + 1) <= val V len ->
    let g := det_gain D ph (after (det_dev D) (history ++ [CSet (set_phase ph len)])) in
    fin V g = true /\ val V g = 1.
Proof.
  intros T O V S D history ph len HO He HD Fl Hl g.
  destruct (C51_setters_thm T O V S D history ph len HO HD) as [H _]. unfold g. rewrite H.
  - destruct HO.
    + exact (gain_one 24 128 le3_32 le4_32 _ _ _ lm b len He Fl Hl).
    + exact (gain_one 53 1024 le3_64 le4_64 _ _ _ lm b len He Fl Hl).
  - split; [exact Fl|]. apply Rlt_le_trans with (2 := Hl). apply bpow_gt_0.
Qed.

(** C70: and a new detector given such an attack never rises: it returns 0 whatever
    samples it is fed, as long as their squares do not overflow. *)
Lemma C70_long_attack_freezes_thm :
  forall (T : Type) (O : num_ops T) (V : float_view T) (S : Type) (D : detector S T)
         (len : T) (cs : list (call (det_set T) T)),
    ieee O V -> exp_rounded O V -> lib_detector O D ->
    fin V len = true -> bpow radix2 (fprec V + 1) <= val V len ->
    (forall k, ~ In (CSet k) cs) -> samples_ok (fun x => fin V (n_mul O x x) = true) cs ->
    all_returned (within V 0 0) (returns (det_dev D) [CSet (SetAttack len)] cs).
Proof.
  assert (G : forall prec emax (Hp : Prec_gt_0 prec) (Hm : Prec_lt_emax prec emax) (Hm3 : (3 <= emax)%Z) (Hm4 : (4 <= emax)%Z) pim pie sz lm nn
     S (D : detector S (binary_float prec emax)) len cs,
    let O := ieee_ops prec emax pim pie sz lm nn in let V := ieee_view prec emax in
    exp_rounded O V -> lib_detector O D ->
    fin V len = true -> bpow radix2 (prec + 1) <= val V len ->
    (forall k, ~ In (CSet k) cs) -> samples_ok (fun x => fin V (n_mul O x x) = true) cs ->
    all_returned (within V 0 0) (returns (det_dev D) [CSet (SetAttack len)] cs)).
  { intros prec emax Hp Hm Hm3 Hm4 pim pie sz lm nn S D len cs O V He HD Fl Hl Hk Hs.
    destruct (gain_one prec emax Hm3 Hm4 pim pie sz lm nn len He Fl Hl) as [G1 G2].
    fold O in G1, G2. cbn [fin val V ieee_view] in G1, G2.
    assert (Hg : n_lt O (n_zero O) len && n_is_finite O len = true).
    { apply (length_guard prec emax pim pie sz lm nn len). split; [exact Fl|].
      apply Rlt_le_trans with (2 := Hl). apply bpow_gt_0. }
    assert (Z : forall a (v x : binary_float prec emax), (is_finite a = true /\ B2R a = 1) \/ is_zero prec emax a ->
              is_zero prec emax v -> is_finite x = true -> ((is_finite a = true /\ B2R a = 1) \/ is_zero prec emax x) ->
              is_zero prec emax (fsmooth prec emax a v x)).
    { intros a v x Ha Hv Fx Hx.
      assert (K : is_finite (fsmooth prec emax a v x) = true /\ B2R (fsmooth prec emax a v x) = 0).
      { destruct Ha as [[A1 A2]|Ha]; [apply (smooth_one_zero prec emax Hm3); assumption|].
        destruct Hx as [[A1 A2]|Hx]; [apply (smooth_one_zero prec emax Hm3); assumption|].
        destruct (smooth_zero prec emax a v x Ha Fx) as [S1 [_ S3]].
        - apply (is_zero_finite prec emax). apply (zero_sub prec emax); assumption.
        - split; [exact S1|]. rewrite S3. apply (is_zero_finite prec emax). exact Hx. }
      destruct K as [K1 K2]. unfold is_zero. destruct (fsmooth prec emax a v x) as [s|s| |s m e Hb]; try discriminate; [eauto|].
      exfalso. cbn in K2. apply eq_0_F2R in K2. destruct s; discriminate. }
    assert (Zlt : forall v x : binary_float prec emax, is_zero prec emax v -> is_finite x = true -> 0 <= B2R x ->
               Bltb v x = false -> is_zero prec emax x).
    { intros v x Hv Fx Px E. destruct (is_zero_finite prec emax v Hv) as [Fv Ev].
      rewrite Bltb_correct in E by assumption. rewrite Ev in E.
      destruct (Rlt_bool_spec 0 (B2R x)); [discriminate|].
      assert (B2R x = 0) by lra. unfold is_zero. destruct x as [s|s| |s m e Hb]; try discriminate; [eauto|].
      exfalso. cbn in H0. apply eq_0_F2R in H0. destruct s; discriminate. }
    assert (Hok : Forall (fun c => match c with CProcess x => fin V (n_mul O x x) = true | CSet _ => False | _ => True end) cs).
    { apply Forall_forall. intros c Hin. assert (K := proj1 (Forall_forall _ _) Hs c Hin).
      destruct c; auto. apply (Hk k). exact Hin. }
    destruct HD.
    - assert (E0 : after (det_dev (peak_detector O)) [CSet (SetAttack len)] = PeakDet (gain_of O len) (n_zero O) (n_zero O)).
      { unfold after. cbn [d_run d_step det_dev peak_detector dev_peak d_set d_new fst]. unfold peak_set_attack. rewrite Hg. reflexivity. }
      unfold returns. rewrite E0.
      apply (run_inv (det_dev (peak_detector O)) (fun s => pk_attack_gain s = gain_of O len /\ is_zero prec emax (pk_release_gain s) /\ is_zero prec emax (pk_envelope s))
         (fun c => match c with CProcess x => fin V (n_mul O x x) = true | CSet _ => False | _ => True end)); [| |exact Hok].
      + intros s c [Ha [Hr Hv]] Hc.
        destruct c as [z| |k|]; cbn [d_step det_dev peak_detector dev_peak d_process d_clear d_set d_last_out fst snd]; try contradiction.
        * rewrite (peak_smooth' prec emax pim pie sz lm nn O eq_refl). cbn [fst snd pk_attack_gain pk_release_gain pk_envelope].
          destruct (sq_finite prec emax z Hc) as [Fz _].
          assert (Zs : is_zero prec emax (fsmooth prec emax (pk_gain prec emax s z) (pk_envelope s) (Babs z))).
          { apply Z.
            - unfold pk_gain. destruct Bltb; [rewrite Ha; auto|auto].
            - exact Hv.
            - rewrite is_finite_Babs. exact Fz.
            - unfold pk_gain. destruct Bltb eqn:E; [rewrite Ha; auto|]. right.
              apply (Zlt (pk_envelope s)); [exact Hv|rewrite is_finite_Babs; exact Fz|rewrite B2R_Babs; apply Rabs_pos|exact E]. }
          split; [auto|]. intros y Ey. injection Ey as <-. destruct (is_zero_finite prec emax _ Zs) as [Y1 Y2].
          split; [exact Y1|]. cbn [val V ieee_view]. rewrite Y2. lra.
        * split; [|discriminate]. split; [exact Ha|]. split; [exact Hr|]. exists false. reflexivity.
        * split; [auto|]. intros y Ey. injection Ey as <-. destruct (is_zero_finite prec emax _ Hv) as [Y1 Y2].
          split; [exact Y1|]. cbn [val V ieee_view]. unfold peak_last_out. rewrite Y2. lra.
      + split; [reflexivity|]. split; exists false; reflexivity.
    - assert (E0 : after (det_dev (rms_detector O)) [CSet (SetAttack len)] = RmsDet (gain_of O len) (n_zero O) (n_zero O)).
      { unfold after. cbn [d_run d_step det_dev rms_detector dev_rms d_set d_new fst]. unfold rms_set_attack. rewrite Hg. reflexivity. }
      assert (Sq0 : forall v, is_zero prec emax v -> within V 0 0 (f_sqrt prec emax v)).
      { intros v [s ->]. split; [reflexivity|]. cbn. lra. }
      unfold returns. rewrite E0.
      apply (run_inv (det_dev (rms_detector O)) (fun s => rm_attack_gain s = gain_of O len /\ is_zero prec emax (rm_release_gain s) /\ is_zero prec emax (rm_envelope s))
         (fun c => match c with CProcess x => fin V (n_mul O x x) = true | CSet _ => False | _ => True end)); [| |exact Hok].
      + intros s c [Ha [Hr Hv]] Hc.
        destruct c as [z| |k|]; cbn [d_step det_dev rms_detector dev_rms d_process d_clear d_set d_last_out fst snd]; try contradiction.
        * rewrite (rms_smooth' prec emax pim pie sz lm nn O eq_refl). cbn [fst snd rm_attack_gain rm_release_gain rm_envelope].
          destruct (sq_finite prec emax z Hc) as [Fz Ez].
          assert (Zs : is_zero prec emax (fsmooth prec emax (rm_gain prec emax s z) (rm_envelope s) (f_mul prec emax z z))).
          { apply Z.
            - unfold rm_gain. destruct Bltb; [rewrite Ha; auto|auto].
            - exact Hv.
            - exact Hc.
            - unfold rm_gain. destruct Bltb eqn:E; [rewrite Ha; auto|]. right.
              apply (Zlt (rm_envelope s)); [exact Hv|exact Hc| |exact E].
              rewrite Ez, <- (RN_0 prec emax). apply (RN_le prec emax). nra. }
          split; [auto|]. intros y Ey. injection Ey as <-. apply Sq0, Zs.
        * split; [|discriminate]. split; [exact Ha|]. split; [exact Hr|]. exists false. reflexivity.
        * split; [auto|]. intros y Ey. injection Ey as <-. apply Sq0, Hv.
      + split; [reflexivity|]. split; exists false; reflexivity. }
  intros T O V S D len cs HO. destruct HO.
  - exact (G 24%Z 128%Z _ _ le3_32 le4_32 _ _ _ lm b S D len cs).
  - exact (G 53%Z 1024%Z _ _ le3_64 le4_64 _ _ _ lm b S D len cs).
Qed.

Lemma cr_exp_rounded b : exp_rounded (f32_ops (cr_libm 24 128) b) (ieee_view 24 128).
Proof.
  intros x Fx Hr. cbn [fin val rnd fmax n_exp f32_ops ieee_ops m_exp cr_libm ieee_view] in *.
  unfold cr_exp. destruct x as [s|s| |s m e Hb]; try discriminate;
    apply (R2F_ok 24 128); apply Rle_lt_trans with (1 := Hr); apply (MAX_lt 24 128).
Qed.

(*@PROP
(* the correctly rounded exponential, and 2^25 samples (about 12 minutes at 44100 Hz) *)
Example C70_hyps :
  exp_rounded (f32_ops (cr_libm 24 128) false) (ieee_view 24 128)
  /\ fin (ieee_view 24 128) (fl32 1 25) = true
  /\ bpow radix2 (fprec (ieee_view 24 128) + 1) <= val (ieee_view 24 128) (fl32 1 25).
Proof.
  split; [apply cr_exp_rounded|]. split; [reflexivity|]. cbn [fprec val ieee_view].
  cbn. unfold F2R; cbn. lra.
Qed.
@*)
