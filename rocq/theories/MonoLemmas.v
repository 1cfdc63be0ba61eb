(** Proofs of C99. *)
From Coq Require Import ZArith Reals List Bool Lra Lia.
From Flocq Require Import Core.Core IEEE754.BinarySingleNaN.
From Verif Require Import Base Num NumF Witness FixLibm FloatSpec AnalysisM Device AnaSpec CrLibm ConstLemmas TrackSpec TrackLemmas MonoSpec.
Import ListNotations.
Open Scope R_scope.

(*@PROP
(** Property C99: in floating point a louder input can lower an envelope, but only
    by rounding errors (C71 is the exact statement).

    Vocabulary: [ieee O V] says that [O] is the arithmetic of [f32] or [f64] and [V]
    reads it as numbers ([FloatSpec]); [returns D [] cs] is what the calls [cs] on a
    new object return ([Device]); [gain_of O l] is the gain of the length [l]
    ([AnaSpec]); [detector_calls], [half_ulp], [half_tiny] are in [TrackSpec],
    [louder_float] in [MonoSpec];
    [fl32 m e] is the [f32] number m 2^e ([Witness]). *)
From Coq Require Import ZArith Reals List Bool Lra Lia.
From Flocq Require Import Core.Core IEEE754.BinarySingleNaN.
From Verif Require Import Base Num NumF Witness FixLibm FloatSpec AnalysisM Device AnaSpec CrLibm TrackSpec MonoSpec MonoLemmas.
Import ListNotations.
Open Scope R_scope.

@*)
(** C99: in [f32], with any math library and any release length whose gain is 1/2:
    after a sample of 1.5, a sample of 3/2^25 gives a lower envelope than a sample
    of 2/2^25. *)
Lemma C99_louder_lowers_refuted_thm :
  forall (lm : libm f32) (b : bool) (l : f32),
    let O := f32_ops lm b in
    n_lt O (n_zero O) l && n_is_finite O l = true -> gain_of O l = fl32 1 (-1) ->
    exists y y' : f32,
      returns (dev_peak O) [] [CSet (SetRelease l); CProcess (fl32 3 (-1)); CProcess (fl32 2 (-25))]
        = [None; Some (fl32 3 (-1)); Some y]
      /\ returns (dev_peak O) [] [CSet (SetRelease l); CProcess (fl32 3 (-1)); CProcess (fl32 3 (-25))]
        = [None; Some (fl32 3 (-1)); Some y']
      /\ B2R y' < B2R y.
Proof.
  intros lm b l O Hl Hg.
  assert (E : peak_set_release O (peak_new O) l = PeakDet (n_zero O) (fl32 1 (-1)) (n_zero O)).
  { unfold peak_set_release. rewrite Hl. unfold gain_of in Hg. rewrite Hg. reflexivity. }
  assert (N : forall (x : f32) m e (H : SpecFloat.bounded 24 128 m e = true),
             B2SF x = SpecFloat.S754_finite false m e -> x = B754_finite false m e H).
  { intros x m e H Q. apply B2SF_inj. exact Q. }
  assert (Y : forall x : f32, exists y, returns (dev_peak O) [] [CSet (SetRelease l); CProcess (fl32 3 (-1)); CProcess x]
      = [None; Some (snd (peak_process O (PeakDet (n_zero O) (fl32 1 (-1)) (n_zero O)) (fl32 3 (-1)))); Some y]
      /\ y = snd (peak_process O (fst (peak_process O (PeakDet (n_zero O) (fl32 1 (-1)) (n_zero O)) (fl32 3 (-1)))) x)).
  { intros x. eexists. split; [|reflexivity].
    unfold returns, after. cbn [d_run d_step dev_peak d_set d_new d_process fst snd map]. rewrite E. reflexivity. }
  assert (F1 : snd (peak_process O (PeakDet (n_zero O) (fl32 1 (-1)) (n_zero O)) (fl32 3 (-1))) = fl32 3 (-1)).
  { apply B2SF_inj. vm_compute. reflexivity. }
  destruct (Y (fl32 2 (-25))) as [y [Y1 Y2]]. destruct (Y (fl32 3 (-25))) as [y' [Y1' Y2']].
  exists y, y'. rewrite F1 in Y1, Y1'. split; [exact Y1|]. split; [exact Y1'|].
  rewrite (N y 12582913%positive (-24)%Z eq_refl) by (rewrite Y2; vm_compute; reflexivity).
  rewrite (N y' 12582912%positive (-24)%Z eq_refl) by (rewrite Y2'; vm_compute; reflexivity).
  cbn [B2R]. unfold F2R. cbn [Fnum Fexp cond_Zopp].
  apply Rmult_lt_compat_r; [apply bpow_gt_0|]. apply IZR_lt. lia.
Qed.

(*@PROP
(** Such a length: 1.4427 with a computable math library; 1.5, 2/2^25 and 3/2^25 are
    the numbers they look like, and in increasing order. *)
Example C99_hyps :
  let O := f32_ops fix_libm false in
  let l := fl32 12102203 (-23) in
  n_lt O (n_zero O) l && n_is_finite O l = true /\ gain_of O l = fl32 1 (-1)
  /\ Bltb (fl32 2 (-25)) (fl32 3 (-25)) = true.
Proof. exact C99_wit. Qed.
@*)
Lemma C99_wit :
  let O := f32_ops fix_libm false in
  let l := fl32 12102203 (-23) in
  n_lt O (n_zero O) l && n_is_finite O l = true /\ gain_of O l = fl32 1 (-1)
  /\ Bltb (fl32 2 (-25)) (fl32 3 (-25)) = true.
Proof. split; [|split]; [vm_compute; reflexivity|apply B2SF_inj; vm_compute; reflexivity|vm_compute; reflexivity]. Qed.

Lemma ideal_monotone {T} (V : float_view T) (mag : R -> R) (g : R) cs : forall cs' s s',
  (forall x x' : T, Rabs (val V x) <= Rabs (val V x') -> mag (val V x) <= mag (val V x')) ->
  Forall2 (louder_float V) cs cs' ->
  Forall (fun c => match c with CSet (SetAttack len | SetRelease len) => 0 < val V len | _ => True end) cs ->
  f_attack s = f_attack s' -> f_release s = f_release s' ->
  0 <= f_attack s < 1 -> 0 <= f_release s < 1 -> f_env s <= f_env s' ->
  f_env (fold_left (follow V mag) cs s) <= f_env (fold_left (follow V mag) cs' s').
Proof.
  induction cs as [|c cs IH]; intros cs' s s' Hm HF HL E1 E2 A B E.
  - inversion HF; subst. exact E.
  - inversion HF as [|? c' ? cs1 Hc HF']; subst. inversion HL as [|? ? L1 L2]; subst.
    cbn [fold_left]. destruct s as [sa sr se], s' as [sa' sr' se']. cbn in E1, E2, A, B, E. subst sa' sr'.
    assert (St : forall m m', m <= m' ->
       m + (if Rlt_dec se m then sa else sr) * (se - m) <= m' + (if Rlt_dec se' m' then sa else sr) * (se' - m')).
    { intros m m' Hmm. destruct (Rlt_dec se m), (Rlt_dec se' m'); nra. }
    assert (Ge : forall l, 0 < l -> 0 <= exp (-1 / l) < 1).
    { intros l Hl. split; [left; apply exp_pos|]. rewrite <- exp_0. apply exp_increasing.
      assert (0 < / l) by (apply Rinv_0_lt_compat, Hl). unfold Rdiv. lra. }
    destruct Hc as [c|x x' Hx].
    + destruct c as [x| |[l|l]|]; apply IH; auto; cbn; try lra; try (apply Ge; exact L1).
      apply St. lra.
    + apply IH; auto; cbn. apply St. apply Hm, Hx.
Qed.

(** C99: over any two histories that differ only in louder samples, up to [M] in
    magnitude, with lengths from 1 to [L] samples, the louder one's envelope is lower
    by at most 16 (L + 1) (2^-p M + tiny). *)
Lemma C99_almost_monotone_thm :
  forall (T : Type) (O : num_ops T) (V : float_view T), ieee O V -> exp_rounded O V ->
  forall (M L : R) (history history' : list (call (det_set T) T)),
    1 <= L <= bpow radix2 (fprec V - 2) ->
    detector_calls V M L history -> detector_calls V M L history' ->
    Forall2 (louder_float V) history history' ->
    (0 <= M <= fmax V ->
     val V (peak_last_out (after (dev_peak O) history))
     <= val V (peak_last_out (after (dev_peak O) history')) + 16 * (L + 1) * (half_ulp V * M + half_tiny V))
    /\ (M * M <= fmax V ->
        (val V (rms_last_out O (after (dev_rms O) history)))²
        <= (val V (rms_last_out O (after (dev_rms O) history')))² + 32 * (L + 1) * (half_ulp V * (M * M) + half_tiny V)).
Proof.
  intros T O V HO HE M L h h' HL H H' HF.
  assert (Hp : Forall (fun c => match c with CSet (SetAttack len | SetRelease len) => 0 < val V len | _ => True end) h).
  { eapply List.Forall_impl; [|exact H]. intros [x| |[l|l]|]; auto; intros [_ Q]; lra. }
  split; intros HM.
  - destruct (C90_peak_tracks_thm T O V HO HE M L h HM HL H) as [_ K].
    destruct (C90_peak_tracks_thm T O V HO HE M L h' HM HL H') as [_ K'].
    assert (Id : ideal_envelope V Rabs h <= ideal_envelope V Rabs h').
    { apply (ideal_monotone V Rabs 0); auto; cbn; lra. }
    apply Rabs_le_inv in K. apply Rabs_le_inv in K'. lra.
  - destruct (C90_rms_tracks_thm T O V HO HE M L h HM HL H) as [_ K].
    destruct (C90_rms_tracks_thm T O V HO HE M L h' HM HL H') as [_ K'].
    assert (Id : ideal_envelope V Rsqr h <= ideal_envelope V Rsqr h').
    { apply (ideal_monotone V Rsqr 0); auto; cbn; try lra. intros x x' Q. apply Rsqr_le_abs_1, Q. }
    apply Rabs_le_inv in K. apply Rabs_le_inv in K'. unfold Rsqr. lra.
Qed.

(*@PROP
Example C99_almost_monotone_hyps :
  ieee O90 V90 /\ exp_rounded O90 V90
  /\ detector_calls V90 1 48000 [CSet (SetAttack one_second); CProcess (fl32 1 (-1)); CProcess (fl32 1 (-2))]
  /\ detector_calls V90 1 48000 [CSet (SetAttack one_second); CProcess (fl32 (-1) 0); CProcess (fl32 1 (-2))]
  /\ Forall2 (louder_float V90)
       [CSet (SetAttack one_second); CProcess (fl32 1 (-1)); CProcess (fl32 1 (-2))]
       [CSet (SetAttack one_second); CProcess (fl32 (-1) 0); CProcess (fl32 1 (-2))].
Proof. exact C99_wit2. Qed.
@*)
Lemma C99_wit2 :
  ieee O90 V90 /\ exp_rounded O90 V90
  /\ detector_calls V90 1 48000 [CSet (SetAttack one_second); CProcess (fl32 1 (-1)); CProcess (fl32 1 (-2))]
  /\ detector_calls V90 1 48000 [CSet (SetAttack one_second); CProcess (fl32 (-1) 0); CProcess (fl32 1 (-2))]
  /\ Forall2 (louder_float V90)
       [CSet (SetAttack one_second); CProcess (fl32 1 (-1)); CProcess (fl32 1 (-2))]
       [CSet (SetAttack one_second); CProcess (fl32 (-1) 0); CProcess (fl32 1 (-2))].
Proof.
  destruct track_met as [A [B _]]. split; [exact A|]. split; [exact B|].
  assert (Vs : val V90 one_second = 48000) by (change (B2R one_second = 48000); unfold one_second; lit; cbn; lra).
  assert (V1 : val V90 (fl32 1 (-1)) = / 2) by (change (B2R (fl32 1 (-1)) = / 2); lit; cbn; lra).
  assert (V2 : val V90 (fl32 1 (-2)) = / 4) by (change (B2R (fl32 1 (-2)) = / 4); lit; cbn; lra).
  assert (V3 : val V90 (fl32 (-1) 0) = -1) by (change (B2R (fl32 (-1) 0) = -1); lit; cbn; lra).
  split; [|split].
  - repeat constructor; rewrite ?Vs, ?V1, ?V2; try lra; rewrite Rabs_pos_eq; lra.
  - repeat constructor; rewrite ?Vs, ?V2, ?V3; try lra; [rewrite Rabs_left by lra; lra|rewrite Rabs_pos_eq; lra].
  - constructor; [constructor|]. constructor.
    + apply lf_more. rewrite V1, V3, Rabs_pos_eq, Rabs_left by lra. lra.
    + constructor; [constructor|constructor].
Qed.
