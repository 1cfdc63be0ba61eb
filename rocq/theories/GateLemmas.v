(** Lemmas behind property C130.  The [@PROP] blocks are copied into [PropGate.v]. *)
(*@PROP
(** Property C130: a noise gate built on [PeakEnvDetector].

    Vocabulary: [gate] ([GateSpec]); [instant_attack]: [set_attack] is never called ([LimitSpec]); [calls_ok O V P cs]: the
    samples satisfy [P] and every accepted length gives a gain in [0, 1) ([AnaSpec]); [detector_calls V M L cs]:
    samples up to [M], lengths from 1 to [L] ([TrackSpec]); [exp_rounded]: the exponential is correctly rounded. *)
From Coq Require Import ZArith Reals List Bool Lra Lia.
From Flocq Require Import Core.Core IEEE754.BinarySingleNaN.
From Verif Require Import Base Num NumR NumF Witness CrLibm FloatSpec AnalysisM Device AnaSpec AnaLemmas TrackSpec LimitSpec LimitLemmas GateSpec GateLemmas.
Import ListNotations.
Open Scope R_scope.
@*)
From Coq Require Import ZArith Reals List Bool Lra Lia.
From Flocq Require Import Core.Core Relative IEEE754.BinarySingleNaN.
From Verif Require Import Base Num NumR NumF FloatSpec FloatFacts SmoothF Witness CrLibm AnalysisM Device AnaSpec AnaFacts AnaLemmas
  WinLemmasF FltFilterLemmas TrackSpec TrackLemmas LimitSpec LimitLemmas GateSpec.
Import ListNotations.
Open Scope R_scope.

Section Run.
  Context {T : Type} (O : num_ops T) (c : T).
  Context (I : peak T -> Prop) (ok : call (det_set T) T -> Prop) (Q : T * T -> Prop).
  Hypothesis Hstep : forall s k, I s -> ok k -> I (fst (d_step (dev_peak O) s k)).
  Hypothesis Hout : forall s x, I s -> ok (CProcess x) -> Q (x, mute O c x (snd (d_process (dev_peak O) s x))).

  Lemma gate_inv cs : forall s, I s -> Forall ok cs -> Forall Q (gate O c s cs).
  Proof.
    induction cs as [|k cs IH]; intros s Hs Hc; [constructor|].
    assert (G := Hstep s k Hs (Forall_inv Hc)).
    destruct k as [x| |k|]; cbn [gate]; try (apply IH; [exact G|exact (Forall_inv_tail Hc)]).
    assert (G2 := Hout s x Hs (Forall_inv Hc)). cbn [d_step] in G. destruct (d_process (dev_peak O) s x) as [s1 e].
    cbn [fst snd] in *. constructor; [exact G2|]. apply IH; [exact G|exact (Forall_inv_tail Hc)].
  Qed.
End Run.

Lemma gate_app {T} (O : num_ops T) c cs : forall s ds, gate O c s (cs ++ ds) = gate O c s cs ++ gate O c (fst (d_run (dev_peak O) s cs)) ds.
Proof.
  induction cs as [|k cs IH]; intros s ds; [reflexivity|].
  destruct k as [x| |k|]; cbn [gate app d_run d_step]; try (rewrite IH; cbn [fst]; destruct (d_run _ _ cs); reflexivity).
  destruct (d_process (dev_peak O) s x) as [s1 e]. cbn [fst app]. rewrite IH. destruct (d_run _ s1 cs); reflexivity.
Qed.

(** ** Floats *)
Section F.
  Context (prec emax : Z) {Hp : Prec_gt_0 prec} {Hm : Prec_lt_emax prec emax} (Hm3 : (3 <= emax)%Z).
  Context (pim pie sz : Z) (lm : libm (binary_float prec emax)) (nn : bool).
  Notation F := (binary_float prec emax).
  Notation O := (ieee_ops prec emax pim pie sz lm nn).
  Notation V := (ieee_view prec emax).
  Notation MM := ((1 - bpow radix2 (- prec)) * bpow radix2 emax).

  Lemma f_loud (c : F) cs : is_finite c = true -> instant_attack cs -> calls_ok O V (fun x => fin V x = true) cs ->
    Forall (fun xy : F * F => let (x, y) := xy in (y = x \/ y = n_zero O) /\ (B2R c <= Rabs (B2R x) -> y = x)) (gate O c (peak_new O) cs).
  Proof.
    intros Fc Ha Hc.
    apply (gate_inv O c (finv prec emax MM)
             (fun k => match k with CSet (SetAttack _) => False | _ => True end
                       /\ match k with
                          | CProcess x => within V (- MM) MM x
                          | CSet k => good_length V (set_length k) -> unit_interval V (gain_of O (set_length k))
                          | _ => True end)).
    - intros s k Hs [H1 H2]. apply f_step; [exact Hm3|apply Rlt_le, (MAX_pos prec emax)|exact Hs|]. destruct k as [x| |[l|l]|]; assumption.
    - intros s x Hs [_ [Fx Hx]]. cbn [fin val ieee_view] in *.
      destruct (f_env prec emax Hm3 pim pie sz lm nn MM s x Hs Fx (abs_le_MAX prec emax x)) as [E1 E2].
      unfold mute. cbn [n_lt ieee_ops]. rewrite Bltb_correct by assumption. split.
      + destruct (Rlt_bool _ _); [right|left]; reflexivity.
      + intros H. rewrite Rlt_bool_false by lra. reflexivity.
    - apply finv_new. apply Rlt_le, (MAX_pos prec emax).
    - apply both; [exact Ha|]. eapply Forall_impl; [|exact Hc]. intros [x| |k|] H; try exact H.
      split; [exact H|]. cbn [val ieee_view]. assert (A := abs_le_MAX prec emax x). apply Rabs_le_inv. exact A.
  Qed.

  Lemma f_shut (c : F) s0 cs : is_finite c = true -> pinv prec emax MM s0 -> B2R (pk_envelope s0) < B2R c ->
    calls_ok O V (fun x => fin V x = true /\ Rabs (val V x) < val V c) cs ->
    Forall (fun xy : F * F => snd xy = n_zero O) (gate O c s0 cs).
  Proof.
    intros Fc Hi0 He0 Hc.
    assert (E0 : 0 <= B2R (pk_envelope s0)) by (destruct Hi0 as [_ [_ [_ [E _]]]]; exact E).
    assert (MP := Rlt_le _ _ (MAX_pos prec emax)).
    assert (St : forall s x, pinv prec emax MM s /\ B2R (pk_envelope s) < B2R c -> is_finite x = true -> Rabs (B2R x) < B2R c ->
      is_finite (snd (d_process (dev_peak O) s x)) = true /\ B2R (snd (d_process (dev_peak O) s x)) < B2R c).
    { intros s x [Hi He] Fx Hx. destruct (peak_step_between prec emax Hm3 MM s x Hi Fx) as [G1 G2].
      cbn [dev_peak d_process]. rewrite (peak_smooth' prec emax pim pie sz lm nn O eq_refl). cbn [snd].
      split; [exact G1|]. eapply Rle_lt_trans; [apply G2|]. apply Rmax_lub_lt; assumption. }
    apply (gate_inv O c (fun s => pinv prec emax MM s /\ B2R (pk_envelope s) < B2R c)
             (fun k => match k with
                       | CProcess x => fin V x = true /\ Rabs (val V x) < val V c
                       | CSet k => good_length V (set_length k) -> unit_interval V (gain_of O (set_length k))
                       | _ => True end)).
    - intros s k Hs H. split.
      + apply (peak_step_inv prec emax Hm3 pim pie sz lm nn MM MP s k (proj1 Hs)).
        destruct k as [x| |k|]; try exact H. destruct H as [Fx _]. split; [exact Fx|]. apply Rabs_le_inv. apply (abs_le_MAX prec emax x).
      + destruct k as [x| |[l|l]|]; cbn [d_step].
        * destruct H as [Fx Hx]. destruct (St s x Hs Fx Hx) as [_ G]. cbn [dev_peak d_process] in *. unfold peak_process in *. exact G.
        * change (B2R (n_zero O) < B2R c). cbn [n_zero ieee_ops B2R]. lra.
        * cbn [dev_peak d_set fst]. unfold peak_set_attack. destruct (_ && _); apply Hs.
        * cbn [dev_peak d_set fst]. unfold peak_set_release. destruct (_ && _); apply Hs.
        * apply Hs.
    - intros s x Hs [Fx Hx]. destruct (St s x Hs Fx Hx) as [G1 G2]. cbn [snd]. unfold mute. cbn [n_lt ieee_ops].
      rewrite Bltb_correct by assumption. rewrite Rlt_bool_true by exact G2. reflexivity.
    - split; assumption.
    - exact Hc.
  Qed.
End F.

(** C130: in [f32] and [f64] with an instantaneous attack, whatever the release: every sample is either passed bit for
    bit or muted, and a sample that reaches the threshold is always passed, from the very first one. *)
Lemma C130_loud_passes_thm :
  forall (T : Type) (O : num_ops T) (V : float_view T) (c : T) (cs : list (call (det_set T) T)),
    ieee O V -> fin V c = true -> instant_attack cs -> calls_ok O V (fun x => fin V x = true) cs ->
    Forall (fun xy : T * T => let (x, y) := xy in (y = x \/ y = n_zero O) /\ (val V c <= Rabs (val V x) -> y = x))
           (gate O c (peak_new O) cs).
Proof.
  intros T O V c cs HO. destruct HO as [lm b|lm b].
  - exact (f_loud 24 128 le3_32 _ _ _ lm b c cs).
  - exact (f_loud 53 1024 le3_64 _ _ _ lm b c cs).
Qed.
(*@PROP
(* a threshold of 1/2; a loud sample, a quiet tail, a change of release, a clear *)
Example C130_loud_passes_hyps :
  let cs := [CProcess (fl32 3 (-2)); CProcess (fl32 1 (-2)); CSet (SetRelease (fl32 1 1)); CProcess (fl32 (-1) (-1)); CClear; CProcess (fl32 1 (-3))] in
  fin (ieee_view 24 128) (fl32 1 (-1)) = true /\ instant_attack cs
  /\ calls_ok (f32_ops lm_half false) (ieee_view 24 128) (fun x => fin (ieee_view 24 128) x = true) cs.
Proof.
  cbv zeta. split; [reflexivity|]. split; repeat (apply Forall_cons || apply Forall_nil); try exact I; try reflexivity; try (intros _);
    (split; [reflexivity|]); cbn; unfold F2R; cbn; lra.
Qed.
@*)

(** C130: a shut gate stays shut until a sample reaches the threshold, in [f32] and [f64], whatever attack and release
    are set before or meanwhile: no chatter. *)
Lemma C130_stays_shut_thm :
  forall (T : Type) (O : num_ops T) (V : float_view T) (c : T) (history cs : list (call (det_set T) T)),
    ieee O V -> fin V c = true ->
    calls_ok O V (fun x => fin V x = true) history ->
    val V (d_last_out (dev_peak O) (after (dev_peak O) history)) < val V c ->
    calls_ok O V (fun x => fin V x = true /\ Rabs (val V x) < val V c) cs ->
    Forall (fun xy : T * T => snd xy = n_zero O) (gate O c (after (dev_peak O) history) cs).
Proof.
  assert (G : forall prec emax (Hp : Prec_gt_0 prec) (Hm : Prec_lt_emax prec emax) (Hm3 : (3 <= emax)%Z) pim pie sz lm nn c history cs,
    let O := ieee_ops prec emax pim pie sz lm nn in let V := ieee_view prec emax in
    fin V c = true -> calls_ok O V (fun x => fin V x = true) history ->
    val V (d_last_out (dev_peak O) (after (dev_peak O) history)) < val V c ->
    calls_ok O V (fun x => fin V x = true /\ Rabs (val V x) < val V c) cs ->
    Forall (fun xy => snd xy = n_zero O) (gate O c (after (dev_peak O) history) cs)).
  { intros prec emax Hp Hm Hm3 pim pie sz lm nn c history cs O V Fc Hc He Hk.
    apply (f_shut prec emax Hm3 pim pie sz lm nn c _ cs Fc); [|exact He|exact Hk].
    apply (peak_after prec emax Hm3 pim pie sz lm nn); [apply Rlt_le, (MAX_pos prec emax)|].
    apply Forall_forall. intros k Hin. assert (K := proj1 (Forall_forall _ _) Hc k Hin). destruct k; try exact K.
    split; [exact K|]. apply Rabs_le_inv. apply (abs_le_MAX prec emax). }
  intros T O V c history cs HO. destruct HO as [lm b|lm b].
  - exact (G 24%Z 128%Z _ _ le3_32 _ _ _ lm b c history cs).
  - exact (G 53%Z 1024%Z _ _ le3_64 _ _ _ lm b c history cs).
Qed.
(*@PROP
(* the envelope of a sample of 1/4 under a threshold of 1/2, then samples up to 3/8, with slow attack and release *)
Example C130_stays_shut_hyps :
  let O := f32_ops lm_half false in let V := ieee_view 24 128 in
  calls_ok O V (fun x => fin V x = true) [CProcess (fl32 1 (-2))]
  /\ val V (d_last_out (dev_peak O) (after (dev_peak O) [CProcess (fl32 1 (-2))])) < val V (fl32 1 (-1))
  /\ calls_ok O V (fun x => fin V x = true /\ Rabs (val V x) < val V (fl32 1 (-1)))
       [CProcess (fl32 3 (-3)); CSet (SetAttack (fl32 1 1)); CProcess (fl32 1 (-2)); CClear; CProcess (fl32 3 (-3))].
Proof.
  cbv zeta. split; [|split].
  - repeat (apply Forall_cons || apply Forall_nil); reflexivity.
  - replace (d_last_out _ _) with (fl32 1 (-2)) by (apply B2SF_inj; vm_compute; reflexivity). cbn. unfold F2R. cbn. lra.
  - repeat (apply Forall_cons || apply Forall_nil); try exact I; try (intros _); (split; [reflexivity|]);
      cbn; unfold F2R; cbn; try (rewrite Rabs_pos_eq; lra); lra.
Qed.
@*)

(** ** Exact arithmetic *)
Lemma hold_gen M c xs : forall s, rinv M s -> Forall (fun x => Rabs x <= M) xs ->
  forall n x, nth_error xs n = Some x -> c <= pk_release_gain s ^ (n + 1) * pk_envelope s ->
    nth_error (gate R_ops c s (map CProcess xs)) n = Some (x, x).
Proof.
  induction xs as [|x0 xs IH]; intros s Hs Hx n x Hn Hd; [destruct n; discriminate|].
  assert (Q0 := Forall_inv Hx). cbv beta in Q0.
  assert (Hr : rinv M (fst (d_step (dev_peak R_ops) s (CProcess x0)))) by (apply r_step; [exact Hs|exact Q0]).
  cbn [d_step] in Hr. cbn [map gate]. destruct (env_is s x0) as [E1 [E2 E3]].
  assert (L : pk_release_gain s * pk_envelope s <= snd (d_process (dev_peak R_ops) s x0)).
  { destruct Hs as [A [B C]]. rewrite r_env by exact A. assert (P := Rabs_pos x0).
    assert (pk_release_gain s * pk_envelope s <= 1 * pk_envelope s) by (apply Rmult_le_compat_r; lra).
    assert (0 <= (1 - pk_release_gain s) * Rabs x0) by (apply Rmult_le_pos; lra).
    destruct Rlt_dec; lra. }
  destruct Hs as [A [B C]]. destruct (d_process (dev_peak R_ops) s x0) as [s1 e]. cbn [fst snd] in *.
  destruct n as [|n]; cbn [nth_error] in *.
  - injection Hn as ->. f_equal. f_equal. unfold mute. cbn [n_lt R_ops]. unfold Rltb. rewrite pow_1 in Hd.
    destruct Rlt_dec; [lra|reflexivity].
  - apply IH; auto; [exact (Forall_inv_tail Hx)|]. rewrite E3, E1. cbn [Nat.add pow] in Hd.
    assert (P : 0 <= pk_release_gain s ^ (n + 1)) by (apply pow_le; lra).
    eapply Rle_trans; [exact Hd|].
    replace (pk_release_gain s * pk_release_gain s ^ (n + 1) * pk_envelope s)
      with (pk_release_gain s ^ (n + 1) * (pk_release_gain s * pk_envelope s)) by ring.
    apply Rmult_le_compat_l; assumption.
Qed.

Lemma close_gen M c b xs : b < c -> forall s, rinv M s -> b <= M -> Forall (fun x => Rabs x <= b) xs ->
  forall n x, nth_error xs n = Some x ->
    pk_release_gain s ^ (n + 1) * (pk_envelope s - b) < c - b ->
    nth_error (gate R_ops c s (map CProcess xs)) n = Some (x, 0).
Proof.
  intros Hb. induction xs as [|x0 xs IH]; intros s Hs HM Hx n x Hn Hd; [destruct n; discriminate|].
  assert (Q0 := Forall_inv Hx). cbv beta in Q0. assert (U := out_quiet M s x0 Hs b Q0).
  assert (Hr : rinv M (fst (d_step (dev_peak R_ops) s (CProcess x0)))) by (apply r_step; [exact Hs|lra]).
  cbn [d_step] in Hr. cbn [map gate]. destruct (env_is s x0) as [E1 [E2 E3]]. destruct Hs as [A [B C]].
  destruct (d_process (dev_peak R_ops) s x0) as [s1 e]. cbn [fst snd] in *.
  destruct n as [|n]; cbn [nth_error] in *.
  - injection Hn as ->. f_equal. f_equal. unfold mute. cbn [n_lt n_zero R_ops]. unfold Rltb.
    rewrite pow_1 in Hd. destruct Rlt_dec as [L|L]; [reflexivity|exfalso].
    revert U. unfold Rmax. destruct Rle_dec as [Q|Q]; intros U; lra.
  - apply IH; auto; [exact (Forall_inv_tail Hx)|]. rewrite E3, E1. cbn [Nat.add pow] in Hd.
    assert (P : 0 <= pk_release_gain s ^ (n + 1)) by (apply pow_le; lra).
    apply Rle_lt_trans with (pk_release_gain s ^ (n + 1) * (pk_release_gain s * Rmax 0 (pk_envelope s - b)));
      [apply Rmult_le_compat_l; assumption|].
    unfold Rmax. destruct Rle_dec as [Q|Q]; [|rewrite Rmult_0_r, Rmult_0_r; lra].
    replace (pk_release_gain s ^ (n + 1) * (pk_release_gain s * (pk_envelope s - b)))
      with (pk_release_gain s * pk_release_gain s ^ (n + 1) * (pk_envelope s - b)) by ring. exact Hd.
Qed.

Lemma set_release_R history L m : 0 <= m -> 0 < L -> instant_attack history -> processed (fun x => Rabs x <= m) history ->
  let s := after (dev_peak R_ops) (history ++ [CSet (SetRelease L)]) in rinv m s /\ pk_release_gain s = exp (- 1 / L).
Proof.
  intros M2 HL Ha M3 s. assert (R0 := r_after m history M2 Ha M3).
  set (s0 := after (dev_peak R_ops) history) in *.
  assert (Es : s = peak_set_release R_ops s0 L) by (unfold s; rewrite after_snoc; reflexivity).
  assert (E : s = PeakDet (pk_attack_gain s0) (exp (- 1 / L)) (pk_envelope s0)).
  { rewrite Es. unfold peak_set_release. cbn [n_lt n_is_finite n_exp n_div n_neg n_one n_zero R_ops]. unfold Rltb.
    destruct (Rlt_dec 0 L); [reflexivity|contradiction]. }
  rewrite E. destruct R0 as [A [B C]]. split; [|reflexivity]. split; [exact A|split; [apply exp_neg_inv, HL|exact C]].
Qed.

(** C130: hold time.  After any history, with an instantaneous attack, a release of [L] samples and an envelope [e0],
    the gate passes every sample at least as long as exp(-(n + 1)/L) e0 has not fallen below the threshold; and a passage
    within [b], below the threshold, is muted as soon as exp(-(n + 1)/L) (e0 - b) < c - b. *)
Lemma C130_hold_time_thm :
  forall (c b L : R) (history : list (call (det_set R) R)) (xs : list R) (n : nat) (x : R),
    0 < L -> instant_attack history ->
    let s := after (dev_peak R_ops) (history ++ [CSet (SetRelease L)]) in
    let e0 := d_last_out (dev_peak R_ops) s in
    nth_error xs n = Some x ->
    (c <= exp (- (INR (n + 1) / L)) * e0 ->
       nth_error (gate R_ops c s (map CProcess xs)) n = Some (x, x))
    /\ (b < c -> Forall (fun x => Rabs x <= b) xs -> exp (- (INR (n + 1) / L)) * (e0 - b) < c - b ->
       nth_error (gate R_ops c s (map CProcess xs)) n = Some (x, 0)).
Proof.
  intros c b L history xs n x HL Ha s e0 Hn.
  destruct (some_bound (history ++ map CProcess xs) b) as [M [M1 [M2 M3]]]. apply Forall_app in M3. destruct M3 as [M3 M4].
  destruct (set_release_R history L M M2 HL Ha M3) as [Rs Er]. fold s in Rs, Er. split.
  - intros Hd. apply (hold_gen M c xs s Rs); [|exact Hn|rewrite Er, exp_pow_n by exact HL; exact Hd].
    clear - M4. induction xs as [|y xs IH]; constructor; [exact (Forall_inv M4)|apply IH; exact (Forall_inv_tail M4)].
  - intros Hb Hx Hd. apply (close_gen M c b xs Hb s Rs M1 Hx n x Hn). rewrite Er, exp_pow_n by exact HL. exact Hd.
Qed.
(*@PROP
(* a burst of 4 and a release of one sample: under a threshold of 1 the first sample after it is still passed, and from
   the third on a background of 1/2 is muted *)
Example C130_hold_time_hyps :
  let s := after (dev_peak R_ops) ([CProcess 4] ++ [CSet (SetRelease 1)]) in
  let e0 := d_last_out (dev_peak R_ops) s in
  1 <= exp (- (INR (0 + 1) / 1)) * e0 /\ exp (- (INR (2 + 1) / 1)) * (e0 - / 2) < 1 - / 2.
Proof. exact gate_case. Qed.
@*)
Lemma gate_case :
  let s := after (dev_peak R_ops) ([CProcess 4] ++ [CSet (SetRelease 1)]) in
  let e0 := d_last_out (dev_peak R_ops) s in
  1 <= exp (- (INR (0 + 1) / 1)) * e0 /\ exp (- (INR (2 + 1) / 1)) * (e0 - / 2) < 1 - / 2.
Proof.
  intros s e0. assert (E : e0 = 4).
  { unfold e0, s. rewrite after_snoc. cbn [d_step dev_peak d_set fst]. unfold peak_set_release.
    destruct (_ && _); cbn [d_last_out peak_last_out pk_envelope]; unfold peak_last_out; cbn [pk_envelope];
    unfold after; cbn; unfold Rltb; destruct Rlt_dec; rewrite ?Rabs_pos_eq by lra; ring. }
  rewrite E. replace (- (INR (2 + 1) / 1)) with (- (1 + 1 + 1)) by (cbn; lra). replace (- (INR (0 + 1) / 1)) with (- (1)) by (cbn; lra).
  rewrite !exp_Ropp, !exp_plus.
  assert (H := exp_ineq1 1 ltac:(lra)). assert (H3 := exp_le_3). set (t := exp 1) in *. clearbody t. split.
  - assert (/ 3 <= / t) by (apply Rinv_le_contravar; lra). lra.
  - assert (J : / (t * t * t) < / 8). { apply Rinv_lt_contravar; [|]; assert (4 < t * t) by nra; nra. }
    lra.
Qed.

(** ** Shutting in floating point *)
Section Ideal.
  Context {T : Type} (V : float_view T) (M L : R) (HM : 0 <= M).
  Definition finq (s : follower) : Prop := 0 <= f_attack s < 1 /\ 0 <= f_release s < 1 /\ 0 <= TrackSpec.f_env s <= M.

  Lemma follow_inv cs : detector_calls V M L cs -> forall s, finq s -> finq (fold_left (follow V Rabs) cs s).
  Proof using HM.
    intros H. induction H as [|k cs Hk _ IH]; intros s Hs; [exact Hs|]. cbn [fold_left]. apply IH. clear IH.
    destruct Hs as [A [B C]]. destruct k as [x| |[l|l]|]; cbn [follow].
    - destruct Hk as [_ Hk]. assert (P := Rabs_pos (val V x)). split; [exact A|]. split; [exact B|]. cbn [TrackSpec.f_env].
      destruct Rlt_dec as [H|H].
      + assert (f_attack s * (TrackSpec.f_env s - Rabs (val V x)) <= 0) by (assert (0 <= f_attack s * (Rabs (val V x) - TrackSpec.f_env s)) by (apply Rmult_le_pos; lra); lra).
        assert (f_attack s * (Rabs (val V x) - TrackSpec.f_env s) <= 1 * (Rabs (val V x) - TrackSpec.f_env s)) by (apply Rmult_le_compat_r; lra). lra.
      + assert (0 <= f_release s * (TrackSpec.f_env s - Rabs (val V x))) by (apply Rmult_le_pos; lra).
        assert (f_release s * (TrackSpec.f_env s - Rabs (val V x)) <= 1 * (TrackSpec.f_env s - Rabs (val V x))) by (apply Rmult_le_compat_r; lra). lra.
    - split; [exact A|]. split; [exact B|]. cbn [TrackSpec.f_env]. lra.
    - split; [|split; [exact B|exact C]]. apply exp_neg_inv. lra.
    - split; [exact A|]. split; [|exact C]. apply exp_neg_inv. lra.
    - repeat split; apply A || apply B || apply C.
  Qed.

  Lemma follow_quiet b xs : b <= M -> Forall (fun x => Rabs (val V x) <= b) xs -> forall s k, finq s -> 0 <= k ->
    TrackSpec.f_env s - b <= k * (M - b) ->
    TrackSpec.f_env (fold_left (follow V Rabs) (map CProcess xs) s) - b <= f_release s ^ length xs * k * (M - b).
  Proof using HM.
    intros Hb H. induction H as [|x xs Hx _ IH]; intros s k Hs Hk He.
    - cbn [map fold_left length pow]. lra.
    - cbn [map fold_left length pow]. destruct Hs as [A [B C]]. assert (P := Rabs_pos (val V x)).
      assert (Q : finq (follow V Rabs s (CProcess x)) /\ TrackSpec.f_env (follow V Rabs s (CProcess x)) - b <= (f_release s * k) * (M - b)).
      { assert (K : 0 <= f_release s * k * (M - b)) by (repeat apply Rmult_le_pos; lra).
        cbn [follow]. unfold finq. cbn [f_attack f_release TrackSpec.f_env]. destruct Rlt_dec as [H|H].
        + assert (0 <= f_attack s * (Rabs (val V x) - TrackSpec.f_env s)) by (apply Rmult_le_pos; lra).
          assert (f_attack s * (Rabs (val V x) - TrackSpec.f_env s) <= 1 * (Rabs (val V x) - TrackSpec.f_env s)) by (apply Rmult_le_compat_r; lra).
          lra.
        + assert (0 <= f_release s * (TrackSpec.f_env s - Rabs (val V x))) by (apply Rmult_le_pos; lra).
          assert (f_release s * (TrackSpec.f_env s - Rabs (val V x)) <= 1 * (TrackSpec.f_env s - Rabs (val V x))) by (apply Rmult_le_compat_r; lra).
          assert (f_release s * (TrackSpec.f_env s - b) <= f_release s * (k * (M - b))) by (apply Rmult_le_compat_l; lra).
          assert (0 <= (1 - f_release s) * (b - Rabs (val V x))) by (apply Rmult_le_pos; lra).
          lra. }
      destruct Q as [Q1 Q2]. specialize (IH _ (f_release s * k) Q1 ltac:(apply Rmult_le_pos; lra) Q2).
      assert (E : f_release (follow V Rabs s (CProcess x)) = f_release s) by reflexivity. rewrite E in IH.
      replace (f_release s * f_release s ^ length xs * k * (M - b)) with (f_release s ^ length xs * (f_release s * k) * (M - b)) by ring.
      exact IH.
  Qed.
End Ideal.

(** C130: in [f32] and [f64] too a quiet passage is muted once the exact bound for the envelope plus the rounding bound of
    C90 is below the threshold: the samples so far are within [M], the lengths from 1 to [L], the quiet ones within [b]. *)
Lemma C130_float_shuts_thm :
  forall (T : Type) (O : num_ops T) (V : float_view T), ieee O V -> exp_rounded O V ->
  forall (c len : T) (M L b : R) (history : list (call (det_set T) T)) (xs : list T) (x : T),
    fin V c = true -> 0 <= M <= fmax V -> 1 <= L <= bpow radix2 (fprec V - 2) -> b <= M ->
    detector_calls V M L (history ++ [CSet (SetRelease len)]) ->
    Forall (fun x => fin V x = true /\ Rabs (val V x) <= b) (xs ++ [x]) ->
    b + exp (- (INR (length xs + 1) / val V len)) * (M - b) + 8 * (L + 1) * (half_ulp V * M + half_tiny V) < val V c ->
    gate O c (after (dev_peak O) (history ++ [CSet (SetRelease len)] ++ map CProcess xs)) [CProcess x] = [(x, n_zero O)].
Proof.
  intros T O V HO He c len M L b history xs x Fc HM HL Hb Hd Hx Hc.
  assert (HC : detector_calls V M L ((history ++ [CSet (SetRelease len)]) ++ map CProcess (xs ++ [x]))).
  { apply Forall_app. split; [exact Hd|]. clear - Hx Hb. induction Hx as [|y ys [F H] _ IH]; constructor; [split; [exact F|lra]|exact IH]. }
  destruct (C90_peak_tracks_thm T O V HO He M L _ HM HL HC) as [Fy Hy].
  assert (Hlen : fin V len = true /\ 1 <= val V len <= L) by (apply Forall_app in Hd; destruct Hd as [_ Hd]; exact (Forall_inv Hd)).
  set (s1 := fold_left (follow V Rabs) (history ++ [CSet (SetRelease len)]) (Follower 0 0 0)).
  assert (Q1 : finq M s1) by (apply (follow_inv V M L (proj1 HM) _ Hd); repeat split; cbn; lra).
  assert (Er : f_release s1 = exp (- 1 / val V len)) by (unfold s1; rewrite fold_left_app; reflexivity).
  assert (I : ideal_envelope V Rabs ((history ++ [CSet (SetRelease len)]) ++ map CProcess (xs ++ [x]))
              <= b + exp (- (INR (length xs + 1) / val V len)) * (M - b)).
  { unfold ideal_envelope. rewrite fold_left_app. fold s1.
    assert (G := follow_quiet V M (proj1 HM) b (xs ++ [x]) Hb (Forall_impl _ (fun _ H => proj2 H) Hx) s1 1 Q1 ltac:(lra)
      ltac:(destruct Q1 as [_ [_ Q1]]; lra)).
    rewrite app_length in G. cbn [length] in G. rewrite Er, exp_pow_n, Rmult_1_r in G by lra. lra. }
  rewrite map_app, !app_assoc, <- app_assoc in *. cbn [map] in *. rewrite app_assoc in Fy, Hy, I. rewrite <- !app_assoc in *. cbn [app] in *.
  assert (E : history ++ CSet (SetRelease len) :: map CProcess xs ++ [CProcess x] = (history ++ CSet (SetRelease len) :: map CProcess xs) ++ [CProcess x])
    by (rewrite <- app_assoc; reflexivity).
  rewrite E in *. rewrite after_snoc in Fy, Hy. set (s := after (dev_peak O) (history ++ CSet (SetRelease len) :: map CProcess xs)) in *.
  cbn [gate d_step dev_peak d_process] in *. unfold peak_process in *. cbn [fst] in *. unfold peak_last_out in *. cbn [pk_envelope] in *.
  set (e := n_add O _ _) in *. clearbody e.
  assert (Lt : val V e < val V c).
  { set (i := ideal_envelope _ _ _) in *. clearbody i. assert (J := Rabs_def2). destruct (Rabs_le_inv _ _ Hy). lra. }
  f_equal. f_equal. unfold mute. assert (B : n_lt O e c = true); [|rewrite B; reflexivity].
  destruct HO; cbn [n_lt f32_ops f64_ops ieee_ops val fin ieee_view] in *; rewrite Bltb_correct by assumption; apply Rlt_bool_true; exact Lt.
Qed.
(*@PROP
(* a threshold of 1/2, a burst of 1, a release of one sample, and the second sample of a background of 1/4 *)
Example C130_float_shuts_hyps :
  ieee O90 V90 /\ exp_rounded O90 V90 /\ fin V90 (fl32 1 (-1)) = true /\ 0 <= 1 <= fmax V90 /\ 1 <= 1 <= bpow radix2 (fprec V90 - 2)
  /\ / 4 <= 1 /\ detector_calls V90 1 1 ([CProcess (fl32 1 0)] ++ [CSet (SetRelease (fl32 1 0))])
  /\ Forall (fun x => fin V90 x = true /\ Rabs (val V90 x) <= / 4) ([fl32 1 (-2)] ++ [fl32 (-1) (-2)])
  /\ / 4 + exp (- (INR (length [fl32 1 (-2)] + 1) / val V90 (fl32 1 0))) * (1 - / 4)
     + 8 * (1 + 1) * (half_ulp V90 * 1 + half_tiny V90) < val V90 (fl32 1 (-1)).
Proof. exact float_gate_case. Qed.
@*)
Lemma float_gate_case :
  ieee O90 V90 /\ exp_rounded O90 V90 /\ fin V90 (fl32 1 (-1)) = true /\ 0 <= 1 <= fmax V90 /\ 1 <= 1 <= bpow radix2 (fprec V90 - 2)
  /\ / 4 <= 1 /\ detector_calls V90 1 1 ([CProcess (fl32 1 0)] ++ [CSet (SetRelease (fl32 1 0))])
  /\ Forall (fun x => fin V90 x = true /\ Rabs (val V90 x) <= / 4) ([fl32 1 (-2)] ++ [fl32 (-1) (-2)])
  /\ / 4 + exp (- (INR (length [fl32 1 (-2)] + 1) / val V90 (fl32 1 0))) * (1 - / 4)
     + 8 * (1 + 1) * (half_ulp V90 * 1 + half_tiny V90) < val V90 (fl32 1 (-1)).
Proof.
  destruct track_met as [A [B [C _]]].
  assert (E1 : val V90 (fl32 1 0) = 1) by (cbn; unfold F2R; cbn; lra).
  assert (E2 : val V90 (fl32 1 (-2)) = / 4) by (cbn; unfold F2R; cbn; lra).
  assert (E3 : val V90 (fl32 (-1) (-2)) = - / 4) by (cbn; unfold F2R; cbn; lra).
  assert (E4 : val V90 (fl32 1 (-1)) = / 2) by (cbn; unfold F2R; cbn; lra).
  split; [exact A|]. split; [exact B|]. split; [reflexivity|]. split; [exact C|].
  split; [split; [lra|]; change (bpow radix2 0 <= bpow radix2 22); apply bpow_le; lia|].
  split; [lra|]. split; [|split].
  - repeat (apply Forall_cons || apply Forall_nil); rewrite ?E1; (split; [reflexivity|]); try lra. rewrite Rabs_R1. lra.
  - repeat (apply Forall_cons || apply Forall_nil); rewrite ?E2, ?E3; (split; [reflexivity|]); try (rewrite Rabs_Ropp); rewrite Rabs_pos_eq; lra.
  - rewrite E1, E4. cbn [length Nat.add INR]. replace (- ((1 + 1) / 1)) with (- (1 + 1)) by lra. rewrite exp_Ropp, exp_plus.
    assert (H := exp_ineq1 1 ltac:(lra)). set (t := exp 1) in *. clearbody t.
    assert (J : / (t * t) <= / 4) by (apply Rinv_le_contravar; [lra|]; nra).
    assert (U : half_ulp V90 <= / 1024) by (change (/ 1024) with (bpow radix2 (-10)); apply bpow_le; cbn; lia).
    assert (W : half_tiny V90 <= / 1024 * 1).
    { unfold half_tiny. apply Rmult_le_compat; [apply bpow_ge_0|apply bpow_ge_0|exact U|]. change 1 with (bpow radix2 0). apply bpow_le. cbn. lia. }
    lra.
Qed.

(** ** Hum just below the threshold *)
Lemma exp_20 : round radix2 (SpecFloat.fexp 24 128) (round_mode mode_NE) (exp (- bpow radix2 (-20))) = 1 - bpow radix2 (-20).
Proof.
  set (h := bpow radix2 (-20)). assert (Hh : h = / 1048576) by reflexivity.
  assert (V24 : Valid_exp (SpecFloat.fexp 24 128)) by (apply fexp_correct; reflexivity).
  assert (Lo := exp_ineq1_le (- h)).
  assert (Hi : exp (- h) <= 1 - h + h * h).
  { assert (G := exp_ineq1_le h). rewrite exp_Ropp.
    assert (I : / exp h <= / (1 + h)) by (apply Rinv_le_contravar; lra).
    eapply Rle_trans; [exact I|]. apply (Rmult_le_reg_r (1 + h)); [lra|]. rewrite Rinv_l by lra. nra. }
  assert (Fd : generic_format radix2 (SpecFloat.fexp 24 128) (1 - h)).
  { replace (1 - h) with (F2R (Float radix2 1048575 (-20))) by (rewrite Hh; unfold F2R; cbn; lra).
    apply generic_format_F2R. intros _. unfold cexp. rewrite (mag_unique _ _ 0).
    - cbn. lia.
    - unfold F2R. cbn. rewrite Rabs_pos_eq by lra. lra. }
  set (r := round _ _ _ _).
  assert (Fr : generic_format radix2 (SpecFloat.fexp 24 128) r) by (apply generic_format_round; typeclasses eauto).
  assert (R1 : 1 - h <= r).
  { unfold r. apply round_ge_generic; [typeclasses eauto|typeclasses eauto|exact Fd|lra]. }
  destruct (Rle_lt_or_eq_dec _ _ R1) as [R2|R2]; [exfalso|symmetry; exact R2].
  assert (S := succ_le_lt radix2 (SpecFloat.fexp 24 128) (1 - h) r Fd Fr R2).
  rewrite succ_eq_pos in S by lra. rewrite ulp_neq_0 in S by lra. unfold cexp in S. rewrite (mag_unique radix2 (1 - h) 0) in S.
  2:{ rewrite Rabs_pos_eq by lra. cbn. lra. }
  change (bpow radix2 (SpecFloat.fexp 24 128 0)) with (/ 16777216) in S.
  assert (N := round_N_pt radix2 (SpecFloat.fexp 24 128) (fun z => negb (Z.even z)) (exp (- h))).
  destruct N as [_ N]. specialize (N (1 - h) Fd). change (round radix2 _ _ (exp (- h))) with r in N.
  rewrite Hh in *. revert N. unfold Rabs. repeat destruct Rcase_abs; lra.
Qed.

(** C130: in exact arithmetic a background below the threshold is always muted in the end (C130_hold_time); in [f32] it need
    not be.  Threshold 17/16, one sample of 17/16, then a hum of 1, with a release of 2^20 samples (24 s at 44.1 kHz): rounding
    holds the envelope at 17/16 and the gate passes the hum for ever. *)
Lemma C130_hum_is_muted_refuted_thm :
  forall (lm : libm f32) (b : bool), let O := f32_ops lm b in exp_rounded O (ieee_view 24 128) ->
  forall n : nat,
    gate O (fl32 17 (-4)) (after (dev_peak O) [CSet (SetRelease (fl32 1 20)); CProcess (fl32 17 (-4))]) (repeat (CProcess (fl32 1 0)) n)
    = repeat (fl32 1 0, fl32 1 0) n.
Proof.
  intros lm b O He n.
  set (g := n_exp O (n_div O (n_neg O (n_one O)) (fl32 1 20))).
  assert (Eg : g = fl32 1048575 (-20)).
  { assert (D : n_div O (n_neg O (n_one O)) (fl32 1 20) = fl32 (-1) (-20)) by (apply B2SF_inj; vm_compute; reflexivity).
    unfold g. rewrite D. assert (Vd : B2R (fl32 (-1) (-20)) = - bpow radix2 (-20)) by (cbn; unfold F2R; cbn; lra).
    destruct (He (fl32 (-1) (-20)) eq_refl) as [H1 H2]; cbn [val rnd ieee_view fmax] in *.
    - rewrite Vd, exp_20. rewrite Rabs_pos_eq by (cbn; lra). apply Rle_trans with (bpow radix2 0); [cbn; lra|].
      apply Rle_trans with (/ 2 * bpow radix2 128).
      + change (/ 2) with (bpow radix2 (-1)). rewrite <- bpow_plus. apply bpow_le. lia.
      + apply Rmult_le_compat_r; [apply bpow_ge_0|]. cbn. lra.
    - apply B2R_inj; [|reflexivity|].
      + cbn [fin ieee_view] in H1. assert (B : 0 < B2R (n_exp O (fl32 (-1) (-20)))) by (rewrite H2, Vd, exp_20; cbn; lra).
        destruct (n_exp O (fl32 (-1) (-20))); try discriminate H1; [cbn in B; lra|reflexivity].
      + rewrite H2, Vd, exp_20. cbn. unfold F2R. cbn. lra. }
  assert (Es : after (dev_peak O) [CSet (SetRelease (fl32 1 20)); CProcess (fl32 17 (-4))]
               = PeakDet (n_zero O) (fl32 1048575 (-20)) (fl32 17 (-4))).
  { change [CSet (SetRelease (fl32 1 20)); CProcess (fl32 17 (-4))] with ([CSet (SetRelease (fl32 1 20))] ++ [CProcess (fl32 17 (-4))]).
    rewrite after_snoc. unfold after. cbn [d_run fst d_step dev_peak d_set d_new]. unfold peak_set_release.
    replace (n_lt O (n_zero O) (fl32 1 20) && n_is_finite O (fl32 1 20)) with true by (vm_compute; reflexivity).
    fold g. rewrite Eg. cbn [fst d_step dev_peak d_process]. unfold peak_process, peak_new. cbn [pk_attack_gain pk_release_gain pk_envelope fst].
    f_equal. }
  rewrite Es. induction n as [|n IH]; [reflexivity|]. cbn [repeat gate]. cbn [dev_peak d_process]. unfold peak_process.
  cbn [pk_attack_gain pk_release_gain pk_envelope].
  set (e := n_add O _ _). assert (Ee : e = fl32 17 (-4)) by (apply B2SF_inj; vm_compute; reflexivity).
  rewrite Ee. rewrite IH. f_equal.
Qed.
(*@PROP
Example C130_hum_is_muted_hyps :
  exp_rounded (f32_ops (cr_libm 24 128) false) (ieee_view 24 128) /\ val (ieee_view 24 128) (fl32 1 0) < val (ieee_view 24 128) (fl32 17 (-4)).
Proof. split; [apply cr_exp|]. cbn. unfold F2R. cbn. lra. Qed.
@*)
Lemma cr_exp : exp_rounded (f32_ops (cr_libm 24 128) false) (ieee_view 24 128).
Proof. exact (proj1 (proj2 track_met)). Qed.
