(** Proofs of C136.  The [@PROP] blocks are copied into [PropComp.v]. *)
(*@PROP
(** Property C136: a compressor built on an envelope detector and the level helpers.

    Vocabulary: [compressor], [gain_curve] ([CompSpec]); [decibels], [amplitude], [log10_close],
    [pow10_close], [unit_off], [tiny_off] ([DbSpec]); [instant_attack] ([LimitSpec]);
    [lib_detector O D]: [D] is a [PeakEnvDetector] or an [RmsEnvDetector]; [calls_ok O V P cs]: the
    samples satisfy [P] and every accepted length gives a gain in [0, 1) ([AnaSpec]). *)
From Coq Require Import ZArith Reals List Bool Lra Lia.
From Flocq Require Import Core.Core IEEE754.BinarySingleNaN.
From Verif Require Import Base Num NumR NumF FloatSpec CrLibm Witness UtilM AnalysisM Device AnaSpec DbSpec DbFacts DbLemmas
  LimitSpec CompSpec CompLemmas.
Import ListNotations.
Open Scope R_scope.
@*)
From Coq Require Import ZArith Reals List Bool Lra Lia.
From Flocq Require Import Core.Core IEEE754.BinarySingleNaN.
From Verif Require Import Base Num NumR NumF FloatSpec FloatFacts SmoothF FltFilterFacts CrLibm Witness UtilM UtilSpec UtilLemmas AnalysisM
  Signal Device AnaSpec AnaFacts AnaLemmas AnaLemmas2 DbSpec DbFacts DbLemmas LimitSpec LimitLemmas CompSpec CompFacts.
Import ListNotations.
Open Scope R_scope.

Lemma decibels_lt x y : 0 < x -> x < y -> decibels x < decibels y.
Proof.
  intros Hx H. unfold decibels. assert (L := ln10_bounds). assert (G := ln_increasing x y Hx H).
  apply Rmult_lt_compat_l; [lra|]. apply Rmult_lt_compat_r; [apply Rinv_0_lt_compat; lra|exact G].
Qed.
Lemma amplitude_0 : amplitude 0 = 1.
Proof. unfold amplitude. replace (0 / 20) with 0 by field. apply Rpower_O. lra. Qed.
Lemma amplitude_120 : amplitude (-120) = 1 / 1000000.
Proof. replace (-120) with (- (20 * INR 6)) by (cbn; lra). rewrite amplitude_neg. cbn. lra. Qed.
Lemma above_amp th e : amplitude th < e <-> 0 < e /\ th < decibels e.
Proof.
  assert (P := amplitude_pos th). split.
  - intros H. split; [lra|]. rewrite <- (decibels_amplitude th). apply decibels_lt; assumption.
  - intros [H1 H2]. destruct (Rlt_dec (amplitude th) e) as [L|L]; [exact L|exfalso].
    assert (G := decibels_le e (amplitude th) H1 ltac:(lra)). rewrite decibels_amplitude in G. lra.
Qed.

(** ** Exact arithmetic *)
Lemma squeeze_R p th sl x e : -120 <= th -> sl <= 0 -> 0 <= e ->
  squeeze R_ops p th sl x e
  = Ok (x * (if Rle_dec e (amplitude th) then 1 else to_sample R_ops (sl * (decibels e - th)))).
Proof.
  intros Ht Hs He. unfold squeeze.
  assert (A := amplitude_le (-120) th Ht). rewrite amplitude_120 in A.
  assert (S : forall g, 0 <= g -> apply_gain R_ops p x g = Ok (x * g)).
  { intros g Hg. unfold apply_gain. cbn [n_is_finite n_is_sign_negative n_mul R_ops]. rewrite Rltb_f by exact Hg. destruct p; reflexivity. }
  destruct (Rle_dec e (amplitude th)) as [H|H].
  - assert (G : exists l, to_db R_ops p e = Ok l /\ l <= th).
    { destruct (Rle_dec e (1 / 1000000)) as [L|L].
      - exists (-120). split; [apply to_db_R_low; lra|exact Ht].
      - exists (decibels e). split; [apply to_db_R; lra|]. rewrite <- (decibels_amplitude th). apply decibels_le; lra. }
    destruct G as [l [G1 G2]]. rewrite G1. cbn [bind n_lt n_sub n_zero n_one n_mul R_ops]. rewrite Rltb_f by lra. apply S. lra.
  - apply Rnot_le_lt in H. rewrite to_db_R by lra. cbn [bind n_lt n_sub n_zero n_one n_mul R_ops].
    change (20 * (ln e / ln 10)) with (decibels e).
    assert (B := proj2 (proj1 (above_amp th e) H)). rewrite Rltb_t by lra. apply S.
    apply (proj1 (proj2 (C66_clamp_thm p 0 (sl * (decibels e - th))))).
Qed.

Lemma sample_R d : d <= 0 -> 0 <= to_sample R_ops d <= 1 /\ (-120 < d -> to_sample R_ops d = amplitude d) /\ (d <= -120 -> to_sample R_ops d = 0).
Proof.
  intros Hd. assert (A : -120 < d -> to_sample R_ops d = amplitude d) by (intros; apply to_sample_R; assumption).
  assert (B : d <= -120 -> to_sample R_ops d = 0) by (apply to_sample_R_low).
  split; [|split; assumption].
  destruct (Rle_dec d (-120)) as [H|H]; [rewrite (B H); lra|]. rewrite A by lra.
  assert (P := amplitude_pos d). assert (G := amplitude_le d 0 Hd). rewrite amplitude_0 in G. lra.
Qed.

(** The detectors never return a negative number. *)
Lemma det_pos {S} (D : detector S R) : lib_detector R_ops D ->
  exists I : S -> Prop, I (d_new (det_dev D))
    /\ (forall s k, I s -> I (fst (d_step (det_dev D) s k)))
    /\ (forall s x, I s -> 0 <= snd (d_process (det_dev D) s x)).
Proof.
  assert (B : forall a v x, 0 <= a <= 1 -> 0 <= v -> 0 <= x -> 0 <= x + a * (v - x)).
  { intros a v x Ha Hv Hx. replace (x + a * (v - x)) with ((1 - a) * x + a * v) by ring.
    assert (0 <= (1 - a) * x) by (apply Rmult_le_pos; lra). assert (0 <= a * v) by (apply Rmult_le_pos; lra). lra. }
  assert (E : forall l, 0 < l -> 0 <= exp (- 1 / l) <= 1).
  { intros l Hl. destruct (exp_neg_inv l Hl). lra. }
  intros HD. destruct HD; cbn [det_dev peak_detector rms_detector].
  - exists (fun s => 0 <= pk_attack_gain s <= 1 /\ 0 <= pk_release_gain s <= 1 /\ 0 <= pk_envelope s).
    assert (P : forall s x, 0 <= pk_attack_gain s <= 1 /\ 0 <= pk_release_gain s <= 1 /\ 0 <= pk_envelope s ->
      0 <= snd (d_process (dev_peak R_ops) s x)).
    { intros s x [H1 [H2 H3]]. cbn. apply B; [destruct Rltb; assumption|exact H3|apply Rabs_pos]. }
    split; [cbn; lra|]. split; [|exact P].
    intros s k Hs. assert (Hs' := Hs). destruct Hs' as [H1 [H2 H3]]. destruct k as [x| |[l|l]|]; cbn [d_step].
    + assert (G := P s x Hs). cbn in *. split; [exact H1|split; [exact H2|exact G]].
    + cbn. split; [exact H1|split; [exact H2|lra]].
    + cbn [fst dev_peak d_set]. unfold peak_set_attack. cbn [n_lt n_is_finite n_exp n_div n_neg n_one n_zero R_ops]. unfold Rltb.
      destruct (Rlt_dec 0 l) as [H|H]; cbn [andb pk_attack_gain pk_release_gain pk_envelope]; [|exact Hs].
      split; [apply E, H|split; assumption].
    + cbn [fst dev_peak d_set]. unfold peak_set_release. cbn [n_lt n_is_finite n_exp n_div n_neg n_one n_zero R_ops]. unfold Rltb.
      destruct (Rlt_dec 0 l) as [H|H]; cbn [andb pk_attack_gain pk_release_gain pk_envelope]; [|exact Hs].
      split; [exact H1|split; [apply E, H|exact H3]].
    + exact Hs.
  - exists (fun s => 0 <= rm_attack_gain s <= 1 /\ 0 <= rm_release_gain s <= 1 /\ 0 <= rm_envelope s).
    split; [cbn; lra|]. split.
    2:{ intros s x _. cbn. apply sqrt_pos. }
    intros s k Hs. assert (Hs' := Hs). destruct Hs' as [H1 [H2 H3]]. destruct k as [x| |[l|l]|]; cbn [d_step].
    + cbn. split; [exact H1|split; [exact H2|]]. apply B; [destruct Rltb; assumption|exact H3|nra].
    + cbn. split; [exact H1|split; [exact H2|lra]].
    + cbn [fst dev_rms d_set]. unfold rms_set_attack. cbn [n_lt n_is_finite n_exp n_div n_neg n_one n_zero R_ops]. unfold Rltb.
      destruct (Rlt_dec 0 l) as [H|H]; cbn [andb rm_attack_gain rm_release_gain rm_envelope]; [|exact Hs].
      split; [apply E, H|split; assumption].
    + cbn [fst dev_rms d_set]. unfold rms_set_release. cbn [n_lt n_is_finite n_exp n_div n_neg n_one n_zero R_ops]. unfold Rltb.
      destruct (Rlt_dec 0 l) as [H|H]; cbn [andb rm_attack_gain rm_release_gain rm_envelope]; [|exact Hs].
      split; [exact H1|split; [apply E, H|exact H3]].
    + exact Hs.
Qed.

(** C136: in exact arithmetic, with either detector, the compressor never panics, never makes
    a sample louder and never changes its sign.  A sample passes unchanged while the envelope is
    at or below the threshold.  Above it the sample is turned down by [slope] dB for every dB of
    the excess (down to silence when that would be 120 dB or more). *)
Lemma C136_exact_curve_thm :
  forall (S : Type) (D : detector S R) (p : profile) (threshold slope : R) (cs : list (call (det_set R) R)),
    lib_detector R_ops D -> -120 <= threshold -> slope <= 0 ->
    exists r, compressor R_ops p (det_dev D) threshold slope (d_new (det_dev D)) cs = Ok r
      /\ Forall (fun xey : R * R * R => let '(x, e, y) := xey in
           0 <= e /\ Rabs y <= Rabs x /\ 0 <= x * y
           /\ (e <= amplitude threshold -> y = x)
           /\ (amplitude threshold < e -> -120 < slope * (decibels e - threshold) ->
                 y = x * gain_curve threshold slope e)
           /\ (amplitude threshold < e -> slope * (decibels e - threshold) <= -120 -> y = 0)) r.
Proof.
  intros S D p th sl cs HD Ht Hs. destruct (det_pos D HD) as [I [I0 [I1 I2]]].
  apply (comp_inv R_ops p (det_dev D) th sl I (fun _ => True)); [| |exact I0|apply Forall_forall; intros; exact Logic.I].
  - intros s k Hk _. apply I1, Hk.
  - intros s x Hk _. assert (He := I2 s x Hk). set (e := snd _) in *. clearbody e.
    rewrite squeeze_R by assumption. eexists. split; [reflexivity|]. cbn beta iota. split; [exact He|].
    assert (G : forall g, 0 <= g <= 1 -> Rabs (x * g) <= Rabs x /\ 0 <= x * (x * g)).
    { intros g Hg. rewrite Rabs_mult, (Rabs_pos_eq g) by lra. assert (P := Rabs_pos x). split.
      - rewrite <- (Rmult_1_r (Rabs x)) at 2. apply Rmult_le_compat_l; lra.
      - rewrite <- Rmult_assoc. apply Rmult_le_pos; [nra|lra]. }
    unfold gain_curve. destruct (Rle_dec e (amplitude th)) as [H|H].
    + destruct (G 1 ltac:(lra)) as [G1 G2]. split; [exact G1|split; [exact G2|]].
      split; [intros _; ring|]. split; intros H'; lra.
    + apply Rnot_le_lt in H. assert (B := proj2 (proj1 (above_amp th e) H)).
      assert (N : sl * (decibels e - th) <= 0).
      { assert (0 <= - sl * (decibels e - th)) by (apply Rmult_le_pos; lra). lra. }
      destruct (sample_R _ N) as [S1 [S2 S3]]. destruct (G _ S1) as [G1 G2]. split; [exact G1|split; [exact G2|]].
      split; [intros; lra|]. split; intros _ H'; [rewrite S2 by exact H'; reflexivity|rewrite S3 by exact H'; ring].
Qed.

(*@PROP
(* threshold -20 dB, ratio 2: an envelope of 1 (0 dB) asks for -10 dB *)
Example C136_exact_curve_hyps :
  lib_detector R_ops (peak_detector R_ops) /\ lib_detector R_ops (rms_detector R_ops)
  /\ -120 <= -20 /\ -1 / 2 <= 0 /\ amplitude (-20) < 1 /\ -120 < -1 / 2 * (decibels 1 - -20)
  /\ gain_curve (-20) (-1 / 2) 1 = amplitude (-10).
Proof.
  split; [constructor|]. split; [constructor|]. split; [lra|]. split; [lra|].
  assert (A : amplitude (-20) < 1).
  { replace (-20) with (- (20 * INR 1)) by (cbn; lra). rewrite amplitude_neg. lra. }
  assert (B : decibels 1 = 0) by (rewrite <- amplitude_0; apply decibels_amplitude).
  split; [exact A|]. rewrite B. split; [lra|]. unfold gain_curve. destruct Rle_dec; [lra|]. f_equal. rewrite B. lra.
Qed.
@*)

(** C136: with a [PeakEnvDetector] whose attack is instantaneous, no sample above the threshold
    comes out above the static curve threshold + (level - threshold) / ratio, and no other
    sample comes out above the threshold.  With ratio infinity (slope -1) nothing ever comes out
    above the threshold. *)
Lemma C136_exact_ratio_thm :
  forall (p : profile) (threshold slope : R) (cs : list (call (det_set R) R)),
    -120 <= threshold -> -1 <= slope <= 0 -> instant_attack cs ->
    exists r, compressor R_ops p (dev_peak R_ops) threshold slope (peak_new R_ops) cs = Ok r
      /\ Forall (fun xey : R * R * R => let '(x, e, y) := xey in
           (Rabs x <= amplitude threshold -> Rabs y <= amplitude threshold)
           /\ (amplitude threshold < Rabs x ->
                 Rabs y <= amplitude (threshold + (1 + slope) * (decibels (Rabs x) - threshold)))
           /\ (slope = -1 -> Rabs y <= amplitude threshold)) r.
Proof.
  intros p th sl cs Ht Hs Ha. destruct (some_bound cs 0) as [m [_ [M0 Mb]]].
  apply (comp_inv R_ops p (dev_peak R_ops) th sl (LimitLemmas.rinv m)
     (fun k => match k with CSet (SetAttack _) => False | _ => True end /\ match k with CProcess x => Rabs x <= m | _ => True end)).
  - intros s k Hk [H1 H2]. apply r_step; [exact Hk|]. destruct k as [x| |[l|l]|]; assumption.
  - intros s x Hk _. destruct (r_above m s x Hk) as [G1 _]. set (e := snd _) in *. clearbody e.
    assert (P := Rabs_pos x). rewrite squeeze_R by lra. eexists. split; [reflexivity|]. cbn beta iota.
    assert (A : forall g, 0 <= g -> Rabs (x * g) = Rabs x * g) by (intros g Hg; rewrite Rabs_mult, (Rabs_pos_eq g) by exact Hg; reflexivity).
    assert (K : (Rabs x <= amplitude th -> Rabs (x * (if Rle_dec e (amplitude th) then 1 else to_sample R_ops (sl * (decibels e - th)))) <= amplitude th)
      /\ (amplitude th < Rabs x -> Rabs (x * (if Rle_dec e (amplitude th) then 1 else to_sample R_ops (sl * (decibels e - th))))
            <= amplitude (th + (1 + sl) * (decibels (Rabs x) - th)))).
    { destruct (Rle_dec e (amplitude th)) as [H|H].
      - rewrite Rmult_1_r. split; intros H'; lra.
      - apply Rnot_le_lt in H. assert (B := proj2 (proj1 (above_amp th e) H)).
        assert (N : sl * (decibels e - th) <= 0).
        { assert (0 <= - sl * (decibels e - th)) by (apply Rmult_le_pos; lra). lra. }
        destruct (sample_R _ N) as [S1 [S2 S3]]. rewrite A by lra. split; intros H'.
        + apply Rle_trans with (2 := H'). rewrite <- (Rmult_1_r (Rabs x)) at 2. apply Rmult_le_compat_l; lra.
        + assert (AP := amplitude_pos th).
          replace (th + (1 + sl) * (decibels (Rabs x) - th)) with (decibels (Rabs x) + sl * (decibels (Rabs x) - th)) by ring.
          rewrite amplitude_plus, amplitude_decibels by lra. apply Rmult_le_compat_l; [exact P|].
          apply Rle_trans with (amplitude (sl * (decibels e - th))).
          * destruct (Rle_dec (sl * (decibels e - th)) (-120)) as [L|L]; [rewrite S3 by exact L; apply Rlt_le, amplitude_pos|].
            rewrite S2 by lra. lra.
          * apply amplitude_le. assert (Q := decibels_le (Rabs x) e ltac:(lra) G1).
            assert (0 <= - sl * (decibels e - decibels (Rabs x))) by (apply Rmult_le_pos; lra). lra. }
    destruct K as [K1 K2]. split; [exact K1|split; [exact K2|]].
    intros E. destruct (Rle_dec (Rabs x) (amplitude th)) as [L|L]; [apply K1, L|]. apply Rnot_le_lt in L.
    apply Rle_trans with (1 := K2 L). rewrite E. apply amplitude_le. lra.
  - apply rinv_new. exact M0.
  - apply both; assumption.
Qed.

(*@PROP
Example C136_exact_ratio_hyps :
  -120 <= -20 /\ -1 <= -3 / 4 <= 0
  /\ instant_attack [CSet (SetRelease 441); CProcess 1; CProcess (-1 / 2); CClear; CProcess 3].
Proof. split; [lra|]. split; [lra|]. repeat constructor. Qed.
@*)

Lemma nat_above r : exists N, r < INR N.
Proof.
  destruct (archimed r) as [A _]. exists (Z.to_nat (up r)). destruct (Z_lt_le_dec (up r) 0) as [H|H].
  - assert (IZR (up r) < 0) by (apply IZR_lt; exact H). assert (P := pos_INR (Z.to_nat (up r))). lra.
  - rewrite INR_IZR_INZ, Z2Nat.id by exact H. lra.
Qed.

Section Steady.
  Context {S : Type} (D : device S (det_set R) R) (p : profile) (th sl c : R).

  Lemma state_const s n : state_at D s (fun _ => c) (Datatypes.S n) = state_at D (fst (d_process D s c)) (fun _ => c) n.
  Proof. induction n as [|n IH]; [reflexivity|]. cbn [state_at] in *. rewrite IH. reflexivity. Qed.

  Lemma comp_const n : forall s, (forall k, exists y, squeeze R_ops p th sl c (out D s (fun _ => c) k) = Ok y) ->
    exists r y, compressor R_ops p D th sl s (repeat (CProcess c) (n + 1)) = Ok (r ++ [(c, out D s (fun _ => c) n, y)])
      /\ squeeze R_ops p th sl c (out D s (fun _ => c) n) = Ok y.
  Proof.
    induction n as [|n IH]; intros s H.
    - destruct (H O) as [y Y]. exists [], y. split; [|exact Y]. unfold out in *. cbn [repeat Nat.add compressor state_at] in *.
      destruct (d_process D s c) as [s1 e]. cbn [snd app] in *. rewrite Y. reflexivity.
    - assert (Sh : forall k, out D s (fun _ => c) (Datatypes.S k) = out D (fst (d_process D s c)) (fun _ => c) k).
      { intros k. unfold out. rewrite state_const. reflexivity. }
      destruct (IH (fst (d_process D s c))) as [r [y [Y1 Y2]]].
      { intros k. rewrite <- Sh. apply H. }
      destruct (H O) as [y0 Y0]. exists ((c, out D s (fun _ => c) O, y0) :: r), y. rewrite Sh. split; [|exact Y2].
      cbn [repeat Nat.add compressor app]. unfold out in Y0. cbn [state_at] in Y0.
      unfold out at 1. cbn [state_at].
      destruct (d_process D s c) as [s1 e]. cbn [fst snd] in *. rewrite Y0. cbn [bind]. rewrite Y1. reflexivity.
  Qed.
End Steady.

(** C136: fed with a constant above the threshold, after any history and [set_attack(L)] or
    [set_release(L)] as the case requires, the compressor settles on the static curve: the level
    of its output approaches threshold + (level - threshold) / ratio. *)
Lemma C136_exact_settles_thm :
  forall (p : profile) (history : list (call (det_set R) R)) (ph : phase) (L c threshold slope eps : R),
    0 < L -> -120 <= threshold -> -1 <= slope <= 0 -> 0 < eps ->
    amplitude threshold < Rabs c -> -120 < slope * (decibels (Rabs c) - threshold) ->
    let s := after (dev_peak R_ops) (history ++ [CSet (set_phase ph L)]) in
    let e0 := d_last_out (dev_peak R_ops) s in
    match ph with Attack => e0 < Rabs c | AnaSpec.Release => Rabs c < e0 end ->
    exists N, forall n, (N <= n)%nat ->
      exists r e y, compressor R_ops p (dev_peak R_ops) threshold slope s (repeat (CProcess c) (n + 1)) = Ok (r ++ [(c, e, y)])
        /\ Rabs (decibels (Rabs y) - (threshold + (1 + slope) * (decibels (Rabs c) - threshold))) < eps.
Proof.
  intros p history ph L c th sl eps HL Ht Hs Heps Hc Hd s e0 Hph.
  assert (AP := amplitude_pos th). assert (B := proj2 (proj1 (above_amp th (Rabs c)) Hc)).
  set (d := Rmin (Rmin (/ 2000) (eps / 10)) (Rmin ((decibels (Rabs c) - th) / 10) ((sl * (decibels (Rabs c) - th) + 120) / 10))).
  assert (D0 : 0 < d /\ d <= / 2000 /\ d <= eps / 10 /\ d <= (decibels (Rabs c) - th) / 10 /\ d <= (sl * (decibels (Rabs c) - th) + 120) / 10).
  { unfold d, Rmin. repeat destruct Rle_dec; repeat split; lra. }
  clearbody d. destruct D0 as [D0 [D1 [D2 [D3 D4]]]].
  set (K := Rabs ((e0 - Rabs c) / Rabs c)). assert (K0 : 0 <= K) by apply Rabs_pos.
  destruct (nat_above (L * K / d)) as [N HN]. exists N. intros n Hn.
  assert (E : forall k, out (dev_peak R_ops) s (fun _ => c) k = Rabs c + exp (- (INR (k + 1) / L)) * (e0 - Rabs c)).
  { intros k. exact (proj1 (C55_peak_time_constant_thm history ph L c k HL Hph)). }
  assert (Pos : forall k, 0 <= out (dev_peak R_ops) s (fun _ => c) k).
  { destruct (det_pos (peak_detector R_ops) (ld_peak R_ops)) as [I [I0 [I1 I2]]]. cbn [det_dev peak_detector] in *.
    intros k. unfold out. apply I2. induction k as [|k IH].
    - unfold s. clear - I0 I1. generalize (history ++ [CSet (set_phase ph L)]). intros cs. unfold after.
      assert (W : forall cs s, I s -> I (fst (d_run (dev_peak R_ops) s cs))).
      { clear cs. induction cs as [|k cs IH]; intros s Hs; [exact Hs|]. cbn [d_run]. specialize (I1 s k Hs).
        destruct (d_step (dev_peak R_ops) s k) as [s1 o]. specialize (IH s1 I1). destruct (d_run (dev_peak R_ops) s1 cs). exact IH. }
      apply W, I0.
    - cbn [state_at]. specialize (I1 _ (CProcess c) IH). cbn [d_step] in I1.
      destruct (d_process (dev_peak R_ops) (state_at (dev_peak R_ops) s (fun _ => c) k) c). exact I1. }
  destruct (comp_const (dev_peak R_ops) p th sl c n s) as [r [y [Y1 Y2]]].
  { intros k. eexists. apply squeeze_R; [exact Ht|lra|apply Pos]. }
  exists r, (out (dev_peak R_ops) s (fun _ => c) n), y. split; [exact Y1|]. clear Y1.
  rewrite squeeze_R in Y2 by (try apply Pos; lra). injection Y2 as <-.
  set (e := out (dev_peak R_ops) s (fun _ => c) n) in *.
  assert (Q : Rabs (e / Rabs c - 1) <= d).
  { unfold e. rewrite E. set (q := exp (- (INR (n + 1) / L))).
    replace ((Rabs c + q * (e0 - Rabs c)) / Rabs c - 1) with (q * ((e0 - Rabs c) / Rabs c)) by (field; lra).
    rewrite Rabs_mult. fold K. assert (Pq : 0 < q) by apply exp_pos. rewrite Rabs_pos_eq by lra.
    assert (M : INR N <= INR (n + 1)) by (apply le_INR; lia).
    assert (Z : 0 < INR (n + 1)) by (apply lt_0_INR; lia).
    assert (Hq : q * (INR (n + 1) / L) <= 1).
    { unfold q. rewrite exp_Ropp. assert (G := exp_lo (INR (n + 1) / L)). assert (P := exp_pos (INR (n + 1) / L)).
      apply Rmult_le_reg_l with (exp (INR (n + 1) / L)); [exact P|]. rewrite <- Rmult_assoc, Rinv_r by lra. lra. }
    assert (Hq2 : q * INR (n + 1) <= L).
    { replace (q * INR (n + 1)) with (q * (INR (n + 1) / L) * L) by (field; lra). rewrite <- (Rmult_1_l L) at 3.
      apply Rmult_le_compat_r; lra. }
    assert (W : L * K <= d * INR (n + 1)).
    { apply Rle_trans with (d * INR N); [|apply Rmult_le_compat_l; lra].
      replace (L * K) with (d * (L * K / d)) by (field; lra). apply Rmult_le_compat_l; lra. }
    apply Rmult_le_reg_r with (INR (n + 1)); [exact Z|].
    apply Rle_trans with (L * K); [|exact W]. replace (q * K * INR (n + 1)) with (q * INR (n + 1) * K) by ring.
    apply Rmult_le_compat_r; lra. }
  assert (Pe : 0 < e).
  { assert (Q' := Rabs_le_inv _ _ Q). assert (0 < e / Rabs c) by lra.
    replace e with (e / Rabs c * Rabs c) by (field; lra). apply Rmult_lt_0_compat; lra. }
  assert (De : Rabs (decibels e - decibels (Rabs c)) <= 9.2 * d).
  { assert (G := decibels_small (e / Rabs c - 1) ltac:(lra)).
    replace (1 + (e / Rabs c - 1)) with (e / Rabs c) in G by ring.
    assert (X : decibels e = decibels (e / Rabs c) + decibels (Rabs c)).
    { rewrite <- decibels_mult; [f_equal; field; lra|apply Rdiv_lt_0_compat; lra|lra]. }
    rewrite X. replace (decibels (e / Rabs c) + decibels (Rabs c) - decibels (Rabs c)) with (decibels (e / Rabs c)) by ring. lra. }
  assert (De' := Rabs_le_inv _ _ De).
  assert (Ab : amplitude th < e) by (apply above_amp; split; [exact Pe|lra]).
  assert (Sl : Rabs (sl * (decibels e - decibels (Rabs c))) <= 9.2 * d).
  { rewrite Rabs_mult. apply Rle_trans with (1 * Rabs (decibels e - decibels (Rabs c))); [|lra].
    apply Rmult_le_compat_r; [apply Rabs_pos|]. apply Rabs_le. lra. }
  assert (Sl' := Rabs_le_inv _ _ Sl).
  assert (Ge : sl * (decibels e - th) = sl * (decibels (Rabs c) - th) + sl * (decibels e - decibels (Rabs c))) by ring.
  destruct (Rle_dec e (amplitude th)) as [H|_]; [lra|].
  rewrite to_sample_R by lra. change (Rpower 10 (sl * (decibels e - th) / 20)) with (amplitude (sl * (decibels e - th))).
  rewrite Rabs_mult, (Rabs_pos_eq (amplitude _)) by (apply Rlt_le, amplitude_pos).
  rewrite decibels_mult, decibels_amplitude by (try apply amplitude_pos; lra).
  apply Rle_lt_trans with (9.2 * d); [|lra]. apply Rabs_le. lra.
Qed.

(*@PROP
(* a new detector, set_attack(100), then ones; threshold -20 dB, ratio 4 *)
Example C136_exact_settles_hyps :
  0 < 100 /\ -120 <= -20 /\ -1 <= -3 / 4 <= 0 /\ amplitude (-20) < Rabs 1 /\ -120 < -3 / 4 * (decibels (Rabs 1) - -20)
  /\ d_last_out (dev_peak R_ops) (after (dev_peak R_ops) ([] ++ [CSet (set_phase Attack 100)])) < Rabs 1.
Proof.
  rewrite Rabs_R1. assert (B : decibels 1 = 0) by (rewrite <- amplitude_0; apply decibels_amplitude).
  split; [lra|]. split; [lra|]. split; [lra|]. split.
  { replace (-20) with (- (20 * INR 1)) by (cbn; lra). rewrite amplitude_neg. lra. }
  split; [rewrite B; lra|]. cbn. unfold peak_set_attack. cbn. destruct (_ && _); cbn; lra.
Qed.
@*)

(** ** Floating point *)
Section Float.
  Context {T : Type} (O : num_ops T) (V : float_view T) (HO : ieee O V).
  Notation u := (unit_off V).
  Notation et := (tiny_off V).

  Lemma sub_near a b : fin V a = true -> fin V b = true -> Rabs (val V a - val V b) <= 10 ^ 20 ->
    fin V (n_sub O a b) = true /\ Rabs (val V (n_sub O a b) - (val V a - val V b)) <= u * Rabs (val V a - val V b) + et.
  Proof.
    intros Fa Fb Hab. assert (M := proj2 (range_ok O V HO (10 ^ 20) ltac:(lra))). destruct HO.
    - destruct (sub_ok 24 128 a b _ Fa Fb (MAX_fmt 24 128 le3_32) (MAX_lt 24 128)) as [A B];
        [apply Rle_trans with (1 := Hab); exact M|].
      split; [exact A|]. cbn [val ieee_view n_sub f32_ops ieee_ops]. rewrite B. exact (RN_err 24 128 _).
    - destruct (sub_ok 53 1024 a b _ Fa Fb (MAX_fmt 53 1024 le3_64) (MAX_lt 53 1024)) as [A B];
        [apply Rle_trans with (1 := Hab); exact M|].
      split; [exact A|]. cbn [val ieee_view n_sub f64_ops ieee_ops]. rewrite B. exact (RN_err 53 1024 _).
  Qed.
  Lemma mul_near a b : fin V a = true -> fin V b = true -> Rabs (val V a * val V b) <= 10 ^ 20 ->
    fin V (n_mul O a b) = true /\ Rabs (val V (n_mul O a b) - val V a * val V b) <= u * Rabs (val V a * val V b) + et
    /\ (val V b = 1 -> val V (n_mul O a b) = val V a) /\ (val V a * val V b <= 0 -> val V (n_mul O a b) <= 0).
  Proof.
    assert (G : forall prec emax (Hp : Prec_gt_0 prec) (Hx : Prec_lt_emax prec emax) (Hm3 : (3 <= emax)%Z) (a b : binary_float prec emax),
      is_finite a = true -> is_finite b = true -> Rabs (B2R a * B2R b) <= (1 - bpow radix2 (- prec)) * bpow radix2 emax ->
      is_finite (f_mul prec emax a b) = true
      /\ Rabs (B2R (f_mul prec emax a b) - B2R a * B2R b) <= unit_off (ieee_view prec emax) * Rabs (B2R a * B2R b) + tiny_off (ieee_view prec emax)
      /\ (B2R b = 1 -> B2R (f_mul prec emax a b) = B2R a) /\ (B2R a * B2R b <= 0 -> B2R (f_mul prec emax a b) <= 0)).
    { clear. intros prec emax Hp Hx Hm3 a b Fa Fb H.
      destruct (mul_ok prec emax a b _ Fa Fb (MAX_fmt prec emax Hm3) (MAX_lt prec emax) H) as [A B].
      split; [exact A|]. rewrite B. split; [exact (RN_err prec emax _)|]. split.
      - intros ->. rewrite Rmult_1_r. apply round_generic; [typeclasses eauto|apply generic_format_B2R].
      - intros N. rewrite <- (RN_0 prec emax) . apply (RN_le prec emax), N. }
    intros Fa Fb Hab. assert (M := proj2 (range_ok O V HO (10 ^ 20) ltac:(lra))). destruct HO.
    - apply (G 24%Z 128%Z _ _ le3_32 a b Fa Fb). apply Rle_trans with (1 := Hab). exact M.
    - apply (G 53%Z 1024%Z _ _ le3_64 a b Fa Fb). apply Rle_trans with (1 := Hab). exact M.
  Qed.
  Lemma lt0 a : fin V a = true -> n_lt O (n_zero O) a = true <-> 0 < val V a.
  Proof.
    assert (G : forall prec emax (a : binary_float prec emax), is_finite a = true -> Bltb (B754_zero false) a = true <-> 0 < B2R a).
    { clear. intros prec emax a Fa. rewrite Bltb_correct by (reflexivity || exact Fa). cbn [B2R].
      destruct (Rlt_bool_spec 0 (B2R a)); split; intros; lra || discriminate || reflexivity. }
    intros Fa. destruct HO; apply G, Fa.
  Qed.
  Lemma one_ok : fin V (n_one O) = true /\ val V (n_one O) = 1.
  Proof.
    destruct HO; (split; [vm_compute; reflexivity|]); cbn [val ieee_view].
    - cbn. unfold F2R; cbn. lra.
    - cbn. unfold F2R; cbn. lra.
  Qed.

  Lemma gain_ok p x g : fin V g = true -> 0 < val V g -> apply_gain O p x g = Ok (n_mul O x g).
  Proof.
    intros Fg Hg. unfold apply_gain. rewrite (fin_eq O V HO), Fg, (sign_pos O V HO g Fg Hg). destruct p; reflexivity.
  Qed.

  Lemma curve_max th sl e : 1 / 1000000 < e -> -120 <= th ->
    gain_curve th sl e = amplitude (sl * Rmax 0 (decibels e - th)).
  Proof.
    intros He Ht. unfold gain_curve. destruct (Rle_dec e (amplitude th)) as [H|H].
    - assert (G := decibels_le e (amplitude th) ltac:(lra) H). rewrite decibels_amplitude in G.
      rewrite Rmax_left by lra. rewrite Rmult_0_r, amplitude_0. reflexivity.
    - apply Rnot_le_lt in H. assert (G := proj2 (proj1 (above_amp th e) H)). rewrite Rmax_right by lra. reflexivity.
  Qed.

  Section Step.
    Context (p : profile) (th sl : T) (m : R) (HL : log10_close O V) (HP : pow10_close O V)
      (Ft : fin V th = true) (Ht : -119 <= val V th <= 120) (Fs : fin V sl = true) (Hs : -1 <= val V sl <= 0)
      (Hm : 1 / 1000 <= m <= 1000000) (Hr : decibels m <= val V th + 100).

    Lemma dec_m : decibels m <= 120.
    Proof.
      apply Rle_trans with (decibels (10 ^ 6)); [apply decibels_le; lra|]. rewrite <- amplitude_nat, decibels_amplitude. cbn. lra.
    Qed.

    (** What the level comes out as. *)
    Lemma level_near e : within V 0 m e -> n_is_sign_negative O e = false ->
      exists over, (let* l := to_db O p e in Ok (n_sub O l th)) = Ok over /\ fin V over = true
        /\ (val V e <= 1 / 1000000 -> val V over < 0)
        /\ (1 / 1000000 < val V e -> Rabs (val V over - (decibels (val V e) - val V th)) <= 725 * u
              /\ -120 <= decibels (val V e) <= val V th + 100).
    Proof.
      intros [Fe He] Se. assert (U := u_ok O V HO). assert (E := et_ok O V HO).
      destruct (Rle_dec (val V e) (1 / 1000000)) as [L|L].
      - rewrite (to_db_cases O V HO p e (or_intror Se)), Fe.
        destruct (n_lt O (n_of_f64 O (F64lit 1 1000000)) e) eqn:Q; [apply (above_both O V HO e Fe) in Q; lra|].
        cbn [andb bind]. destruct (m120 O V HO) as [M1 M2]. eexists. split; [reflexivity|].
        assert (B : Rabs (-120 - val V th) <= 240) by (apply Rabs_le; lra).
        destruct (sub_near (n_of_f64 O (F64lit (-120) 1)) th M1 Ft) as [S1 S2]; [rewrite M2; lra|].
        split; [exact S1|]. split; [intros _|intros; lra]. rewrite M2 in S2. assert (S2' := Rabs_le_inv _ _ S2).
        assert (u * Rabs (-120 - val V th) <= / 16777216 * 240) by (apply Rmult_le_compat; try apply Rabs_pos; lra). lra.
      - apply Rnot_le_lt in L. destruct (db_acc O V HO p e HL Fe L) as [l [L1 [L2 L3]]]. rewrite L1. cbn [bind].
        assert (D1 : -120 <= decibels (val V e)).
        { rewrite <- (decibels_amplitude (-120)), amplitude_120. apply decibels_le; lra. }
        assert (D2 : decibels (val V e) <= decibels m) by (apply decibels_le; lra). assert (D3 := dec_m).
        set (D := decibels (val V e)) in *. clearbody D.
        assert (D4 : Rabs D <= 120) by (apply Rabs_le; lra).
        assert (L4 : Rabs (val V l - D) <= 481 * u).
        { apply Rle_trans with (1 := L3). assert (u * Rabs D <= u * 120) by (apply Rmult_le_compat_l; lra). lra. }
        assert (L4' := Rabs_le_inv _ _ L4).
        assert (B : Rabs (val V l - val V th) <= 241) by (apply Rabs_le; lra).
        destruct (sub_near l th L2 Ft) as [S1 S2]; [lra|].
        eexists. split; [reflexivity|]. split; [exact S1|]. split; [intros; lra|]. intros _. split; [|lra].
        assert (X : u * Rabs (val V l - val V th) <= u * 241) by (apply Rmult_le_compat_l; lra).
        assert (S2' := Rabs_le_inv _ _ S2). apply Rabs_le. lra.
    Qed.

    Lemma squeeze_near x e : within V (- m) m x -> within V 0 m e -> n_is_sign_negative O e = false ->
      exists y, squeeze O p th sl x e = Ok y /\ fin V y = true
        /\ Rabs (val V y - val V x * gain_curve (val V th) (val V sl) (val V e)) <= 128 * u * Rabs (val V x) + et
        /\ (val V e <= amplitude (val V th - 1 / 10000) -> val V y = val V x).
    Proof.
      intros [Fx Hx] He Se. assert (U := u_ok O V HO). assert (E := et_ok O V HO).
      assert (Ax : Rabs (val V x) <= 1000000) by (apply Rabs_le; lra). assert (Px := Rabs_pos (val V x)).
      destruct (level_near e He Se) as [over [O1 [O2 [O3 O4]]]].
      assert (Sq : squeeze O p th sl x e = apply_gain O p x (if n_lt O (n_zero O) over then to_sample O (n_mul O sl over) else n_one O)).
      { unfold squeeze. destruct (to_db O p e) as [l| |]; try discriminate. cbn [bind] in *. injection O1 as <-. reflexivity. }
      rewrite Sq. clear Sq O1. destruct one_ok as [F1 V1].
      assert (Fin : forall g : R, 0 <= g <= 1 -> forall g' : T, fin V g' = true -> 0 < val V g' -> Rabs (val V g' - g) <= 126 * u ->
        exists y, apply_gain O p x g' = Ok y /\ fin V y = true /\ Rabs (val V y - val V x * g) <= 128 * u * Rabs (val V x) + et
          /\ (val V g' = 1 -> val V y = val V x)).
      { intros g Hg g' Fg Pg Ng. rewrite gain_ok by assumption. eexists. split; [reflexivity|].
        assert (Ng' := Rabs_le_inv _ _ Ng).
        assert (B1 : Rabs (val V x * val V g') <= Rabs (val V x) * 1.001).
        { rewrite Rabs_mult, (Rabs_pos_eq (val V g')) by lra. apply Rmult_le_compat_l; lra. }
        destruct (mul_near x g' Fx Fg ltac:(lra)) as [M1 [M2 [M3 _]]].
        split; [exact M1|split; [|exact M3]].
        replace (val V (n_mul O x g') - val V x * g)
          with ((val V (n_mul O x g') - val V x * val V g') + val V x * (val V g' - g)) by ring.
        apply Rle_trans with (1 := Rabs_triang _ _). rewrite (Rabs_mult (val V x)).
        assert (X1 : u * Rabs (val V x * val V g') <= u * (Rabs (val V x) * 1.001)) by (apply Rmult_le_compat_l; lra).
        assert (X2 : Rabs (val V x) * Rabs (val V g' - g) <= Rabs (val V x) * (126 * u)) by (apply Rmult_le_compat_l; lra).
        assert (0 <= u * Rabs (val V x)) by (apply Rmult_le_pos; lra). lra. }
      destruct (Rle_dec (val V e) (1 / 1000000)) as [L|L].
      - (* below everything *)
        specialize (O3 L). destruct (n_lt O (n_zero O) over) eqn:Q; [apply lt0 in Q; [lra|exact O2]|].
        assert (C : gain_curve (val V th) (val V sl) (val V e) = 1).
        { unfold gain_curve. destruct Rle_dec as [H|H]; [reflexivity|]. exfalso. apply H.
          apply Rle_trans with (1 := L). rewrite <- amplitude_120. apply amplitude_le. lra. }
        rewrite C. destruct (Fin 1 ltac:(lra) (n_one O) F1 ltac:(lra)) as [y [Y1 [Y2 [Y3 Y4]]]].
        { rewrite V1, Rminus_diag_eq, Rabs_R0 by reflexivity. lra. }
        exists y. split; [exact Y1|split; [exact Y2|split; [exact Y3|]]]. intros _. apply Y4, V1.
      - apply Rnot_le_lt in L. destruct (O4 L) as [O5 D]. clear O3 O4. assert (O5' := Rabs_le_inv _ _ O5).
        rewrite curve_max by lra. set (d := decibels (val V e) - val V th) in *.
        assert (Dd : val V e <= amplitude (val V th - 1 / 10000) -> d <= - (1 / 10000)).
        { intros H. unfold d. apply decibels_le in H; [|lra]. rewrite decibels_amplitude in H. lra. }
        set (ideal := val V sl * Rmax 0 d).
        assert (Id : -100 <= ideal <= 0).
        { unfold ideal. assert (0 <= Rmax 0 d <= 100) by (unfold Rmax; destruct Rle_dec; unfold d in *; lra).
          assert (0 <= - val V sl * Rmax 0 d) by (apply Rmult_le_pos; lra).
          assert (- val V sl * Rmax 0 d <= 1 * 100) by (apply Rmult_le_compat; lra). lra. }
        assert (Ai : 0 <= amplitude ideal <= 1).
        { assert (P := amplitude_pos ideal). assert (G := amplitude_le ideal 0 ltac:(lra)). rewrite amplitude_0 in G. lra. }
        destruct (n_lt O (n_zero O) over) eqn:Q.
        + apply lt0 in Q; [|exact O2].
          assert (Ov : 0 < val V over <= 101) by (unfold d in *; lra).
          assert (B0 : Rabs (val V sl * val V over) <= 101).
          { rewrite Rabs_mult, (Rabs_pos_eq (val V over)) by lra. rewrite Rabs_left1 by lra.
            apply Rle_trans with (1 * 101); [apply Rmult_le_compat; lra|lra]. }
          assert (N0 : val V sl * val V over <= 0).
          { assert (0 <= - val V sl * val V over) by (apply Rmult_le_pos; lra). lra. }
          destruct (mul_near sl over Fs O2 ltac:(lra)) as [M1 [M2 [_ M4]]]. specialize (M4 N0).
          set (z := n_mul O sl over) in *. clearbody z.
          assert (X1 : u * Rabs (val V sl * val V over) <= u * 101) by (apply Rmult_le_compat_l; lra).
          assert (M2' := Rabs_le_inv _ _ M2). assert (B0' := Rabs_le_inv _ _ B0).
          assert (Zr : -102 <= val V z <= 0) by lra.
          destruct (sample_acc O V HO z HP M1 ltac:(lra)) as [S1 S2].
          assert (Zi : Rabs (val V z - ideal) <= 828 * u).
          { replace (val V z - ideal) with ((val V z - val V sl * val V over) + val V sl * (val V over - Rmax 0 d)) by (unfold ideal; ring).
            apply Rle_trans with (1 := Rabs_triang _ _). rewrite (Rabs_mult (val V sl)).
            assert (W : Rabs (val V over - Rmax 0 d) <= 725 * u).
            { apply Rabs_le. unfold Rmax. destruct Rle_dec; lra. }
            assert (Rabs (val V sl) * Rabs (val V over - Rmax 0 d) <= 1 * (725 * u)).
            { apply Rmult_le_compat; try apply Rabs_pos; [apply Rabs_le; lra|exact W]. }
            lra. }
          assert (Az : Rabs (amplitude (val V z) - amplitude ideal) <= 97 * u).
          { replace (val V z) with (ideal + (val V z - ideal)) by ring. rewrite amplitude_plus.
            replace (amplitude ideal * amplitude (val V z - ideal) - amplitude ideal) with (amplitude ideal * (amplitude (val V z - ideal) - 1)) by ring.
            rewrite Rabs_mult, (Rabs_pos_eq (amplitude ideal)) by lra.
            assert (G := amplitude_small (val V z - ideal) ltac:(lra)).
            apply Rle_trans with (1 * (97 * u)); [|lra]. apply Rmult_le_compat; try apply Rabs_pos; lra. }
          assert (Az1 : 0 < amplitude (val V z) <= 1).
          { split; [apply amplitude_pos|]. rewrite <- amplitude_0. apply amplitude_le. lra. }
          assert (Zb : Rabs (val V z) <= 102) by (apply Rabs_le; lra). assert (Zp := Rabs_pos (val V z)).
          assert (Rel : (2.1 + Rabs (val V z) * 0.118) * u <= 15 * u) by (apply Rmult_le_compat_r; lra).
          assert (S3 : Rabs (val V (to_sample O z) - amplitude (val V z)) <= 15 * u * amplitude (val V z)).
          { apply Rle_trans with (1 := S2). apply Rmult_le_compat_r; lra. }
          assert (U15 : 15 * u * amplitude (val V z) <= 15 * u * 1) by (apply Rmult_le_compat_l; lra).
          assert (U15' : 15 * u * amplitude (val V z) <= 0.001 * amplitude (val V z)) by (apply Rmult_le_compat_r; lra).
          assert (S3' := Rabs_le_inv _ _ S3).
          destruct (Fin (amplitude ideal) Ai (to_sample O z) S1 ltac:(lra)) as [y [Y1 [Y2 [Y3 Y4]]]].
          { replace (val V (to_sample O z) - amplitude ideal)
              with ((val V (to_sample O z) - amplitude (val V z)) + (amplitude (val V z) - amplitude ideal)) by ring.
            apply Rle_trans with (1 := Rabs_triang _ _). lra. }
          exists y. split; [exact Y1|split; [exact Y2|split; [exact Y3|]]].
          intros H. exfalso. specialize (Dd H). lra.
        + assert (Ov : val V over <= 0).
          { destruct (Rle_dec (val V over) 0) as [H|H]; [exact H|]. apply Rnot_le_lt, (lt0 over O2) in H. congruence. }
          assert (Zi : Rabs ideal <= 725 * u).
          { unfold ideal. rewrite Rabs_mult. assert (W : 0 <= Rmax 0 d <= 725 * u) by (unfold Rmax; destruct Rle_dec; lra).
            rewrite (Rabs_pos_eq (Rmax 0 d)) by lra. apply Rle_trans with (1 * (725 * u)); [|lra].
            apply Rmult_le_compat; try lra; [apply Rabs_pos|apply Rabs_le; lra]. }
          assert (G := amplitude_small ideal ltac:(lra)).
          destruct (Fin (amplitude ideal) Ai (n_one O) F1 ltac:(lra)) as [y [Y1 [Y2 [Y3 Y4]]]].
          { rewrite V1, Rabs_minus_sym. lra. }
          exists y. split; [exact Y1|split; [exact Y2|split; [exact Y3|]]]. intros _. apply Y4, V1.
    Qed.
  End Step.
End Float.

(** C136: in [f32] and [f64], with either detector, for samples up to [loudest] (from 0.001 to
    10^6, at most 100 dB above the threshold), a threshold from -119 to 120 dB and a slope from
    -1 to 0, the compressor never panics.  Every output is the sample times the gain of the static
    curve up to 128 * 2^-p of the sample (p is the number of bits of the type).  While the
    envelope is at least 0.0001 dB below the threshold the sample passes unchanged. *)
Lemma C136_float_thm :
  forall (T : Type) (O : num_ops T) (V : float_view T) (S : Type) (D : detector S T) (p : profile)
         (threshold slope loudest : T) (cs : list (call (det_set T) T)),
    ieee O V -> log10_close O V -> pow10_close O V -> lib_detector O D ->
    fin V threshold = true -> -119 <= val V threshold <= 120 ->
    fin V slope = true -> -1 <= val V slope <= 0 ->
    let m := Rabs (val V loudest) in
    1 / 1000 <= m <= 1000000 -> decibels m <= val V threshold + 100 ->
    calls_ok O V (within V (- m) m) cs ->
    exists r, compressor O p (det_dev D) threshold slope (d_new (det_dev D)) cs = Ok r
      /\ Forall (fun xey : T * T * T => let '(x, e, y) := xey in
           within V 0 m e /\ fin V y = true
           /\ Rabs (val V y - val V x * gain_curve (val V threshold) (val V slope) (val V e))
              <= 128 * unit_off V * Rabs (val V x) + tiny_off V
           /\ (val V e <= amplitude (val V threshold - 1 / 10000) -> val V y = val V x)) r.
Proof.
  intros T O V S D p th sl loudest cs HO HL HP HD Ft Ht Fs Hs m Hm Hr Hc.
  destruct (detector_range O V D loudest HO HD Hm) as [I [I0 [I1 I2]]]. fold m in I1, I2.
  apply (comp_inv O p (det_dev D) th sl I
     (fun k => match k with
           | CProcess x => within V (- m) m x
           | CSet k => good_length V (set_length k) -> unit_interval V (gain_of O (set_length k))
           | _ => True end)); [exact I1| |exact I0|exact Hc].
  intros s x Hk Hx. destruct (I2 s x Hk Hx) as [E1 E2]. set (e := snd _) in *. clearbody e.
  destruct (squeeze_near O V HO p th sl m HL HP Ft Ht Fs Hs Hm Hr x e Hx E1 E2) as [y [Y1 [Y2 [Y3 Y4]]]].
  exists y. split; [exact Y1|]. split; [exact E1|split; [exact Y2|split; [exact Y3|exact Y4]]].
Qed.

(*@PROP
(* threshold -20 dB, ratio 2, samples up to 1, the correctly rounded library *)
Example C136_float_hyps :
  let O := f32_ops (cr_libm 24 128) false in
  let V := ieee_view 24 128 in
  log10_close O V /\ pow10_close O V /\ lib_detector O (rms_detector O)
  /\ -119 <= val V (fl32 (-20) 0) <= 120 /\ -1 <= val V (fl32 (-1) (-1)) <= 0
  /\ 1 / 1000 <= Rabs (val V (fl32 1 0)) <= 1000000
  /\ decibels (Rabs (val V (fl32 1 0))) <= val V (fl32 (-20) 0) + 100
  /\ calls_ok O V (within V (-1) 1)
       [CSet (SetRelease B754_nan); CProcess (fl32 (-3) (-2)); CLastOut; CClear; CProcess (fl32 1 0)].
Proof.
  intros O V. assert (E : Rabs (val V (fl32 1 0)) = 1).
  { cbn. unfold F2R; cbn. rewrite Rabs_pos_eq; lra. }
  assert (B : decibels 1 = 0) by (rewrite <- amplitude_0; apply decibels_amplitude).
  split; [apply rounded_close_log; [constructor|apply cr_log10_32]|]. split; [apply cr_pow10_32|]. split; [constructor|].
  rewrite E, B. split; [cbn; unfold F2R; cbn; lra|]. split; [cbn; unfold F2R; cbn; lra|]. split; [lra|].
  split; [cbn; unfold F2R; cbn; lra|].
  repeat (apply Forall_cons || apply Forall_nil); try exact I;
    try (intros [H _]; discriminate); (split; [reflexivity|]); cbn; unfold F2R; cbn; lra.
Qed.
@*)
