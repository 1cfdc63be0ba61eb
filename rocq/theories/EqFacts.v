(** The RBJ filters are the bilinear transforms of the Cookbook's prototypes. *)
From Coq Require Import Reals Lra Lia List Psatz.
From Coquelicot Require Import Coquelicot.
From Verif Require Import Num NumR FilterM RbjM Device Signal SignalFacts CoreLemmas FilterFacts
  FilterLemmas RbjSpec RbjFacts EqSpec.
Import ListNotations.
Open Scope R_scope.

Lemma half_angle w : cos (w / 2) <> 0 ->
  let t := tan (w / 2) in
  cos w = (1 - t * t) / (1 + t * t) /\ sin w = 2 * t / (1 + t * t).
Proof.
  intros Hc t. unfold t, tan.
  assert (E := sin2_cos2 (w / 2)). unfold Rsqr in E.
  assert (C2 : cos w = cos (w / 2) * cos (w / 2) - sin (w / 2) * sin (w / 2)).
  { rewrite <- cos_2a. f_equal. field. }
  assert (S2 : sin w = 2 * sin (w / 2) * cos (w / 2)).
  { rewrite <- sin_2a. f_equal. field. }
  rewrite C2, S2. set (s := sin (w / 2)) in *. set (c := cos (w / 2)) in *.
  assert (H1 : 1 + s / c * (s / c) = 1 / (c * c)).
  { transitivity ((s * s + c * c) / (c * c)); [field; assumption|]. rewrite E. reflexivity. }
  rewrite H1. split.
  - transitivity ((c * c - s * s) / 1); [field|]. field. assumption.
  - field. assumption.
Qed.

Lemma tan_half_pos w : 0 < w < PI -> 0 < tan (w / 2).
Proof. intros H. apply tan_gt_0; lra. Qed.

Lemma tan_half_nneg w : 0 <= w < PI -> 0 <= tan (w / 2).
Proof.
  intros H. destruct (Req_dec w 0) as [->|Hw].
  - replace (0 / 2) with 0 by field. rewrite tan_0. lra.
  - left. apply tan_half_pos. lra.
Qed.

Lemma cos_half_pos w : 0 <= w < PI -> 0 < cos (w / 2).
Proof. intros H. apply cos_gt_0; lra. Qed.

Lemma warped_nneg w0 w : 0 < w0 < PI -> 0 <= w < PI -> 0 <= warped w0 w.
Proof.
  intros H0 H. unfold warped. apply Rmult_le_pos; [apply tan_half_nneg, H|].
  left. apply Rinv_0_lt_compat, tan_half_pos, H0.
Qed.

Lemma warped_pos w0 w : 0 < w0 < PI -> 0 < w < PI -> 0 < warped w0 w.
Proof.
  intros H0 H. unfold warped. apply Rdiv_lt_0_compat; apply tan_half_pos; assumption.
Qed.

Lemma warped_centre w0 : 0 < w0 < PI -> warped w0 w0 = 1.
Proof. intros H. unfold warped. field. assert (Ht := tan_half_pos w0 H). lra. Qed.

Lemma warped_lt w0 w w' : 0 < w0 < PI -> 0 <= w -> w < w' -> w' < PI -> warped w0 w < warped w0 w'.
Proof.
  intros H0 H1 H2 H3. unfold warped. apply Rmult_lt_compat_r.
  - apply Rinv_0_lt_compat, tan_half_pos, H0.
  - apply tan_increasing; lra.
Qed.

(** Response from the real and imaginary parts of numerator and denominator. *)
Definition matches (r : sextuple) (w K : R) (N D : C) : Prop :=
  let '(b0, b1, b2, a0, a1, a2) := r in
  (b0 + b2) * cos w + b1 = K * fst N /\ (b0 - b2) * sin w = K * snd N
  /\ (a0 + a2) * cos w + a1 = K * fst D /\ (a0 - a2) * sin w = K * snd D.

Lemma matches_resp r w K N D g theta : matches r w K N D ->
  N = (RtoC g * cis theta * D)%C -> resp r w g theta.
Proof.
  destruct r as [[[[[b0 b1] b2] a0] a1] a2]. intros [H1 [H2 [H3 H4]]] HN. cbn [resp].
  rewrite H1, H2, H3, H4, HN. unfold cis, RtoC, Cmult; cbn [fst snd]. split; ring.
Qed.

Definition sq_terms (kind : rbj_kind) (q O : R) : C :=
  match kind with
  | LowPass => (1, 0)
  | HighPass => (- (O * O), 0)
  | BandPass1 => (0, O)
  | BandPass2 => (0, O / q)
  | BandStop => (1 - O * O, 0)
  | _ => (1 - O * O, - (O / q))
  end.

Definition nd (kind : rbj_kind) (args : rbj_args R) (O : R) : C * C :=
  match kind, args with
  | Peak, RbjGain _ _ db q =>
      ((1 - O * O, O * amp db / q), (1 - O * O, O / (amp db * q)))
  | LowShelf, RbjGain _ _ db slope =>
      let A := amp db in let k := sqrt A * inverse_q A slope in
      ((A * (A - O * O), A * (k * O)), (1 - A * (O * O), k * O))
  | HighShelf, RbjGain _ _ db slope =>
      let A := amp db in let k := sqrt A * inverse_q A slope in
      ((A * (1 - A * (O * O)), A * (k * O)), (A - O * O, k * O))
  | _, RbjQ _ _ q => (sq_terms kind q O, (1 - O * O, O / q))
  | _, _ => (RtoC 0, RtoC 0)
  end.

Lemma pair_neq0 a b : a <> 0 \/ b <> 0 -> ((a, b) : C) <> RtoC 0.
Proof. intros H E. injection E as E1 E2. destruct H; contradiction. Qed.

Lemma inverse_q_pos A slope : 0 < (A + 1 / A) * (1 / slope - 1) + 2 -> 0 < inverse_q A slope.
Proof. intros H. apply sqrt_lt_R0, H. Qed.

Lemma nd_den kind args O : valid kind args -> snd (nd kind args O) <> RtoC 0.
Proof.
  intros H. destruct (Req_dec O 0) as [HO|HO].
  { destruct kind, args; cbn in H; try contradiction; cbn [nd snd]; apply pair_neq0; left;
      rewrite HO; try lra. assert (Ha := amp_pos db_gain). lra. }
  assert (Q : forall q, 0 < q -> O / q <> 0).
  { intros q Hq E. apply HO. apply Rmult_eq_reg_r with (/ q); [|apply Rinv_neq_0_compat; lra].
    unfold Rdiv in E. lra. }
  destruct kind, args; cbn in H; try contradiction; cbn [nd snd]; apply pair_neq0; right;
    try (apply Q; lra).
  - apply Q. apply Rmult_lt_0_compat; [apply amp_pos|lra].
  - destruct H as [Hb [Hs1 Hs2]]. assert (Ha := amp_pos db_gain).
    assert (0 < sqrt (amp db_gain)) by (apply sqrt_lt_R0; exact Ha).
    assert (0 < inverse_q (amp db_gain) x) by (apply inverse_q_pos; exact Hs2).
    apply Rmult_integral_contrapositive_currified; [|exact HO].
    assert (0 < sqrt (amp db_gain) * inverse_q (amp db_gain) x) by (apply Rmult_lt_0_compat; lra). lra.
  - destruct H as [Hb [Hs1 Hs2]]. assert (Ha := amp_pos db_gain).
    assert (0 < sqrt (amp db_gain)) by (apply sqrt_lt_R0; exact Ha).
    assert (0 < inverse_q (amp db_gain) x) by (apply inverse_q_pos; exact Hs2).
    apply Rmult_integral_contrapositive_currified; [|exact HO].
    assert (0 < sqrt (amp db_gain) * inverse_q (amp db_gain) x) by (apply Rmult_lt_0_compat; lra). lra.
Qed.

Lemma C_div_R (a b q : R) : q <> 0 -> (((a, b) : C) / RtoC q)%C = (a / q, b / q).
Proof.
  intros Hq. unfold Cdiv, Cinv, Cmult, RtoC; cbn [fst snd].
  apply injective_projections; cbn [fst snd]; field; assumption.
Qed.

Lemma Cdiv_eq (a b c d : C) : a = c -> b = d -> (a / b = c / d)%C.
Proof. now intros -> ->. Qed.

Lemma prototype_nd kind args O : valid kind args ->
  prototype kind args (0, O) = (fst (nd kind args O) / snd (nd kind args O))%C.
Proof.
  intros H.
  destruct kind, args; cbn in H; try contradiction; cbn [prototype nd fst snd sq_terms]; cbv zeta;
    try fold (amp db_gain).
  all: try (destruct H as [_ Hq]; rewrite !(C_div_R _ _ q) by lra).
  1-6: apply Cdiv_eq; unfold Cminus, Cmult, Cplus, Copp, RtoC; cbn [fst snd];
       apply injective_projections; cbn [fst snd]; field; lra.
  - assert (Ha := amp_pos db_gain). destruct H as [_ Hq]. rename x into q.
    replace (RtoC (amp db_gain) / RtoC q)%C with (RtoC (amp db_gain / q)).
    2: { unfold RtoC at 2. rewrite C_div_R by lra. unfold RtoC. f_equal. field. lra. }
    replace (RtoC (amp db_gain) * RtoC q)%C with (RtoC (amp db_gain * q)).
    2: { unfold Cmult, RtoC; cbn. apply injective_projections; cbn; ring. }
    assert (0 < amp db_gain * q) by (apply Rmult_lt_0_compat; lra).
    rewrite C_div_R by lra.
    apply Cdiv_eq; unfold Cmult, Cplus, RtoC; cbn [fst snd];
      apply injective_projections; cbn [fst snd]; field; lra.
  - set (A := amp db_gain). set (k := sqrt A * inverse_q A x).
    replace (A * (A - O * O), A * (k * O)) with (Cmult (RtoC A) (A - O * O, k * O)).
    2: { unfold Cmult, RtoC; cbn. apply injective_projections; cbn; ring. }
    unfold Cdiv. rewrite <- Cmult_assoc. f_equal. apply Cdiv_eq;
      unfold Cmult, Cplus, RtoC; cbn [fst snd]; apply injective_projections; cbn [fst snd]; ring.
  - set (A := amp db_gain). set (k := sqrt A * inverse_q A x).
    replace (A * (1 - A * (O * O)), A * (k * O)) with (Cmult (RtoC A) (1 - A * (O * O), k * O)).
    2: { unfold Cmult, RtoC; cbn. apply injective_projections; cbn; ring. }
    unfold Cdiv. rewrite <- Cmult_assoc. f_equal. apply Cdiv_eq;
      unfold Cmult, Cplus, RtoC; cbn [fst snd]; apply injective_projections; cbn [fst snd]; ring.
Qed.

Lemma valid_centre kind args : valid kind args -> 0 < centre args < PI.
Proof.
  intros H. destruct kind, args; cbn in H; try contradiction; destruct H as [Hb _];
    apply omega_range; exact Hb.
Qed.

Lemma nd_matches kind args w : valid kind args -> 0 <= w < PI ->
  exists K, K <> 0 /\
  matches (raw kind args) w K (fst (nd kind args (warped (centre args) w)))
                              (snd (nd kind args (warped (centre args) w))).
Proof.
  intros H Hw. assert (Hc := valid_centre kind args H).
  assert (Ht0 := tan_half_pos _ Hc).
  assert (Hcw := cos_half_pos _ Hw). assert (Hc0 := cos_half_pos (centre args) ltac:(lra)).
  destruct (half_angle w ltac:(lra)) as [Ew1 Ew2].
  destruct (half_angle (centre args) ltac:(lra)) as [Ec1 Ec2].
  set (t := tan (w / 2)) in *. set (t0 := tan (centre args / 2)) in *.
  assert (Hm : 0 < (1 + t0 * t0) * (1 + t * t)) by (apply Rmult_lt_0_compat; nra).
  assert (Hm1 : 1 + t * t <> 0) by nra. assert (Hm0 : 1 + t0 * t0 <> 0) by nra.
  assert (K1 : 4 * t0 * t0 / ((1 + t0 * t0) * (1 + t * t)) <> 0).
  { apply Rgt_not_eq. apply Rdiv_lt_0_compat; [nra|exact Hm]. }
  assert (K2 : 8 * t0 * t0 / ((1 + t0 * t0) * (1 + t * t)) <> 0).
  { apply Rgt_not_eq. apply Rdiv_lt_0_compat; [nra|exact Hm]. }
  unfold warped. fold t t0. clearbody t t0.
  destruct kind, args; cbn in H; try contradiction;
    cbn [raw raw_q nd fst snd sq_terms centre] in *; unfold alpha_q, raw_peak, raw_lowshelf, raw_highshelf, matches.
  1-6: exists (4 * t0 * t0 / ((1 + t0 * t0) * (1 + t * t))); split; [exact K1|];
       rewrite Ew1, Ew2, Ec1, Ec2; cbn [fst snd]; repeat split; field; repeat split; lra.
  - assert (Ha := amp_pos db_gain).
    exists (4 * t0 * t0 / ((1 + t0 * t0) * (1 + t * t))); split; [exact K1|];
       rewrite Ew1, Ew2, Ec1, Ec2; cbn [fst snd]; repeat split; field; repeat split; lra.
  - exists (8 * t0 * t0 / ((1 + t0 * t0) * (1 + t * t))); split; [exact K2|].
    unfold shelf_sp, inverse_q. set (A := amp db_gain). set (v := sqrt (_ + 2)). 
    rewrite Ew1, Ew2, Ec1, Ec2; cbn [fst snd]; repeat split; field; repeat split; lra.
  - exists (8 * t0 * t0 / ((1 + t0 * t0) * (1 + t * t))); split; [exact K2|].
    unfold shelf_sp, inverse_q. set (A := amp db_gain). set (v := sqrt (_ + 2)). 
    rewrite Ew1, Ew2, Ec1, Ec2; cbn [fst snd]; repeat split; field; repeat split; lra.
Qed.

Lemma analog_passes kind args w g theta : valid kind args -> 0 <= w < PI ->
  analog_response kind args w = (RtoC g * cis theta)%C -> rbj_passes kind args w g theta.
Proof.
  intros H Hw E. destruct (nd_matches kind args w H Hw) as [K [HK HM]].
  apply raw_passes; [exact H|]. eapply matches_resp; [exact HM|].
  rewrite <- E. unfold analog_response. rewrite prototype_nd by exact H.
  field. apply nd_den, H.
Qed.

(** ** Gains are unique *)
Lemma sinus_unique w (a b : R) : 0 < w < PI ->
  is_lim_seq (fun n => a * cos (INR n * w) - b * sin (INR n * w)) 0 -> a = 0 /\ b = 0.
Proof.
  intros Hw H. assert (Hs := sin_pos w Hw).
  set (d := fun n => a * cos (INR n * w) - b * sin (INR n * w)) in *.
  assert (H1 : is_lim_seq (fun n => d (S n)) 0) by (apply is_lim_seq_incr_1 in H; exact H).
  assert (H2 : is_lim_seq (fun n => d n * d n + ((d n * cos w - d (S n)) / sin w) * ((d n * cos w - d (S n)) / sin w)) 0).
  { replace (Finite 0) with (Finite (0 * 0 + ((0 * cos w - 0) / sin w) * ((0 * cos w - 0) / sin w))).
    2: { f_equal. field. lra. }
    assert (Hq : is_lim_seq (fun n => (d n * cos w - d (S n)) / sin w) ((0 * cos w - 0) / sin w)).
    { unfold Rdiv. apply (is_lim_seq_scal_r _ (/ sin w) (0 * cos w - 0)). apply is_lim_seq_minus'; [|exact H1].
      apply (is_lim_seq_scal_r _ (cos w) 0). exact H. }
    apply is_lim_seq_plus'; apply is_lim_seq_mult'; assumption. }
  assert (E : forall n, d n * d n + ((d n * cos w - d (S n)) / sin w) * ((d n * cos w - d (S n)) / sin w)
                        = a * a + b * b).
  { intros n. unfold d. rewrite S_INR. replace ((INR n + 1) * w) with (INR n * w + w) by ring.
    rewrite cos_plus, sin_plus. assert (E := sin2_cos2 (INR n * w)). unfold Rsqr in E.
    set (S := sin (INR n * w)) in *. set (C := cos (INR n * w)) in *.
    replace ((a * C - b * S) * cos w - (a * (C * cos w - S * sin w) - b * (S * cos w + C * sin w)))
      with ((a * S + b * C) * sin w) by ring.
    replace ((a * S + b * C) * sin w / sin w) with (a * S + b * C) by (field; lra).
    transitivity ((a * a + b * b) * (S * S + C * C)); [ring|]. rewrite E. ring. }
  assert (H3 := is_lim_seq_ext _ _ _ E H2).
  assert (H4 : a * a + b * b = 0).
  { assert (U := is_lim_seq_unique _ _ H3). rewrite Lim_seq_const in U. now injection U. }
  split; nra.
Qed.

Lemma gain_unique kind args w g g' : 0 < w < PI ->
  gain kind args w g -> gain kind args w g' -> g = g'.
Proof.
  intros Hw [Hg [th Hp]] [Hg' [th' Hp']].
  specialize (Hp 1 0). specialize (Hp' 1 0). unfold approaches in *.
  assert (H := is_lim_seq_minus' _ _ _ _ Hp' Hp).
  assert (H2 : is_lim_seq (fun n => (g * cos th - g' * cos th') * cos (INR n * w)
                                   - (g * sin th - g' * sin th') * sin (INR n * w)) 0).
  { replace (Finite 0) with (Finite (0 - 0)) by (f_equal; ring).
    eapply is_lim_seq_ext; [|exact H]. intros n. cbv beta. unfold sinusoid.
    replace (INR n * w + (0 + th)) with (INR n * w + th) by ring.
    replace (INR n * w + (0 + th')) with (INR n * w + th') by ring.
    rewrite !cos_plus. ring. }
  destruct (sinus_unique w _ _ Hw H2) as [E1 E2].
  assert (S1 := sin2_cos2 th). assert (S2 := sin2_cos2 th'). unfold Rsqr in S1, S2.
  assert (E : g * g = g' * g').
  { transitivity ((g * cos th) * (g * cos th) + (g * sin th) * (g * sin th)).
    - transitivity (g * g * (sin th * sin th + cos th * cos th)); [rewrite S1|]; ring.
    - replace (g * cos th) with (g' * cos th') by lra. replace (g * sin th) with (g' * sin th') by lra.
      transitivity (g' * g' * (sin th' * sin th' + cos th' * cos th')); [|rewrite S2]; ring. }
  nra.
Qed.

Lemma polar (z : C) : exists theta, z = (RtoC (Cmod z) * cis theta)%C.
Proof.
  destruct z as [u v]. destruct (phase_exists u v 1 0 (Cmod (u, v)) (Cmod_ge_0 _)) as [th [H1 H2]].
  - unfold Cmod; cbn [fst snd]. rewrite sqrt_sqrt; [ring|]. nra.
  - exists th. unfold Cmult, RtoC, cis; cbn [fst snd].
    apply injective_projections; cbn [fst snd]; [rewrite H1 at 1|rewrite H2 at 1]; ring.
Qed.

Lemma analog_gain kind args w : valid kind args -> 0 <= w < PI ->
  gain kind args w (Cmod (analog_response kind args w)).
Proof.
  intros H Hw. split; [apply Cmod_ge_0|]. destruct (polar (analog_response kind args w)) as [th E].
  exists th. apply analog_passes; assumption.
Qed.

Lemma gain_is kind args w g : valid kind args -> 0 < w < PI ->
  gain kind args w g -> g = Cmod (analog_response kind args w).
Proof. intros H Hw Hg. apply (gain_unique kind args w); [exact Hw|exact Hg|]. apply analog_gain; [exact H|lra]. Qed.

(** Squared magnitude. *)
Definition m2 (z : C) : R := fst z * fst z + snd z * snd z.

Lemma Cmod_sqrt z : Cmod z = sqrt (m2 z).
Proof. unfold Cmod, m2. f_equal. ring. Qed.

Lemma m2_nneg z : 0 <= m2 z.
Proof. unfold m2. nra. Qed.

Lemma m2_pos z : z <> RtoC 0 -> 0 < m2 z.
Proof.
  intros H. destruct z as [a b]. unfold m2. cbn.
  destruct (Req_dec a 0) as [->|Ha]; [|nra]. destruct (Req_dec b 0) as [->|Hb]; [|nra].
  now destruct H.
Qed.

Lemma gain_sq kind args w g : valid kind args -> 0 < w < PI -> gain kind args w g ->
  let O := warped (centre args) w in
  g * g * m2 (snd (nd kind args O)) = m2 (fst (nd kind args O)).
Proof.
  intros H Hw Hg O. rewrite (gain_is _ _ _ _ H Hw Hg). unfold analog_response. fold O.
  rewrite prototype_nd by exact H. assert (Hd := nd_den kind args O H).
  rewrite Cmod_div by exact Hd. rewrite !Cmod_sqrt.
  assert (P := m2_pos _ Hd). assert (N := m2_nneg (fst (nd kind args O))).
  assert (sqrt (m2 (snd (nd kind args O))) <> 0) by (assert (Q := sqrt_lt_R0 _ P); lra).
  transitivity ((sqrt (m2 (fst (nd kind args O))) * sqrt (m2 (fst (nd kind args O))))
    / (sqrt (m2 (snd (nd kind args O))) * sqrt (m2 (snd (nd kind args O)))) * m2 (snd (nd kind args O))).
  - field. assumption.
  - rewrite !sqrt_sqrt by lra. field. lra.
Qed.
