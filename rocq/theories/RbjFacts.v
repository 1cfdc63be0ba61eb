(** RBJ coefficients: stability, transfer function values, algebra. *)
From Coq Require Import Reals Lra Lia List Psatz.
From Coquelicot Require Import Coquelicot.
From Verif Require Import Num NumR FilterM RbjM Device Signal SignalFacts CoreLemmas FilterFacts
  RbjSpec.
Import ListNotations.
Open Scope R_scope.

(** ** The angle *)
Lemma omega_range sr f : valid_band sr f -> 0 < omega sr f < PI.
Proof.
  intros [H1 [H2 H3]]. unfold omega. assert (Hpi := PI_RGT_0).
  assert (Hi : 0 < / sr) by (apply Rinv_0_lt_compat; lra).
  split.
  - apply Rmult_lt_0_compat; [|exact Hi]. nra.
  - apply Rmult_lt_reg_r with sr; [lra|].
    replace (2 * PI * f / sr * sr) with (2 * PI * f) by (field; lra). nra.
Qed.

Lemma sin_pos w : 0 < w < PI -> 0 < sin w.
Proof. intros H. apply sin_gt_0; lra. Qed.

Lemma cos_range w : 0 < w < PI -> -1 < cos w < 1.
Proof.
  intros H. assert (Hs := sin_pos w H). assert (E := sin2_cos2 w). unfold Rsqr in E.
  split; nra.
Qed.

Lemma angle_exists u v : u * u + v * v = 1 -> exists t, cos t = u /\ sin t = v.
Proof.
  intros H. assert (Hu : -1 <= u <= 1) by (split; nra).
  assert (Hs : sqrt (1 - Rsqr u) = Rabs v).
  { replace (1 - Rsqr u) with (Rsqr v) by (unfold Rsqr; lra). apply sqrt_Rsqr_abs. }
  destruct (Rle_dec 0 v) as [Hv|Hv].
  - exists (acos u). split; [apply cos_acos; lra|]. rewrite sin_acos by lra. rewrite Hs.
    apply Rabs_pos_eq. lra.
  - exists (- acos u). rewrite cos_neg, sin_neg. split; [apply cos_acos; lra|].
    rewrite sin_acos by lra. rewrite Hs, Rabs_left by lra. ring.
Qed.

(** ** Normalised coefficients *)
Lemma stable_norm a0 a1 a2 : 0 < a0 -> Rabs a2 < a0 -> Rabs a1 < a0 + a2 ->
  stable (a1 / a0) (a2 / a0).
Proof.
  intros H0 H2 H1. unfold stable.
  assert (Hi : 0 < / a0) by (apply Rinv_0_lt_compat; lra).
  unfold Rdiv. rewrite !Rabs_mult, (Rabs_pos_eq (/ a0)) by lra. split.
  - apply Rmult_lt_reg_r with a0; [lra|]. rewrite Rmult_assoc, Rinv_l, Rmult_1_r by lra. lra.
  - apply Rmult_lt_reg_r with a0; [lra|]. rewrite Rmult_assoc, Rinv_l, Rmult_1_r by lra.
    rewrite Rmult_plus_distr_r, Rmult_assoc, Rinv_l by lra. lra.
Qed.

(** Response of a normalised section at [w], in terms of the un-normalised
    coefficients: N = ((b0+b2) cos w + b1, (b0-b2) sin w), D likewise. *)
Lemma section_steady b0 b1 b2 a0 a1 a2 w g theta :
  0 < a0 ->
  let n1 := (b0 + b2) * cos w + b1 in let n2 := (b0 - b2) * sin w in
  let d1 := (a0 + a2) * cos w + a1 in let d2 := (a0 - a2) * sin w in
  n1 = g * (cos theta * d1 - sin theta * d2) ->
  n2 = g * (sin theta * d1 + cos theta * d2) ->
  num_at (b0 / a0) (b1 / a0) (b2 / a0) w = (RtoC g * cis theta * den_at (a1 / a0) (a2 / a0) w)%C.
Proof.
  intros Ha n1 n2 d1 d2 H1 H2.
  assert (EN : num_at (b0 / a0) (b1 / a0) (b2 / a0) w = (RtoC (/ a0) * (cis w * (n1, n2)))%C).
  { unfold num_at, n1, n2, cis, RtoC, Cmult, Cplus; cbn [fst snd].
    assert (E := sin2_cos2 w). unfold Rsqr in E.
    apply injective_projections; cbn [fst snd].
    - field_simplify; [|lra|lra]. apply Rmult_eq_reg_r with a0; [|lra].
      field_simplify; [|lra|lra]. 
      replace (sin w ^ 2) with (1 - cos w ^ 2) by (cbn; lra). ring.
    - field_simplify; [|lra|lra]. apply Rmult_eq_reg_r with a0; [|lra].
      field_simplify; [|lra|lra]. ring. }
  assert (ED : den_at (a1 / a0) (a2 / a0) w = (RtoC (/ a0) * (cis w * (d1, d2)))%C).
  { unfold den_at, d1, d2, cis, RtoC, Cmult, Cplus; cbn [fst snd].
    assert (E := sin2_cos2 w). unfold Rsqr in E.
    apply injective_projections; cbn [fst snd].
    - field_simplify; [|lra|lra]. apply Rmult_eq_reg_r with a0; [|lra].
      field_simplify; [|lra|lra]. 
      replace (sin w ^ 2) with (1 - cos w ^ 2) by (cbn; lra). ring.
    - field_simplify; [|lra|lra]. apply Rmult_eq_reg_r with a0; [|lra].
      field_simplify; [|lra|lra]. ring. }
  rewrite EN, ED.
  replace (n1, n2) with (RtoC g * (cis theta * (d1, d2)))%C; [ring|].
  unfold cis, RtoC, Cmult; cbn [fst snd].
  apply injective_projections; cbn [fst snd]; [rewrite H1|rewrite H2]; ring.
Qed.

(** Equal magnitudes up to [g] give a phase. *)
Lemma phase_exists n1 n2 d1 d2 g : 0 <= g ->
  n1 * n1 + n2 * n2 = g * g * (d1 * d1 + d2 * d2) ->
  exists theta, n1 = g * (cos theta * d1 - sin theta * d2)
             /\ n2 = g * (sin theta * d1 + cos theta * d2).
Proof.
  intros Hg H. remember (d1 * d1 + d2 * d2) as D eqn:ED.
  assert (HD : 0 <= D) by nra.
  destruct (Req_dec (g * g * D) 0) as [HZ|HZ].
  - assert (n1 = 0) by nra. assert (n2 = 0) by nra.
    destruct (Req_dec g 0) as [G0|G0].
    + exists 0. subst g. split; lra.
    + assert (D = 0). { apply Rmult_eq_reg_l with (g * g); nra. }
      assert (d1 = 0) by nra. assert (d2 = 0) by nra.
      exists 0. subst d1 d2 n1 n2. split; ring.
  - assert (HDp : D <> 0) by (intros E; apply HZ; rewrite E; ring).
    assert (Hgp : g <> 0) by (intros E; apply HZ; rewrite E; ring).
    destruct (angle_exists ((n1 * d1 + n2 * d2) / (g * D)) ((n2 * d1 - n1 * d2) / (g * D))) as [t [Hc Hs]].
    { transitivity ((n1 * n1 + n2 * n2) * (d1 * d1 + d2 * d2) / (g * D * (g * D))); [field; auto|].
      rewrite H, <- ED. field. auto. }
    exists t. rewrite Hc, Hs. split.
    + transitivity (n1 * (d1 * d1 + d2 * d2) / D); [rewrite <- ED|]; field; auto.
    + transitivity (n2 * (d1 * d1 + d2 * d2) / D); [rewrite <- ED|]; field; auto.
Qed.

(** ** The coefficients before normalisation *)
Definition sextuple := (R * R * R * R * R * R)%type.

Definition raw_q (kind : rbj_kind) (c al q : R) : sextuple :=
  match kind with
  | LowPass => ((1 - c) / 2, 1 - c, (1 - c) / 2, 1 + al, -2 * c, 1 - al)
  | HighPass => ((1 + c) / 2, - 1 - c, (1 + c) / 2, 1 + al, -2 * c, 1 - al)
  | BandPass1 => (q * al, 0, - q * al, 1 + al, -2 * c, 1 - al)
  | BandPass2 => (al, 0, - al, 1 + al, -2 * c, 1 - al)
  | BandStop => (1, -2 * c, 1, 1 + al, -2 * c, 1 - al)
  | _ => (1 - al, -2 * c, 1 + al, 1 + al, -2 * c, 1 - al)
  end.

Definition raw_peak (c al A : R) : sextuple :=
  (1 + al * A, -2 * c, 1 - al * A, 1 + al / A, -2 * c, 1 - al / A).

Definition raw_lowshelf (c sp A : R) : sextuple :=
  (A * (A + 1 - (A - 1) * c + sp), 2 * A * (A - 1 - (A + 1) * c), A * (A + 1 - (A - 1) * c - sp),
   A + 1 + (A - 1) * c + sp, -2 * (A - 1 + (A + 1) * c), A + 1 + (A - 1) * c - sp).
Definition raw_highshelf (c sp A : R) : sextuple :=
  (A * (A + 1 + (A - 1) * c + sp), -2 * A * (A - 1 + (A + 1) * c), A * (A + 1 + (A - 1) * c - sp),
   A + 1 - (A - 1) * c + sp, 2 * (A - 1 - (A + 1) * c), A + 1 - (A - 1) * c - sp).

Definition amp (g : R) : R := Rpower 10 (g / 40).
Definition alpha_q (sr f q : R) : R := sin (omega sr f) / (2 * q).
Definition shelf_sp (sr f g slope : R) : R :=
  2 * sqrt (amp g) * (sin (omega sr f) / 2 * sqrt ((amp g + 1 / amp g) * (1 / slope - 1) + 2)).

Definition raw (kind : rbj_kind) (args : rbj_args R) : sextuple :=
  match kind, args with
  | Peak, RbjGain sr f g q => raw_peak (cos (omega sr f)) (alpha_q sr f q) (amp g)
  | LowShelf, RbjGain sr f g sl => raw_lowshelf (cos (omega sr f)) (shelf_sp sr f g sl) (amp g)
  | HighShelf, RbjGain sr f g sl => raw_highshelf (cos (omega sr f)) (shelf_sp sr f g sl) (amp g)
  | _, RbjQ sr f q => raw_q kind (cos (omega sr f)) (alpha_q sr f q) q
  | _, RbjGain _ _ _ _ => (0, 0, 0, 0, 0, 0)
  end.

Definition norm6 (r : sextuple) : (R * R * R * R * R)%type :=
  let '(b0, b1, b2, a0, a1, a2) := r in (b0 / a0, b1 / a0, b2 / a0, a1 / a0, a2 / a0).

Lemma amp_model g : Rpower (10 / 1) (g / (40 / 1)) = amp g.
Proof. unfold amp. f_equal; field. Qed.

Lemma raw_coeffs kind args : valid kind args ->
  rbj_coeffs R_ops kind args = Some (norm6 (raw kind args)).
Proof.
  intros H. destruct kind, args; cbn in H; try contradiction; cbn [rbj_coeffs raw]; f_equal.
  all: unfold lowpass_coeffs, highpass_coeffs, bandpass1_coeffs, bandpass2_coeffs, bandstop_coeffs,
    allpass_coeffs, peak_coeffs, lowshelf_coeffs, highshelf_coeffs, normalised, raw_q, raw_peak,
    raw_lowshelf, raw_highshelf, norm6; cbn -[Rpower]; rewrite ?amp_model; fold (omega sample_rate frequency).
  all: try reflexivity.
Qed.

Lemma amp_pos g : 0 < amp g.
Proof. unfold amp, Rpower. apply exp_pos. Qed.

Lemma shelf_sp_pos sr f g sl : valid_band sr f -> valid_slope g sl -> 0 < shelf_sp sr f g sl.
Proof.
  intros Hb [Hs1 Hs2]. assert (Hsin := sin_pos _ (omega_range sr f Hb)).
  assert (Ha := amp_pos g). unfold shelf_sp.
  assert (0 < sqrt (amp g)) by (apply sqrt_lt_R0; exact Ha).
  assert (0 < sqrt ((amp g + 1 / amp g) * (1 / sl - 1) + 2)) by (apply sqrt_lt_R0; exact Hs2).
  apply Rmult_lt_0_compat; [lra|]. apply Rmult_lt_0_compat; lra.
Qed.

Definition stable6 (r : sextuple) : Prop :=
  let '(_, _, _, a0, a1, a2) := r in 0 < a0 /\ Rabs a2 < a0 /\ Rabs a1 < a0 + a2.

Lemma raw_stable kind args : valid kind args -> stable6 (raw kind args).
Proof.
  intros H.
  assert (Q : forall c al, -1 < c < 1 -> 0 < al -> 0 < 1 + al /\ Rabs (1 - al) < 1 + al
                /\ Rabs (-2 * c) < 1 + al + (1 - al)).
  { intros c al Hc Hal. split; [lra|]. split; apply Rabs_def1; lra. }
  assert (A : forall sr f q, valid_band sr f -> 0 < q -> 0 < alpha_q sr f q).
  { intros sr f q Hb Hq. unfold alpha_q. apply Rdiv_lt_0_compat; [|lra].
    apply sin_pos, omega_range; exact Hb. }
  destruct kind, args; cbn in H; try contradiction; destruct H as [Hb Hq];
    assert (Hc := cos_range _ (omega_range _ _ Hb)); cbn [raw stable6].
  all: try (apply Q; [exact Hc|apply A; assumption]).
  - apply Q; [exact Hc|]. apply Rdiv_lt_0_compat; [apply A; assumption|apply amp_pos].
  - assert (Hsp := shelf_sp_pos _ _ _ _ Hb Hq). assert (Ha := amp_pos db_gain).
    set (sp := shelf_sp _ _ _ _) in *. set (a := amp db_gain) in *.
    set (c := cos _) in *. unfold raw_lowshelf.
    assert (Hx : 0 < a + 1 + (a - 1) * c) by nra.
    split; [lra|]. split; apply Rabs_def1; nra.
  - assert (Hsp := shelf_sp_pos _ _ _ _ Hb Hq). assert (Ha := amp_pos db_gain).
    set (sp := shelf_sp _ _ _ _) in *. set (a := amp db_gain) in *.
    set (c := cos _) in *. unfold raw_highshelf.
    assert (Hx : 0 < a + 1 - (a - 1) * c) by nra.
    split; [lra|]. split; apply Rabs_def1; nra.
Qed.

Lemma valid_filter_eq kind args : valid kind args ->
  filter_eq (dev_rbj R_ops kind) args (norm6 (raw kind args)).
Proof. intros H. apply fe_rbj, raw_coeffs, H. Qed.

Lemma valid_obeys kind args x : valid kind args ->
  obeys (norm6 (raw kind args)) x (rbj_out kind args x).
Proof. intros H. apply filter_obeys, valid_filter_eq, H. Qed.

(** ** Frequency response *)
Definition resp (r : sextuple) (w g theta : R) : Prop :=
  let '(b0, b1, b2, a0, a1, a2) := r in
  let d1 := (a0 + a2) * cos w + a1 in let d2 := (a0 - a2) * sin w in
  (b0 + b2) * cos w + b1 = g * (cos theta * d1 - sin theta * d2)
  /\ (b0 - b2) * sin w = g * (sin theta * d1 + cos theta * d2).

Lemma raw_passes kind args w g theta : valid kind args ->
  resp (raw kind args) w g theta -> rbj_passes kind args w g theta.
Proof.
  intros H Hr. unfold rbj_passes, passes. intros A phi.
  assert (Ho := valid_obeys kind args (sinusoid A w phi) H).
  assert (Hs := raw_stable kind args H). unfold rbj_out in Ho.
  destruct (raw kind args) as [[[[[b0 b1] b2] a0] a1] a2]. cbn [norm6 stable6 resp] in *.
  destruct Hs as [S0 [S2 S1]]. destruct Hr as [R1 R2].
  apply (steady (b0 / a0) (b1 / a0) (b2 / a0) (a1 / a0) (a2 / a0)).
  - apply stable_norm; assumption.
  - apply section_steady; assumption.
  - apply obeys_recur. exact Ho.
Qed.

Definition mag2 (r : sextuple) (w : R) : R * R :=
  let '(b0, b1, b2, a0, a1, a2) := r in
  (((b0 + b2) * cos w + b1) * ((b0 + b2) * cos w + b1)
     + ((b0 - b2) * sin w) * ((b0 - b2) * sin w),
   ((a0 + a2) * cos w + a1) * ((a0 + a2) * cos w + a1)
     + ((a0 - a2) * sin w) * ((a0 - a2) * sin w)).

Lemma raw_gain kind args w g : valid kind args -> 0 <= g ->
  fst (mag2 (raw kind args) w) = g * g * snd (mag2 (raw kind args) w) ->
  exists theta, rbj_passes kind args w g theta.
Proof.
  intros H Hg Hm.
  assert (E : exists theta, resp (raw kind args) w g theta).
  { destruct (raw kind args) as [[[[[b0 b1] b2] a0] a1] a2]. cbn [mag2 fst snd resp] in *.
    apply phase_exists; assumption. }
  destruct E as [theta E]. exists theta. apply raw_passes; assumption.
Qed.

Lemma pow_m1_cos n : (-1) ^ n = cos (INR n * PI).
Proof.
  induction n as [|n IH].
  - cbn. rewrite Rmult_0_l, cos_0. reflexivity.
  - rewrite S_INR. replace ((INR n + 1) * PI) with (INR n * PI + PI) by ring.
    rewrite neg_cos, <- IH. cbn. ring.
Qed.

Lemma out_ext {S K} (D : device S K R) s x y : (forall n, x n = y n) -> forall n, out D s x n = out D s y n.
Proof.
  intros H n. unfold out. rewrite H. do 2 f_equal.
  induction n as [|n IH]; [reflexivity|]. cbn [state_at]. rewrite IH, H. reflexivity.
Qed.

Lemma approaches_ext y y' z z' : (forall n, y n = y' n) -> (forall n, z n = z' n) ->
  approaches y z -> approaches y' z'.
Proof.
  intros H1 H2 H. unfold approaches in *. eapply is_lim_seq_ext; [|exact H].
  intros n. cbn. rewrite H1, H2. reflexivity.
Qed.

Lemma raw_dc kind args g : valid kind args ->
  resp (raw kind args) 0 g 0 -> dc_gain kind args g.
Proof.
  intros H Hr c. assert (HP := raw_passes _ _ _ _ _ H Hr c 0).
  eapply approaches_ext; [| |exact HP].
  - apply out_ext. intros n. unfold sinusoid.
    replace (INR n * 0 + 0) with 0 by ring. rewrite cos_0. ring.
  - intros n. unfold sinusoid. replace (INR n * 0 + (0 + 0)) with 0 by ring. rewrite cos_0. ring.
Qed.

Lemma raw_nyquist kind args g : valid kind args ->
  resp (raw kind args) PI g 0 -> nyquist_gain kind args g.
Proof.
  intros H Hr c. assert (HP := raw_passes _ _ _ _ _ H Hr c 0).
  eapply approaches_ext; [| |exact HP].
  - apply out_ext. intros n. unfold sinusoid. rewrite pow_m1_cos, Rplus_0_r. ring.
  - intros n. unfold sinusoid. rewrite pow_m1_cos, !Rplus_0_r. ring.
Qed.

Lemma resp_dc b0 b1 b2 a0 a1 a2 g : b0 + b1 + b2 = g * (a0 + a1 + a2) ->
  resp (b0, b1, b2, a0, a1, a2) 0 g 0.
Proof.
  intros H. cbn. rewrite cos_0, sin_0, !Rmult_0_r. split; [|ring].
  transitivity (b0 + b1 + b2); [ring|]. rewrite H. ring.
Qed.

Lemma resp_nyquist b0 b1 b2 a0 a1 a2 g : b0 - b1 + b2 = g * (a0 - a1 + a2) ->
  resp (b0, b1, b2, a0, a1, a2) PI g 0.
Proof.
  intros H. cbn. rewrite cos_PI, sin_PI, cos_0, sin_0, !Rmult_0_r. split; [|ring].
  transitivity (- (b0 - b1 + b2)); [ring|]. rewrite H. ring.
Qed.

(** ** Algebra of responses *)
Lemma obeys_sum b0 b1 b2 b0' b1' b2' a1 a2 x y y' :
  obeys (b0, b1, b2, a1, a2) x y -> obeys (b0', b1', b2', a1, a2) x y' ->
  obeys (b0 + b0', b1 + b1', b2 + b2', a1, a2) x (fun n => y n + y' n).
Proof.
  intros H H' n. rewrite (H n), (H' n).
  assert (E : forall j, back j (fun m => y m + y' m) n = back j y n + back j y' n).
  { intros j. unfold back. destruct (j <=? n)%nat; ring. }
  rewrite !E. ring.
Qed.

Lemma obeys_scale k b0 b1 b2 a1 a2 x y :
  obeys (b0, b1, b2, a1, a2) x y ->
  obeys (k * b0, k * b1, k * b2, a1, a2) x (fun n => k * y n).
Proof.
  intros H n. rewrite (H n).
  assert (E : forall j, back j (fun m => k * y m) n = k * back j y n).
  { intros j. unfold back. destruct (j <=? n)%nat; ring. }
  rewrite !E. ring.
Qed.

Lemma obeys_id a1 a2 x : obeys (1, a1, a2, a1, a2) x x.
Proof. intros n. ring. Qed.

(** Swapping poles and zeros inverts a filter. *)
Lemma obeys_inverse b0 b1 b2 a1 a2 x y : b0 <> 0 ->
  obeys (b0, b1, b2, a1, a2) x y ->
  obeys (1 / b0, a1 / b0, a2 / b0, b1 / b0, b2 / b0) y x.
Proof. intros Hb H n. rewrite (H n). field. exact Hb. Qed.

Lemma obeys_cast c c' x y : c = c' -> obeys c x y -> obeys c' x y.
Proof. now intros ->. Qed.
