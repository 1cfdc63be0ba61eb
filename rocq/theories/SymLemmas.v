(** Lemmas behind properties C104 and C105 *)
From Coq Require Import Reals List Lra Lia Arith.
From Verif Require Import Base Num NumR FilterM RbjM Device Signal RbjSpec SysSpec SignalFacts FilterFacts RbjFacts SysLemmas SymSpec.
Import ListNotations.
Open Scope R_scope.

(** ** What a setting does *)
Definition r5 := (R * R * R * R * R)%type.
Definition coef (kind : rbj_kind) (a : rbj_args R) : r5 :=
  match rbj_coeffs R_ops kind a with Some c => c | None => (1, 0, 0, 0, 0) end.

Lemma rbj_obeys kind a x : obeys (coef kind a) x (rbj_out kind a x).
Proof.
  unfold coef, rbj_out. destruct (rbj_coeffs R_ops kind a) as [c|] eqn:E.
  - apply filter_obeys, fe_rbj, E.
  - intros n. 
    assert (Es : configured (dev_rbj R_ops kind) a = biquad2_new R_ops).
    { unfold configured, after. cbn. unfold rbj_set_coefficients. rewrite E. destruct kind; reflexivity. }
    assert (Ed : forall s x, d_process (dev_rbj R_ops kind) s x = d_process (dev_biquad2 R_ops) s x)
      by (destruct kind; reflexivity).
    assert (Est : forall s x n, state_at (dev_rbj R_ops kind) s x n = state_at (dev_biquad2 R_ops) s x n).
    { intros s y m. induction m as [|m IH]; [reflexivity|]. cbn [state_at]. rewrite IH, Ed. reflexivity. }
    assert (Eo : forall n, out (dev_rbj R_ops kind) (biquad2_new R_ops) x n
                         = out (dev_biquad2 R_ops) (configured (dev_biquad2 R_ops) (1, 0, 0, 0, 0)) x n).
    { intros m. unfold out. rewrite Est, Ed. reflexivity. }
    rewrite Es. unfold back. rewrite !Eo.
    apply (filter_obeys (dev_biquad2 R_ops) (1, 0, 0, 0, 0) (1, 0, 0, 0, 0)).
    constructor.
Qed.

Lemma same_coeffs {T} (O : num_ops T) kind a a' :
  rbj_coeffs O kind a = rbj_coeffs O kind a' -> same_setting (dev_rbj O kind) a a'.
Proof.
  intros E before later. unfold returns. cbn [d_run d_step].
  assert (Es : d_set (dev_rbj O kind) (after (dev_rbj O kind) before) a
             = d_set (dev_rbj O kind) (after (dev_rbj O kind) before) a').
  { cbn. unfold rbj_set_coefficients. rewrite E. reflexivity. }
  rewrite Es. destruct (d_run _ _ later). reflexivity.
Qed.

(** ** The mirror *)
Lemma omega_mirror sr f : sr <> 0 -> 2 * PI * (sr / 2 - f) / sr = PI - 2 * PI * f / sr.
Proof. intros H. field. exact H. Qed.

Definition mirrored (c : r5) : r5 := let '(b0, b1, b2, a1, a2) := c in (b0, - b1, b2, - a1, a2).

Lemma cos_PI_minus w : cos (PI - w) = - cos w.
Proof. rewrite cos_minus, cos_PI, sin_PI. ring. Qed.
Lemma sin_PI_minus w : sin (PI - w) = sin w.
Proof. rewrite sin_minus, cos_PI, sin_PI. ring. Qed.

Ltac open_coeffs := unfold lowpass_coeffs, highpass_coeffs, bandpass1_coeffs, bandpass2_coeffs, bandstop_coeffs,
    allpass_coeffs, peak_coeffs, lowshelf_coeffs, highshelf_coeffs, normalised.

Lemma mirror_coef kind a : rate_of a <> 0 ->
  coef (mirror_kind kind) (mirror_setting a) = mirrored (coef kind a).
Proof.
  intros H. unfold coef.
  destruct kind, a; cbn [mirror_kind mirror_setting moved rate_of freq_of rbj_coeffs] in *;
    try (cbn; rewrite Ropp_0; reflexivity).
  all: open_coeffs; cbn -[Rpower]; rewrite !omega_mirror by exact H; rewrite !cos_PI_minus, !sin_PI_minus.
  all: repeat apply (f_equal2 pair).
  all: unfold Rdiv; rewrite ?Ropp_mult_distr_l; apply (f_equal2 Rmult); [|apply f_equal]; ring.
Qed.

Lemma alternated_back j x n : back j (alternated x) n = (-1) ^ j * alternated (back j x) n.
Proof.
  unfold alternated, back. destruct (j <=? n)%nat eqn:E; [|ring]. apply Nat.leb_le in E.
  replace ((-1) ^ n) with ((-1) ^ j * (-1) ^ (n - j)) by (rewrite <- pow_add; f_equal; lia).
  assert (F : (-1) ^ j * (-1) ^ j = 1) by (rewrite <- pow_add; replace (j + j)%nat with (2 * j)%nat by lia; apply pow_1_even).
  transitivity ((-1) ^ j * (-1) ^ j * ((-1) ^ (n - j) * x (n - j)%nat)); [rewrite F|]; ring.
Qed.

Lemma mirror_obeys c x y : obeys c x y -> obeys (mirrored c) (alternated x) (alternated y).
Proof.
  destruct c as [[[[b0 b1] b2] a1] a2]. intros H n. cbn [mirrored]. rewrite !alternated_back.
  unfold alternated. rewrite (H n). ring.
Qed.

Lemma mirror_thm kind a x n : rate_of a <> 0 ->
  rbj_out (mirror_kind kind) (mirror_setting a) (alternated x) n = alternated (rbj_out kind a x) n.
Proof.
  intros H. apply (obeys_unique (mirrored (coef kind a)) (alternated x) (alternated x)); [reflexivity| |].
  - rewrite <- (mirror_coef kind a H). apply rbj_obeys.
  - apply mirror_obeys, rbj_obeys.
Qed.

(** ** Scaling and aliasing *)
Lemma only_w0 {T} (O : num_ops T) kind a sr' f' :
  n_div O (n_mul O (n_mul O (n_two O) (n_pi O)) f') sr'
    = n_div O (n_mul O (n_mul O (n_two O) (n_pi O)) (freq_of a)) (rate_of a) ->
  same_setting (dev_rbj O kind) (moved sr' f' a) a.
Proof.
  intros E. apply same_coeffs.
  destruct kind, a; cbn [moved rate_of freq_of rbj_coeffs] in *; try reflexivity; f_equal; open_coeffs; rewrite E; reflexivity.
Qed.

Lemma rescale_thm kind a k : rate_of a <> 0 -> k <> 0 ->
  same_setting (dev_rbj R_ops kind) (moved (k * rate_of a) (k * freq_of a) a) a.
Proof.
  intros H Hk. apply only_w0. cbn. field. split; assumption.
Qed.

Lemma trig_coeffs kind a sr' f' :
  cos (omega sr' f') = cos (omega (rate_of a) (freq_of a)) -> sin (omega sr' f') = sin (omega (rate_of a) (freq_of a)) ->
  rbj_coeffs R_ops kind (moved sr' f' a) = rbj_coeffs R_ops kind a.
Proof.
  intros C S. unfold omega in *.
  destruct kind, a; cbn [moved rate_of freq_of rbj_coeffs] in *; try reflexivity; f_equal; open_coeffs; cbn -[Rpower];
    rewrite C, S; reflexivity.
Qed.

Lemma alias_thm kind a (k : Z) : rate_of a <> 0 ->
  same_setting (dev_rbj R_ops kind) (moved (rate_of a) (freq_of a + IZR k * rate_of a) a) a.
Proof.
  intros H. apply same_coeffs, trig_coeffs.
  all: unfold omega; replace (2 * PI * (freq_of a + IZR k * rate_of a) / rate_of a)
      with (2 * PI * freq_of a / rate_of a + 2 * IZR k * PI) by (field; exact H);
    set (w := 2 * PI * freq_of a / rate_of a).
  - destruct (Z_le_gt_dec 0 k) as [L|L].
    + rewrite <- (Z2Nat.id k L), <- INR_IZR_INZ. apply cos_period.
    + replace k with (- Z.of_nat (Z.to_nat (- k)))%Z by (rewrite Z2Nat.id; lia).
      rewrite opp_IZR, <- INR_IZR_INZ. rewrite <- (cos_period _ (Z.to_nat (- k))). f_equal. ring.
  - destruct (Z_le_gt_dec 0 k) as [L|L].
    + rewrite <- (Z2Nat.id k L), <- INR_IZR_INZ. apply sin_period.
    + replace k with (- Z.of_nat (Z.to_nat (- k)))%Z by (rewrite Z2Nat.id; lia).
      rewrite opp_IZR, <- INR_IZR_INZ. rewrite <- (sin_period _ (Z.to_nat (- k))). f_equal. ring.
Qed.
