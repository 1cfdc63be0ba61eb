(** Proofs of C97: Peak, LowShelf and HighShelf in floating point against the ideal ones. *)
From Coq Require Import ZArith Reals Lra Lia List Psatz.
From Coquelicot Require Import Coquelicot.
From Flocq Require Import Core.Core IEEE754.BinarySingleNaN.
From Verif Require Import Base Num NumR NumF FloatSpec FloatFacts Witness CrLibm Device Signal SignalFacts FilterM FilterFacts RbjM
  FltFilterSpec FltFilterFacts FltFilterLemmas RbjFltSpec RbjFltFacts RbjFltLemmas RbjAccSpec RbjAccFacts RbjAccLemmas
  DbSpec DbLemmas AnaFacts PoisonSpec PoisonLemmas GainAccSpec GainAccFacts.
Import ListNotations.
Open Scope R_scope.

Lemma amp_R (g : R) : n_powf R_ops (n_of_f64 R_ops (F64lit 10 1)) (n_div R_ops g (n_of_f64 R_ops (F64lit 40 1))) = Rpower 10 (g / 40).
Proof. cbn. f_equal; [field|f_equal; field]. Qed.

(** The shape of the ideal shelves: [c] is the cosine for LowShelf, its opposite for
    HighShelf. *)
Lemma shelf_form kind sr f g sl b0 b1 b2 a1 a2 : kind = LowShelf \/ kind = HighShelf ->
  rbj_coeffs R_ops kind (RbjGain sr f g sl) = Some (b0, b1, b2, a1, a2) ->
  let w := 2 * PI * f / sr in let A := Rpower 10 (g / 40) in
  exists c t t' n n' S, c * c = cos w * cos w
    /\ t = (A + 1) + (A - 1) * c /\ n = (A - 1) + (A + 1) * c /\ t' = (A + 1) - (A - 1) * c /\ n' = (A - 1) - (A + 1) * c
    /\ S = 2 * sqrt A * (sin w / 2 * sqrt ((A + 1 / A) * (1 / sl - 1) + 2))
    /\ b0 = A * (t' + S) / (t + S) /\ Rabs b1 = Rabs (2 * A * n' / (t + S)) /\ b2 = A * (t' - S) / (t + S)
    /\ (a1 = - (2) * n / (t + S) \/ a1 = 2 * n / (t + S)) /\ a2 = (t - S) / (t + S).
Proof.
  intros [-> | ->] E w A; injection E as <- <- <- <- <-; rewrite amp_R;
    cbn [R_ops n_one n_two n_zero n_pi n_add n_sub n_mul n_div n_neg n_sin n_cos n_sqrt]; fold w; fold A.
  - exists (cos w). do 5 eexists. split; [reflexivity|]. do 5 (split; [reflexivity|]).
    split; [reflexivity|]. split; [reflexivity|]. split; [reflexivity|]. split; [left; reflexivity|reflexivity].
  - exists (- cos w). do 5 eexists. split; [ring|]. do 5 (split; [reflexivity|]).
    replace (A + 1 + (A - 1) * - cos w) with (A + 1 - (A - 1) * cos w) by ring.
    replace (A + 1 - (A - 1) * - cos w) with (A + 1 + (A - 1) * cos w) by ring.
    replace (A - 1 + (A + 1) * - cos w) with (A - 1 - (A + 1) * cos w) by ring.
    replace (A - 1 - (A + 1) * - cos w) with (A - 1 + (A + 1) * cos w) by ring.
    split; [reflexivity|]. split.
    { rewrite <- Rabs_Ropp. f_equal. unfold Rdiv. ring. }
    split; [reflexivity|]. split; [right; reflexivity|reflexivity].
Qed.

Lemma shelf_facts A c : / 2 <= A <= 2 -> Rabs c <= 1 ->
  let t := (A + 1) + (A - 1) * c in let n := (A - 1) + (A + 1) * c in
  let t' := (A + 1) - (A - 1) * c in let n' := (A - 1) - (A + 1) * c in
  1 <= t <= 4 /\ 1 <= t' <= 4 /\ Rabs n <= t /\ Rabs n' <= t' /\ A * t' <= 4 * t.
Proof.
  intros G2 C3 t n t' n'.
  assert (L1 := mix_le 1 0 (A + 1) (A - 1) c C3 ltac:(lra) ltac:(lra)).
  assert (L2 := mix_le 1 0 (A + 1) (- (A - 1)) c C3 ltac:(lra) ltac:(lra)).
  assert (L3 := mix_le (A + 1) (A - 1) 4 0 c C3 ltac:(lra) ltac:(lra)).
  assert (L4 := mix_le (A + 1) (- (A - 1)) 4 0 c C3 ltac:(lra) ltac:(lra)).
  assert (K0 : Rabs (A * c) <= A) by (rewrite Rabs_mult, (Rabs_pos_eq A) by lra; rewrite <- (Rmult_1_r A) at 2; apply Rmult_le_compat_l; lra).
  apply Rabs_le_inv in K0.
  assert (AA : A * A <= 4) by (apply Rle_trans with (2 * 2); [apply Rmult_le_compat; lra|lra]).
  assert (L5 := mix_le (A * (A + 1)) (A * - (A - 1)) (4 * (A + 1)) (4 * (A - 1)) c C3 ltac:(lra) ltac:(lra)).
  apply Rabs_le_inv in C3. unfold t, n, t', n'.
  split; [lra|]. split; [lra|]. split; [apply Rabs_le; lra|]. split; [apply Rabs_le; lra|]. lra.
Qed.

Lemma shelf_S A sl s : / 2 <= A <= 2 -> / 4 <= sl <= 1 -> 0 <= s <= 1 ->
  let rad := (A + 1 / A) * (1 / sl - 1) + 2 in
  let S := 2 * sqrt A * (s / 2 * sqrt rad) in
  2 <= rad /\ s <= S <= 4.38 /\ S * S = A * (s * s) * rad.
Proof.
  intros G2 Hq Hs rad S.
  assert (iA : / 2 <= / A <= 2) by (split; [apply Rinv_le_contravar; lra|replace 2 with (/ / 2) by field; apply Rinv_le_contravar; lra]).
  assert (iS : 1 <= / sl <= 4).
  { split; [rewrite <- Rinv_1; apply Rinv_le_contravar; lra|]. replace 4 with (/ / 4) by field. apply Rinv_le_contravar; lra. }
  assert (AiA : 2 <= A + / A <= 2.5).
  { assert (Z : A * / A = 1) by (apply Rinv_r; lra).
    assert (0 <= (2 - A) * (2 - / A)) by (apply Rmult_le_pos; lra).
    assert (0 <= (A - 1) * (A - 1) * / A) by (apply Rmult_le_pos; [apply Rle_0_sqr|lra]).
    assert (W : (A - 1) * (A - 1) * / A = A - 2 + / A) by (field; lra). lra. }
  assert (HR : 2 <= rad <= 9.5).
  { unfold rad, Rdiv. rewrite !Rmult_1_l. split.
    - assert (0 <= (A + / A) * (/ sl - 1)) by (apply Rmult_le_pos; lra). lra.
    - assert ((A + / A) * (/ sl - 1) <= 2.5 * 3) by (apply Rmult_le_compat; lra). lra. }
  assert (Q0 : 0 <= sqrt rad <= 3.09).
  { split; [apply sqrt_pos|]. rewrite <- (sqrt_square 3.09) by lra. apply sqrt_le_1_alt. lra. }
  assert (Q1 : 0 <= sqrt A <= 1.4143).
  { split; [apply sqrt_pos|]. rewrite <- (sqrt_square 1.4143) by lra. apply sqrt_le_1_alt. lra. }
  assert (E : S = s * sqrt (A * rad)) by (unfold S; rewrite sqrt_mult by lra; field).
  assert (AR : 1 <= A * rad) by (replace 1 with (/ 2 * 2) by field; apply Rmult_le_compat; lra).
  split; [lra|]. split; [split|].
  - rewrite E. assert (1 <= sqrt (A * rad)) by (rewrite <- sqrt_1; apply sqrt_le_1_alt; lra).
    rewrite <- (Rmult_1_r s) at 1. apply Rmult_le_compat_l; lra.
  - unfold S. apply Rle_trans with (2 * 1.4143 * (1 / 2 * 3.09)); [|lra].
    apply Rmult_le_compat; try lra; [apply Rmult_le_pos; lra|]. apply Rmult_le_compat; lra.
  - rewrite E. transitivity (s * s * (sqrt (A * rad) * sqrt (A * rad))); [ring|]. rewrite sqrt_sqrt by lra. ring.
Qed.

Lemma amp_bounds g : (Rabs g <= 12 -> / 2 <= Rpower 10 (g / 40) <= 2) /\ (Rabs g <= 24 -> / 4 <= Rpower 10 (g / 40) <= 4).
Proof.
  split; intros H; apply Rabs_le_inv in H; [apply pow10_two|apply RbjFltFacts2.pow10_small]; apply Rabs_le; lra.
Qed.

Lemma abs_cos w : Rabs (cos w) <= 1.
Proof. apply Rabs_le, COS_bound. Qed.

Lemma sq_abs_le c w : c * c = cos w * cos w -> Rabs c <= 1.
Proof.
  intros H. apply sq_le_abs; [lra|]. assert (Q := sin2_cos2 w). unfold Rsqr in Q.
  assert (0 <= sin w * sin w) by apply Rle_0_sqr. simpl. lra.
Qed.

(** Sums of the ideal coefficients. *)
Lemma gain_sums {T} (V : float_view T) kind sr f g x b0 b1 b2 a1 a2 : gain_setting V kind g x -> 0 <= sin (2 * PI * f / sr) ->
  rbj_coeffs R_ops kind (RbjGain sr f (val V g) (val V x)) = Some (b0, b1, b2, a1, a2) ->
  Rabs b0 + Rabs b1 + Rabs b2 <= 34 /\ Rabs a1 + Rabs a2 <= 3.
Proof.
  intros [_ [_ HG]] Hs E. set (w := 2 * PI * f / sr) in *. assert (C := COS_bound w). assert (S1 := SIN_bound w).
  assert (Sh : kind = LowShelf \/ kind = HighShelf -> Rabs (val V g) <= 12 /\ / 4 <= val V x <= 1 ->
    Rabs b0 + Rabs b1 + Rabs b2 <= 34 /\ Rabs a1 + Rabs a2 <= 3).
  { intros Hk [Hg Hx]. destruct (shelf_form kind sr f (val V g) (val V x) b0 b1 b2 a1 a2 Hk E)
      as [c [t [t' [n [n' [S [Hc [-> [-> [-> [-> [ES [-> [B1 [-> [A1 ->]]]]]]]]]]]]]]]].
    fold w in Hc, ES. rewrite B1. clear B1 E.
    assert (HA := proj1 (amp_bounds (val V g)) Hg). set (A := Rpower 10 (val V g / 40)) in *.
    destruct (shelf_facts A c HA (sq_abs_le c w Hc)) as [F1 [F2 [F3 [F4 F5]]]].
    destruct (shelf_S A (val V x) (sin w) HA Hx ltac:(lra)) as [_ [F6 _]]. rewrite <- ES in F6. clear ES.
    set (t := A + 1 + (A - 1) * c) in *. set (t' := A + 1 - (A - 1) * c) in *.
    set (n := A - 1 + (A + 1) * c) in *. set (n' := A - 1 - (A + 1) * c) in *. clearbody t t' n n'.
    assert (AS : A * S <= 4 * S) by (apply Rmult_le_compat_r; lra).
    assert (AS0 : 0 <= A * S) by (apply Rmult_le_pos; lra). assert (AT0 : 0 <= A * t') by (apply Rmult_le_pos; lra).
    assert (Rabs (A * (t' + S) / (t + S)) <= 4) by (apply quot_abs; [lra|apply Rabs_le; lra]).
    assert (Rabs (A * (t' - S) / (t + S)) <= 4) by (apply quot_abs; [lra|apply Rabs_le; lra]).
    assert (Rabs (2 * A * n' / (t + S)) <= 8).
    { apply quot_abs; [lra|]. rewrite !Rabs_mult, (Rabs_pos_eq A), (Rabs_pos_eq 2) by lra.
      assert (A * Rabs n' <= A * t') by (apply Rmult_le_compat_l; lra). lra. }
    assert (Rabs ((t - S) / (t + S)) <= 1) by (apply quot_abs; [lra|apply Rabs_le; lra]).
    assert (Rabs a1 <= 2).
    { destruct A1 as [-> | ->]; (apply quot_abs; [lra|]); rewrite Rabs_mult; [rewrite Rabs_Ropp|]; rewrite (Rabs_pos_eq 2) by lra; lra. }
    lra. }
  destruct kind; try contradiction; [|exact (Sh (or_introl eq_refl) HG)|exact (Sh (or_intror eq_refl) HG)].
  clear Sh. destruct HG as [Hg Hq].
  assert (G2 := proj2 (amp_bounds (val V g)) Hg).
  injection E as <- <- <- <- <-. rewrite amp_R. cbn [R_ops n_one n_two n_zero n_pi n_add n_sub n_mul n_div n_neg n_sin n_cos n_sqrt].
  fold w. set (A := Rpower 10 (val V g / 40)) in *. set (al := sin w / (2 * val V x)).
  assert (A0 : 0 <= al) by (apply Rmult_le_pos; [exact Hs|left; apply Rinv_0_lt_compat; lra]).
  assert (iA : / 4 <= / A <= 4) by (split; [apply Rinv_le_contravar; lra|replace 4 with (/ / 4) by field; apply Rinv_le_contravar; lra]).
  assert (J : al * A <= 16 * (al / A)).
  { unfold Rdiv. apply Rle_trans with (al * (16 * / A)); [|lra]. apply Rmult_le_compat_l; lra. }
  assert (0 <= al * A) by (apply Rmult_le_pos; lra). assert (0 <= al / A) by (apply Rmult_le_pos; lra).
  assert (Rabs ((1 + al * A) / (1 + al / A)) <= 16) by (apply quot_abs; [lra|apply Rabs_le; lra]).
  assert (Rabs ((1 - al * A) / (1 + al / A)) <= 16) by (apply quot_abs; [lra|apply Rabs_le; lra]).
  assert (Rabs (- (2) * cos w / (1 + al / A)) <= 2) by (apply quot_abs; [lra|apply Rabs_le; lra]).
  assert (Rabs ((1 - al / A) / (1 + al / A)) <= 1) by (apply quot_abs; [lra|apply Rabs_le; lra]).
  lra.
Qed.

Lemma audible_sin {T} (V : float_view T) sr f : audible V sr f -> 0 <= sin (2 * PI * val V f / val V sr).
Proof.
  intros [[_ A1] [_ A2]]. assert (P := PI_RGT_0).
  assert (0 <= val V f / val V sr <= / 2).
  { split; [apply Rmult_le_pos; [lra|left; apply Rinv_0_lt_compat; lra]|].
    apply (Rmult_le_reg_r (val V sr)); [lra|]. unfold Rdiv. rewrite Rmult_assoc, Rinv_l by lra. lra. }
  replace (2 * PI * val V f / val V sr) with (2 * PI * (val V f / val V sr)) by (unfold Rdiv; ring).
  apply sin_ge_0; [apply Rmult_le_pos; lra|]. replace PI with (2 * PI * / 2) at 2 by field. apply Rmult_le_compat_l; lra.
Qed.

(*@PROP
(** Property C97: in [f32] and [f64], [Peak], [LowShelf] and [HighShelf] are as good as
    the ideal filters.

    Vocabulary: [GainAccSpec]; [trig_close] is in [RbjFltSpec], [pow10_close] in [DbSpec],
    [audible], [each_within] in [RbjAccSpec]; [peak_gain], [stream], [vals], [all_finite] in
    [FltFilterSpec]; [none_finite], [only_used] in [PoisonSpec]. *)
From Coq Require Import ZArith Reals Lra List.
From Flocq Require Import Core.Core IEEE754.BinarySingleNaN.
From Verif Require Import Base Num NumR NumF FloatSpec Witness CrLibm Device Signal FilterM RbjM FltFilterSpec RbjFltSpec RbjAccSpec
  DbSpec PoisonSpec GainAccSpec GainAccLemmas.
Import ListNotations.
Open Scope R_scope.
@*)

(** C97: the setters of the three filters with a gain compute, at any frequency from 0 to
    half the sample rate, five finite coefficients, each within [gain_error] of the
    coefficient of the ideal filter. *)
Lemma C97_coefficients_accurate_thm :
  forall (T : Type) (O : num_ops T) (V : float_view T), ieee O V -> trig_close O V -> pow10_close O V ->
  forall kind sr f g x ch, audible V sr f -> gain_setting V kind g x ->
    rbj_coeffs O kind (RbjGain sr f g x) = Some ch ->
    exists c, rbj_coeffs R_ops kind (RbjGain (val V sr) (val V f) (val V g) (val V x)) = Some c
      /\ all_finite V ch /\ each_within (gain_error V kind (val V x)) (vals V ch) c.
Proof.
  intros T O V HO HT HP kind sr f g x ch HA HG E.
  assert (X : exists c, rbj_coeffs R_ops kind (RbjGain (val V sr) (val V f) (val V g) (val V x)) = Some c)
    by (destruct kind; try discriminate; eexists; reflexivity).
  destruct X as [c Ec]. exists c. split; [exact Ec|].
  assert (Hk : kind = Peak \/ kind = LowShelf \/ kind = HighShelf)
    by (destruct HG as [_ [_ HG]]; destruct kind; try contradiction; auto).
  destruct (ConstLemmas.C86_constants_thm T O V HO) as [P1 [P2 _]]. destruct HO as [lm b|lm b].
  - assert (T1 : is_finite (n_of_f64 (f32_ops lm b) (F64lit 10 1)) = true /\ B2R (n_of_f64 (f32_ops lm b) (F64lit 10 1)) = 10).
    { split; [vm_compute; reflexivity|]. lit. cbn. lra. }
    assert (T2 : is_finite (n_of_f64 (f32_ops lm b) (F64lit 40 1)) = true /\ B2R (n_of_f64 (f32_ops lm b) (F64lit 40 1)) = 40).
    { split; [vm_compute; reflexivity|]. lit. cbn. lra. }
    destruct Hk as [-> |Hk].
    + exact (peak_acc 24 128 ltac:(lia) ltac:(lia) 13176795 (-22) 4 lm b P1 P2 T1 T2 HP sr f g x ch c HT HA HG E Ec).
    + exact (shelf_acc 24 128 ltac:(lia) ltac:(lia) 13176795 (-22) 4 lm b P1 P2 T1 T2 HP kind sr f g x ch c Hk HT HA HG E Ec).
  - assert (T1 : is_finite (n_of_f64 (f64_ops lm b) (F64lit 10 1)) = true /\ B2R (n_of_f64 (f64_ops lm b) (F64lit 10 1)) = 10).
    { split; [vm_compute; reflexivity|]. lit. cbn. lra. }
    assert (T2 : is_finite (n_of_f64 (f64_ops lm b) (F64lit 40 1)) = true /\ B2R (n_of_f64 (f64_ops lm b) (F64lit 40 1)) = 40).
    { split; [vm_compute; reflexivity|]. lit. cbn. lra. }
    destruct Hk as [-> |Hk].
    + exact (peak_acc 53 1024 ltac:(lia) ltac:(lia) 7074237752028440 (-51) 8 lm b P1 P2 T1 T2 HP sr f g x ch c HT HA HG E Ec).
    + exact (shelf_acc 53 1024 ltac:(lia) ltac:(lia) 7074237752028440 (-51) 8 lm b P1 P2 T1 T2 HP kind sr f g x ch c Hk HT HA HG E Ec).
Qed.

(** C97: and they follow the ideal filter for ever.  [G] bounds the gain of the ideal
    feedback (next theorem); samples are up to [M], the ideal output is up to [Y]. *)
Lemma C97_tracks_ideal_thm :
  forall (T : Type) (O : num_ops T) (V : float_view T), ieee O V -> trig_close O V -> pow10_close O V ->
  forall kind sr f g q, audible V sr f -> gain_setting V kind g q ->
  forall b0 b1 b2 a1 a2 G M Y (x : nat -> T),
    let k := RbjGain (val V sr) (val V f) (val V g) (val V q) in
    let y := out (dev_rbj R_ops kind) (configured (dev_rbj R_ops kind) k) (fun n => val V (x n)) in
    rbj_coeffs R_ops kind k = Some (b0, b1, b2, a1, a2) -> peak_gain a1 a2 G ->
    5 * gain_error V kind (val V q) * G <= 1 ->
    (forall n, fin V (x n) = true /\ Rabs (val V (x n)) <= M) -> (forall n, Rabs (y n) <= Y) ->
    256 * (M + Y) <= fmax V ->
    forall n, fin V (stream (dev_rbj O kind) (RbjGain sr f g q) x n) = true
      /\ Rabs (val V (stream (dev_rbj O kind) (RbjGain sr f g q) x n) - y n)
         <= 11 * gain_error V kind (val V q) * G * (M + Y + fmin V).
Proof.
  intros T O V HO Ht HP kind sr f g q HA Hq b0 b1 b2 a1 a2 G M Y x k y Ek HG HdG Hx HY Hroom.
  assert (X : exists ch, rbj_coeffs O kind (RbjGain sr f g q) = Some ch)
    by (destruct kind; try discriminate; eexists; reflexivity).
  destruct X as [ch Ec].
  destruct (C97_coefficients_accurate_thm T O V HO Ht HP kind sr f g q ch HA Hq Ec) as [c [E2 [Hf Hw]]].
  fold k in E2. rewrite Ek in E2. injection E2 as <-.
  destruct (gain_sums V kind (val V sr) (val V f) g q b0 b1 b2 a1 a2 Hq (audible_sin V sr f HA) Ek) as [SB SA].
  assert (G1 := peak_gain_ge1 _ _ _ HG).
  assert (M0 : 0 <= M) by (destruct (Hx 0%nat) as [_ Q]; eapply Rle_trans; [apply Rabs_pos|exact Q]).
  assert (Y0 : 0 <= Y) by (eapply Rle_trans; [apply Rabs_pos|exact (HY 0%nat)]).
  destruct (fmin_small T O V HO) as [F0 [Fx [Up E8]]].
  set (d := gain_error V kind (val V q)) in *. set (p := bpow radix2 (- fprec V)) in *.
  assert (Hd : 134 * p <= d <= / 256).
  { destruct Hq as [_ [_ Hq]]. unfold d, gain_error. fold p. destruct kind; try contradiction; [|lra|lra].
    destruct Hq as [_ Hq].
    assert (I : / 256 <= / val V q <= 16).
    { split; [apply Rinv_le_contravar; lra|]. replace 16 with (/ / 16) by field. apply Rinv_le_contravar; lra. }
    unfold Rdiv. assert (p * / 256 <= p * / val V q <= p * 16) by (split; apply Rmult_le_compat_l; lra). lra. }
  set (v := bpow radix2 (3 - fprec V)) in *. assert (Hv : v <= 8 / 134 * d) by lra. assert (v0 : 0 < v) by lra.
  assert (P1 := Rabs_pos a1). assert (P2 := Rabs_pos a2).
  assert (P3 := Rabs_pos b0). assert (P4 := Rabs_pos b1). assert (P5 := Rabs_pos b2).
  set (A := Rabs a1 + Rabs a2 + 2 * d). set (B := Rabs b0 + Rabs b1 + Rabs b2 + 3 * d).
  assert (HA2 : 0 <= A <= 301 / 100) by (unfold A; lra). assert (HB2 : 0 <= B <= 341 / 10) by (unfold B; lra).
  set (E := 2 * G * (d * (3 * M + 2 * Y) + v * (B * M + A * Y + fmin V))).
  assert (HS : 0 <= B * M + A * Y + fmin V <= 341 / 10 * M + 301 / 100 * Y + fmin V).
  { assert (0 <= B * M) by (apply Rmult_le_pos; lra). assert (0 <= A * Y) by (apply Rmult_le_pos; lra).
    assert (B * M <= 341 / 10 * M) by (apply Rmult_le_compat_r; lra).
    assert (A * Y <= 301 / 100 * Y) by (apply Rmult_le_compat_r; lra). lra. }
  set (R := M + Y + fmin V). assert (R0 : 0 < R) by (unfold R; lra).
  assert (dG : 0 <= d * G <= / 5) by (split; [apply Rmult_le_pos; lra|lra]).
  assert (HE : 0 <= E <= 11 * d * G * R).
  { unfold E. assert (v * (B * M + A * Y + fmin V) <= 8 / 134 * d * (341 / 10 * M + 301 / 100 * Y + fmin V)) by (apply Rmult_le_compat; lra).
    assert (0 <= v * (B * M + A * Y + fmin V)) by (apply Rmult_le_pos; lra).
    assert (0 <= d * (3 * M + 2 * Y)) by (apply Rmult_le_pos; lra).
    split; [apply Rmult_le_pos; lra|].
    replace (11 * d * G * R) with (2 * G * (d * (11 / 2 * R))) by field.
    apply Rmult_le_compat_l; [lra|].
    apply Rle_trans with (d * (3 * M + 2 * Y) + d * (8 / 134 * (341 / 10 * M + 301 / 100 * Y + fmin V))); [lra|].
    rewrite <- Rmult_plus_distr_l. apply Rmult_le_compat_l; [lra|]. unfold R. lra. }
  assert (HE2 : E <= 11 / 5 * R).
  { eapply Rle_trans; [apply HE|]. replace (11 * d * G * R) with (11 * (d * G) * R) by ring. apply Rmult_le_compat_r; lra. }
  assert (Hc : has_coeffs O (dev_rbj O kind) (RbjGain sr f g q) ch) by (constructor; exact Ec).
  assert (Hz : obeys (b0, b1, b2, a1, a2) (fun n => val V (x n)) y) by (apply filter_obeys; constructor; exact Ek).
  intros n.
  destruct (C94_filter_tracks_ideal_thm T O V HO _ _ (dev_rbj O kind) (RbjGain sr f g q) ch Hc Hf b0 b1 b2 a1 a2 d G M Y A B E x y
    Hw HG Hx Hz HY eq_refl eq_refl eq_refl) with (n := n) as [Q1 Q2].
  - apply Rle_trans with (G * (2 * d + 8 / 134 * d * (301 / 100))).
    + apply Rmult_le_compat_l; [lra|]. apply Rplus_le_compat_l. fold v. apply Rmult_le_compat; lra.
    + lra.
  - assert (A * (Y + E) <= 301 / 100 * (Y + 11 / 5 * R)) by (apply Rmult_le_compat; lra).
    assert (B * M <= 341 / 10 * M) by (apply Rmult_le_compat_r; lra).
    unfold R in H. clear - H H0 Hroom Fx F0 M0 Y0. lra.
  - split; [exact Q1|]. eapply Rle_trans; [exact Q2|apply HE].
Qed.

(** C97: with w = 2 pi f / sample rate, the feedback gain of the ideal [Peak] is at most
    (1 + 2 Q A / sin w)^2 where Q A >= 1/2, and (1 + sin w / (2 Q A)) / (sin w)^2 where
    Q A <= 1/2, for A = 10^(gain/40); that of the ideal shelves, for gains of up to 12 dB
    and slopes from 1/4 to 1, is at most 25 / (sin w)^2. *)
Lemma C97_feedback_gain_thm :
  forall kind sr f g x b0 b1 b2 a1 a2, 0 < x -> 0 < sin (2 * PI * f / sr) ->
  rbj_coeffs R_ops kind (RbjGain sr f g x) = Some (b0, b1, b2, a1, a2) ->
  (kind = Peak -> / 2 <= x * Rpower 10 (g / 40) ->
     peak_gain a1 a2 ((1 + 2 * (x * Rpower 10 (g / 40)) / sin (2 * PI * f / sr)) ^ 2))
  /\ (kind = Peak -> x * Rpower 10 (g / 40) <= / 2 ->
     peak_gain a1 a2 ((1 + sin (2 * PI * f / sr) / (2 * (x * Rpower 10 (g / 40)))) / (sin (2 * PI * f / sr)) ^ 2))
  /\ (kind = LowShelf \/ kind = HighShelf -> Rabs g <= 12 -> / 4 <= x <= 1 ->
     peak_gain a1 a2 (25 / (sin (2 * PI * f / sr)) ^ 2)).
Proof.
  intros kind sr f g x b0 b1 b2 a1 a2 Hx Hs E.
  assert (A0 : 0 < Rpower 10 (g / 40)) by apply exp_pos.
  assert (XA : 0 < x * Rpower 10 (g / 40)) by (apply Rmult_lt_0_compat; assumption).
  assert (HP : kind = Peak -> exists c0 c1 c2, rbj_coeffs R_ops LowPass (RbjQ sr f (x * Rpower 10 (g / 40))) = Some (c0, c1, c2, a1, a2)).
  { intros ->. injection E as _ _ _ <- <-. rewrite amp_R.
    cbn [R_ops n_one n_two n_zero n_pi n_add n_sub n_mul n_div n_neg n_sin n_cos rbj_coeffs].
    do 3 eexists. unfold lowpass_coeffs, normalised.
    cbn [R_ops n_one n_two n_zero n_pi n_add n_sub n_mul n_div n_neg n_sin n_cos].
    set (A := Rpower 10 (g / 40)) in *. set (s := sin (2 * PI * f / sr)).
    replace (s / (2 * (x * A))) with (s / (2 * x) / A) by (field; lra). reflexivity. }
  split; [|split].
  - intros Hk H. destruct (HP Hk) as [c0 [c1 [c2 Ec]]]. apply (q_gain_aux LowPass sr f _ c0 c1 c2 a1 a2 XA Hs Ec). exact H.
  - intros Hk H. destruct (HP Hk) as [c0 [c1 [c2 Ec]]]. apply (q_gain_aux LowPass sr f _ c0 c1 c2 a1 a2 XA Hs Ec). exact H.
  - clear HP. intros Hk Hg Hxx. set (w := 2 * PI * f / sr) in *. assert (S1 := SIN_bound w).
    destruct (shelf_form kind sr f g x b0 b1 b2 a1 a2 Hk E) as [c [t [t' [n [n' [S [Hc [Et [En [_ [_ [ES [_ [_ [_ [A1 A2]]]]]]]]]]]]]]]].
    fold w in Hc, ES. clear E. assert (HA := proj1 (amp_bounds g) Hg). set (A := Rpower 10 (g / 40)) in *.
    destruct (shelf_facts A c HA (sq_abs_le c w Hc)) as [F1 [_ [F3 _]]]. rewrite <- Et in F1, F3. rewrite <- En in F3.
    destruct (shelf_S A x (sin w) HA Hxx ltac:(lra)) as [R2 [F6 F7]]. rewrite <- ES in F6, F7.
    set (rad := (A + 1 / A) * (1 / x - 1) + 2) in *. clearbody rad. clear ES.
    set (s := sin w) in *. assert (SC : s * s + c * c = 1) by (rewrite Hc; assert (Q := sin2_cos2 w); unfold Rsqr in Q; exact Q).
    assert (Tn : t * t - n * n = 4 * A * (s * s)) by (rewrite Et, En; replace (s * s) with (1 - c * c) by lra; ring).
    assert (I0 : 0 < / (t + S)) by (apply Rinv_0_lt_compat; lra).
    assert (Ea : Rabs a1 = 2 * Rabs n / (t + S)).
    { destruct A1 as [-> | ->]; unfold Rdiv; rewrite !Rabs_mult, (Rabs_pos_eq (/ _)) by lra; [rewrite Rabs_Ropp|]; rewrite (Rabs_pos_eq 2) by lra; reflexivity. }
    assert (Eq : a1 * a1 = 4 * (n * n) / ((t + S) * (t + S))) by (destruct A1 as [-> | ->]; field; lra).
    assert (L : a2 < 1).
    { rewrite A2. apply (Rmult_lt_reg_r (t + S)); [lra|]. replace ((t - S) / (t + S) * (t + S)) with (t - S) by (field; lra). lra. }
    assert (P2 : 0 < (t + S) * (t + S)) by (apply Rmult_lt_0_compat; lra).
    assert (Df : 4 * a2 - a1 * a1 = 4 * (A * (s * s)) * (4 - rad) / ((t + S) * (t + S))).
    { rewrite Eq, A2. replace (4 * (A * (s * s)) * (4 - rad)) with (4 * (t * t - n * n - S * S)) by (rewrite Tn, F7; ring). field. lra. }
    assert (As : 0 < A * (s * s)) by (apply Rmult_lt_0_compat; [lra|apply Rmult_lt_0_compat; lra]).
    assert (IP : 0 < / ((t + S) * (t + S))) by (apply Rinv_0_lt_compat; lra).
    assert (ss : 0 < s * s) by (apply Rmult_lt_0_compat; lra).
    destruct (Rle_dec rad 4) as [Hr|Hr].
    + assert (D : a1 * a1 <= 4 * a2).
      { assert (0 <= 4 * (A * (s * s)) * (4 - rad) / ((t + S) * (t + S))) by (apply Rmult_le_pos; [apply Rmult_le_pos; lra|lra]). lra. }
      assert (P0 : 0 <= a2) by (assert (0 <= a1 * a1) by apply Rle_0_sqr; lra).
      eapply peak_gain_mono; [|apply (gain_complex a1 a2 D L)].
      assert (R1 : sqrt a2 < 1) by (rewrite <- sqrt_1; apply sqrt_lt_1; lra).
      assert (Rr := sqrt_sqrt a2 P0). set (r := sqrt a2) in *.
      set (h := S / (t + S)). assert (T0 : 0 < h) by (apply Rdiv_lt_0_compat; lra).
      assert (T1 : h <= 1 - r).
      { replace h with ((1 - a2) / 2) by (unfold h; rewrite A2; field; lra). rewrite <- Rr.
        replace ((1 - r * r) / 2) with (1 - r - (1 - r) * (1 - r) / 2) by field.
        assert (0 <= (1 - r) * (1 - r)) by apply Rle_0_sqr. lra. }
      assert (T2 : h <= 1 - Rabs a1 / 2).
      { rewrite Ea. replace (1 - 2 * Rabs n / (t + S) / 2) with (h + (t - Rabs n) / (t + S)) by (unfold h; field; lra).
        assert (0 <= (t - Rabs n) / (t + S)) by (apply Rmult_le_pos; lra). lra. }
      assert (T3 : s / 5 <= h).
      { unfold h. apply (Rmult_le_reg_r (t + S)); [lra|]. replace (S / (t + S) * (t + S)) with S by (field; lra).
        assert (s * t <= S * 4) by (apply Rmult_le_compat; lra). assert (s * S <= 1 * S) by (apply Rmult_le_compat_r; lra). lra. }
      replace (25 / s ^ 2) with (1 / (s / 5 * (s / 5))) by (field; lra).
      unfold Rdiv. rewrite !Rmult_1_l. apply Rinv_le_contravar; [apply Rmult_lt_0_compat; lra|].
      unfold Rdiv in T3. apply Rmult_le_compat; lra.
    + assert (D : 4 * a2 <= a1 * a1).
      { assert (0 <= 4 * (A * (s * s)) * (rad - 4) / ((t + S) * (t + S))) by (apply Rmult_le_pos; [apply Rmult_le_pos; lra|lra]).
        replace (4 * (A * (s * s)) * (rad - 4) / ((t + S) * (t + S))) with (- (4 * (A * (s * s)) * (4 - rad) / ((t + S) * (t + S)))) in H by (unfold Rdiv; ring).
        lra. }
      assert (Nn : Rabs n * Rabs n = n * n) by (rewrite <- Rabs_mult; apply Rabs_pos_eq, Rle_0_sqr). assert (N0 := Rabs_pos n).
      assert (Cl : A * (s * s) / 2 <= t - Rabs n).
      { assert (Q : (t - Rabs n) * (t + Rabs n) = 4 * (A * (s * s))) by (replace ((t - Rabs n) * (t + Rabs n)) with (t * t - Rabs n * Rabs n) by ring; lra).
        assert ((t - Rabs n) * (t + Rabs n) <= (t - Rabs n) * 8) by (apply Rmult_le_compat_l; lra). lra. }
      assert (Eg : 1 - Rabs a1 + a2 = 2 * (t - Rabs n) / (t + S)) by (rewrite Ea, A2; field; lra).
      assert (Pg : 0 < 2 * (t - Rabs n) / (t + S)) by (apply Rmult_lt_0_compat; lra).
      assert (St : stable a1 a2).
      { split; [|lra]. apply Rabs_def1; [exact L|]. rewrite A2. apply (Rmult_lt_reg_r (t + S)); [lra|].
        replace ((t - S) / (t + S) * (t + S)) with (t - S) by (field; lra). lra. }
      eapply peak_gain_mono; [|apply (gain_real a1 a2 D St)]. rewrite Eg.
      replace (1 / (2 * (t - Rabs n) / (t + S))) with ((t + S) * / (2 * (t - Rabs n))) by (field; lra).
      apply Rle_trans with (8.38 * / (s * s / 2)).
      * apply Rmult_le_compat; [lra|left; apply Rinv_0_lt_compat; lra|lra|]. apply Rinv_le_contravar; [lra|].
        assert (/ 2 * (s * s) <= A * (s * s)) by (apply Rmult_le_compat_r; lra). lra.
      * replace (25 / s ^ 2) with (25 / 2 * / (s * s / 2)) by (field; lra). apply Rmult_le_compat_r; [left; apply Rinv_0_lt_compat; lra|lra].
Qed.

(** C97: a shelf that is too steep for its gain is accepted, but from the first sample on
    the filter never returns a finite sample. *)
Lemma C97_steep_shelf_never_finite_thm :
  forall (T : Type) (O : num_ops T) (V : float_view T), ieee O V -> pow10_close O V ->
  forall kind sr f g x, kind = LowShelf \/ kind = HighShelf -> too_steep V g x ->
  forall before x1 calls, only_used calls ->
    none_finite V (returns (dev_rbj O kind) (before ++ [CSet (RbjGain sr f g x)]) (CProcess x1 :: calls)).
Proof.
  intros T O V HO HP kind sr f g x Hk Hst before x1 calls [C1 C2]. assert (A := ieee_absorbing T O V HO).
  assert (X : exists c, rbj_coeffs O kind (RbjGain sr f g x) = Some c) by (destruct Hk as [-> | ->]; eexists; reflexivity).
  destruct X as [c E].
  assert (HN : fin V (n_sqrt O (n_add O (n_mul O (n_add O (n_powf O (n_of_f64 O (F64lit 10 1)) (n_div O g (n_of_f64 O (F64lit 40 1))))
      (n_div O (n_one O) (n_powf O (n_of_f64 O (F64lit 10 1)) (n_div O g (n_of_f64 O (F64lit 40 1))))))
      (n_sub O (n_div O (n_one O) x) (n_one O))) (n_two O))) = false).
  { destruct (ConstLemmas.C86_constants_thm T O V HO) as [P1 [P2 _]]. destruct HO as [lm b|lm b].
    - assert (T1 : is_finite (n_of_f64 (f32_ops lm b) (F64lit 10 1)) = true /\ B2R (n_of_f64 (f32_ops lm b) (F64lit 10 1)) = 10).
      { split; [vm_compute; reflexivity|]. lit. cbn. lra. }
      assert (T2 : is_finite (n_of_f64 (f32_ops lm b) (F64lit 40 1)) = true /\ B2R (n_of_f64 (f32_ops lm b) (F64lit 40 1)) = 40).
      { split; [vm_compute; reflexivity|]. lit. cbn. lra. }
      exact (steep_nan 24 128 ltac:(lia) ltac:(lia) 13176795 (-22) 4 lm b P1 T1 T2 HP g x Hst).
    - assert (T1 : is_finite (n_of_f64 (f64_ops lm b) (F64lit 10 1)) = true /\ B2R (n_of_f64 (f64_ops lm b) (F64lit 10 1)) = 10).
      { split; [vm_compute; reflexivity|]. lit. cbn. lra. }
      assert (T2 : is_finite (n_of_f64 (f64_ops lm b) (F64lit 40 1)) = true /\ B2R (n_of_f64 (f64_ops lm b) (F64lit 40 1)) = 40).
      { split; [vm_compute; reflexivity|]. lit. cbn. lra. }
      exact (steep_nan 53 1024 ltac:(lia) ltac:(lia) 7074237752028440 (-51) 8 lm b P1 T1 T2 HP g x Hst). }
  assert (B0 : fin V (fst (fst (fst (fst c)))) = false).
  { destruct Hk as [-> | ->]; injection E as <-; unfold lowshelf_coeffs, highshelf_coeffs, normalised; cbn [fst];
      apply (ab_div _ _ A), (ab_mul_r _ _ A), (ab_add_r _ _ A), (ab_mul_r _ _ A), (ab_mul_r _ _ A); exact HN. }
  destruct (p_rbj O V A kind) as [H1 [_ H3]].
  unfold returns. rewrite after_app. set (s := after (dev_rbj O kind) before).
  assert (Q : fin V (snd (d_process (dev_rbj O kind) (d_set (dev_rbj O kind) s (RbjGain sr f g x)) x1)) = false).
  { destruct c as [[[[b0 b1] b2] a1] a2]. cbn [fst] in B0.
    assert (Es : exists z1 z2 o, d_set (dev_rbj O kind) s (RbjGain sr f g x) = Biquad2 z1 z2 o b0 b1 b2 a1 a2).
    { cbn. unfold rbj_set_coefficients. rewrite E. destruct kind; cbn; repeat eexists. }
    destruct Es as [z1 [z2 [o ->]]].
    replace (d_process (dev_rbj O kind)) with (biquad2_process O) by (destruct kind; reflexivity).
    unfold biquad2_process. cbn [fst snd b2_z1 b2_z2 b2_output b2_b0 b2_b1 b2_b2 b2_a1 b2_a2].
    apply (ab_add_l _ _ A), (ab_mul_l _ _ A). exact B0. }
  assert (Ps := H3 _ _ Q). cbn [d_run d_step].
  set (s0 := d_set (dev_rbj O kind) s (RbjGain sr f g x)) in *. cbn [fst].
  destruct (d_process (dev_rbj O kind) s0 x1) as [s1 y1]. cbn [fst snd] in Ps, Q.
  assert (W := poisoned_run V _ (P_b2 V) H1 calls s1 Ps C1 (or_intror C2)).
  destruct (d_run (dev_rbj O kind) s1 calls) as [s2 log]. cbn [snd map] in *. constructor; assumption.
Qed.

Lemma C97_hyps_aux : let O := f64_ops (cr_libm 53 1024) false in let V := ieee_view 53 1024 in
  let sr := fl64 44100 0 in let f := fl64 1000 0 in let g := fl64 6 0 in let q := fl64 1 0 in let x := fun _ : nat => fl64 1 0 in
  let k := RbjGain (val V sr) (val V f) (val V g) (val V q) in
  let y := out (dev_rbj R_ops LowShelf) (configured (dev_rbj R_ops LowShelf) k) (fun n => val V (x n)) in
  ieee O V /\ trig_close O V /\ pow10_close O V /\ audible V sr f
  /\ gain_setting V Peak g q /\ gain_setting V LowShelf g q
  /\ 0 < val V q /\ 0 < sin (2 * PI * val V f / val V sr) /\ / 2 <= val V q * Rpower 10 (val V g / 40)
  /\ (exists b0 b1 b2 a1 a2, rbj_coeffs R_ops LowShelf k = Some (b0, b1, b2, a1, a2) /\ peak_gain a1 a2 3100)
  /\ 5 * gain_error V LowShelf (val V q) * 3100 <= 1
  /\ (forall n, fin V (x n) = true /\ Rabs (val V (x n)) <= 1) /\ (forall n, Rabs (y n) <= 105400)
  /\ 256 * (1 + 105400) <= fmax V
  /\ too_steep V (fl64 20 0) (fl64 4 0)
  /\ only_used (K := rbj_args f64) [CLastOut; CProcess (fl64 2 0)].
Proof.
  intros O V sr f g q x k y.
  assert (E1 : val V sr = 44100) by (unfold V, sr; cbn [val ieee_view]; lit; lra).
  assert (E2 : val V f = 1000) by (unfold V, f; cbn [val ieee_view]; lit; lra).
  assert (E3 : val V g = 6) by (unfold V, g; cbn [val ieee_view]; lit; lra).
  assert (E4 : val V (fl64 1 0) = 1) by (unfold V; cbn [val ieee_view]; lit; lra).
  assert (E5 : val V q = 1) by exact E4.
  assert (E6 : val V (fl64 20 0) = 20) by (unfold V; cbn [val ieee_view]; lit; lra).
  assert (E7 : val V (fl64 4 0) = 4) by (unfold V; cbn [val ieee_view]; lit; lra).
  assert (HO : ieee O V) by constructor.
  destruct (fmin_small _ O V HO) as [_ [Fx [Up _]]].
  assert (GA : Rabs 6 <= 12) by (rewrite Rabs_pos_eq; lra).
  assert (GS : gain_setting V LowShelf g q).
  { split; [vm_compute; reflexivity|]. split; [vm_compute; reflexivity|]. rewrite E3, E5. split; lra. }
  split; [exact HO|]. split; [apply rounded_close; [constructor|apply cr_trig; lia]|]. split; [apply cr_pow10_64|].
  split.
  { unfold audible. rewrite E1, E2. split; (split; [vm_compute; reflexivity|]); [|lra].
    split; [lra|]. apply Rle_trans with (bpow radix2 17); [cbn; lra|apply bpow_le; lia]. }
  split.
  { split; [vm_compute; reflexivity|]. split; [vm_compute; reflexivity|]. rewrite E3, E5. split; lra. }
  split; [exact GS|].
  assert (HS : 9 / 100 <= sin (2 * PI * val V f / val V sr) <= 1).
  { rewrite E1, E2. split; [|apply SIN_bound]. eapply Rle_trans; [exact sin_tenth|]. assert (P := ConstLemmas.pi_20).
    apply sin_incr_1; lra. }
  split; [lra|]. split; [lra|].
  split; [rewrite E3, E5; assert (P := proj1 (amp_bounds 6) GA); lra|].
  assert (X : exists b0 b1 b2 a1 a2, rbj_coeffs R_ops LowShelf k = Some (b0, b1, b2, a1, a2)) by (repeat eexists).
  destruct X as [b0 [b1 [b2 [a1 [a2 Ek]]]]].
  assert (HG : peak_gain a1 a2 3100).
  { destruct (C97_feedback_gain_thm LowShelf (val V sr) (val V f) (val V g) (val V q) b0 b1 b2 a1 a2 ltac:(lra) ltac:(lra) Ek) as [_ [_ G]].
    specialize (G (or_introl eq_refl) ltac:(rewrite E3; exact GA) ltac:(lra)).
    set (s := sin (2 * PI * val V f / val V sr)) in *. refine (peak_gain_mono _ _ _ _ _ G).
    assert (I : 0 < / s <= 100 / 9).
    { split; [apply Rinv_0_lt_compat; lra|]. replace (100 / 9) with (/ (9 / 100)) by field. apply Rinv_le_contravar; lra. }
    replace (25 / s ^ 2) with (25 * (/ s) ^ 2) by (field; lra).
    apply Rle_trans with (25 * (100 / 9) ^ 2); [apply Rmult_le_compat_l; [lra|apply pow_incr; lra]|lra]. }
  split; [exists b0, b1, b2, a1, a2; split; assumption|].
  split.
  { unfold gain_error. apply Rle_trans with (5 * (4600 * bpow radix2 (-40)) * 3100).
    - cbn [fprec ieee_view V]. assert (bpow radix2 (-53) <= bpow radix2 (-40)) by (apply bpow_le; lia).
      change (- (53))%Z with (-53)%Z. lra.
    - change (-40)%Z with (- (40))%Z. rewrite bpow_opp. assert (G : bpow radix2 40 = 1099511627776) by (cbn; lra). rewrite G. lra. }
  split; [intros n; unfold x; rewrite E4, Rabs_R1; split; [reflexivity|lra]|].
  split.
  { assert (Hz : obeys (b0, b1, b2, a1, a2) (fun n => val V (x n)) y) by (apply filter_obeys; constructor; exact Ek).
    destruct (gain_sums V LowShelf (val V sr) (val V f) g q b0 b1 b2 a1 a2 GS ltac:(lra) Ek) as [SB _].
    intros n. replace 105400 with (3100 * 34) by ring.
    apply (prefix_bound a1 a2 3100 y (fun j => b0 * val V (x j) + b1 * back 1 (fun n => val V (x n)) j + b2 * back 2 (fun n => val V (x n)) j)); [exact HG|lra| |].
    - intros j _. rewrite (Hz j). ring.
    - intros j _. assert (Bk : forall i, Rabs (back i (fun n => val V (x n)) j) <= 1).
      { intros i. unfold back, x. rewrite E4. destruct (i <=? j)%nat; [rewrite Rabs_R1|rewrite Rabs_R0]; lra. }
      unfold x at 1. rewrite E4.
      eapply Rle_trans; [apply Rabs_triang|]. eapply Rle_trans; [apply Rplus_le_compat_r, Rabs_triang|]. rewrite !Rabs_mult, Rabs_R1.
      assert (Rabs b1 * Rabs (back 1 (fun n => val V (x n)) j) <= Rabs b1 * 1) by (apply Rmult_le_compat_l; [apply Rabs_pos|apply Bk]).
      assert (Rabs b2 * Rabs (back 2 (fun n => val V (x n)) j) <= Rabs b2 * 1) by (apply Rmult_le_compat_l; [apply Rabs_pos|apply Bk]).
      lra. }
  split.
  { cbn [fmax ieee_view V]. assert (bpow radix2 (-53) <= / 2) by (change (/ 2) with (bpow radix2 (-1)); apply bpow_le; lia).
    assert (bpow radix2 30 <= bpow radix2 1024) by (apply bpow_le; lia). assert (G : bpow radix2 30 = 1073741824) by (cbn; lra).
    apply Rle_trans with (/ 2 * bpow radix2 30); [rewrite G; lra|]. apply Rmult_le_compat; try lra. change (- (53))%Z with (-53)%Z. lra. }
  split.
  { unfold too_steep. rewrite E6, E7. split; [vm_compute; reflexivity|]. split; [rewrite Rabs_pos_eq; lra|].
    split; [vm_compute; reflexivity|]. split; [lra|].
    replace (20 / 40) with (/ 2) by field. rewrite Rpower_sqrt by lra.
    assert (3 <= sqrt 10) by (rewrite <- (sqrt_square 3) by lra; apply sqrt_le_1_alt; lra).
    assert (0 < / sqrt 10) by (apply Rinv_0_lt_compat; lra). lra. }
  split; [|intros k0]; cbn; intuition discriminate.
Qed.

(*@PROP
(** The hypotheses of C97 hold, for example, in [f64] with correctly rounded functions: a
    [Peak] or [LowShelf] at 44100 Hz with a frequency of 1 kHz, 6 dB and a Q or slope of 1,
    on the input 1, 1, 1, ...; a slope of 4 is too steep for 20 dB. *)
Example C97_hyps : let O := f64_ops (cr_libm 53 1024) false in let V := ieee_view 53 1024 in
  let sr := fl64 44100 0 in let f := fl64 1000 0 in let g := fl64 6 0 in let q := fl64 1 0 in let x := fun _ : nat => fl64 1 0 in
  let k := RbjGain (val V sr) (val V f) (val V g) (val V q) in
  let y := out (dev_rbj R_ops LowShelf) (configured (dev_rbj R_ops LowShelf) k) (fun n => val V (x n)) in
  ieee O V /\ trig_close O V /\ pow10_close O V /\ audible V sr f
  /\ gain_setting V Peak g q /\ gain_setting V LowShelf g q
  /\ 0 < val V q /\ 0 < sin (2 * PI * val V f / val V sr) /\ / 2 <= val V q * Rpower 10 (val V g / 40)
  /\ (exists b0 b1 b2 a1 a2, rbj_coeffs R_ops LowShelf k = Some (b0, b1, b2, a1, a2) /\ peak_gain a1 a2 3100)
  /\ 5 * gain_error V LowShelf (val V q) * 3100 <= 1
  /\ (forall n, fin V (x n) = true /\ Rabs (val V (x n)) <= 1) /\ (forall n, Rabs (y n) <= 105400)
  /\ 256 * (1 + 105400) <= fmax V
  /\ too_steep V (fl64 20 0) (fl64 4 0)
  /\ only_used (K := rbj_args f64) [CLastOut; CProcess (fl64 2 0)].
Proof. exact C97_hyps_aux. Qed.
@*)
