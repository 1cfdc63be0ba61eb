(** Proofs of C76-C80. *)
From Coq Require Import Reals Lra Lia List Psatz.
From Coquelicot Require Import Coquelicot.
From Verif Require Import Num NumR FilterM RbjM Device Signal SignalFacts CoreLemmas FilterFacts
  FilterLemmas RbjSpec RbjFacts RbjLemmas EqSpec EqFacts.
Import ListNotations.
Open Scope R_scope.

(*@PROP
(** Properties C76-C80 of the RBJ filters at every frequency, exact arithmetic.

    Vocabulary: [Signal], [RbjSpec] and [EqSpec] (the Cookbook's analog
    prototypes, the warped frequency, gains, energy).  Settings that meet the
    hypotheses: [valid_settings] in [PropRbj] and [C77_hyps] below. *)
From Coq Require Import Reals List Lra.
From Coquelicot Require Import Coquelicot.
From Verif Require Import Num NumR FilterM RbjM Device Signal RbjSpec EqSpec EqLemmas.
Import ListNotations.
Open Scope R_scope.
@*)

(** C76: at every frequency the filter has the gain and the phase shift of the
    Cookbook's prototype at the warped frequency. *)
Lemma C76_analog_response_thm :
  forall (kind : rbj_kind) (args : rbj_args R) (w g theta : R),
    valid kind args -> 0 <= w < PI ->
    analog_response kind args w = (g * cos theta, g * sin theta) ->
    rbj_passes kind args w g theta.
Proof.
  intros kind args w g theta H Hw E. apply analog_passes; [exact H|exact Hw|]. rewrite E.
  unfold Cmult, RtoC, SignalFacts.cis; cbn [fst snd]. apply injective_projections; cbn [fst snd]; ring.
Qed.

(** C76: the gain is the prototype's magnitude and nothing else. *)
Lemma C76_analog_gain_thm :
  forall (kind : rbj_kind) (args : rbj_args R) (w g : R),
    valid kind args -> 0 < w < PI ->
    (gain kind args w g <-> g = Cmod (analog_response kind args w)).
Proof.
  intros kind args w g H Hw. split.
  - apply gain_is; assumption.
  - intros ->. apply analog_gain; [exact H|lra].
Qed.

Lemma amp_sq db : amp db * amp db = db_factor db.
Proof. unfold amp, db_factor. rewrite <- Rpower_plus. f_equal. field. Qed.

Lemma amp_ge1 db : 0 <= db -> 1 <= amp db.
Proof.
  intros H. unfold amp. rewrite <- (Rpower_O 10) by lra. apply Rle_Rpower; lra.
Qed.

Lemma amp_le1 db : db <= 0 -> amp db <= 1.
Proof.
  intros H. unfold amp. rewrite <- (Rpower_O 10) by lra. apply Rle_Rpower; lra.
Qed.

Lemma db_factor_ge1 db : 0 <= db -> 1 <= db_factor db.
Proof. intros H. assert (A := amp_ge1 db H). rewrite <- amp_sq. nra. Qed.

Lemma db_factor_le1 db : db <= 0 -> db_factor db <= 1.
Proof. intros H. assert (A := amp_le1 db H). assert (P := amp_pos db). rewrite <- amp_sq. nra. Qed.

Lemma sq_between g lo hi : 0 <= g -> 0 <= lo -> 0 <= hi ->
  lo * lo <= g * g <= hi * hi -> lo <= g <= hi.
Proof. intros. split; apply Rsqr_incr_0; unfold Rsqr; lra. Qed.

(** From [g*g*d = n], d > 0. *)
Lemma bounds_from g n d lo hi : 0 <= g -> 0 <= lo -> 0 <= hi -> 0 < d ->
  g * g * d = n -> lo * lo * d <= n -> n <= hi * hi * d -> lo <= g <= hi.
Proof.
  intros Hg Hl Hh Hd E H1 H2. apply sq_between; [assumption..|]. subst n.
  split; apply Rmult_le_reg_r with d; assumption.
Qed.

Definition between (a b x : R) : Prop := Rmin a b <= x <= Rmax a b.

Lemma between_le a b x : a <= b -> a <= x <= b -> between a b x.
Proof. intros H Hx. unfold between. rewrite Rmin_left, Rmax_right by lra. exact Hx. Qed.
Lemma between_ge a b x : b <= a -> b <= x <= a -> between a b x.
Proof. intros H Hx. unfold between. rewrite Rmin_right, Rmax_left by lra. exact Hx. Qed.

Lemma peak_num A O q : 0 < q ->
  m2 (1 - O * O, O * A / q) = (1 - O * O) * (1 - O * O) + (A * A) * ((O / q) * (O / q)).
Proof. intros H. unfold m2; cbn. field. lra. Qed.

Lemma peak_den A O q : 0 < q -> 0 < A ->
  (A * A) * m2 (1 - O * O, O / (A * q)) = (A * A) * ((1 - O * O) * (1 - O * O)) + (O / q) * (O / q).
Proof. intros H HA. unfold m2; cbn. field. lra. Qed.

(** The squared gain of a shelf, with [u] the squared warped frequency. *)
Lemma shelf_k A x : 0 < A -> 0 < x -> 0 < (A + 1 / A) * (1 / x - 1) + 2 ->
  let k := sqrt A * inverse_q A x in k * k = (A * A + 1) * (1 / x - 1) + 2 * A.
Proof.
  intros HA Hx H k. unfold k, inverse_q.
  transitivity ((sqrt A * sqrt A) * (sqrt ((A + 1 / A) * (1 / x - 1) + 2) * sqrt ((A + 1 / A) * (1 / x - 1) + 2))); [ring|].
  rewrite !sqrt_sqrt by lra. field. lra.
Qed.

Lemma shelf_low_terms A x O : 0 < A -> 0 < x -> 0 < (A + 1 / A) * (1 / x - 1) + 2 ->
  let k := sqrt A * inverse_q A x in let u := O * O in let p := (A * A + 1) * (1 / x - 1) in
  m2 (A * (A - O * O), A * (k * O)) = A * A * (u * u + p * u + A * A)
  /\ m2 (1 - A * (O * O), k * O) = A * A * (u * u) + p * u + 1.
Proof.
  intros HA Hx H k u p. assert (E := shelf_k A x HA Hx H). cbv zeta in E. fold k in E.
  unfold m2; cbn [fst snd]. fold u. split.
  - transitivity (A * A * ((A - u) * (A - u) + (k * k) * u)); [unfold u; ring|].
    rewrite E. fold p. ring.
  - transitivity ((1 - A * u) * (1 - A * u) + (k * k) * u); [unfold u; ring|].
    rewrite E. fold p. ring.
Qed.

Lemma shelf_high_terms A x O : 0 < A -> 0 < x -> 0 < (A + 1 / A) * (1 / x - 1) + 2 ->
  let k := sqrt A * inverse_q A x in let u := O * O in let p := (A * A + 1) * (1 / x - 1) in
  m2 (A * (1 - A * (O * O)), A * (k * O)) = A * A * (A * A * (u * u) + p * u + 1)
  /\ m2 (A - O * O, k * O) = u * u + p * u + A * A.
Proof.
  intros HA Hx H k u p. assert (E := shelf_k A x HA Hx H). cbv zeta in E. fold k in E.
  unfold m2; cbn [fst snd]. fold u. split.
  - transitivity (A * A * ((1 - A * u) * (1 - A * u) + (k * k) * u)); [unfold u; ring|].
    rewrite E. fold p. ring.
  - transitivity ((A - u) * (A - u) + (k * k) * u); [unfold u; ring|].
    rewrite E. fold p. ring.
Qed.

(** C77: an equaliser section never leaves the range between unity and its own
    gain: at every frequency, the gain of a Peak lies between 1 and
    10^(dB/20). *)
Lemma C77_peak_range_thm :
  forall sr f db q w g, valid Peak (RbjGain sr f db q) -> 0 < w < PI ->
    gain Peak (RbjGain sr f db q) w g ->
    Rmin 1 (db_factor db) <= g <= Rmax 1 (db_factor db).
Proof.
  intros sr f db q w g H Hw Hg. assert (E := gain_sq _ _ _ _ H Hw Hg). cbv zeta in E.
  assert (Hd := m2_pos _ (nd_den _ _ (warped (centre (RbjGain sr f db q)) w) H)).
  set (O := warped _ w) in *. clearbody O. destruct Hg as [Hg _]. destruct H as [_ Hq].
  cbn [nd fst snd] in E, Hd. assert (Ha := amp_pos db). rewrite <- !amp_sq.
  assert (Ed := peak_den (amp db) O q Hq Ha). rewrite peak_num in E by exact Hq.
  set (d := m2 _) in *. clearbody d.
  destruct (Rle_dec 0 db) as [Hdb|Hdb].
  - assert (A1 := amp_ge1 db Hdb). set (A := amp db) in *. clearbody A.
    set (X := (1 - O * O) * (1 - O * O)) in *. set (Y := O / q * (O / q)) in *.
    assert (0 <= X) by (unfold X; apply Rle_0_sqr). assert (0 <= Y) by (unfold Y; apply Rle_0_sqr). clearbody X Y.
    assert (1 <= A * A) by nra.
    apply between_le; [nra|]. apply (bounds_from g (X + A * A * Y) d); try nra.
    + apply Rmult_le_reg_l with (A * A); [nra|]. 
      replace (A * A * (1 * 1 * d)) with (A * A * d) by ring. rewrite Ed.
      assert (0 <= (A * A * (A * A) - 1) * Y) by (apply Rmult_le_pos; nra). lra.
    + replace (A * A * (A * A) * d) with (A * A * (A * A * d)) by ring. rewrite Ed.
      assert (0 <= (A * A * (A * A) - 1) * X) by (apply Rmult_le_pos; nra). lra.
  - assert (A1 := amp_le1 db ltac:(lra)). set (A := amp db) in *. clearbody A.
    set (X := (1 - O * O) * (1 - O * O)) in *. set (Y := O / q * (O / q)) in *.
    assert (0 <= X) by (unfold X; apply Rle_0_sqr). assert (0 <= Y) by (unfold Y; apply Rle_0_sqr). clearbody X Y.
    assert (A * A <= 1) by nra.
    apply between_ge; [nra|]. apply (bounds_from g (X + A * A * Y) d); try nra.
    + replace (A * A * (A * A) * d) with (A * A * (A * A * d)) by ring. rewrite Ed.
      assert (0 <= (1 - A * A * (A * A)) * X) by (apply Rmult_le_pos; nra). lra.
    + apply Rmult_le_reg_l with (A * A); [nra|].
      replace (A * A * (1 * 1 * d)) with (A * A * d) by ring. rewrite Ed.
      assert (0 <= (1 - A * A * (A * A)) * Y) by (apply Rmult_le_pos; nra). lra.
Qed.

Lemma slope_p A x : 0 < x <= 1 -> 0 <= (A * A + 1) * (1 / x - 1).
Proof.
  intros [H0 H1]. apply Rmult_le_pos; [nra|].
  assert (1 <= 1 / x); [|lra].
  apply Rmult_le_reg_r with x; [lra|]. replace (1 / x * x) with 1 by (field; lra). lra.
Qed.

(** C77: and so does the gain of a shelf whose slope is at most 1. *)
Lemma C77_shelf_range_thm :
  forall kind sr f db slope w g, kind = LowShelf \/ kind = HighShelf ->
    valid kind (RbjGain sr f db slope) -> slope <= 1 -> 0 < w < PI ->
    gain kind (RbjGain sr f db slope) w g ->
    Rmin 1 (db_factor db) <= g <= Rmax 1 (db_factor db).
Proof.
  intros kind sr f db x w g Hk H Hs Hw Hg. assert (E := gain_sq _ _ _ _ H Hw Hg). cbv zeta in E.
  assert (Hd := m2_pos _ (nd_den _ _ (warped (centre (RbjGain sr f db x)) w) H)).
  set (O := warped _ w) in *. clearbody O. destruct Hg as [Hg _]. rewrite <- !amp_sq.
  assert (Ha := amp_pos db).
  assert (Hx : 0 < x) by (destruct Hk as [-> | ->]; destruct H as [_ [H _]]; exact H).
  assert (Hv : 0 < (amp db + 1 / amp db) * (1 / x - 1) + 2)
    by (destruct Hk as [-> | ->]; destruct H as [_ [_ H]]; exact H).
  assert (Hp := slope_p (amp db) x ltac:(lra)).
  assert (HA : (1 <= amp db /\ 1 <= amp db * amp db) \/ (amp db <= 1 /\ amp db * amp db <= 1)).
  { destruct (Rle_dec 0 db) as [Hdb|Hdb]; [left; assert (A1 := amp_ge1 db Hdb)|right; assert (A1 := amp_le1 db ltac:(lra))]; nra. }
  destruct Hk as [-> | ->]; cbn [nd fst snd] in E, Hd.
  - destruct (shelf_low_terms (amp db) x O Ha Hx Hv) as [EN ED].
    rewrite EN, ED in E. rewrite ED in Hd. clear EN ED.
    set (A := amp db) in *. set (u := O * O) in *. set (p := (A * A + 1) * (1 / x - 1)) in *.
    assert (Hu : 0 <= u) by (unfold u; apply Rle_0_sqr).
    assert (Hpu : 0 <= p * u) by (apply Rmult_le_pos; assumption).
    assert (Huu : 0 <= u * u) by nra. clearbody u p A. clear H Hv.
    set (B := A * A) in *. assert (HB : 0 < B) by (unfold B; nra).
    destruct HA as [[A1 B1]|[A1 B1]].
    + apply between_le; [exact B1|]. eapply bounds_from; [| | | |exact E| |]; try lra.
      * assert (0 <= (B - 1) * (p * u)) by (apply Rmult_le_pos; lra).
        assert (0 <= (B * B - 1)) by nra. nra.
      * assert (0 <= (B * B - 1) * (u * u)) by (apply Rmult_le_pos; nra).
        assert (0 <= (B - 1) * (p * u)) by (apply Rmult_le_pos; lra).
        apply Rmult_le_reg_l with (/ B); [apply Rinv_0_lt_compat; lra|].
        rewrite <- !Rmult_assoc, Rinv_l by lra. lra.
    + apply between_ge; [exact B1|]. eapply bounds_from; [| | | |exact E| |]; try lra.
      * assert (0 <= (1 - B * B) * (u * u)) by (apply Rmult_le_pos; nra).
        assert (0 <= (1 - B) * (p * u)) by (apply Rmult_le_pos; lra).
        apply Rmult_le_reg_l with (/ B); [apply Rinv_0_lt_compat; lra|].
        rewrite <- !Rmult_assoc, Rinv_l by lra. lra.
      * assert (0 <= (1 - B) * (p * u)) by (apply Rmult_le_pos; lra).
        assert (0 <= (1 - B * B)) by nra. nra.
  - destruct (shelf_high_terms (amp db) x O Ha Hx Hv) as [EN ED].
    rewrite EN, ED in E. rewrite ED in Hd. clear EN ED.
    set (A := amp db) in *. set (u := O * O) in *. set (p := (A * A + 1) * (1 / x - 1)) in *.
    assert (Hu : 0 <= u) by (unfold u; apply Rle_0_sqr).
    assert (Hpu : 0 <= p * u) by (apply Rmult_le_pos; assumption).
    assert (Huu : 0 <= u * u) by nra. clearbody u p A. clear H Hv.
    set (B := A * A) in *. assert (HB : 0 < B) by (unfold B; nra).
    destruct HA as [[A1 B1]|[A1 B1]].
    + apply between_le; [exact B1|]. eapply bounds_from; [| | | |exact E| |]; try lra.
      * assert (0 <= (B - 1) * (p * u)) by (apply Rmult_le_pos; lra).
        assert (0 <= (B * B - 1) * (u * u)) by (apply Rmult_le_pos; nra). lra.
      * assert (0 <= (B - 1) * (p * u)) by (apply Rmult_le_pos; lra).
        assert (0 <= (B * B - 1)) by nra.
        apply Rmult_le_reg_l with (/ B); [apply Rinv_0_lt_compat; lra|].
        rewrite <- !Rmult_assoc, Rinv_l by lra. lra.
    + apply between_ge; [exact B1|]. eapply bounds_from; [| | | |exact E| |]; try lra.
      * assert (0 <= (1 - B) * (p * u)) by (apply Rmult_le_pos; lra).
        assert (0 <= (1 - B * B)) by nra.
        apply Rmult_le_reg_l with (/ B); [apply Rinv_0_lt_compat; lra|].
        rewrite <- !Rmult_assoc, Rinv_l by lra. lra.
      * assert (0 <= (1 - B) * (p * u)) by (apply Rmult_le_pos; lra).
        assert (0 <= (1 - B * B) * (u * u)) by (apply Rmult_le_pos; nra). lra.
Qed.

(** Any positive warped frequency is reached. *)
Lemma unwarp w0 O : 0 < w0 < PI -> 0 < O -> exists w, 0 < w < PI /\ warped w0 w = O.
Proof.
  intros H0 HO. assert (Ht := tan_half_pos w0 H0).
  assert (Hp : 0 < O * tan (w0 / 2)) by (apply Rmult_lt_0_compat; assumption).
  exists (2 * atan (O * tan (w0 / 2))).
  assert (B := atan_bound (O * tan (w0 / 2))).
  assert (P : 0 < atan (O * tan (w0 / 2))) by (rewrite <- atan_0; apply atan_increasing; exact Hp).
  split; [lra|]. unfold warped.
  replace (2 * atan (O * tan (w0 / 2)) / 2) with (atan (O * tan (w0 / 2))) by field.
  rewrite tan_atan. field. lra.
Qed.

(** C77: a slope above 1 does overshoot: whatever the gain (a boost), some
    frequency is amplified by more than the shelf's gain. *)
Lemma C77_steep_shelf_overshoots_thm :
  forall kind sr f db slope, kind = LowShelf \/ kind = HighShelf ->
    valid kind (RbjGain sr f db slope) -> 1 < slope -> 0 < db ->
    exists w g, 0 < w < PI /\ gain kind (RbjGain sr f db slope) w g /\ db_factor db < g.
Proof.
  intros kind sr f db x Hk H Hx Hdb. assert (Ha := amp_pos db).
  assert (Hv : 0 < (amp db + 1 / amp db) * (1 / x - 1) + 2)
    by (destruct Hk as [-> | ->]; destruct H as [_ [_ H]]; exact H).
  assert (Hb : valid_band sr f) by (destruct Hk as [-> | ->]; destruct H as [H _]; exact H).
  assert (A1 : 1 < amp db).
  { unfold amp. rewrite <- (Rpower_O 10) by lra. apply Rpower_lt; lra. }
  assert (Hc : 0 < 1 - 1 / x).
  { assert (1 / x < 1); [|lra]. apply Rmult_lt_reg_r with x; [lra|].
    replace (1 / x * x) with 1 by (field; lra). lra. }
  set (c := 1 - 1 / x) in *.
  assert (Hg : forall O, 0 < O -> exists w g, 0 < w < PI
     /\ gain kind (RbjGain sr f db x) w g
     /\ g * g * m2 (snd (nd kind (RbjGain sr f db x) O)) = m2 (fst (nd kind (RbjGain sr f db x) O))).
  { intros O HO. destruct (unwarp (omega sr f) O (omega_range _ _ Hb) HO) as [w [Hw EO]].
    exists w, (Cmod (analog_response kind (RbjGain sr f db x) w)).
    assert (G := analog_gain kind (RbjGain sr f db x) w H ltac:(lra)).
    split; [exact Hw|]. split; [exact G|].
    assert (E := gain_sq _ _ _ _ H Hw G). cbv zeta in E. cbn [centre] in E. rewrite EO in E. exact E. }
  rewrite <- amp_sq.
  assert (Hp : forall B, (B + 1) * (1 / x - 1) = - ((B + 1) * c)) by (intros B; unfold c; ring).
  assert (Fin : forall g n d B, 0 < d -> 0 <= g -> g * g * d = n -> 0 < B -> B * B * d < n -> B < g).
  { intros g n d B Hd Hg0 E HB Hlt. subst n. apply Rmult_lt_reg_r in Hlt; [|exact Hd]. nra. }
  assert (B1 : 1 < amp db * amp db) by nra.
  destruct Hk as [-> | ->].
  - destruct (Hg (sqrt (c / 2)) ltac:(apply sqrt_lt_R0; lra)) as [w [g [Hw [G E]]]].
    exists w, g. split; [exact Hw|]. split; [exact G|].
    assert (Hd := m2_pos _ (nd_den _ _ (sqrt (c / 2)) H)).
    eapply Fin; [exact Hd|apply G|exact E|lra|]. cbn [nd fst snd] in *.
    destruct (shelf_low_terms (amp db) x (sqrt (c / 2)) Ha ltac:(lra) Hv) as [EN ED].
    rewrite EN, ED, sqrt_sqrt, Hp by lra. set (B := amp db * amp db) in *.
    assert (HB : 0 < (B - 1) * ((B + 1) * (c * c))) by (apply Rmult_lt_0_compat; [lra|apply Rmult_lt_0_compat; nra]).
    assert (K : B * (B * (c / 2 * (c / 2)) + - ((B + 1) * c) * (c / 2) + 1)
                < c / 2 * (c / 2) + - ((B + 1) * c) * (c / 2) + B).
    { apply Rminus_gt_0_lt.
      replace (_ - _) with ((B - 1) * ((B + 1) * (c * c)) * (/ 4)) by field. lra. }
    rewrite Rmult_assoc. apply Rmult_lt_compat_l; [lra|exact K].
  - destruct (Hg (sqrt (2 / c)) ltac:(apply sqrt_lt_R0; apply Rdiv_lt_0_compat; lra)) as [w [g [Hw [G E]]]].
    exists w, g. split; [exact Hw|]. split; [exact G|].
    assert (Hd := m2_pos _ (nd_den _ _ (sqrt (2 / c)) H)).
    assert (Hc2 : 0 < 2 / c) by (apply Rdiv_lt_0_compat; lra).
    eapply Fin; [exact Hd|apply G|exact E|lra|]. cbn [nd fst snd] in *.
    destruct (shelf_high_terms (amp db) x (sqrt (2 / c)) Ha ltac:(lra) Hv) as [EN ED].
    rewrite EN, ED, sqrt_sqrt, Hp by lra. set (B := amp db * amp db) in *.
    assert (HB : 0 < (B - 1) * (B + 1)) by (apply Rmult_lt_0_compat; lra).
    assert (K : B * (2 / c * (2 / c) + - ((B + 1) * c) * (2 / c) + B)
                < B * (2 / c * (2 / c)) + - ((B + 1) * c) * (2 / c) + 1).
    { apply Rminus_gt_0_lt.
      replace (_ - _) with ((B - 1) * (B + 1)) by (field; lra). lra. }
    rewrite Rmult_assoc. apply Rmult_lt_compat_l; [lra|exact K].
Qed.

(** Squared gains of LowPass, HighPass and the band filters. *)
Lemma den_q O q : 0 < q ->
  m2 (1 - O * O, O / q) = 1 + (1 / (q * q) - 2) * (O * O) + (O * O) * (O * O).
Proof. intros H. unfold m2; cbn. field. lra. Qed.

Lemma gain_q kind sr f q w g : valid kind (RbjQ sr f q) -> 0 < w < PI ->
  gain kind (RbjQ sr f q) w g ->
  let u := warped (omega sr f) w * warped (omega sr f) w in
  0 < u /\ 0 < q /\ 0 <= g /\ 0 < 1 + (1 / (q * q) - 2) * u + u * u /\
  g * g * (1 + (1 / (q * q) - 2) * u + u * u) = m2 (sq_terms kind q (warped (omega sr f) w)).
Proof.
  intros H Hw Hg u. assert (E := gain_sq _ _ _ _ H Hw Hg). cbv zeta in E.
  assert (Hd := m2_pos _ (nd_den _ _ (warped (omega sr f) w) H)).
  assert (Hb : valid_band sr f /\ 0 < q) by (destruct kind; try contradiction; exact H).
  destruct Hb as [Hb Hq]. assert (Hp := warped_pos _ _ (omega_range _ _ Hb) Hw).
  cbn [centre] in *. unfold u.
  assert (EN : nd kind (RbjQ sr f q) (warped (omega sr f) w)
     = (sq_terms kind q (warped (omega sr f) w),
        (1 - warped (omega sr f) w * warped (omega sr f) w, warped (omega sr f) w / q)))
    by (destruct kind; try contradiction; reflexivity).
  rewrite EN in E, Hd. cbn [fst snd] in E, Hd. rewrite den_q in E, Hd by exact Hq.
  split; [nra|]. split; [exact Hq|]. split; [apply Hg|]. split; [exact Hd|exact E].
Qed.

Definition q_kind (k : rbj_kind) : Prop :=
  match k with Peak | LowShelf | HighShelf => False | _ => True end.

Lemma valid_q k sr f q : q_kind k -> valid_band sr f -> 0 < q -> valid k (RbjQ sr f q).
Proof. intros Hk Hb Hq. destruct k; try contradiction; split; assumption. Qed.

Lemma gain_q2 k sr f q w g : gain k (RbjQ sr f q) w g -> q_kind k -> valid_band sr f -> 0 < q ->
  0 < w < PI ->
  let u := warped (omega sr f) w * warped (omega sr f) w in
  0 < u /\ 0 < q /\ 0 <= g /\ 0 < 1 + (1 / (q * q) - 2) * u + u * u /\
  g * g * (1 + (1 / (q * q) - 2) * u + u * u) = m2 (sq_terms k q (warped (omega sr f) w)).
Proof. intros Hg Hk Hb Hq Hw. apply gain_q; [apply valid_q; assumption|exact Hw|exact Hg]. Qed.

Lemma inv_q2 q : 0 < q -> q * q <= 1 / 2 -> 2 <= 1 / (q * q).
Proof.
  intros Hq H. apply Rmult_le_reg_r with (q * q); [nra|].
  replace (1 / (q * q) * (q * q)) with 1 by (field; lra). lra.
Qed.

Lemma inv_q2_lt q : 0 < q -> 1 / 2 < q * q -> 0 < 1 / (q * q) < 2.
Proof.
  intros Hq H. split; [apply Rdiv_lt_0_compat; nra|].
  apply Rmult_lt_reg_r with (q * q); [nra|].
  replace (1 / (q * q) * (q * q)) with 1 by (field; lra). lra.
Qed.

Lemma sq_eq_nneg a b : 0 <= a -> 0 <= b -> a * a = b * b -> a = b.
Proof. intros. nra. Qed.

(** C78: with q = 1/sqrt 2 LowPass and HighPass are the second-order Butterworth
    filters: at the warped frequency O (1 at the corner) their gains are
    1 / sqrt (1 + O^4) and O^2 / sqrt (1 + O^4). *)
Lemma C78_butterworth_thm :
  forall sr f w g, valid_band sr f -> 0 < w < PI ->
    let O := warped (omega sr f) w in
    (gain LowPass (RbjQ sr f (1 / sqrt 2)) w g -> g = 1 / sqrt (1 + O ^ 4))
    /\ (gain HighPass (RbjQ sr f (1 / sqrt 2)) w g -> g = O ^ 2 / sqrt (1 + O ^ 4)).
Proof.
  intros sr f w g Hb Hw O.
  assert (S2 : 0 < sqrt 2) by (apply sqrt_lt_R0; lra).
  assert (Hq : 0 < 1 / sqrt 2) by (apply Rdiv_lt_0_compat; lra).
  assert (Eq : 1 / (1 / sqrt 2 * (1 / sqrt 2)) = 2).
  { transitivity (sqrt 2 * sqrt 2); [field; lra|]. apply sqrt_sqrt. lra. }
  assert (HO := warped_pos _ _ (omega_range _ _ Hb) Hw). fold O in HO.
  assert (H4 : 0 < 1 + O ^ 4) by (assert (0 < O ^ 4) by (apply pow_lt; exact HO); lra).
  assert (Sr : 0 < sqrt (1 + O ^ 4)) by (apply sqrt_lt_R0; exact H4).
  assert (Ss := sqrt_sqrt (1 + O ^ 4) ltac:(lra)).
  split; intros Hg;
    destruct (gain_q2 _ _ _ _ _ _ Hg I Hb Hq Hw) as [Hu [_ [Hg0 [Hd E]]]];
    cbn [sq_terms] in E; unfold m2 in E; cbn [fst snd] in E; rewrite Eq in E; fold O in E;
    replace (1 + (2 - 2) * (O * O) + O * O * (O * O)) with (1 + O ^ 4) in E by ring.
  - apply sq_eq_nneg; [exact Hg0|left; apply Rdiv_lt_0_compat; lra|].
    apply Rmult_eq_reg_r with (1 + O ^ 4); [|lra]. rewrite E. rewrite <- Ss at 3. field. lra.
  - apply sq_eq_nneg; [exact Hg0|left; apply Rdiv_lt_0_compat; [apply pow_lt; exact HO|lra]|].
    apply Rmult_eq_reg_r with (1 + O ^ 4); [|lra]. rewrite E. rewrite <- Ss at 3. field. lra.
Qed.

Lemma cross_lt a b n m d e : 0 <= a -> 0 <= b -> 0 < d -> 0 < e ->
  a * a * d = n -> b * b * e = m -> n * e < m * d -> a < b.
Proof.
  intros Ha Hb Hd He E1 E2 H. subst n m. assert (a * a < b * b); [|nra].
  apply Rmult_lt_reg_r with (d * e); [apply Rmult_lt_0_compat; assumption|]. lra.
Qed.

Lemma below_1 a n d : 0 <= a -> 0 < d -> a * a * d = n -> n < d -> a < 1.
Proof.
  intros Ha Hd E H. subst n. assert (a * a < 1); [|nra].
  apply Rmult_lt_reg_r with d; [exact Hd|]. lra.
Qed.

(** C78: with q up to 1/sqrt 2 there is no resonance: the gain of LowPass
    strictly falls and the gain of HighPass strictly rises with the frequency,
    and both stay below 1. *)
Lemma C78_monotone_thm :
  forall sr f q w w' g g', valid_band sr f -> 0 < q -> q * q <= 1 / 2 ->
    0 < w -> w < w' -> w' < PI ->
    (gain LowPass (RbjQ sr f q) w g -> gain LowPass (RbjQ sr f q) w' g' -> g' < g < 1)
    /\ (gain HighPass (RbjQ sr f q) w g -> gain HighPass (RbjQ sr f q) w' g' -> g < g' < 1).
Proof.
  intros sr f q w w' g g' Hb Hq Hq2 H1 H2 H3.
  assert (Hw : 0 < w < PI) by lra. assert (Hw' : 0 < w' < PI) by lra.
  assert (HO := warped_pos _ _ (omega_range _ _ Hb) Hw).
  assert (Hlt := warped_lt _ w w' (omega_range _ _ Hb) ltac:(lra) H2 H3).
  assert (Hr := inv_q2 q Hq Hq2).
  assert (LT : forall a b, 0 <= a -> 0 <= b -> a * a < b * b -> a < b) by (intros; nra).
  split; intros Hg Hg';
    destruct (gain_q2 _ _ _ _ _ _ Hg I Hb Hq Hw) as [Hu [_ [Hg0 [Hd E]]]];
    destruct (gain_q2 _ _ _ _ _ _ Hg' I Hb Hq Hw') as [Hu' [_ [Hg0' [Hd' E']]]];
    cbn [sq_terms] in E, E'; unfold m2 in E, E'; cbn [fst snd] in E, E';
    set (O := warped (omega sr f) w) in *; set (O' := warped (omega sr f) w') in *;
    set (r := 1 / (q * q)) in *; clearbody r.
  all: assert (Huu : O * O < O' * O') by nra.
  all: set (u := O * O) in *; set (v := O' * O') in *; clearbody u v; clear O O' HO Hlt Hg Hg'.
  - assert (D0 : 0 <= (r - 2) * u) by (apply Rmult_le_pos; lra).
    assert (D1 : 1 < 1 + (r - 2) * u + u * u) by nra.
    assert (D2 : 1 + (r - 2) * u + u * u < 1 + (r - 2) * v + v * v).
    { assert (0 <= (r - 2) * (v - u)) by (apply Rmult_le_pos; lra). nra. }
    split; [eapply cross_lt; [exact Hg0'|exact Hg0| | |exact E'|exact E|]|eapply below_1; [exact Hg0| |exact E|]]; lra.
  - assert (D0 : 0 <= (r - 2) * u) by (apply Rmult_le_pos; lra).
    assert (D0' : 0 <= (r - 2) * v) by (apply Rmult_le_pos; lra).
    split; [eapply cross_lt; [exact Hg0|exact Hg0'| | |exact E|exact E'|]|eapply below_1; [exact Hg0'| |exact E'|]]; try lra.
    assert (P : 0 <= (r - 2) * (u * v * (v - u))) by (apply Rmult_le_pos; [lra|apply Rmult_le_pos; nra]).
    assert (Q : 0 < (v - u) * (v + u)) by (apply Rmult_lt_0_compat; lra).
    lra.
Qed.

(** C78: with a larger q both filters resonate: some frequency is amplified. *)
Lemma C78_resonance_thm :
  forall sr f q, valid_band sr f -> 0 < q -> 1 / 2 < q * q ->
    (exists w g, 0 < w < PI /\ gain LowPass (RbjQ sr f q) w g /\ 1 < g)
    /\ (exists w g, 0 < w < PI /\ gain HighPass (RbjQ sr f q) w g /\ 1 < g).
Proof.
  intros sr f q Hb Hq Hq2. assert (Hr := inv_q2_lt q Hq Hq2).
  assert (LT : forall a, 0 <= a -> 1 < a * a -> 1 < a) by (intros; nra).
  split.
  - assert (Hs : 0 < (2 - 1 / (q * q)) / 2) by lra.
    destruct (unwarp (omega sr f) (sqrt ((2 - 1 / (q * q)) / 2)) (omega_range _ _ Hb)
                ltac:(apply sqrt_lt_R0; exact Hs)) as [w [Hw EO]].
    exists w, (Cmod (analog_response LowPass (RbjQ sr f q) w)).
    assert (G := analog_gain LowPass (RbjQ sr f q) w (conj Hb Hq) ltac:(lra)).
    split; [exact Hw|]. split; [exact G|].
    destruct (gain_q2 _ _ _ _ _ _ G I Hb Hq Hw) as [Hu [_ [Hg0 [Hd E]]]].
    cbn [sq_terms] in E; unfold m2 in E; cbn [fst snd] in E. rewrite EO in E, Hd.
    rewrite sqrt_sqrt in E, Hd by lra.
    set (r := 1 / (q * q)) in *. set (g := Cmod _) in *. clearbody r g.
    apply LT; [exact Hg0|]. apply Rmult_lt_reg_r with (1 + (r - 2) * ((2 - r) / 2) + (2 - r) / 2 * ((2 - r) / 2)).
    + exact Hd.
    + rewrite E. assert (0 < (2 - r) * (2 - r)) by (apply Rmult_lt_0_compat; lra). lra.
  - assert (Hs : 0 < 2 / (2 - 1 / (q * q))) by (apply Rdiv_lt_0_compat; lra).
    destruct (unwarp (omega sr f) (sqrt (2 / (2 - 1 / (q * q)))) (omega_range _ _ Hb)
                ltac:(apply sqrt_lt_R0; exact Hs)) as [w [Hw EO]].
    exists w, (Cmod (analog_response HighPass (RbjQ sr f q) w)).
    assert (G := analog_gain HighPass (RbjQ sr f q) w (conj Hb Hq) ltac:(lra)).
    split; [exact Hw|]. split; [exact G|].
    destruct (gain_q2 _ _ _ _ _ _ G I Hb Hq Hw) as [Hu [_ [Hg0 [Hd E]]]].
    cbn [sq_terms] in E; unfold m2 in E; cbn [fst snd] in E. rewrite EO in E, Hd.
    rewrite sqrt_sqrt in E, Hd by lra.
    set (r := 1 / (q * q)) in *. set (g := Cmod _) in *. clearbody r g.
    apply LT; [exact Hg0|].
    replace (1 + (r - 2) * (2 / (2 - r)) + 2 / (2 - r) * (2 / (2 - r))) with (2 / (2 - r) * (2 / (2 - r)) - 1) in * by (field; lra).
    apply Rmult_lt_reg_r with (2 / (2 - r) * (2 / (2 - r)) - 1); [exact Hd|]. rewrite E. lra.
Qed.

(** C79: BandPass2 and BandStop share the power at every frequency; BandPass2
    never exceeds unity, which it reaches at its centre only, and its half-power
    (-3 dB) frequencies are the solutions of |O - 1/O| = 1/q. *)
Lemma C79_band_thm :
  forall sr f q w gb gs, valid_band sr f -> 0 < q -> 0 < w < PI ->
    gain BandPass2 (RbjQ sr f q) w gb -> gain BandStop (RbjQ sr f q) w gs ->
    let O := warped (omega sr f) w in
    gb ^ 2 + gs ^ 2 = 1
    /\ gb <= 1 /\ (gb = 1 <-> w = omega sr f)
    /\ gs < 1 /\ (gs = 0 <-> w = omega sr f)
    /\ (gb ^ 2 = 1 / 2 <-> Rabs (O - 1 / O) = 1 / q).
Proof.
  intros sr f q w gb gs Hb Hq Hw HB HS O.
  destruct (gain_q2 _ _ _ _ _ _ HB I Hb Hq Hw) as [Hu [_ [Hg0 [Hd E]]]].
  destruct (gain_q2 _ _ _ _ _ _ HS I Hb Hq Hw) as [_ [_ [Hg0' [_ E']]]].
  assert (HO := warped_pos _ _ (omega_range _ _ Hb) Hw).
  assert (HC : w = omega sr f <-> O = 1).
  { split; [intros ->; apply warped_centre, omega_range, Hb|]. intros EO.
    assert (EC := warped_centre _ (omega_range _ _ Hb)).
    assert (Hr := omega_range _ _ Hb).
    destruct (Rtotal_order w (omega sr f)) as [L|[L|L]]; [|exact L|].
    - assert (X := warped_lt (omega sr f) w (omega sr f) Hr ltac:(lra) L ltac:(lra)). fold O in X. lra.
    - assert (X := warped_lt (omega sr f) (omega sr f) w Hr ltac:(lra) L ltac:(lra)). fold O in X. lra. }
  cbn [sq_terms] in E, E'; unfold m2 in E, E'; cbn [fst snd] in E, E'. fold O in E, E', Hd, Hu, HO.
  set (d := 1 + (1 / (q * q) - 2) * (O * O) + O * O * (O * O)) in *.
  assert (ED : d = (1 - O * O) * (1 - O * O) + (O / q) * (O / q)) by (unfold d; field; lra).
  clearbody d.
  assert (HY : 0 < O / q) by (apply Rdiv_lt_0_compat; lra).
  assert (HX : 0 <= (1 - O * O) * (1 - O * O)) by apply Rle_0_sqr.
  assert (P1 : gb ^ 2 + gs ^ 2 = 1).
  { apply Rmult_eq_reg_r with d; [|lra].
    transitivity (gb * gb * d + gs * gs * d); [ring|]. rewrite E, E', ED. ring. }
  assert (Gs0 : gs = 0 <-> O = 1).
  { split.
    - intros ->. assert (Z : (1 - O * O) * (1 - O * O) = 0) by lra.
      apply Rmult_integral in Z. assert (Z1 : (1 - O) * (1 + O) = 0) by (destruct Z; lra).
      apply Rmult_integral in Z1. destruct Z1; lra.
    - intros EO. rewrite EO in E'. 
      assert (Z : gs * gs * d = 0) by lra. apply Rmult_integral in Z. destruct Z as [Z|Z]; [|lra].
      apply Rmult_integral in Z. destruct Z; assumption. }
  assert (Hgb : 0 < gb * gb).
  { apply Rmult_lt_reg_r with d; [exact Hd|]. rewrite E, Rmult_0_l.
    assert (0 < O / q * (O / q)) by (apply Rmult_lt_0_compat; assumption). lra. }
  split; [exact P1|]. split; [nra|]. split; [|split; [nra|split]].
  - rewrite HC, <- Gs0. split; intros Z; nra.
  - rewrite HC. exact Gs0.
  - assert (EQ : gb ^ 2 = 1 / 2 <-> (1 - O * O) * (1 - O * O) = (O / q) * (O / q)).
    { split; intros Z.
      - replace (gb ^ 2) with (gb * gb) in Z by ring. rewrite Z in E. lra.
      - apply Rmult_eq_reg_r with d; [|lra]. replace (gb ^ 2 * d) with (gb * gb * d) by ring.
        rewrite E. lra. }
    rewrite EQ. clear EQ.
    assert (EA : Rabs (O - 1 / O) = Rabs (1 - O * O) / O).
    { replace (O - 1 / O) with (- ((1 - O * O) / O)) by (field; lra).
      rewrite Rabs_Ropp. unfold Rdiv. rewrite Rabs_mult, (Rabs_pos_eq (/ O)); [reflexivity|].
      left. apply Rinv_0_lt_compat, HO. }
    rewrite EA. split; intros Z.
    + assert (Z1 : Rabs (1 - O * O) = O / q).
      { apply sq_eq_nneg; [apply Rabs_pos|lra|]. rewrite <- Z.
        apply (f_equal (fun z => z)). symmetry. apply Rsqr_abs. }
      rewrite Z1. field. lra.
    + assert (Z1 : Rabs (1 - O * O) = O / q).
      { replace (O / q) with (O * (1 / q)) by (field; lra). rewrite <- Z. field. lra. }
      rewrite <- Z1. apply Rsqr_abs.
Qed.

(** C79: q is the quality of BandPass2: it passes at least half of the power
    exactly on the band between two edges around the centre, whose warped
    frequencies are reciprocal and 1/q apart. *)
Lemma C79_pass_band_thm :
  forall sr f q, valid_band sr f -> 0 < q ->
    exists w1 w2, 0 < w1 < omega sr f /\ omega sr f < w2 < PI
      /\ warped (omega sr f) w1 * warped (omega sr f) w2 = 1
      /\ warped (omega sr f) w2 - warped (omega sr f) w1 = 1 / q
      /\ forall w g, 0 < w < PI -> gain BandPass2 (RbjQ sr f q) w g ->
           (1 / 2 <= g ^ 2 <-> w1 <= w <= w2).
Proof.
  intros sr f q Hb Hq. assert (Hr := omega_range _ _ Hb). set (w0 := omega sr f) in *.
  set (h := 1 / (2 * q)). assert (Hh : 0 < h) by (apply Rdiv_lt_0_compat; lra).
  assert (Eh : 1 / q = 2 * h) by (unfold h; field; lra).
  set (r := sqrt (1 + h * h)).
  assert (Er : r * r = 1 + h * h) by (apply sqrt_sqrt; nra).
  assert (Hr0 : 0 <= r) by apply sqrt_pos.
  assert (Hrh : h < r) by nra. assert (Hr1 : 1 < r) by nra. assert (Hr2 : r < 1 + h) by nra. clearbody r.
  destruct (unwarp w0 (r - h) Hr ltac:(lra)) as [w1 [Hw1 E1]].
  destruct (unwarp w0 (r + h) Hr ltac:(lra)) as [w2 [Hw2 E2]].
  assert (EC := warped_centre w0 Hr).
  assert (MONO : forall a b, 0 < a < PI -> 0 < b < PI -> warped w0 a <= warped w0 b -> a <= b).
  { intros a b Ha Hb' L. destruct (Rle_lt_dec a b) as [|X]; [assumption|].
    assert (Y := warped_lt w0 b a Hr ltac:(lra) X ltac:(lra)). lra. }
  assert (MONO' : forall a b, 0 < a < PI -> 0 < b < PI -> a <= b -> warped w0 a <= warped w0 b).
  { intros a b Ha Hb2 L. destruct L as [L| -> ]; [|lra]. left. apply warped_lt; lra. }
  assert (L1 : w1 <= w0) by (apply MONO; lra). assert (L2 : w0 <= w2) by (apply MONO; lra).
  assert (N1 : w1 <> w0) by (intros X; rewrite X in E1; lra).
  assert (N2 : w0 <> w2) by (intros X; rewrite <- X in E2; lra).
  exists w1, w2. split; [lra|]. split; [lra|]. rewrite E1, E2.
  split; [nra|]. split; [lra|]. intros w g Hw HB.
  destruct (gain_q2 _ _ _ _ _ _ HB I Hb Hq Hw) as [_ [_ [Hg0 [Hd E]]]].
  assert (HO := warped_pos _ _ Hr Hw). fold w0 in E, Hd.
  cbn [sq_terms] in E; unfold m2 in E; cbn [fst snd] in E.
  assert (HI : w1 <= w <= w2 <-> r - h <= warped w0 w <= r + h).
  { rewrite <- E1, <- E2. split; intros [X Y]; split; ((apply MONO; assumption) || (apply MONO'; assumption)). }
  rewrite HI. set (O := warped w0 w) in *. clearbody O.
  set (d := 1 + (1 / (q * q) - 2) * (O * O) + O * O * (O * O)) in *.
  assert (Ed : d = (1 - O * O) * (1 - O * O) + (2 * h * O) * (2 * h * O)) by (unfold d, h; field; lra).
  assert (En : g * g * d = 2 * h * O * (2 * h * O)) by (rewrite E; unfold h; field; lra).
  clearbody d. assert (Hy : 0 < 2 * h * O) by (apply Rmult_lt_0_compat; lra).
  transitivity ((1 - O * O) * (1 - O * O) <= 2 * h * O * (2 * h * O)).
  - replace (g ^ 2) with (g * g) by ring. split; intros X.
    + assert (1 / 2 * d <= g * g * d) by (apply Rmult_le_compat_r; lra). lra.
    + apply Rmult_le_reg_r with d; [exact Hd|]. lra.
  - assert (F2 : (O - (r + h)) * (O + (r - h)) = O * O - 1 - 2 * h * O) by nra.
    assert (F1 : (O - (r - h)) * (O + (r + h)) = O * O - 1 + 2 * h * O) by nra.
    split.
    + intros X. assert (A : - (2 * h * O) <= 1 - O * O <= 2 * h * O) by (split; nra). split; nra.
    + intros [X Y].
      assert ((O - (r + h)) * (O + (r - h)) <= 0) by nra.
      assert (0 <= (O - (r - h)) * (O + (r + h))) by (apply Rmult_le_pos; lra).
      assert (A : - (2 * h * O) <= 1 - O * O <= 2 * h * O) by lra. nra.
Qed.

(*@PROP
(** A shelf with slope at most 1, one with a larger slope, and a steep and a
    gentle q; the gains exist by C76. *)
Example C77_hyps :
  valid LowShelf (RbjGain 48000 1000 6 0.5) /\ valid HighShelf (RbjGain 48000 1000 6 1.1)
  /\ (exists g, gain LowShelf (RbjGain 48000 1000 6 0.5) 1 g)
  /\ 1 / sqrt 2 * (1 / sqrt 2) <= 1 / 2 < 3 * 3.
Proof.
  assert (Hb : valid_band 48000 1000) by (unfold valid_band; lra).
  assert (Hs : valid_slope 6 0.5).
  { unfold valid_slope. cbv zeta. split; [lra|].
    assert (H : 0 < Rpower 10 (6 / 40)) by apply exp_pos.
    assert (0 < 1 / Rpower 10 (6 / 40)) by (apply Rdiv_lt_0_compat; lra). lra. }
  assert (Ht : valid_slope 6 1.1).
  { unfold valid_slope. cbv zeta. split; [lra|].
    assert (H1 : 1 <= Rpower 10 (6 / 40)) by (rewrite <- (Rpower_O 10) by lra; apply Rle_Rpower; lra).
    assert (H2 : Rpower 10 (6 / 40) <= 10) by (rewrite <- (Rpower_1 10) at 2 by lra; apply Rle_Rpower; lra).
    set (a := Rpower 10 (6 / 40)) in *.
    assert (1 / a <= 1) by (apply Rmult_le_reg_r with a; [lra|]; replace (1 / a * a) with 1 by (field; lra); lra).
    lra. }
  assert (HV : valid LowShelf (RbjGain 48000 1000 6 0.5)) by (split; assumption).
  split; [exact HV|]. split; [split; assumption|]. split.
  - eexists. apply (C76_analog_gain_thm _ _ _ _ HV); [assert (P := PI2_3_2); lra|reflexivity].
  - assert (S2 : sqrt 2 * sqrt 2 = 2) by (apply sqrt_sqrt; lra).
    assert (0 < sqrt 2) by (apply sqrt_lt_R0; lra).
    replace (1 / sqrt 2 * (1 / sqrt 2)) with (1 / (sqrt 2 * sqrt 2)) by (field; lra).
    rewrite S2. lra.
Qed.
@*)

(** ** Energy *)
Lemma back_lin3 a b c u v w j n :
  back j (fun m => a * u m + b * v m + c * w m) n = a * back j u n + b * back j v n + c * back j w n.
Proof. unfold back. destruct (j <=? n)%nat; ring. Qed.

Lemma back_ext j u v n : (forall m, u m = v m) -> back j u n = back j v n.
Proof. intros H. unfold back. destruct (j <=? n)%nat; [apply H|reflexivity]. Qed.

Definition quad (a1 a2 p q : R) : R :=
  (1 - a2 * a2) * (p * p + q * q) + 2 * a1 * (1 - a2) * (p * q).

Lemma allpass_energy a1 a2 x y : obeys (a2, a1, 1, a1, a2) x y ->
  exists w, obeys (1, 0, 0, a1, a2) x w /\
    forall n, energy x n - energy y n = quad a1 a2 (back 1 w n) (back 2 w n).
Proof.
  intros Hy.
  set (w := out (dev_two_pole R_ops) (configured (dev_two_pole R_ops) (1, a1, a2)) x).
  assert (Hw : obeys (1, 0, 0, a1, a2) x w) by (apply filter_obeys; constructor).
  exists w. split; [exact Hw|].
  set (z := fun n => a2 * w n + a1 * back 1 w n + 1 * back 2 w n).
  assert (Ex : forall n, x n = 1 * w n + a1 * back 1 w n + a2 * back 2 w n).
  { intros n. rewrite (Hw n). ring. }
  assert (Hz : obeys (a2, a1, 1, a1, a2) x z).
  { intros n. rewrite (back_ext 1 x _ n Ex), (back_ext 2 x _ n Ex), (Ex n).
    unfold z. rewrite !back_lin3. rewrite (back_back 2 1). ring. }
  assert (E : forall n, y n = z n) by (intros n; exact (obeys_unique _ x x y z (fun _ => eq_refl) Hy Hz n)).
  intros n. induction n as [|n IH].
  - cbn. unfold quad. ring.
  - cbn [energy]. rewrite !back_SS, back_0, E, (Ex n). unfold z.
    transitivity ((energy x n - energy y n)
       + ((1 * w n + a1 * back 1 w n + a2 * back 2 w n) * (1 * w n + a1 * back 1 w n + a2 * back 2 w n)
          - (a2 * w n + a1 * back 1 w n + 1 * back 2 w n) * (a2 * w n + a1 * back 1 w n + 1 * back 2 w n))); [ring|].
    rewrite IH. unfold quad. ring.
Qed.

Lemma quad_nneg a1 a2 p q : stable a1 a2 -> 0 <= quad a1 a2 p q.
Proof.
  intros [H2 H1]. apply Rabs_def2 in H2. apply Rabs_def2 in H1.
  unfold quad.
  replace (_ + _) with ((1 - a2) * ((1 + a2) * (p * p + q * q) + 2 * a1 * (p * q))) by ring.
  apply Rmult_le_pos; [lra|].
  replace ((1 + a2) * (p * p + q * q) + 2 * a1 * (p * q))
    with ((1 + a2 + a1) / 2 * ((p + q) * (p + q)) + (1 + a2 - a1) / 2 * ((p - q) * (p - q))) by field.
  assert (0 <= (p + q) * (p + q)) by apply Rle_0_sqr.
  assert (0 <= (p - q) * (p - q)) by apply Rle_0_sqr.
  apply Rplus_le_le_0_compat; apply Rmult_le_pos; lra.
Qed.

Lemma allpass_form sr f q x : valid AllPass (RbjQ sr f q) ->
  exists a1 a2, stable a1 a2 /\ obeys (a2, a1, 1, a1, a2) x (rbj_out AllPass (RbjQ sr f q) x).
Proof.
  intros H. assert (Ho := valid_obeys AllPass (RbjQ sr f q) x H).
  assert (Hs := raw_stable AllPass (RbjQ sr f q) H). cbn [raw raw_q norm6 stable6] in *.
  destruct Hs as [S0 [S2 S1]].
  exists (-2 * cos (omega sr f) / (1 + alpha_q sr f q)), ((1 - alpha_q sr f q) / (1 + alpha_q sr f q)).
  split; [apply stable_norm; assumption|].
  replace ((1 + alpha_q sr f q) / (1 + alpha_q sr f q)) with 1 in Ho by (field; lra). exact Ho.
Qed.

(** C80: AllPass creates no energy: at any moment its output has had no more
    energy than its input. *)
Lemma C80_allpass_passive_thm :
  forall sr f q (x : signal) (n : nat), valid AllPass (RbjQ sr f q) ->
    energy (rbj_out AllPass (RbjQ sr f q) x) n <= energy x n.
Proof.
  intros sr f q x n H. destruct (allpass_form sr f q x H) as [a1 [a2 [Hs Ho]]].
  destruct (allpass_energy _ _ _ _ Ho) as [w [_ E]]. assert (Q := quad_nneg a1 a2 (back 1 w n) (back 2 w n) Hs).
  specialize (E n). lra.
Qed.

(** C80: and it loses none: for an input that dies away, all the energy comes
    out in the end. *)
Lemma C80_allpass_lossless_thm :
  forall sr f q (x : signal), valid AllPass (RbjQ sr f q) -> is_lim_seq x 0 ->
    is_lim_seq (fun n => energy x n - energy (rbj_out AllPass (RbjQ sr f q) x) n) 0.
Proof.
  intros sr f q x H Hx. destruct (allpass_form sr f q x H) as [a1 [a2 [Hs Ho]]].
  destruct (allpass_energy _ _ _ _ Ho) as [w [Hw E]].
  assert (Lw : is_lim_seq w 0).
  { apply (recur_vanish 1 0 0 a1 a2 x w Hs); [|exact Hx]. apply obeys_recur, Hw. }
  apply is_lim_seq_ext with (fun n => quad a1 a2 (back 1 w n) (back 2 w n)).
  { intros n. symmetry. apply E. }
  apply is_lim_seq_incr_n with (N := 2%nat).
  apply is_lim_seq_ext with (fun n => quad a1 a2 (w (S n)) (w n)).
  { intros n. replace (n + 2)%nat with (S (S n)) by lia. rewrite !back_SS, !back_0. reflexivity. }
  assert (Lw1 : is_lim_seq (fun n => w (S n)) 0) by (apply is_lim_seq_incr_1 in Lw; exact Lw).
  unfold quad.
  replace (Finite 0) with (Finite ((1 - a2 * a2) * (0 * 0 + 0 * 0) + 2 * a1 * (1 - a2) * (0 * 0))) by (f_equal; ring).
  apply is_lim_seq_plus'.
  - apply (is_lim_seq_scal_l _ (1 - a2 * a2) (0 * 0 + 0 * 0)). apply is_lim_seq_plus'; apply is_lim_seq_mult'; assumption.
  - apply (is_lim_seq_scal_l _ (2 * a1 * (1 - a2)) (0 * 0)). apply is_lim_seq_mult'; assumption.
Qed.

(** C80: BandStop and BandPass2 together put out no more energy than they are
    given, and exactly the input's energy in the end. *)
Lemma C80_band_energy_thm :
  forall sr f q (x : signal), valid_band sr f -> 0 < q ->
    let rest n := energy x n - (energy (rbj_out BandStop (RbjQ sr f q) x) n
                                + energy (rbj_out BandPass2 (RbjQ sr f q) x) n) in
    (forall n, 0 <= rest n) /\ (is_lim_seq x 0 -> is_lim_seq rest 0).
Proof.
  intros sr f q x Hb Hq rest.
  assert (E : forall n, rest n = (energy x n - energy (rbj_out AllPass (RbjQ sr f q) x) n) / 2).
  { intros n. unfold rest. induction n as [|n IH]; [cbn; field|]. cbn [energy].
    assert (Hsin := sin_pos _ (omega_range sr f Hb)).
    assert (Hal : 0 < sin (omega sr f) / (2 * q)) by (apply Rdiv_lt_0_compat; lra).
    destruct (C45_complementary_thm sr f q x n (Rgt_not_eq _ _ (proj1 Hb)) (Rgt_not_eq _ _ Hq) ltac:(lra)) as [_ [E1 [E2 _]]].
    rewrite E2, <- E1. clear E1 E2. set (s := rbj_out BandStop _ x n) in *. set (b := rbj_out BandPass2 _ x n) in *.
    clearbody s b. lra. }
  assert (HV : valid AllPass (RbjQ sr f q)) by (split; assumption). split.
  - intros n. rewrite E. assert (P := C80_allpass_passive_thm sr f q x n HV). lra.
  - intros Hx. apply is_lim_seq_ext with (fun n => (energy x n - energy (rbj_out AllPass (RbjQ sr f q) x) n) / 2).
    { intros n. symmetry. apply E. }
    replace (Finite 0) with (Finite (0 * / 2)) by (f_equal; ring). unfold Rdiv.
    apply (is_lim_seq_scal_r _ (/ 2) 0). apply C80_allpass_lossless_thm; assumption.
Qed.
