(** Proofs of C138.  The [@PROP] blocks are copied into [PropOver.v]. *)
(*@PROP
(** Property C138: which filters preserve the order of signals, and which low-pass filters never
    overshoot, in exact arithmetic.

    Vocabulary: [keeps_order], [keeps_rising], [no_overshoot] ([OverSpec]); [filter_eq],
    [obeys] ([Signal]); [impulse], [response] ([SysSpec]); [valid_band] ([RbjSpec]). *)
From Coq Require Import Reals List Lra Lia.
From Coquelicot Require Import Coquelicot.
From Verif Require Import Num NumR FilterM RbjM Device Signal RbjSpec SysSpec OverSpec OverLemmas.
Import ListNotations.
Open Scope R_scope.
@*)
From Coq Require Import Reals List Lra Lia.
From Coquelicot Require Import Coquelicot.
From Verif Require Import Num NumR FilterM RbjM Device Signal SignalFacts CoreLemmas FilterFacts
  FilterLemmas RbjSpec RbjFacts RbjLemmas SysSpec SysLemmas EqSpec EqFacts EqLemmas CrossLemmas OverSpec.
Import ListNotations.
Open Scope R_scope.

(** ** Second-order recurrences *)
Definition recurs (a1 a2 : R) (s : nat -> R) : Prop := forall n, s (S (S n)) = - a1 * s (S n) - a2 * s n.

Lemma recurs_shift a1 a2 s : recurs a1 a2 s -> recurs a1 a2 (fun n => s (S n)).
Proof. intros H n. apply H. Qed.

(** No real root: no non-negative solution but 0. *)
Lemma complex_sign a1 a2 s : recurs a1 a2 s -> a1 * a1 < 4 * a2 -> (forall n, 0 <= s n) -> s 0%nat = 0 /\ s 1%nat = 0.
Proof.
  intros H Hc Hs.
  assert (P : forall n, 0 < s n -> 0 < s (S n) /\ a1 < 0).
  { intros n Hn. assert (X := Hs (S (S n))). rewrite H in X. assert (Y := Hs (S n)).
    assert (0 < a2) by nra. assert (Z : 0 < a2 * s n) by nra.
    assert (U : 0 < s (S n)) by (destruct Y as [Y|Y]; [exact Y|rewrite <- Y in X; lra]).
    split; [exact U|]. apply Rnot_le_lt. intros Ha. assert (0 <= a1 * s (S n)) by (apply Rmult_le_pos; lra). lra. }
  assert (Q : ~ 0 < s 1%nat).
  { intros H1. destruct (P 1%nat H1) as [_ Ha]. assert (A2 : 0 < a2) by nra.
    assert (All : forall n, 0 < s (S n)) by (intros n; induction n as [|n IH]; [exact H1|apply P, IH]).
    set (r := sqrt a2). assert (Er : r * r = a2) by (apply sqrt_sqrt; lra). assert (Hr : 0 <= r) by apply sqrt_pos.
    set (d := a1 + 2 * r). assert (Hd : 0 < d) by (unfold d; nra).
    set (rho := fun n => s (S (S n)) / s (S n)).
    assert (Step : forall n, rho (S n) <= rho n - d).
    { intros n. unfold rho. assert (X0 := All n). assert (X1 := All (S n)).
      apply Rmult_le_reg_r with (s (S n) * s (S (S n))); [apply Rmult_lt_0_compat; assumption|].
      replace (s (S (S (S n))) / s (S (S n)) * (s (S n) * s (S (S n)))) with (s (S (S (S n))) * s (S n)) by (field; lra).
      replace ((s (S (S n)) / s (S n) - d) * (s (S n) * s (S (S n)))) with (s (S (S n)) * s (S (S n)) - d * (s (S n) * s (S (S n)))) by (field; lra).
      rewrite (H (S n)). set (u := s (S n)) in *. set (v := s (S (S n))) in *. clearbody u v. unfold d. rewrite <- Er.
      assert (0 <= (v - r * u) * (v - r * u)) by apply Rle_0_sqr. lra. }
    assert (Down : forall n, rho n <= rho 0%nat - INR n * d).
    { induction n as [|n IH]; [cbn [INR]; lra|]. rewrite S_INR. assert (X := Step n). lra. }
    destruct (archimed (rho 0%nat / d)) as [B _].
    assert (R0 : 0 < rho 0%nat) by (unfold rho; apply Rdiv_lt_0_compat; apply All).
    set (N := Z.to_nat (up (rho 0%nat / d))). assert (EN : IZR (up (rho 0%nat / d)) = INR N).
    { unfold N. rewrite INR_IZR_INZ, Z2Nat.id; [reflexivity|]. apply le_IZR. left.
      eapply Rlt_trans; [|exact B]. apply Rdiv_lt_0_compat; assumption. }
    rewrite EN in B. assert (RN : 0 < rho N) by (unfold rho; apply Rdiv_lt_0_compat; apply All).
    assert (X := Down N). assert (rho 0%nat < INR N * d).
    { apply Rmult_lt_reg_r with (/ d); [apply Rinv_0_lt_compat; exact Hd|]. rewrite Rmult_assoc, Rinv_r by lra. lra. }
    lra. }
  assert (E1 : s 1%nat = 0) by (assert (X := Hs 1%nat); lra). split; [|exact E1].
  assert (X := Hs 0%nat). destruct X as [X|X]; [|lra]. destruct (P 0%nat X) as [Y _]. contradiction.
Qed.

(** The two first-order parts of a solution. *)
Lemma part a1 a2 s r1 r2 : recurs a1 a2 s -> r1 + r2 = - a1 -> r1 * r2 = a2 ->
  forall n, s (S n) - r2 * s n = r1 ^ n * (s 1%nat - r2 * s 0%nat).
Proof.
  intros H E1 E2. induction n as [|n IH]; [cbn; ring|]. cbn [pow]. rewrite Rmult_assoc, <- IH, H.
  replace (- a1) with (r1 + r2) by exact E1. rewrite <- E2. ring.
Qed.

Lemma Rabs_pow_le r1 r2 n : Rabs r2 <= r1 -> Rabs (r2 ^ n) <= r1 ^ n.
Proof. intros H. rewrite <- RPow_abs. apply pow_incr. split; [apply Rabs_pos|exact H]. Qed.

Lemma real_sign a1 a2 s r1 r2 : recurs a1 a2 s -> r1 + r2 = - a1 -> r1 * r2 = a2 -> Rabs r2 <= r1 ->
  0 <= s 0%nat -> Rabs (s 1%nat - r1 * s 0%nat) <= s 1%nat - r2 * s 0%nat -> forall n, 0 <= s n.
Proof.
  intros H E1 E2 Hr H0 Hd. assert (D0 : 0 <= s 1%nat - r2 * s 0%nat) by (eapply Rle_trans; [apply Rabs_pos|exact Hd]).
  assert (P := part a1 a2 s r1 r2 H E1 E2).
  assert (R1 : 0 <= r1) by (eapply Rle_trans; [apply Rabs_pos|exact Hr]).
  destruct (Rle_or_lt 0 r2) as [R2|R2].
  - induction n as [|n IH]; [exact H0|]. assert (X := P n). assert (0 <= r1 ^ n) by (apply pow_le; exact R1).
    assert (0 <= r1 ^ n * (s 1%nat - r2 * s 0%nat)) by (apply Rmult_le_pos; assumption).
    assert (0 <= r2 * s n) by (apply Rmult_le_pos; assumption). lra.
  - intros n. assert (Q := part a1 a2 s r2 r1 H ltac:(lra) ltac:(lra) n). specialize (P n).
    assert (E : (r1 - r2) * s n = r1 ^ n * (s 1%nat - r2 * s 0%nat) - r2 ^ n * (s 1%nat - r1 * s 0%nat)) by (rewrite <- P, <- Q; ring).
    assert (B := Rabs_pow_le r1 r2 n Hr).
    assert (M : Rabs (r2 ^ n * (s 1%nat - r1 * s 0%nat)) <= r1 ^ n * (s 1%nat - r2 * s 0%nat)).
    { rewrite Rabs_mult. apply Rmult_le_compat; try apply Rabs_pos; assumption. }
    assert (L := Rle_abs (r2 ^ n * (s 1%nat - r1 * s 0%nat))).
    apply Rmult_le_reg_l with (r1 - r2); [lra|]. lra.
Qed.

(** The root of larger magnitude is negative and present: the sign keeps changing. *)
Lemma alternating_sign a1 a2 s p r : recurs a1 a2 s -> r - p = - a1 -> - p * r = a2 -> 0 <= r < p ->
  s 1%nat - r * s 0%nat <> 0 -> ~ (forall n, 0 <= s n).
Proof.
  intros H E1 E2 Hp Hg Hs.
  assert (P := part a1 a2 s (- p) r H ltac:(lra) E2). assert (Q := part a1 a2 s r (- p) H ltac:(lra) ltac:(lra)).
  set (g := s 1%nat - r * s 0%nat) in *. set (G := s 1%nat - - p * s 0%nat) in *.
  assert (E : forall n, (r + p) * s n = r ^ n * G - (- p) ^ n * g).
  { intros n. specialize (P n). specialize (Q n). rewrite <- P, <- Q. ring. }
  assert (B : forall n, (- p) ^ n * g <= r ^ n * G).
  { intros n. assert (X := Hs n). assert (0 <= (r + p) * s n) by (apply Rmult_le_pos; lra). rewrite E in H0. lra. }
  (* along one parity the left side is p^n |g| *)
  assert (B' : forall n, exists m, (n <= m)%nat /\ p ^ m * Rabs g <= r ^ m * G).
  { intros n. destruct (Rle_or_lt 0 g) as [Sg|Sg].
    - exists (2 * n)%nat. split; [lia|]. assert (X := B (2 * n)%nat). rewrite Rabs_pos_eq by exact Sg.
      rewrite pow_mult in X. replace ((- p) ^ 2) with (p ^ 2) in X by ring. rewrite <- pow_mult in X. exact X.
    - exists (S (2 * n))%nat. split; [lia|]. assert (X := B (S (2 * n))%nat). rewrite Rabs_left by exact Sg.
      cbn [pow] in X |- *. rewrite pow_mult in X. replace ((- p) ^ 2) with (p ^ 2) in X by ring. rewrite <- pow_mult in X.
      lra. }
  assert (G0 : 0 < Rabs g) by (apply Rabs_pos_lt; exact Hg).
  destruct (Req_dec r 0) as [R0|R0].
  { destruct (B' 1%nat) as [m [Hm X]]. rewrite R0 in X. rewrite pow_i in X by lia.
    assert (0 < p ^ m) by (apply pow_lt; lra). nra. }
  assert (Hq : 1 < p / r) by (apply Rmult_lt_reg_r with r; [lra|]; unfold Rdiv; rewrite Rmult_assoc, Rinv_l by lra; lra).
  destruct (Pow_x_infinity (p / r) ltac:(rewrite Rabs_pos_eq; lra) (Rabs G / Rabs g + 1)) as [N HN].
  destruct (B' N) as [m [Hm X]]. specialize (HN m Hm). rewrite Rabs_pos_eq in HN by (apply pow_le; lra).
  assert (Rm : 0 < r ^ m) by (apply pow_lt; lra).
  assert (Em : p ^ m = (p / r) ^ m * r ^ m) by (rewrite <- Rpow_mult_distr; f_equal; field; lra).
  rewrite Em in X. assert (L := Rle_abs G).
  assert (Y : (p / r) ^ m * Rabs g <= G).
  { apply Rmult_le_reg_r with (r ^ m); [exact Rm|]. lra. }
  assert (Z : (Rabs G / Rabs g + 1) * Rabs g <= (p / r) ^ m * Rabs g) by (apply Rmult_le_compat_r; lra).
  replace ((Rabs G / Rabs g + 1) * Rabs g) with (Rabs G + Rabs g) in Z by (field; lra). lra.
Qed.

(** ** Order and the impulse response *)
Section Any.
  Context {S K : Type} (D : device S K R) (k : K) (c : R * R * R * R * R) (F : filter_eq D k c).

  Lemma conv x n : response D k x n = sum_f_R0 (fun j => response D k impulse j * x (n - j)%nat) n.
  Proof. exact (C82_convolution_thm S K D k c F x n). Qed.

  Lemma resp_sub x y n : response D k (fun m => x m - y m) n = response D k x n - response D k y n.
  Proof. rewrite !conv, <- minus_sum. apply sum_eq. intros i _. ring. Qed.

  Lemma resp_scal a x n : response D k (fun m => a * x m) n = a * response D k x n.
  Proof. rewrite !conv, scal_sum. apply sum_eq. intros i _. ring. Qed.

  Lemma resp_zero n : response D k (fun _ => 0) n = 0.
  Proof. rewrite conv. apply sum_eq_R0. intros i _. ring. Qed.

  Lemma resp_step n : response D k (fun _ => 1) n = sum_f_R0 (response D k impulse) n.
  Proof. rewrite conv. apply sum_eq. intros i _. ring. Qed.

  Lemma order_impulse : keeps_order D k <-> forall n, 0 <= response D k impulse n.
  Proof.
    split.
    - intros H n. rewrite <- (resp_zero n). apply H. intros m. destruct m; cbn; lra.
    - intros H x x' Hx n. apply Rminus_le_0. rewrite <- resp_sub, conv. apply cond_pos_sum. intros j.
      apply Rmult_le_pos; [apply H|]. assert (X := Hx (n - j)%nat). lra.
  Qed.

  Lemma resp_next x n : response D k x (Datatypes.S n) - response D k x n
    = response D k (fun m => x m - back 1 x m) (Datatypes.S n).
  Proof.
    rewrite (resp_sub x (back 1 x)). f_equal. rewrite !conv. rewrite tech5. unfold back at 2.
    replace (Datatypes.S n - Datatypes.S n)%nat with 0%nat by lia. cbn [Nat.leb].
    rewrite Rmult_0_r, Rplus_0_r. apply sum_eq. intros i Hi. unfold back.
    replace (1 <=? Datatypes.S n - i)%nat with true by (symmetry; apply Nat.leb_le; lia).
    do 2 f_equal. lia.
  Qed.

  Lemma rising_impulse : keeps_rising D k <-> forall n, 0 <= response D k impulse n.
  Proof.
    split.
    - intros H. destruct (H (fun _ => 1)) as [H0 H1]; [split; [lra|intros n; lra]|].
      intros [|n].
      + rewrite resp_step in H0. exact H0.
      + assert (X := H1 n). rewrite !resp_step, tech5 in X. lra.
    - intros H x [X0 X1]. split.
      + rewrite conv. cbn. apply Rmult_le_pos; [apply H|exact X0].
      + intros n. apply Rminus_le_0. rewrite resp_next, conv. apply cond_pos_sum. intros j.
        apply Rmult_le_pos; [apply H|]. unfold back. destruct (Datatypes.S n - j)%nat as [|m]; cbn [Nat.leb]; [lra|].
        replace (Datatypes.S m - 1)%nat with m by lia. assert (X := X1 m). lra.
  Qed.

  Lemma overshoot_impulse : is_lim_seq (response D k (fun _ => 1)) 1 ->
    (no_overshoot D k <-> forall n, 0 <= response D k impulse n).
  Proof.
    intros L. split.
    - intros H n. apply (H impulse 1). intros m. destruct m; cbn; lra.
    - intros H x m Hx n. assert (O := proj2 order_impulse H). split.
      + rewrite <- (resp_zero n). apply O. intros i. apply Hx.
      + apply Rle_trans with (response D k (fun _ => m * 1) n); [apply O; intros i; rewrite Rmult_1_r; apply Hx|].
        rewrite (resp_scal m (fun _ => 1)). rewrite <- (Rmult_1_r m) at 2. apply Rmult_le_compat_l.
        * apply Rle_trans with (x 0%nat); apply Hx.
        * apply (is_lim_seq_incr_compare _ 1 L). intros j. rewrite !resp_step, tech5. assert (X := H (Datatypes.S j)). lra.
  Qed.
End Any.

(** C138: three ways of saying the same: the filter preserves the order of signals; what rises from
    silence comes out rising; the impulse response is nowhere negative.  For stable coefficients
    with the gain 1 for constants a fourth one: no output leaves the range of the input. *)
Lemma C138_equivalent_thm :
  forall (S K : Type) (D : device S K R) (k : K) (b0 b1 b2 a1 a2 : R), filter_eq D k (b0, b1, b2, a1, a2) ->
    (keeps_order D k <-> forall n, 0 <= response D k impulse n)
    /\ (keeps_rising D k <-> keeps_order D k)
    /\ (stable a1 a2 -> b0 + b1 + b2 = 1 + a1 + a2 -> (no_overshoot D k <-> keeps_order D k)).
Proof.
  intros S K D k b0 b1 b2 a1 a2 F. assert (O := order_impulse D k _ F). split; [exact O|].
  split; [rewrite O; exact (rising_impulse D k _ F)|]. intros Hs Hg. rewrite O. apply (overshoot_impulse D k _ F).
  destruct (C82_summable_thm S K D k b0 b1 b2 a1 a2 F Hs) as [G [_ [_ L]]].
  replace ((b0 + b1 + b2) / (1 + a1 + a2)) with 1 in L.
  - eapply is_lim_seq_ext; [|exact L]. intros n. cbv beta. symmetry. apply (resp_step D k _ F).
  - rewrite Hg. field. destruct Hs as [H1 H2]. assert (X := Rle_abs (- a1)). rewrite Rabs_Ropp in X. lra.
Qed.
(*@PROP
Example C138_equivalent_hyps :
  filter_eq (dev_one_pole R_ops) (1 / 2, - (1 / 2)) (1 / 2, 0, 0, - (1 / 2), 0)
  /\ stable (- (1 / 2)) 0 /\ 1 / 2 + 0 + 0 = 1 + - (1 / 2) + 0.
Proof.
  split; [constructor|]. split; [|lra]. unfold stable. rewrite Rabs_R0, Rabs_Ropp, Rabs_pos_eq; lra.
Qed.
@*)

(** ** The impulse response *)
Section Impulse.
  Context {S K : Type} (D : device S K R) (k : K) (b0 b1 b2 a1 a2 : R) (F : filter_eq D k (b0, b1, b2, a1, a2)).
  Let h := response D k impulse.

  Lemma h0 : h 0%nat = b0.
  Proof. assert (E := filter_obeys D k _ F impulse 0%nat). cbn [back Nat.leb impulse] in E. unfold h, response. rewrite E. unfold back; cbn [Nat.leb]. ring. Qed.
  Lemma h1 : h 1%nat = b1 - a1 * b0.
  Proof.
    assert (E := filter_obeys D k _ F impulse 1%nat). fold (response D k impulse) in E. fold h in E. rewrite E.
    unfold back; cbn [Nat.leb Nat.sub impulse]. rewrite h0. ring.
  Qed.
  Lemma h2 : h 2%nat = b2 - a1 * h 1%nat - a2 * b0.
  Proof.
    assert (E := filter_obeys D k _ F impulse 2%nat). fold (response D k impulse) in E. fold h in E. rewrite E.
    unfold back; cbn [Nat.leb Nat.sub impulse]. rewrite h0. ring.
  Qed.
  Lemma h_recurs : recurs a1 a2 (fun n => h (Datatypes.S n)).
  Proof.
    intros n. assert (E := filter_obeys D k _ F impulse (Datatypes.S (Datatypes.S (Datatypes.S n)))).
    fold (response D k impulse) in E. fold h in E. rewrite E.
    unfold back; cbn [Nat.leb Nat.sub impulse]. ring.
  Qed.
End Impulse.

Lemma roots a1 a2 : 4 * a2 <= a1 * a1 -> exists r1 r2, r1 + r2 = - a1 /\ r1 * r2 = a2 /\ r2 <= r1.
Proof.
  intros H. set (d := sqrt (a1 * a1 - 4 * a2)). assert (E : d * d = a1 * a1 - 4 * a2) by (apply sqrt_sqrt; lra).
  assert (P : 0 <= d) by apply sqrt_pos. exists ((- a1 + d) / 2), ((- a1 - d) / 2). split; [field|]. split; [|lra].
  transitivity ((a1 * a1 - d * d) / 4); [field|]. rewrite E. field.
Qed.

Lemma turning a1 a2 s : recurs a1 a2 s -> 0 < a1 -> (forall n, 0 <= s n) -> 0 < s 0%nat ->
  exists p r, 0 <= r < p /\ r - p = - a1 /\ - p * r = a2 /\ s 1%nat = r * s 0%nat.
Proof.
  intros H Ha Hs H0. destruct (Rlt_or_le (a1 * a1) (4 * a2)) as [C|C].
  { destruct (complex_sign a1 a2 s H C Hs) as [E _]. lra. }
  destruct (roots a1 a2 C) as [r [r2 [E1 [E2 L]]]].
  destruct (Rlt_or_le 0 a2) as [A|A].
  { exfalso. assert (X := Hs 2%nat). rewrite H in X. assert (Y := Hs 1%nat).
    assert (0 <= a1 * s 1%nat) by (apply Rmult_le_pos; lra). assert (0 < a2 * s 0%nat) by (apply Rmult_lt_0_compat; lra). lra. }
  exists (- r2), r. assert (R : 0 <= r < - r2) by (split; [|lra]; apply Rnot_lt_le; intros N; nra).
  assert (E3 : - - r2 * r = a2) by lra. assert (E4 : r - - r2 = - a1) by lra. repeat split; try assumption; try apply R.
  destruct (Req_dec (s 1%nat - r * s 0%nat) 0) as [E|E]; [lra|]. exfalso.
  exact (alternating_sign a1 a2 s (- r2) r H E4 E3 R E Hs).
Qed.

(** C138: the simple filters. *)
Lemma C138_simple_thm :
  (forall b0 a1, keeps_order (dev_one_pole R_ops) (b0, a1) <-> b0 = 0 \/ (0 < b0 /\ a1 <= 0))
  /\ (forall b0 b1, keeps_order (dev_one_zero R_ops) (b0, b1) <-> 0 <= b0 /\ 0 <= b1)
  /\ (forall b0 a1 a2, keeps_order (dev_two_pole R_ops) (b0, a1, a2) <-> b0 = 0 \/ (0 < b0 /\ a1 <= 0 /\ 4 * a2 <= a1 * a1))
  /\ (forall b0 b1 b2, keeps_order (dev_two_zero R_ops) (b0, b1, b2) <-> 0 <= b0 /\ 0 <= b1 /\ 0 <= b2).
Proof.
  assert (Pole : forall (S K : Type) (D : device S K R) (k : K) b0 a1 a2, filter_eq D k (b0, 0, 0, a1, a2) ->
    (keeps_order D k <-> b0 = 0 \/ (0 < b0 /\ a1 <= 0 /\ 4 * a2 <= a1 * a1))).
  { intros S K D k b0 a1 a2 F. rewrite (order_impulse D k _ F).
    assert (E0 := h0 D k _ _ _ _ _ F). assert (E1 := h1 D k _ _ _ _ _ F). assert (E2 := h2 D k _ _ _ _ _ F).
    assert (Rc := h_recurs D k _ _ _ _ _ F). set (h := response D k impulse) in *. clearbody h.
    assert (Rh : recurs a1 a2 h).
    { intros [|n]; [rewrite E2, E0; ring|apply Rc]. }
    split.
    - intros Hh. destruct (Req_dec b0 0) as [Z|Z]; [left; exact Z|right].
      assert (B : 0 < b0) by (assert (X := Hh 0%nat); rewrite E0 in X; lra). split; [exact B|].
      split.
      + assert (X := Hh 1%nat). rewrite E1 in X. apply Rnot_lt_le. intros N. assert (0 < a1 * b0) by (apply Rmult_lt_0_compat; lra). lra.
      + apply Rnot_lt_le. intros N. destruct (complex_sign a1 a2 h Rh N Hh) as [E _]. lra.
    - intros [Z|[B [A C]]].
      + assert (Zh : forall n, h n = 0 /\ h (Datatypes.S n) = 0).
        { induction n as [|n [I1 I2]]; [rewrite E0, E1, Z; split; ring|]. split; [exact I2|]. rewrite Rh, I1, I2. ring. }
        intros n. rewrite (proj1 (Zh n)). lra.
      + destruct (roots a1 a2 C) as [r1 [r2 [R1 [R2 L]]]].
        assert (Hr : Rabs r2 <= r1) by (apply Rabs_le; lra).
        apply (real_sign a1 a2 h r1 r2 Rh R1 R2 Hr); [rewrite E0; lra|]. rewrite E1, E0.
        replace (0 - a1 * b0 - r1 * b0) with (b0 * r2) by (replace a1 with (- (r1 + r2)) by lra; ring).
        replace (0 - a1 * b0 - r2 * b0) with (b0 * r1) by (replace a1 with (- (r1 + r2)) by lra; ring).
        rewrite Rabs_mult, (Rabs_pos_eq b0) by lra. apply Rmult_le_compat_l; lra. }
  assert (Zero : forall (S K : Type) (D : device S K R) (k : K) b0 b1 b2, filter_eq D k (b0, b1, b2, 0, 0) ->
    (keeps_order D k <-> 0 <= b0 /\ 0 <= b1 /\ 0 <= b2)).
  { intros S K D k b0 b1 b2 F. rewrite (order_impulse D k _ F).
    assert (E0 := h0 D k _ _ _ _ _ F). assert (E1 := h1 D k _ _ _ _ _ F). assert (E2 := h2 D k _ _ _ _ _ F).
    assert (Rc := h_recurs D k _ _ _ _ _ F). set (h := response D k impulse) in *. clearbody h. split.
    - intros Hh. assert (X0 := Hh 0%nat). assert (X1 := Hh 1%nat). assert (X2 := Hh 2%nat). rewrite E0 in X0. rewrite E2 in X2. rewrite E1 in X1. lra.
    - intros [B0 [B1 B2]] [|[|[|n]]]; [rewrite E0; lra|rewrite E1; lra|rewrite E2; lra|]. rewrite (Rc n). lra. }
  split; [|split; [|split]].
  - intros b0 a1. rewrite (Pole _ _ _ _ _ _ _ (fe_one_pole b0 a1)). split; (intros [H|H]; [left; exact H|right]).
    + tauto.
    + split; [tauto|]. split; [tauto|]. rewrite Rmult_0_r. apply Rle_0_sqr.
  - intros b0 b1. rewrite (Zero _ _ _ _ _ _ _ (fe_one_zero b0 b1)). split; [tauto|]. intros [H1 H2]. repeat split; lra.
  - intros b0 a1 a2. apply Pole. apply fe_two_pole.
  - intros b0 b1 b2. apply Zero. apply fe_two_zero.
Qed.
(*@PROP
Example C138_simple_cases :
  keeps_order (dev_two_pole R_ops) (1, -1, 1 / 4) /\ ~ keeps_order (dev_two_pole R_ops) (1, -1, 1 / 2)
  /\ keeps_order (dev_one_pole R_ops) (1 / 2, - (1 / 2)) /\ ~ keeps_order (dev_one_zero R_ops) (1, - (1 / 2)).
Proof.
  destruct C138_simple_thm as [H1 [H2 [H3 _]]]. rewrite H1, H2, !H3. repeat split; try (right; repeat split; lra); lra.
Qed.
@*)

(** ** The RBJ filters *)
Lemma band_trig sr f : valid_band sr f ->
  let c := cos (omega sr f) in let s := sin (omega sr f) in
  0 < s /\ -1 < c < 1 /\ s * s = 1 - c * c /\ (0 <= c <-> f <= sr / 4) /\ (c = 0 <-> f = sr / 4).
Proof.
  intros Hb c s. assert (R := omega_range sr f Hb).
  assert (S0 : 0 < s) by (apply sin_gt_0; lra).
  assert (Q := sin2_cos2 (omega sr f)). unfold Rsqr in Q. fold c s in Q.
  split; [exact S0|]. split; [split; nra|]. split; [lra|].
  assert (W : omega sr f <= PI / 2 <-> f <= sr / 4).
  { unfold omega. destruct Hb as [Hsr _]. assert (Hp := PI_RGT_0). split; intros H.
    - apply Rmult_le_compat_r with (r := sr / (2 * PI)) in H; [|left; apply Rdiv_lt_0_compat; lra].
      replace (2 * PI * f / sr * (sr / (2 * PI))) with f in H by (field; lra).
      replace (PI / 2 * (sr / (2 * PI))) with (sr / 4) in H by (field; lra). exact H.
    - apply Rmult_le_reg_r with (sr / (2 * PI)); [apply Rdiv_lt_0_compat; lra|].
      replace (2 * PI * f / sr * (sr / (2 * PI))) with f by (field; lra).
      replace (PI / 2 * (sr / (2 * PI))) with (sr / 4) by (field; lra). exact H. }
  assert (W' : omega sr f = PI / 2 <-> f = sr / 4).
  { unfold omega. destruct Hb as [Hsr _]. assert (Hp := PI_RGT_0). split; intros H.
    - replace f with (2 * PI * f / sr * (sr / (2 * PI))) by (field; lra). rewrite H. field. lra.
    - rewrite H. field. lra. }
  assert (C1 : omega sr f < PI / 2 -> 0 < c) by (intros H; apply cos_gt_0; lra).
  assert (C2 : PI / 2 < omega sr f -> c < 0) by (intros H; apply cos_lt_0; lra).
  assert (C3 : omega sr f = PI / 2 -> c = 0) by (intros H; unfold c; rewrite H; apply cos_PI2).
  rewrite <- W, <- W'. clear W W'.
  destruct (Rtotal_order (omega sr f) (PI / 2)) as [H|[H|H]].
  - assert (X := C1 H). lra.
  - assert (X := C3 H). lra.
  - assert (X := C2 H). lra.
Qed.

Lemma alpha_facts sr f q : valid_band sr f -> 0 < q ->
  let s := sin (omega sr f) in let al := alpha_q sr f q in
  0 < al /\ (s <= al <-> q <= / 2) /\ (al = s <-> q = / 2).
Proof.
  intros Hb Hq s al. destruct (band_trig sr f Hb) as [S0 _]. cbv zeta in S0. fold s in S0.
  assert (E : al * (2 * q) = s) by (unfold al, alpha_q; fold s; field; lra).
  assert (A : 0 < al) by (unfold al, alpha_q; fold s; apply Rdiv_lt_0_compat; lra).
  split; [exact A|]. split; split; intros H.
  - apply Rnot_lt_le. intros N. nra.
  - nra.
  - rewrite H in E. apply Rmult_eq_reg_l with s; [|lra]. lra.
  - rewrite H in E. lra.
Qed.

(** The normalised coefficients of the six filters. *)
Lemma q_norm kind sr f q : In kind [LowPass; HighPass; BandPass1; BandPass2; BandStop; AllPass] ->
  filter_eq (dev_rbj R_ops kind) (RbjQ sr f q)
    (let '(b0, b1, b2, a0, a1, a2) := raw_q kind (cos (omega sr f)) (alpha_q sr f q) q in
     (b0 / a0, b1 / a0, b2 / a0, a1 / a0, a2 / a0)).
Proof.
  intros Hk. assert (F := q_eq kind sr f q Hk).
  cbn in Hk. decompose [or] Hk; subst; try contradiction; exact F.
Qed.

Lemma lowpass_order sr f q : valid_band sr f -> 0 < q ->
  (keeps_order (dev_rbj R_ops LowPass) (RbjQ sr f q) <-> q <= / 2 /\ f <= sr / 4).
Proof.
  intros Hb Hq. assert (F := q_norm LowPass sr f q ltac:(cbn; tauto)). cbn [raw_q] in F.
  destruct (band_trig sr f Hb) as [S0 [C0 [Q [Cf _]]]]. destruct (alpha_facts sr f q Hb Hq) as [A0 [Aq _]]. cbv zeta in *.
  rewrite <- Cf, <- Aq. clear Cf Aq.
  rewrite (order_impulse _ _ _ F).
  assert (E0 := h0 _ _ _ _ _ _ _ F). assert (E1 := h1 _ _ _ _ _ _ _ F). assert (E2 := h2 _ _ _ _ _ _ _ F).
  assert (Rc := h_recurs _ _ _ _ _ _ _ F). clear F.
  set (h := response _ _ impulse) in *. set (c := cos (omega sr f)) in *. set (s := sin (omega sr f)) in *.
  set (al := alpha_q sr f q) in *. clearbody h c s al. clear Hb Hq.
  set (B := (1 - c) / 2 / (1 + al)) in *. assert (B0 : 0 < B) by (unfold B; apply Rdiv_lt_0_compat; lra).
  replace ((1 - c) / (1 + al)) with (2 * B) in E1 by (unfold B; field; lra).
  set (a1 := -2 * c / (1 + al)) in *. set (a2 := (1 - al) / (1 + al)) in *.
  assert (Ea1 : a1 * (1 + al) = -2 * c) by (unfold a1; field; lra).
  assert (Ea2 : a2 * (1 + al) = 1 - al) by (unfold a2; field; lra).
  assert (Disc : (a1 * a1 - 4 * a2) * ((1 + al) * (1 + al)) = 4 * (al * al - s * s)).
  { transitivity ((a1 * (1 + al)) * (a1 * (1 + al)) - 4 * (a2 * (1 + al)) * (1 + al)); [ring|]. rewrite Ea1, Ea2, Q. ring. }
  assert (St : 0 < 1 - a1 + a2).
  { apply Rmult_lt_reg_r with (1 + al); [lra|]. replace ((1 - a1 + a2) * (1 + al)) with (1 + al - a1 * (1 + al) + a2 * (1 + al)) by ring. rewrite Ea1, Ea2. lra. }
  assert (A1 : a1 < 2) by (apply Rmult_lt_reg_r with (1 + al); lra).
  assert (H1 : 0 < h 1%nat) by (rewrite E1; replace (2 * B - a1 * B) with (B * (2 - a1)) by ring; apply Rmult_lt_0_compat; lra).
  clearbody B a1 a2. split.
  - intros Hh. assert (C1 : 0 <= c).
    { apply Rnot_lt_le. intros N. assert (Ap : 0 < a1) by (apply Rmult_lt_reg_r with (1 + al); lra).
      destruct (turning a1 a2 _ Rc Ap (fun n => Hh (S n)) H1) as [p [r [Hr [R1 [R2 Ex]]]]]. cbv beta in Ex. rewrite E2, E1 in Ex.
      assert (X : B * ((1 - p) * (1 - p)) = 0).
      { transitivity (B - a1 * (2 * B - a1 * B) - a2 * B - r * (2 * B - a1 * B)); [|lra].
        replace a1 with (p - r) by lra. rewrite <- R2. ring. }
      assert (P : 0 < (1 - p) * (1 + r)) by (replace ((1 - p) * (1 + r)) with (1 - (p - r) + - p * r) by ring; rewrite R2; lra).
      assert (Y : 0 < 1 - p) by (apply Rmult_lt_reg_r with (1 + r); lra).
      assert (0 < B * ((1 - p) * (1 - p))) by (apply Rmult_lt_0_compat; [|apply Rmult_lt_0_compat]; lra). lra. }
    split; [|exact C1]. apply Rnot_lt_le. intros N.
    assert (Dn : a1 * a1 < 4 * a2) by (assert (0 < (1 + al) * (1 + al)) by nra; nra).
    destruct (complex_sign a1 a2 _ Rc Dn (fun n => Hh (S n))) as [Z _]. lra.
  - intros [Hs C1]. assert (A : a1 <= 0) by (apply Rmult_le_reg_r with (1 + al); lra).
    assert (Dp : 4 * a2 <= a1 * a1) by (assert (0 < (1 + al) * (1 + al)) by nra; nra).
    destruct (roots a1 a2 Dp) as [r1 [r2 [R1 [R2 L]]]].
    assert (Hr : Rabs r2 <= r1) by (apply Rabs_le; lra).
    intros [|n]; [rewrite E0; lra|]. revert n.
    apply (real_sign a1 a2 (fun n => h (S n)) r1 r2 Rc R1 R2 Hr); [lra|]. rewrite E2, E1.
    replace (B - a1 * (2 * B - a1 * B) - a2 * B - r1 * (2 * B - a1 * B)) with (B * ((1 + r2) * (1 + r2)))
      by (replace a1 with (- (r1 + r2)) by lra; rewrite <- R2; ring).
    replace (B - a1 * (2 * B - a1 * B) - a2 * B - r2 * (2 * B - a1 * B)) with (B * ((1 + r1) * (1 + r1)))
      by (replace a1 with (- (r1 + r2)) by lra; rewrite <- R2; ring).
    rewrite Rabs_pos_eq by (apply Rmult_le_pos; [lra|apply Rle_0_sqr]). apply Rmult_le_compat_l; [lra|].
    assert (X := Rle_abs r2). assert (Y := Rle_abs (- r2)). rewrite Rabs_Ropp in Y. nra.
Qed.

(** C138: a LowPass preserves the order of signals, and never overshoots, exactly for q at most 1/2
    and a corner at most a quarter of the sample rate. *)
Lemma C138_lowpass_thm :
  forall sr f q, valid_band sr f -> 0 < q ->
    let D := dev_rbj R_ops LowPass in let k := RbjQ sr f q in
    (no_overshoot D k <-> q <= / 2 /\ f <= sr / 4)
    /\ (keeps_order D k <-> q <= / 2 /\ f <= sr / 4)
    /\ (keeps_rising D k <-> q <= / 2 /\ f <= sr / 4).
Proof.
  intros sr f q Hb Hq D k. assert (L := lowpass_order sr f q Hb Hq). fold D k in L.
  assert (F := valid_filter_eq LowPass (RbjQ sr f q) (conj Hb Hq)). assert (Hs := raw_stable LowPass (RbjQ sr f q) (conj Hb Hq)).
  destruct (alpha_facts sr f q Hb Hq) as [A0 _]. cbv zeta in A0.
  cbn [raw raw_q norm6 stable6] in F, Hs. destruct Hs as [T0 [T2 T1]].
  destruct (C138_equivalent_thm _ _ _ _ _ _ _ _ _ F) as [_ [E2 E3]].
  split; [|split; [exact L|rewrite <- L; exact E2]]. rewrite <- L. apply E3.
  - apply stable_norm; assumption.
  - field. lra.
Qed.
(*@PROP
(* the usual q of about 0.7071 overshoots; so does a high corner whatever q *)
Example C138_lowpass_cases :
  no_overshoot (dev_rbj R_ops LowPass) (RbjQ 48000 1000 (/ 2))
  /\ ~ no_overshoot (dev_rbj R_ops LowPass) (RbjQ 48000 1000 (7071 / 10000))
  /\ ~ no_overshoot (dev_rbj R_ops LowPass) (RbjQ 48000 13000 (/ 10)).
Proof.
  assert (V1 : valid_band 48000 1000) by (unfold valid_band; lra).
  assert (V2 : valid_band 48000 13000) by (unfold valid_band; lra).
  destruct (C138_lowpass_thm 48000 1000 (/ 2) V1 ltac:(lra)) as [H1 _].
  destruct (C138_lowpass_thm 48000 1000 (7071 / 10000) V1 ltac:(lra)) as [H2 _].
  destruct (C138_lowpass_thm 48000 13000 (/ 10) V2 ltac:(lra)) as [H3 _].
  cbv zeta in H1, H2, H3. rewrite H1, H2, H3. repeat split; lra.
Qed.
@*)

Lemma no_dc_no_order kind sr f q : In kind [LowPass; HighPass; BandPass1; BandPass2; BandStop; AllPass] ->
  dc_gain kind (RbjQ sr f q) 0 ->
  (let '(b0, _, _, a0, _, _) := raw_q kind (cos (omega sr f)) (alpha_q sr f q) q in 0 < b0 / a0) ->
  ~ keeps_order (dev_rbj R_ops kind) (RbjQ sr f q).
Proof.
  intros Hk Hg Hb H. assert (F := q_norm kind sr f q Hk).
  destruct (raw_q kind (cos (omega sr f)) (alpha_q sr f q) q) as [[[[[b0 b1] b2] a0] a1] a2].
  assert (O := proj1 (order_impulse _ _ _ F) H). assert (E0 := h0 _ _ _ _ _ _ _ F).
  specialize (Hg 1). unfold approaches in Hg.
  assert (L : is_lim_seq (response (dev_rbj R_ops kind) (RbjQ sr f q) (fun _ => 1)) 0).
  { eapply is_lim_seq_ext; [|exact Hg]. intros n. cbv beta. unfold rbj_out, response. ring. }
  assert (I : forall n, response (dev_rbj R_ops kind) (RbjQ sr f q) (fun _ => 1) n
    <= response (dev_rbj R_ops kind) (RbjQ sr f q) (fun _ => 1) (S n)).
  { intros n. rewrite !(resp_step _ _ _ F), tech5. assert (X := O (S n)). lra. }
  assert (X := is_lim_seq_incr_compare _ 0 L I 0%nat). rewrite (resp_step _ _ _ F) in X. cbn [sum_f_R0] in X. lra.
Qed.

Lemma bandstop_order sr f q : valid_band sr f -> 0 < q ->
  (keeps_order (dev_rbj R_ops BandStop) (RbjQ sr f q) <-> q <= / 2 /\ f = sr / 4).
Proof.
  intros Hb Hq. assert (F := q_norm BandStop sr f q ltac:(cbn; tauto)). cbn [raw_q] in F.
  destruct (band_trig sr f Hb) as [S0 [C0 [Q [_ Cf]]]]. destruct (alpha_facts sr f q Hb Hq) as [A0 [Aq _]]. cbv zeta in *.
  rewrite <- Cf, <- Aq. clear Cf Aq.
  rewrite (order_impulse _ _ _ F).
  assert (E0 := h0 _ _ _ _ _ _ _ F). assert (E1 := h1 _ _ _ _ _ _ _ F). assert (E2 := h2 _ _ _ _ _ _ _ F).
  assert (Rc := h_recurs _ _ _ _ _ _ _ F). clear F.
  set (h := response _ _ impulse) in *. set (c := cos (omega sr f)) in *. set (s := sin (omega sr f)) in *.
  set (al := alpha_q sr f q) in *. clearbody h c s al. clear Hb Hq.
  set (B := 1 / (1 + al)) in *. assert (EB : B * (1 + al) = 1) by (unfold B; field; lra).
  assert (B0 : 0 < B) by (unfold B; apply Rdiv_lt_0_compat; lra). assert (B1 : B < 1) by nra.
  set (a1 := -2 * c / (1 + al)) in *. set (a2 := (1 - al) / (1 + al)) in *.
  assert (Ea1 : a1 * (1 + al) = -2 * c) by (unfold a1; field; lra).
  assert (Ea2 : a2 = 2 * B - 1) by (unfold a2, B; field; lra).
  assert (St : 0 < 1 - a1 + a2).
  { apply Rmult_lt_reg_r with (1 + al); [lra|]. rewrite Ea2. replace ((1 - a1 + (2 * B - 1)) * (1 + al)) with (2 * (B * (1 + al)) - a1 * (1 + al)) by ring. rewrite Ea1, EB. lra. }
  clearbody B a1 a2. split.
  - intros Hh. assert (X1 := Hh 1%nat). rewrite E1 in X1.
    assert (Cn : c <= 0). { apply Rnot_lt_le. intros N. assert (a1 < 0) by (apply Rmult_lt_reg_r with (1 + al); lra). nra. }
    destruct Cn as [Cn|Cz].
    + exfalso. assert (Ap : 0 < a1) by (apply Rmult_lt_reg_r with (1 + al); lra).
      assert (H1 : 0 < h 1%nat) by (rewrite E1; nra).
      destruct (turning a1 a2 _ Rc Ap (fun n => Hh (S n)) H1) as [p [r [Hr [R1 [R2 Ex]]]]]. cbv beta in Ex. rewrite E2, E1 in Ex.
      assert (X : (1 - B) * ((1 - p) * (1 + p)) = 0).
      { transitivity (B - a1 * (a1 - a1 * B) - a2 * B - r * (a1 - a1 * B)); [|lra].
        replace a1 with (p - r) by lra. assert (EBp : B = (1 - p * r) / 2) by lra. rewrite <- R2, EBp. field. }
      assert (P : 0 < (1 - p) * (1 + r)) by (replace ((1 - p) * (1 + r)) with (1 - (p - r) + - p * r) by ring; rewrite R2; lra).
      assert (Y : 0 < 1 - p) by (apply Rmult_lt_reg_r with (1 + r); lra).
      assert (0 < (1 - B) * ((1 - p) * (1 + p))) by (apply Rmult_lt_0_compat; [|apply Rmult_lt_0_compat]; lra). lra.
    + split; [|exact Cz]. assert (Z1 : a1 = 0) by (apply Rmult_eq_reg_r with (1 + al); lra).
      assert (X4 := Hh 4%nat). rewrite (Rc 1%nat), E2, E1, Z1 in X4.
      assert (A2 : a2 <= 0).
      { apply Rnot_lt_le. intros N. assert (0 < B * (1 - a2)) by (apply Rmult_lt_0_compat; lra).
        assert (0 < a2 * (B * (1 - a2))) by (apply Rmult_lt_0_compat; lra). lra. }
      assert (s = 1) by (rewrite Cz in Q; nra). subst s. apply Rnot_lt_le. intros N. nra.
  - intros [Hs Cz]. assert (Z1 : a1 = 0) by (apply Rmult_eq_reg_r with (1 + al); lra).
    assert (s = 1) by (rewrite Cz in Q; nra). subst s. assert (A2 : a2 <= 0) by nra.
    assert (P : forall n, 0 <= h (S n) /\ 0 <= h (S (S n))).
    { induction n as [|n [I1 I2]].
      - rewrite E2, E1, Z1. split; [lra|]. assert (0 <= B * (1 - a2)) by (apply Rmult_le_pos; lra). lra.
      - split; [exact I2|]. rewrite (Rc n), Z1. assert (0 <= - a2 * h (S n)) by (apply Rmult_le_pos; lra). lra. }
    intros [|n]; [rewrite E0; lra|apply P].
Qed.

Lemma allpass_order sr f q : valid_band sr f -> 0 < q ->
  (keeps_order (dev_rbj R_ops AllPass) (RbjQ sr f q) <-> q = / 2 /\ f = sr / 4).
Proof.
  intros Hb Hq. assert (F := q_norm AllPass sr f q ltac:(cbn; tauto)). cbn [raw_q] in F.
  destruct (band_trig sr f Hb) as [S0 [C0 [Q [_ Cf]]]]. destruct (alpha_facts sr f q Hb Hq) as [A0 [_ Aq]]. cbv zeta in *.
  rewrite <- Cf, <- Aq. clear Cf Aq.
  rewrite (order_impulse _ _ _ F).
  assert (E0 := h0 _ _ _ _ _ _ _ F). assert (E1 := h1 _ _ _ _ _ _ _ F). assert (E2 := h2 _ _ _ _ _ _ _ F).
  assert (Rc := h_recurs _ _ _ _ _ _ _ F). clear F.
  set (h := response _ _ impulse) in *. set (c := cos (omega sr f)) in *. set (s := sin (omega sr f)) in *.
  set (al := alpha_q sr f q) in *. clearbody h c s al. clear Hb Hq.
  replace ((1 + al) / (1 + al)) with 1 in E2 by (field; lra).
  set (a1 := -2 * c / (1 + al)) in *. set (a2 := (1 - al) / (1 + al)) in *.
  assert (Ea1 : a1 * (1 + al) = -2 * c) by (unfold a1; field; lra).
  assert (Ea2 : a2 * (1 + al) = 1 - al) by (unfold a2; field; lra).
  assert (A2 : a2 < 1) by (apply Rmult_lt_reg_r with (1 + al); lra).
  clearbody a1 a2. split.
  - intros Hh. assert (X0 := Hh 0%nat). rewrite E0 in X0. assert (X1 := Hh 1%nat). rewrite E1 in X1. assert (X2 := Hh 2%nat).
    assert (Cn : c <= 0). { apply Rnot_lt_le. intros N. assert (a1 < 0) by (apply Rmult_lt_reg_r with (1 + al); lra). nra. }
    destruct Cn as [Cn|Cz].
    + exfalso. assert (Ap : 0 < a1) by (apply Rmult_lt_reg_r with (1 + al); lra).
      assert (H1 : 0 < h 1%nat) by (rewrite E1; nra). assert (X3 := Hh 3%nat). rewrite (Rc 0%nat) in X3.
      assert (M1 : 0 <= a1 * h 2%nat) by (apply Rmult_le_pos; lra). assert (M2 : 0 <= a2 * h 1%nat) by (apply Rmult_le_pos; lra).
      assert (Z2 : h 2%nat = 0) by nra. assert (Za : a2 = 0) by nra.
      rewrite E2, E1, Za in Z2. assert (al = 1) by (rewrite Za in Ea2; lra). subst al. nra.
    + split; [|exact Cz]. assert (Z1 : a1 = 0) by (apply Rmult_eq_reg_r with (1 + al); lra).
      assert (X4 := Hh 4%nat). rewrite (Rc 1%nat), E2, E1, Z1 in X4.
      assert (A3 : a2 = 0).
      { destruct X0 as [X0|X0]; [|lra]. exfalso. assert (0 < 1 - a2 * a2) by nra.
        assert (0 < a2 * (1 - a2 * a2)) by (apply Rmult_lt_0_compat; lra). lra. }
      assert (s = 1) by (rewrite Cz in Q; nra). rewrite A3 in Ea2. lra.
  - intros [Hs Cz]. assert (Z1 : a1 = 0) by (apply Rmult_eq_reg_r with (1 + al); lra).
    assert (Es : s = 1) by (rewrite Cz in Q; nra). assert (Z2 : a2 = 0) by (rewrite Hs, Es in Ea2; lra).
    assert (P : forall n, 0 <= h (S n) /\ 0 <= h (S (S n))).
    { induction n as [|n [I1 I2]].
      - rewrite E2, E1, Z1, Z2. split; lra.
      - split; [exact I2|]. rewrite (Rc n), Z1, Z2. lra. }
    intros [|n]; [rewrite E0; lra|apply P].
Qed.

(** C138: the other filters hardly ever preserve order: HighPass and the band passes never;
    BandStop only with its corner at exactly a quarter of the sample rate and q at most 1/2; AllPass
    only where it is a plain delay of two samples. *)
Lemma C138_others_thm :
  forall sr f q, valid_band sr f -> 0 < q ->
    (forall kind, In kind [HighPass; BandPass1; BandPass2] -> ~ keeps_order (dev_rbj R_ops kind) (RbjQ sr f q))
    /\ (keeps_order (dev_rbj R_ops BandStop) (RbjQ sr f q) <-> q <= / 2 /\ f = sr / 4)
    /\ (keeps_order (dev_rbj R_ops AllPass) (RbjQ sr f q) <-> q = / 2 /\ f = sr / 4).
Proof.
  intros sr f q Hb Hq. split; [|split; [apply bandstop_order; assumption|apply allpass_order; assumption]].
  destruct (band_trig sr f Hb) as [S0 [C0 _]]. destruct (alpha_facts sr f q Hb Hq) as [A0 _]. cbv zeta in *.
  assert (V : valid BandPass1 (RbjQ sr f q)) by (split; assumption).
  intros kind Hk. cbn in Hk. destruct Hk as [<-|[<-|[<-|[]]]].
  - apply no_dc_no_order; [cbn; tauto|apply (C39_highpass_thm sr f q V)|]. cbn [raw_q].
    apply Rdiv_lt_0_compat; lra.
  - apply no_dc_no_order; [cbn; tauto|apply (C40_bandpass_thm sr f q V)|]. cbn [raw_q].
    apply Rdiv_lt_0_compat; [apply Rmult_lt_0_compat|]; lra.
  - apply no_dc_no_order; [cbn; tauto|apply (C40_bandpass_thm sr f q V)|]. cbn [raw_q].
    apply Rdiv_lt_0_compat; lra.
Qed.
(*@PROP
Example C138_others_cases :
  keeps_order (dev_rbj R_ops AllPass) (RbjQ 48000 12000 (/ 2)) /\ keeps_order (dev_rbj R_ops BandStop) (RbjQ 48000 12000 (/ 4))
  /\ ~ keeps_order (dev_rbj R_ops AllPass) (RbjQ 48000 12000 (/ 4)) /\ ~ keeps_order (dev_rbj R_ops HighPass) (RbjQ 48000 12000 (/ 2)).
Proof.
  assert (V : valid_band 48000 12000) by (unfold valid_band; lra).
  destruct (C138_others_thm 48000 12000 (/ 2) V ltac:(lra)) as [N [_ A]].
  destruct (C138_others_thm 48000 12000 (/ 4) V ltac:(lra)) as [_ [B A']].
  rewrite A, A', B. repeat split; try lra. apply N. left. reflexivity.
Qed.
@*)
