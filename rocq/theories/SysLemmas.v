(** Proofs of C82-C84 and of the converse of C34. *)
From Coq Require Import Reals Lra Lia List Arith Psatz.
From Coquelicot Require Import Coquelicot.
From Verif Require Import Num NumR FilterM RbjM Device Signal SignalFacts CoreLemmas FilterFacts
  FilterLemmas RbjSpec RbjFacts RbjLemmas SysSpec.
Import ListNotations.
Open Scope R_scope.

(*@PROP
(** Properties C82-C84 of the filters as systems, and the converse of C34.

    Vocabulary: [Signal] and [SysSpec]. *)
From Coq Require Import Reals List Lra.
From Coquelicot Require Import Coquelicot.
From Verif Require Import Num NumR FilterM RbjM Device Signal RbjSpec SysSpec SysLemmas.
Import ListNotations.
Open Scope R_scope.
@*)

(** ** Convolution *)
Lemma back_succ j x n : back (S j) x n = back 1 (back j x) n.
Proof. destruct n as [|n]; [reflexivity|]. rewrite !back_SS, back_0. reflexivity. Qed.

Lemma convolve_back1 h x n : back 1 (convolve h x) n = convolve (back 1 h) x n.
Proof.
  destruct n as [|n].
  - unfold convolve, back. cbn. ring.
  - rewrite back_SS, back_0. unfold convolve. rewrite (decomp_sum _ (S n)) by lia.
    rewrite back_S0, Rmult_0_l, Rplus_0_l. cbn [pred]. apply sum_eq. intros i Hi.
    rewrite back_SS, back_0. reflexivity.
Qed.

Lemma convolve_ext h h' x n : (forall k, h k = h' k) -> convolve h x n = convolve h' x n.
Proof. intros H. unfold convolve. apply sum_eq. intros i Hi. now rewrite H. Qed.

Lemma convolve_back j h x n : back j (convolve h x) n = convolve (back j h) x n.
Proof.
  revert n. induction j as [|j IH]; intros n.
  - rewrite back_0. apply convolve_ext. intros k. now rewrite back_0.
  - rewrite back_succ. rewrite (convolve_ext (back (S j) h) (back 1 (back j h))) by (intros k; apply back_succ).
    rewrite <- convolve_back1. destruct n as [|n]; [reflexivity|]. rewrite !back_SS, !back_0. apply IH.
Qed.

Lemma convolve_impulse x n : convolve impulse x n = x n.
Proof.
  unfold convolve. destruct n as [|n]; [cbn; ring|].
  rewrite (decomp_sum _ (S n)) by lia. cbn [pred]. rewrite (sum_eq _ (fun _ => 0)).
  - rewrite sum_cte. cbn [impulse]. rewrite Nat.sub_0_r. ring.
  - intros i Hi. cbn [impulse]. ring.
Qed.

Lemma convolve_lin a b h h' x n :
  convolve (fun k => a * h k + b * h' k) x n = a * convolve h x n + b * convolve h' x n.
Proof.
  unfold convolve. rewrite !scal_sum, <- sum_plus. apply sum_eq. intros i Hi. ring.
Qed.

Lemma obeys_convolve c h x : obeys c impulse h -> obeys c x (convolve h x).
Proof.
  destruct c as [[[[b0 b1] b2] a1] a2]. intros H n.
  rewrite !convolve_back.
  assert (E : forall j, back j x n = convolve (back j impulse) x n).
  { intros j. rewrite <- convolve_back. unfold back. destruct (j <=? n)%nat; [|reflexivity].
    now rewrite convolve_impulse. }
  rewrite !E. rewrite <- (convolve_impulse x n).
  rewrite (convolve_ext h (fun k => 1 * (b0 * impulse k + b1 * back 1 impulse k)
             + 1 * (b2 * back 2 impulse k + (-1) * (a1 * back 1 h k + a2 * back 2 h k)))).
  2: { intros k. rewrite (H k). ring. }
  rewrite (convolve_lin 1 1 (fun k => b0 * impulse k + b1 * back 1 impulse k)).
  rewrite (convolve_lin b0 b1), (convolve_lin b2 (-1) (back 2 impulse)), (convolve_lin a1 a2). ring.
Qed.

(** C82: the output is the convolution of the input with the impulse response:
    a filter is determined by what it makes of 1, 0, 0, ... *)
Lemma C82_convolution_thm :
  forall (S K : Type) (D : device S K R) (k : K) (c : R * R * R * R * R),
    filter_eq D k c -> forall (x : signal) (n : nat),
    response D k x n = convolve (response D k impulse) x n.
Proof.
  intros S K D k c H x n. apply (obeys_unique c x x); [reflexivity|apply filter_obeys, H|].
  apply obeys_convolve, filter_obeys, H.
Qed.

(** C82: the largest output that samples of magnitude at most [M] can cause is
    exactly [M] times the absolute sum of the impulse response. *)
Lemma C82_worst_case_thm :
  forall (S K : Type) (D : device S K R) (k : K) (c : R * R * R * R * R),
    filter_eq D k c -> forall (M : R) (n : nat), 0 <= M ->
    let total := sum_f_R0 (fun j => Rabs (response D k impulse j)) n in
    (forall x : signal, (forall i, Rabs (x i) <= M) -> Rabs (response D k x n) <= M * total)
    /\ (exists x : signal, (forall i, Rabs (x i) <= M) /\ response D k x n = M * total).
Proof.
  intros S K D k c H M n HM total. set (h := response D k impulse) in *. split.
  - intros x Hx. rewrite (C82_convolution_thm _ _ _ _ _ H). fold h. unfold convolve, total.
    eapply Rle_trans; [apply Rsum_abs|]. rewrite scal_sum. apply sum_Rle. intros i Hi.
    rewrite Rabs_mult. apply Rmult_le_compat_l; [apply Rabs_pos|apply Hx].
  - exists (fun i => if Rle_dec 0 (h (n - i)%nat) then M else - M). split.
    + intros i. destruct (Rle_dec 0 (h (n - i)%nat)); [|rewrite Rabs_Ropp]; rewrite Rabs_pos_eq; lra.
    + rewrite (C82_convolution_thm _ _ _ _ _ H). fold h. unfold convolve, total.
      rewrite scal_sum. apply sum_eq. intros i Hi. replace (n - (n - i))%nat with i by lia.
      destruct (Rle_dec 0 (h i)); [rewrite Rabs_pos_eq; lra|]. rewrite Rabs_left by lra. ring.
Qed.

(** C82: so for stable coefficients the absolute sum of the impulse response is
    finite, and the gain of a constant input is its plain sum. *)
Lemma C82_summable_thm :
  forall (S K : Type) (D : device S K R) (k : K) (b0 b1 b2 a1 a2 : R),
    filter_eq D k (b0, b1, b2, a1, a2) -> stable a1 a2 ->
    exists G, is_lim_seq (fun n => sum_f_R0 (fun j => Rabs (response D k impulse j)) n) (Finite G)
      /\ (forall x M, (forall n, Rabs (x n) <= M) -> forall n, Rabs (response D k x n) <= G * M)
      /\ is_lim_seq (fun n => sum_f_R0 (response D k impulse) n) (Finite ((b0 + b1 + b2) / (1 + a1 + a2))).
Proof.
  intros S K D k b0 b1 b2 a1 a2 H Hs.
  destruct (C34_bounded_thm _ _ _ _ _ _ _ _ _ H Hs) as [B HB].
  set (h := response D k impulse). set (A := fun n => sum_f_R0 (fun j => Rabs (h j)) n).
  assert (HA : forall n, A n <= B).
  { intros n. destruct (C82_worst_case_thm _ _ _ _ _ H 1 n) as [_ [x [Hx E]]]; [lra|].
    fold h in E. change (response D k x n = 1 * A n) in E. rewrite Rmult_1_l in E. rewrite <- E.
    eapply Rle_trans; [apply Rle_abs|]. rewrite <- (Rmult_1_r B). apply HB, Hx. }
  assert (Hi : forall n, A n <= A (Datatypes.S n)).
  { intros n. unfold A. cbn [sum_f_R0]. assert (P := Rabs_pos (h (Datatypes.S n))). lra. }
  destruct (ex_finite_lim_seq_incr A B Hi HA) as [G HG]. exists G. split; [exact HG|]. split.
  - intros x M Hx n. assert (HM : 0 <= M) by (eapply Rle_trans; [apply Rabs_pos|apply (Hx 0%nat)]).
    destruct (C82_worst_case_thm _ _ _ _ _ H M n HM) as [W _]. fold h in W. specialize (W x Hx).
    change (Rabs (response D k x n) <= M * A n) in W.
    assert (A n <= G) by (apply (is_lim_seq_incr_compare A); assumption). nra.
  - assert (O1 := filter_obeys _ _ _ H (fun _ => 1)).
    fold (response D k (fun _ => 1)) in O1.
    assert (E : forall n, response D k (fun _ => 1) n = sum_f_R0 h n).
    { intros n. rewrite (C82_convolution_thm _ _ _ _ _ H). fold h. unfold convolve. apply sum_eq. intros; ring. }
    apply is_lim_seq_ext with (response D k (fun _ => 1)); [exact E|].
    set (g := (b0 + b1 + b2) / (1 + a1 + a2)).
    assert (Hd : 1 + a1 + a2 <> 0).
    { destruct Hs as [_ Q]. apply Rabs_def2 in Q. lra. }
    assert (RA := recur_approach b0 b1 b2 a1 a2 (fun _ => 1) (response D k (fun _ => 1)) (fun _ => g)).
    assert (LL : is_lim_seq (fun n => response D k (fun _ => 1) n - g) 0).
    { apply RA; [exact Hs|apply obeys_recur, O1|]. intros n. unfold g. field. exact Hd. }
    assert (L2 := is_lim_seq_plus' _ _ _ _ LL (is_lim_seq_const g)).
    rewrite Rplus_0_l in L2. eapply is_lim_seq_ext; [|exact L2]. intros n; cbn; ring.
Qed.

(** ** Cascades *)
Lemma obeys_through c d x y X Y :
  obeys c x y -> obeys d x X -> obeys d y Y -> obeys c X Y.
Proof.
  destruct c as [[[[b0 b1] b2] a1] a2]. intros Hc HX HY.
  set (w := fun n => 1 * (b0 * x n + b1 * back 1 x n) + 1 * (b2 * back 2 x n + (-1) * (a1 * back 1 y n + a2 * back 2 y n))).
  set (W := fun n => 1 * (b0 * X n + b1 * back 1 X n) + 1 * (b2 * back 2 X n + (-1) * (a1 * back 1 Y n + a2 * back 2 Y n))).
  assert (HW : obeys d w W).
  { unfold w, W. apply obeys_lin; [apply obeys_lin; [exact HX|apply obeys_back, HX]|].
    apply obeys_lin; [apply obeys_back, HX|]. apply obeys_lin; apply obeys_back, HY. }
  assert (Hyw : forall m, y m = w m) by (intros m; rewrite (Hc m); unfold w; ring).
  intros n. rewrite (obeys_unique d y w Y W Hyw HY HW n). unfold W. ring.
Qed.

(** C83: filters in series can be exchanged. *)
Lemma C83_series_commutes_thm :
  forall (S K S' K' : Type) (D : device S K R) (k : K) (D' : device S' K' R) (k' : K')
         (c c' : R * R * R * R * R),
    filter_eq D k c -> filter_eq D' k' c' -> forall (x : signal) (n : nat),
    response D' k' (response D k x) n = response D k (response D' k' x) n.
Proof.
  intros S K S' K' D k D' k' c c' H H' x.
  apply (obeys_unique c (response D' k' x) (response D' k' x)); [reflexivity| |apply filter_obeys, H].
  apply (obeys_through c c' x (response D k x)); apply filter_obeys; assumption.
Qed.

(** C83: and parallel filters before or after a third one make no difference. *)
Lemma C83_series_of_sum_thm :
  forall (S K S1 K1 S2 K2 : Type) (D : device S K R) (k : K)
         (D1 : device S1 K1 R) (k1 : K1) (D2 : device S2 K2 R) (k2 : K2) (c c1 c2 : R * R * R * R * R),
    filter_eq D k c -> filter_eq D1 k1 c1 -> filter_eq D2 k2 c2 -> forall (x : signal) (n : nat),
    response D k (fun m => response D1 k1 x m + response D2 k2 x m) n
    = response D1 k1 (response D k x) n + response D2 k2 (response D k x) n.
Proof.
  intros S K S1 K1 S2 K2 D k D1 k1 D2 k2 c c1 c2 H H1 H2 x n.
  rewrite (C83_series_commutes_thm _ _ _ _ _ _ _ _ _ _ H H1), (C83_series_commutes_thm _ _ _ _ _ _ _ _ _ _ H H2).
  assert (L := obeys_lin c 1 1 _ _ _ _ (filter_obeys _ _ _ H (response D1 k1 x)) (filter_obeys _ _ _ H (response D2 k2 x))).
  fold (response D k (response D1 k1 x)) in L. fold (response D k (response D2 k2 x)) in L.
  assert (E := obeys_unique c (fun m => response D1 k1 x m + response D2 k2 x m)
     (fun m => 1 * response D1 k1 x m + 1 * response D2 k2 x m) _ _ ltac:(intros m; cbv beta; ring)
     (filter_obeys _ _ _ H _) L n).
  unfold response at 1. rewrite E. ring.
Qed.

(** ** Instability *)
Lemma bounded_tail (x : signal) M : (forall n, Rabs (x (S (S n))) <= M) -> bounded x.
Proof.
  intros H. exists (Rmax M (Rmax (Rabs (x 0%nat)) (Rabs (x 1%nat)))). intros [|[|n]].
  - eapply Rle_trans; [apply Rmax_l|apply Rmax_r].
  - eapply Rle_trans; [apply Rmax_r|apply Rmax_r].
  - eapply Rle_trans; [apply H|apply Rmax_l].
Qed.

(** Whatever output [y] we like is the response to some input. *)
Definition needs (b0 a1 a2 : R) (y : signal) : signal :=
  fun n => (y n + a1 * back 1 y n + a2 * back 2 y n) / b0.

Lemma needs_response b0 a1 a2 y : b0 <> 0 -> forall n,
  response (dev_two_pole R_ops) (b0, a1, a2) (needs b0 a1 a2 y) n = y n.
Proof.
  intros Hb. apply (obeys_unique (b0, 0, 0, a1, a2) (needs b0 a1 a2 y) (needs b0 a1 a2 y)); [reflexivity| |].
  - apply filter_obeys. constructor.
  - intros n. unfold needs at 1. field. exact Hb.
Qed.

Lemma needs_SS b0 a1 a2 y n :
  needs b0 a1 a2 y (S (S n)) = (y (S (S n)) + a1 * y (S n) + a2 * y n) / b0.
Proof. unfold needs. rewrite !back_SS, !back_0. reflexivity. Qed.

Lemma grows r B : 1 < r -> exists n, B < r ^ n.
Proof.
  intros Hr. destruct (Pow_x_infinity r) with (b := B + 1) as [n Hn].
  - rewrite Rabs_pos_eq; lra.
  - exists n. specialize (Hn n (Nat.le_refl n)). rewrite Rabs_pos_eq in Hn by (apply pow_le; lra). lra.
Qed.

Lemma INR_grows B : exists n, B < INR n.
Proof.
  destruct (archimed B) as [HB _]. exists (Z.to_nat (up B)). rewrite INR_IZR_INZ.
  destruct (Z_le_gt_dec 0 (up B)) as [Hz|Hz]; [rewrite Z2Nat.id by exact Hz; lra|].
  assert (IZR (up B) <= 0) by (apply IZR_le; lia). replace (Z.to_nat (up B)) with 0%nat by lia. cbn. lra.
Qed.

(** A real pole on or outside the unit circle. *)
Lemma real_pole b0 a1 a2 r : b0 <> 0 -> r * r + a1 * r + a2 = 0 -> 1 <= Rabs r ->
  exists x, bounded x /\ ~ bounded (response (dev_two_pole R_ops) (b0, a1, a2) x).
Proof.
  intros Hb Hr H1. destruct H1 as [H1|H1].
  - exists (needs b0 a1 a2 (fun n => r ^ n)). split.
    + apply (bounded_tail _ 0). intros n. rewrite needs_SS. right.
      replace (r ^ S (S n) + a1 * r ^ S n + a2 * r ^ n) with ((r * r + a1 * r + a2) * r ^ n) by (cbn; ring).
      rewrite Hr. unfold Rdiv. rewrite !Rmult_0_l. apply Rabs_R0.
    + intros [M HM]. destruct (grows (Rabs r) M H1) as [n Hn]. specialize (HM n).
      rewrite needs_response in HM by exact Hb. rewrite RPow_abs in Hn. lra.
  - exists (needs b0 a1 a2 (fun n => INR n * r ^ n)). split.
    + apply (bounded_tail _ ((2 + Rabs a1) / Rabs b0)). intros n. rewrite needs_SS.
      unfold Rdiv at 1. rewrite Rabs_mult, Rabs_Rinv by exact Hb.
      apply Rmult_le_compat_r; [left; apply Rinv_0_lt_compat, Rabs_pos_lt, Hb|].
      replace (INR (S (S n)) * r ^ S (S n) + a1 * (INR (S n) * r ^ S n) + a2 * (INR n * r ^ n))
        with (INR n * (r * r + a1 * r + a2) * r ^ n + (2 * r + a1) * (r * r ^ n)) by (rewrite !S_INR; cbn [pow]; ring).
      rewrite Hr, Rmult_0_r, Rmult_0_l, Rplus_0_l, !Rabs_mult, <- RPow_abs, <- H1, pow1, !Rmult_1_r.
      eapply Rle_trans; [apply Rabs_triang|]. rewrite Rabs_mult, <- H1, (Rabs_pos_eq 2) by lra. lra.
    + intros [M HM]. destruct (INR_grows M) as [n Hn]. specialize (HM n).
      rewrite needs_response in HM by exact Hb.
      rewrite Rabs_mult, <- RPow_abs, <- H1, pow1, Rmult_1_r in HM.
      rewrite Rabs_pos_eq in HM by apply pos_INR. lra.
Qed.

(** A pair of complex poles, amplitudes [t]. *)
Lemma sin_pair a th : Rabs (sin th) <= Rabs (sin a) + Rabs (sin (a + th)).
Proof.
  replace (sin th) with (sin (a + th) * cos a + - (cos (a + th) * sin a)).
  2: { replace th with ((a + th) - a) at 3 by ring. rewrite sin_minus. ring. }
  eapply Rle_trans; [apply Rabs_triang|]. rewrite Rabs_Ropp, !Rabs_mult.
  assert (C1 : Rabs (cos a) <= 1) by (apply Rabs_le; apply COS_bound).
  assert (C2 : Rabs (cos (a + th)) <= 1) by (apply Rabs_le; apply COS_bound).
  assert (S1 := Rabs_pos (sin a)). assert (S2 := Rabs_pos (sin (a + th))). nra.
Qed.

Lemma swing_unbounded (t : nat -> R) th : 0 < sin th -> (forall n, 0 <= t n <= t (S n)) ->
  (forall B, exists n, B < t n) -> ~ bounded (fun n => t n * sin (INR (S n) * th)).
Proof.
  intros Hs Ht Hu [M HM]. destruct (Hu (2 * M / sin th)) as [n Hn].
  assert (A := HM n). assert (B := HM (S n)). cbv beta in A, B.
  rewrite Rabs_mult, (Rabs_pos_eq (t n)) in A by apply Ht.
  rewrite Rabs_mult, (Rabs_pos_eq (t (S n))) in B by apply Ht.
  assert (P := sin_pair (INR (S n) * th) th).
  replace (INR (S n) * th + th) with (INR (S (S n)) * th) in P by (rewrite (S_INR (S n)); ring).
  rewrite (Rabs_pos_eq (sin th)) in P by lra.
  destruct (Ht n) as [T0 T1].
  assert (2 * M < t n * sin th).
  { apply Rmult_lt_reg_r with (/ sin th); [apply Rinv_0_lt_compat, Hs|].
    replace (t n * sin th * / sin th) with (t n) by (field; lra). exact Hn. }
  assert (t n * sin th <= t n * (Rabs (sin (INR (S n) * th)) + Rabs (sin (INR (S (S n)) * th))))
    by (apply Rmult_le_compat_l; lra).
  assert (t n * Rabs (sin (INR (S (S n)) * th)) <= t (S n) * Rabs (sin (INR (S (S n)) * th)))
    by (apply Rmult_le_compat_r; [apply Rabs_pos|lra]).
  lra.
Qed.

Lemma sin_rec th n : sin (INR (S (S (S n))) * th) = 2 * cos th * sin (INR (S (S n)) * th) - sin (INR (S n) * th).
Proof.
  replace (INR (S (S (S n))) * th) with (INR (S (S n)) * th + th) by (rewrite (S_INR (S (S n))); ring).
  replace (INR (S n) * th) with (INR (S (S n)) * th - th) by (rewrite (S_INR (S n)); ring).
  rewrite sin_plus, sin_minus. ring.
Qed.

Lemma complex_poles b0 a1 a2 : b0 <> 0 -> a1 * a1 < 4 * a2 -> 1 <= a2 ->
  exists x, bounded x /\ ~ bounded (response (dev_two_pole R_ops) (b0, a1, a2) x).
Proof.
  intros Hb Hd H1. set (rho := sqrt a2).
  assert (Er : rho * rho = a2) by (apply sqrt_sqrt; lra).
  assert (Hr0 : 0 <= rho) by apply sqrt_pos. assert (Hr : 1 <= rho) by nra. clearbody rho.
  assert (Hc : -1 <= - a1 / (2 * rho) <= 1).
  { assert (Q : - (2 * rho) <= - a1 <= 2 * rho) by (split; nra).
    split; apply Rmult_le_reg_r with (2 * rho); try lra; unfold Rdiv; rewrite Rmult_assoc, Rinv_l by lra; lra. }
  set (th := acos (- a1 / (2 * rho))).
  assert (Ec : cos th = - a1 / (2 * rho)) by (apply cos_acos, Hc).
  assert (E1 : a1 = - (2 * rho * cos th)) by (rewrite Ec; field; lra).
  assert (Hs0 : 0 <= sin th) by (apply sin_ge_0; apply acos_bound).
  assert (Hs : 0 < sin th).
  { assert (S2 := sin2_cos2 th). unfold Rsqr in S2.
    assert (4 * a2 * (cos th * cos th) < 4 * a2).
    { replace (4 * a2 * (cos th * cos th)) with (a1 * a1); [exact Hd|]. rewrite E1, <- Er. ring. }
    assert (cos th * cos th < 1) by nra. destruct Hs0 as [|E]; [assumption|]. rewrite <- E in S2. lra. }
  clearbody th. destruct Hr as [Hr|Hr].
  - set (y := fun n => rho ^ n * sin (INR (S n) * th)). exists (needs b0 a1 a2 y). split.
    + apply (bounded_tail _ 0). intros n. rewrite needs_SS. right. unfold y. rewrite sin_rec.
      replace (rho ^ S (S n) * (2 * cos th * sin (INR (S (S n)) * th) - sin (INR (S n) * th))
        + a1 * (rho ^ S n * sin (INR (S (S n)) * th)) + a2 * (rho ^ n * sin (INR (S n) * th))) with 0
        by (rewrite E1, <- Er; cbn [pow]; ring).
      unfold Rdiv. rewrite Rmult_0_l. apply Rabs_R0.
    + intros [M HM]. apply (swing_unbounded (fun n => rho ^ n) th Hs).
      * intros n. assert (0 < rho ^ n) by (apply pow_lt; lra). cbn [pow]. nra.
      * intros B. apply grows, Hr.
      * exists M. intros n. specialize (HM n). rewrite needs_response in HM by exact Hb. exact HM.
  - set (y := fun n => INR n * sin (INR (S n) * th)). exists (needs b0 a1 a2 y). split.
    + apply (bounded_tail _ (4 / Rabs b0)). intros n. rewrite needs_SS. unfold y. rewrite sin_rec.
      unfold Rdiv. rewrite Rabs_mult, Rabs_Rinv by exact Hb.
      apply Rmult_le_compat_r; [left; apply Rinv_0_lt_compat, Rabs_pos_lt, Hb|].
      rewrite <- Hr in E1, Er. rewrite E1, <- Er, !S_INR.
      set (s1 := sin ((INR n + 1 + 1) * th)). set (s0 := sin ((INR n + 1) * th)).
      replace ((INR n + 1 + 1) * (2 * cos th * s1 - s0) + - (2 * 1 * cos th) * ((INR n + 1) * s1) + 1 * 1 * (INR n * s0))
        with (2 * (cos th * s1) + - (2 * s0)) by ring.
      eapply Rle_trans; [apply Rabs_triang|]. rewrite Rabs_Ropp, !Rabs_mult, (Rabs_pos_eq 2) by lra.
      assert (C1 : Rabs (cos th) <= 1) by (apply Rabs_le; apply COS_bound).
      assert (S1 : Rabs s1 <= 1) by (apply Rabs_le; apply SIN_bound).
      assert (S0 : Rabs s0 <= 1) by (apply Rabs_le; apply SIN_bound).
      assert (P := Rabs_pos (cos th)). assert (P1 := Rabs_pos s1). nra.
    + intros [M HM]. apply (swing_unbounded INR th Hs).
      * intros n. assert (P := pos_INR n). rewrite S_INR. lra.
      * intros B. apply INR_grows.
      * exists M. intros n. specialize (HM n). rewrite needs_response in HM by exact Hb. exact HM.
Qed.

(** C34: for [TwoPole] stability is exactly what boundedness needs: the response
    to every bounded input is bounded if and only if the coefficients are in the
    stability triangle. *)
Lemma C34_two_pole_iff_thm :
  forall b0 a1 a2 : R, b0 <> 0 ->
    (stable a1 a2 <-> forall x, bounded x -> bounded (response (dev_two_pole R_ops) (b0, a1, a2) x)).
Proof.
  intros b0 a1 a2 Hb. split.
  - intros Hs x [M HM]. destruct (C34_bounded_thm _ _ _ _ _ _ _ _ _ (fe_two_pole b0 a1 a2) Hs) as [G HG].
    exists (G * M). apply HG, HM.
  - intros H. destruct (Rlt_le_dec (a1 * a1) (4 * a2)) as [Hd|Hd].
    + destruct (Rlt_le_dec a2 1) as [H1|H1].
      * assert (0 < a2) by nra. split; [apply Rabs_def1; lra|]. apply Rabs_def1; nra.
      * exfalso. destruct (complex_poles b0 a1 a2 Hb Hd H1) as [x [Hx Hn]]. apply Hn, H, Hx.
    + set (d := sqrt (a1 * a1 - 4 * a2)).
      assert (Ed : d * d = a1 * a1 - 4 * a2) by (apply sqrt_sqrt; lra). clearbody d.
      assert (R1 : Rabs ((- a1 + d) / 2) < 1).
      { destruct (Rlt_le_dec (Rabs ((- a1 + d) / 2)) 1) as [|Hr]; [assumption|exfalso].
        destruct (real_pole b0 a1 a2 ((- a1 + d) / 2) Hb) as [x [Hx Hn]]; [nra|exact Hr|]. apply Hn, H, Hx. }
      assert (R2 : Rabs ((- a1 - d) / 2) < 1).
      { destruct (Rlt_le_dec (Rabs ((- a1 - d) / 2)) 1) as [|Hr]; [assumption|exfalso].
        destruct (real_pole b0 a1 a2 ((- a1 - d) / 2) Hb) as [x [Hx Hn]]; [nra|exact Hr|]. apply Hn, H, Hx. }
      set (p := (- a1 + d) / 2) in *. set (q := (- a1 - d) / 2) in *.
      assert (E1 : a1 = - (p + q)) by (unfold p, q; lra). assert (E2 : a2 = p * q) by (unfold p, q; nra).
      clearbody p q. clear Ed Hd. subst a1 a2. apply Rabs_def2 in R1, R2. split; apply Rabs_def1; nra.
Qed.

(** ** Sweeping the coefficients *)
Lemma abs_sum u v : 0 <= u * v -> Rabs (u + v) = Rabs u + Rabs v.
Proof.
  intros H. destruct (Rle_dec 0 u) as [Hu|Hu], (Rle_dec 0 v) as [Hv|Hv].
  - rewrite !Rabs_pos_eq; lra.
  - assert (E : u = 0) by nra. rewrite E, Rplus_0_l, Rabs_R0. ring.
  - assert (E : v = 0) by nra. rewrite E, Rplus_0_r, Rabs_R0. ring.
  - rewrite !Rabs_left; lra.
Qed.

Lemma growth_rate A b : 0 < b -> 1 < A + b -> 0 <= A -> exists l, 1 < l /\ l * l = A * l + b.
Proof.
  intros Hb H HA. set (d := sqrt (A * A + 4 * b)).
  assert (Ed : d * d = A * A + 4 * b) by (apply sqrt_sqrt; nra).
  assert (0 <= d) by apply sqrt_pos. clearbody d. exists ((A + d) / 2). split; [nra|]. nra.
Qed.

Lemma sweep_core {S K} (D : device S K R) k k' (I : S -> R -> Prop) (c l P0 : R) s0 :
  0 < c -> 1 < l -> 0 < P0 -> I s0 P0 ->
  (forall s P, 0 <= P -> I s P -> exists s' y z,
     d_run D s [CSet k; CProcess 0; CSet k'; CProcess 0]
       = (s', [(CSet k, None); (CProcess 0, Some z); (CSet k', None); (CProcess 0, Some y)])
     /\ I s' (l * l * P) /\ c * P <= Rabs y) ->
  forall B, exists n y, In (Some y) (map snd (snd (d_run D s0 (alternate k k' n)))) /\ B < Rabs y.
Proof.
  intros Hc Hl HP H0 Hstep.
  assert (G : forall n s P, 0 <= P -> I s P -> exists y,
    In (Some y) (map snd (snd (d_run D s (alternate k k' (Datatypes.S n))))) /\ c * ((l * l) ^ n * P) <= Rabs y).
  { induction n as [|n IH]; intros s P HP' HI; destruct (Hstep s P HP' HI) as [s' [y [z [E [HI' Hy]]]]].
    - exists y. cbn [alternate]. rewrite app_nil_r, E. cbn [snd map]. split; [cbn; auto 6|]. cbn. lra.
    - destruct (IH s' (l * l * P)) as [y' [Hin Hy']]; [nra|exact HI'|]. exists y'. split.
      + change (alternate k k' (Datatypes.S (Datatypes.S n)))
          with ([CSet k; CProcess 0; CSet k'; CProcess 0] ++ alternate k k' (Datatypes.S n)).
        rewrite run_app, E. destruct (d_run D s' (alternate k k' (Datatypes.S n))) as [s2 log]. cbn [snd] in *.
        rewrite map_app. apply in_or_app. right. exact Hin.
      + cbn [pow]. replace (c * (l * l * (l * l) ^ n * P)) with (c * ((l * l) ^ n * (l * l * P))) by ring. exact Hy'. }
  intros B. destruct (grows (l * l) (B / (c * P0))) as [n Hn]; [nra|].
  destruct (G n s0 P0) as [y [Hin Hy]]; [lra|exact H0|]. exists (Datatypes.S n), y. split; [exact Hin|].
  eapply Rlt_le_trans; [|exact Hy]. assert (HcP : 0 < c * P0) by (apply Rmult_lt_0_compat; lra).
  apply Rmult_lt_reg_r with (/ (c * P0)); [apply Rinv_0_lt_compat, HcP|].
  replace (c * ((l * l) ^ n * P0) * / (c * P0)) with ((l * l) ^ n) by (field; lra). exact Hn.
Qed.

(** Two steps of y[n] = -(+-a) y[n-1] - b y[n-2] with the signs aligned. *)
Lemma two_steps a b l y1 y2 P : 0 < b -> 1 < l -> l * l = Rabs a * l + b ->
  a * y1 * y2 <= 0 -> P <= Rabs y1 + b / l * Rabs y2 ->
  let u := a * y1 - b * y2 in let v := - (a * u) - b * y1 in
  a * v * u <= 0 /\ l * l * P <= Rabs v + b / l * Rabs u
  /\ Rmin (Rabs a) 1 * P <= Rabs v /\ Rmin (Rabs a) 1 * P <= Rabs u.
Proof.
  intros Hb Hl El Hs HP u v.
  assert (Hu1 : 0 <= a * u * y1).
  { unfold u. replace (a * (a * y1 - b * y2) * y1) with ((a * y1) * (a * y1) + b * - (a * y1 * y2)) by ring.
    assert (0 <= (a * y1) * (a * y1)) by apply Rle_0_sqr. nra. }
  assert (Eu : Rabs u = Rabs a * Rabs y1 + b * Rabs y2).
  { unfold u. replace (a * y1 - b * y2) with (a * y1 + - (b * y2)) by ring. rewrite abs_sum.
    - rewrite Rabs_Ropp, !Rabs_mult, (Rabs_pos_eq b) by lra. reflexivity.
    - replace (a * y1 * - (b * y2)) with (b * - (a * y1 * y2)) by ring. nra. }
  assert (Ev : Rabs v = Rabs a * Rabs u + b * Rabs y1).
  { unfold v. replace (- (a * u) - b * y1) with (- (a * u + b * y1)) by ring. rewrite Rabs_Ropp, abs_sum.
    - rewrite !Rabs_mult, (Rabs_pos_eq b) by lra. reflexivity.
    - replace (a * u * (b * y1)) with (b * (a * u * y1)) by ring. nra. }
  assert (PA := Rabs_pos a). assert (P1 := Rabs_pos y1). assert (P2 := Rabs_pos y2). assert (Pu := Rabs_pos u).
  set (Q := Rabs y1 + b / l * Rabs y2) in *.
  assert (EQ : Rabs u + b / l * Rabs y1 = l * Q).
  { rewrite Eu. unfold Q. replace (l * (Rabs y1 + b / l * Rabs y2)) with (l * l * Rabs y1 / l + b * Rabs y2) by (field; lra).
    rewrite El. field. lra. }
  assert (EQ2 : Rabs v + b / l * Rabs u = l * (Rabs u + b / l * Rabs y1)).
  { rewrite Ev. replace (l * (Rabs u + b / l * Rabs y1)) with (l * l * Rabs u / l + b * Rabs y1) by (field; lra).
    rewrite El. field. lra. }
  split; [|split].
  - unfold v. replace (a * (- (a * u) - b * y1) * u) with (- ((a * u) * (a * u) + b * (a * u * y1))) by ring.
    assert (0 <= (a * u) * (a * u)) by apply Rle_0_sqr. nra.
  - rewrite EQ2, EQ. nra.
  - assert (Hm : 0 <= Rmin (Rabs a) 1) by (apply Rmin_glb; lra).
    assert (Hm1 := Rmin_l (Rabs a) 1). assert (Hm2 := Rmin_r (Rabs a) 1). set (m := Rmin (Rabs a) 1) in *.
    assert (Hb1 : b / l * Rabs y1 <= b * Rabs y1).
    { apply Rmult_le_compat_r; [exact P1|]. apply Rmult_le_reg_r with l; [lra|].
      replace (b / l * l) with b by (field; lra). nra. }
    assert (HQ : P <= l * Q) by (assert (0 <= b / l) by (apply Rlt_le, Rdiv_lt_0_compat; lra); assert (0 <= Q) by (unfold Q; nra); nra).
    assert (H1 : m * Rabs u <= Rabs a * Rabs u) by (apply Rmult_le_compat_r; assumption).
    assert (H2 : m * (b / l * Rabs y1) <= b * Rabs y1).
    { apply Rle_trans with (1 * (b / l * Rabs y1)); [|lra]. apply Rmult_le_compat_r; [|exact Hm2].
      apply Rmult_le_pos; [apply Rlt_le, Rdiv_lt_0_compat; lra|exact P1]. }
    split.
    + apply Rle_trans with (m * (l * Q)); [apply Rmult_le_compat_l; assumption|]. rewrite <- EQ, Ev. nra.
    + assert (Hbl : b / l <= b).
      { apply Rmult_le_reg_r with l; [lra|]. replace (b / l * l) with b by (field; lra). nra. }
      assert (m * (b / l * Rabs y2) <= b * Rabs y2).
      { apply Rle_trans with (1 * (b / l * Rabs y2)); [|nra]. apply Rmult_le_compat_r; [|exact Hm2].
        apply Rmult_le_pos; [apply Rlt_le, Rdiv_lt_0_compat; lra|exact P2]. }
      assert (m * Rabs y1 <= Rabs a * Rabs y1) by (apply Rmult_le_compat_r; assumption).
      apply Rle_trans with (m * Q); [apply Rmult_le_compat_l; assumption|]. rewrite Eu. unfold Q. lra.
Qed.

(** C84: the settings of [TwoPole] and of the biquads must not be swept
    carelessly: switching between two stable settings, (a1, a2) and (-a1, a2)
    with a2 > 0 and |a1| > 1 - a2, at every sample, makes a single impulse grow
    beyond every bound, although nothing but zeros follows. *)
Lemma C84_sweep_diverges_refuted_thm :
  forall (S K : Type) (D : device S K R) (k : R -> R -> K), swept D k ->
  forall a1 a2 : R, stable a1 a2 -> stable (- a1) a2 -> 0 < a2 -> 1 - a2 < Rabs a1 ->
  forall B, exists n y,
    In (Some y) (returns D [CSet (k a1 a2); CProcess 1] (alternate (k (- a1) a2) (k a1 a2) n))
    /\ B < Rabs y.
Proof.
  intros S K D k HD a b Hs _ Hb Ha.
  assert (Hb1 : b < 1) by (destruct Hs as [Q _]; apply Rabs_def2 in Q; lra).
  destruct (growth_rate (Rabs a) b Hb ltac:(lra) ltac:(apply Rabs_pos)) as [l [Hl El]].
  assert (Hc : 0 < Rmin (Rabs a) 1) by (apply Rmin_glb_lt; lra).
  assert (PA := Rabs_pos a).
  unfold returns. destruct HD.
  - apply (sweep_core _ _ _ (fun s P => a * tp_y_z1 s * tp_y_z2 s <= 0 /\ P <= Rabs (tp_y_z1 s) + b / l * Rabs (tp_y_z2 s))
             (Rmin (Rabs a) 1) l 1); try lra.
    + cbn. split; [right; ring|]. match goal with |- _ <= Rabs ?e + _ => replace e with 1 by ring end.
      rewrite Rabs_R1, Rabs_R0. lra.
    + intros s P HP [I1 I2]. destruct (two_steps a b l _ _ P Hb Hl El I1 I2) as [J1 [J2 [J3 _]]].
      do 3 eexists. split; [reflexivity|]. cbn.
      replace (1 * 0 - - a * tp_y_z1 s - b * tp_y_z2 s) with (a * tp_y_z1 s - b * tp_y_z2 s) by ring.
      set (u := a * tp_y_z1 s - b * tp_y_z2 s) in *.
      replace (1 * 0 - a * u - b * tp_y_z1 s) with (- (a * u) - b * tp_y_z1 s) by ring. auto.
  - apply (sweep_core _ _ _ (fun s P => a * b1_y_z1 s * b1_y_z2 s <= 0 /\ P <= Rabs (b1_y_z1 s) + b / l * Rabs (b1_y_z2 s))
             (Rmin (Rabs a) 1) l 1); try lra.
    + cbn. split; [right; ring|]. match goal with |- _ <= Rabs ?e + _ => replace e with 1 by ring end.
      rewrite Rabs_R1, Rabs_R0. lra.
    + intros s P HP [I1 I2]. destruct (two_steps a b l _ _ P Hb Hl El I1 I2) as [J1 [J2 [J3 _]]].
      do 3 eexists. split; [reflexivity|]. cbn.
      replace (1 * 0 + 0 * b1_x_z1 s + 0 * b1_x_z2 s - - a * b1_y_z1 s - b * b1_y_z2 s)
        with (a * b1_y_z1 s - b * b1_y_z2 s) by ring.
      set (u := a * b1_y_z1 s - b * b1_y_z2 s) in *.
      replace (1 * 0 + 0 * 0 + 0 * b1_x_z1 s - a * u - b * b1_y_z1 s) with (- (a * u) - b * b1_y_z1 s) by ring. auto.
  - apply (sweep_core _ _ _ (fun s P => 0 <= a * b2_z1 s * b2_z2 s /\ P <= Rabs (b2_z1 s) + / l * Rabs (b2_z2 s))
             (Rmin (Rabs a) 1) l (Rabs a)); try lra.
    + cbn. split.
      * match goal with |- 0 <= ?e => replace e with ((a * a) * b) by ring end. apply Rmult_le_pos; [apply Rle_0_sqr|lra].
      * match goal with |- _ <= Rabs ?e + _ * Rabs ?f => replace e with (- a) by ring; replace f with (- b) by ring end.
        rewrite !Rabs_Ropp. assert (0 < / l) by (apply Rinv_0_lt_compat; lra). assert (P := Rabs_pos b). nra.
    + intros s P HP [I1 I2].
      (* the next output is z1, the one before was - z2 / b *)
      destruct (two_steps a b l (b2_z1 s) (- b2_z2 s / b) P Hb Hl El) as [J1 [J2 [_ J3]]].
      { replace (a * b2_z1 s * (- b2_z2 s / b)) with (- (a * b2_z1 s * b2_z2 s / b)) by (field; lra).
        assert (0 <= a * b2_z1 s * b2_z2 s / b) by (apply Rmult_le_pos; [exact I1|left; apply Rinv_0_lt_compat, Hb]). lra. }
      { unfold Rdiv at 2. rewrite Rabs_mult, Rabs_Ropp, (Rabs_pos_eq (/ b)) by (left; apply Rinv_0_lt_compat, Hb).
        replace (b / l * (Rabs (b2_z2 s) * / b)) with (/ l * Rabs (b2_z2 s)) by (field; lra). exact I2. }
      do 3 eexists. split; [reflexivity|]. cbn.
      replace (a * b2_z1 s - b * (- b2_z2 s / b)) with (a * b2_z1 s + b2_z2 s) in * by (field; lra).
      replace (1 * 0 + (0 * 0 + b2_z2 s - - a * (1 * 0 + b2_z1 s))) with (a * b2_z1 s + b2_z2 s) by ring.
      set (u := a * b2_z1 s + b2_z2 s) in *.
      replace (0 * 0 + (0 * 0 - b * (1 * 0 + b2_z1 s)) - a * u) with (- (a * u) - b * b2_z1 s) by ring.
      set (v := - (a * u) - b * b2_z1 s) in *. replace (0 * 0 - b * u) with (- (b * u)) by ring.
      split; [|exact J3]. split.
      * replace (a * v * - (b * u)) with (b * - (a * v * u)) by ring. nra.
      * rewrite Rabs_Ropp, Rabs_mult, (Rabs_pos_eq b) by lra.
        replace (/ l * (b * Rabs u)) with (b / l * Rabs u) by (field; lra). exact J2.
Qed.

(** ** The RBJ filters forget when they are set *)
Definition gained (c : R * R * R * R * R) (G : R) : Prop :=
  forall x M, (forall n : nat, Rabs (x n) <= M) -> forall n, Rabs (response (dev_biquad2 R_ops) c x n) <= G * M.

Lemma gained_mono c G G' : G <= G' -> gained c G -> gained c G'.
Proof.
  intros H HG x M Hx n. assert (0 <= M) by (eapply Rle_trans; [apply Rabs_pos|apply (Hx n)]).
  assert (Q := HG x M Hx n). nra.
Qed.

Lemma gained_stable b0 b1 b2 a1 a2 : stable a1 a2 -> exists G, gained (b0, b1, b2, a1, a2) G.
Proof. intros H. apply (C34_bounded_thm _ _ _ _ _ _ _ _ _ (fe_biquad2 (b0, b1, b2, a1, a2)) H). Qed.

Lemma gained_all kind presets : List.Forall (valid kind) presets ->
  exists G, 0 <= G /\ gained (1, 0, 0, 0, 0) G /\
    forall a, In a presets -> exists c, rbj_coeffs R_ops kind a = Some c /\ gained c G.
Proof.
  intros H. induction H as [|a l Ha Hl [G [G0 [Hi IH]]]].
  - destruct (gained_stable 1 0 0 0 0) as [G HG].
    { unfold stable. rewrite Rabs_R0. lra. }
    exists (Rmax 0 G). split; [apply Rmax_l|]. split; [apply (gained_mono _ G); [apply Rmax_r|exact HG]|]. intros a [].
  - destruct (C37_rbj_stable_thm kind a Ha) as [b0 [b1 [b2 [a1 [a2 [E Hs]]]]]].
    destruct (gained_stable b0 b1 b2 a1 a2 Hs) as [G' HG'].
    exists (Rmax G G'). split; [eapply Rle_trans; [exact G0|apply Rmax_l]|].
    split; [apply (gained_mono _ G); [apply Rmax_l|exact Hi]|].
    intros a' [<-|Hin].
    + eexists. split; [exact E|]. apply (gained_mono _ G'); [apply Rmax_r|exact HG'].
    + destruct (IH a' Hin) as [c [Ec Hc]]. exists c. split; [exact Ec|]. apply (gained_mono _ G); [apply Rmax_l|exact Hc].
Qed.

Lemma state_at_ext {S K} (D : device S K R) s (x x' : signal) n :
  (forall i, (i < n)%nat -> x i = x' i) -> state_at D s x n = state_at D s x' n.
Proof.
  induction n as [|n IH]; intros H; [reflexivity|]. cbn [state_at].
  rewrite IH by (intros i Hi; apply H; lia). now rewrite H by lia.
Qed.

Definition sound (G M : R) (s : biquad2 R) : Prop :=
  Rabs (b2_output s) <= G * M /\
  exists c x n, gained c G /\ (forall i : nat, Rabs (x i) <= M)
    /\ s = state_at (dev_biquad2 R_ops) (configured (dev_biquad2 R_ops) c) x n.

Lemma sound_fresh G M c : 0 <= G -> 0 <= M -> gained c G -> sound G M (configured (dev_biquad2 R_ops) c).
Proof.
  intros HG HM Hc. split.
  - destruct c as [[[[b0 b1] b2] a1] a2]. cbn. rewrite Rabs_R0. apply Rmult_le_pos; assumption.
  - exists c, (fun _ => 0), 0%nat. split; [exact Hc|]. split; [|reflexivity]. intros i. rewrite Rabs_R0. exact HM.
Qed.

Lemma sound_process G M s v : sound G M s -> Rabs v <= M ->
  sound G M (fst (biquad2_process R_ops s v)) /\ Rabs (snd (biquad2_process R_ops s v)) <= G * M.
Proof.
  intros [_ [c [x [n [Hc [Hx ->]]]]]] Hv.
  set (x' := fun i => if (i =? n)%nat then v else x i).
  assert (Hx' : forall i, Rabs (x' i) <= M) by (intros i; unfold x'; destruct (i =? n)%nat; auto).
  assert (Es : state_at (dev_biquad2 R_ops) (configured (dev_biquad2 R_ops) c) x n
             = state_at (dev_biquad2 R_ops) (configured (dev_biquad2 R_ops) c) x' n).
  { apply state_at_ext. intros i Hi. unfold x'. destruct (i =? n)%nat eqn:E; [apply Nat.eqb_eq in E; lia|reflexivity]. }
  rewrite Es. assert (Ev : v = x' n) by (unfold x'; now rewrite Nat.eqb_refl).
  assert (B := Hc x' M Hx' n). unfold response, out in B. cbn [d_process dev_biquad2] in B. rewrite <- Ev in B.
  split; [|exact B]. split; [exact B|].
  exists c, x', (Datatypes.S n). split; [exact Hc|]. split; [exact Hx'|]. cbn [state_at d_process dev_biquad2]. now rewrite <- Ev.
Qed.

Lemma sound_clear G M s : 0 <= G -> 0 <= M -> sound G M s -> sound G M (biquad2_clear R_ops s).
Proof.
  intros HG HM [_ [c [x [n [Hc [Hx ->]]]]]].
  replace (biquad2_clear R_ops _) with (configured (dev_biquad2 R_ops) c); [apply sound_fresh; assumption|].
  destruct c as [[[[b0 b1] b2] a1] a2]. set (D := dev_biquad2 R_ops).
  set (P := fun s : biquad2 R => b2_b0 s = b0 /\ b2_b1 s = b1 /\ b2_b2 s = b2 /\ b2_a1 s = a1 /\ b2_a2 s = a2).
  destruct (state_inv D P (fun s x H => H) (configured D (b0, b1, b2, a1, a2)) x n) as [E0 [E1 [E2 [E3 E4]]]].
  { repeat split; reflexivity. }
  unfold biquad2_clear. rewrite E0, E1, E2, E3, E4. reflexivity.
Qed.

(** C84: the RBJ filters cannot be driven to that: their setter forgets the past,
    so for every choice of valid presets there is one bound that holds for all
    sequences of calls that switch among them in any way. *)
Lemma C84_rbj_sweep_bounded_thm :
  forall (kind : rbj_kind) (presets : list (rbj_args R)), List.Forall (valid kind) presets ->
  exists G, forall (calls : list (call (rbj_args R) R)) (M y : R),
    0 <= M -> (forall x, In (CProcess x) calls -> Rabs x <= M) ->
    (forall a, In (CSet a) calls -> In a presets) ->
    In (Some y) (returns (dev_rbj R_ops kind) [] calls) -> Rabs y <= G * M.
Proof.
  intros kind presets HV. destruct (gained_all kind presets HV) as [G [HG [Hi Ha]]]. exists G.
  intros calls M y HM Hx Hset Hin. unfold returns in Hin.
  assert (Hs : sound G M (after (dev_rbj R_ops kind) [])).
  { replace (after (dev_rbj R_ops kind) []) with (configured (dev_biquad2 R_ops) (1, 0, 0, 0, 0)).
    - apply sound_fresh; assumption.
    - destruct kind; reflexivity. }
  set (s := after (dev_rbj R_ops kind) []) in *. clearbody s.
  revert s Hs Hin. induction calls as [|[v| |a|] calls IH]; intros s Hs Hin; [destruct Hin| | | |].
  - destruct (sound_process G M s v Hs (Hx v (or_introl eq_refl))) as [Hs' Hy].
    assert (E : d_process (dev_rbj R_ops kind) s v = biquad2_process R_ops s v) by (destruct kind; reflexivity).
    cbn [d_run d_step] in Hin. rewrite E in Hin.
    destruct (biquad2_process R_ops s v) as [s' y']. cbn [fst snd] in Hs', Hy.
    destruct (d_run (dev_rbj R_ops kind) s' calls) as [s2 log] eqn:El. cbn [snd map In] in Hin.
    destruct Hin as [Hin|Hin]; [injection Hin as <-; exact Hy|].
    apply (IH (fun x H => Hx x (or_intror H)) (fun a H => Hset a (or_intror H)) s' Hs'). rewrite El. exact Hin.
  - assert (E : d_clear (dev_rbj R_ops kind) s = biquad2_clear R_ops s) by (destruct kind; reflexivity).
    cbn [d_run d_step] in Hin. rewrite E in Hin.
    assert (Hs' := sound_clear G M s HG HM Hs).
    destruct (d_run (dev_rbj R_ops kind) (biquad2_clear R_ops s) calls) as [s2 log] eqn:El. cbn [snd map In] in Hin.
    destruct Hin as [Hin|Hin]; [discriminate|].
    apply (IH (fun x H => Hx x (or_intror H)) (fun a H => Hset a (or_intror H)) _ Hs'). rewrite El. exact Hin.
  - destruct (Ha a (Hset a (or_introl eq_refl))) as [c [Ec Hc]].
    assert (E : d_set (dev_rbj R_ops kind) s a = configured (dev_biquad2 R_ops) c).
    { cbn. unfold rbj_set_coefficients. rewrite Ec. destruct c as [[[[b0 b1] b2] a1] a2]. destruct kind; reflexivity. }
    cbn [d_run d_step] in Hin. rewrite E in Hin.
    assert (Hs' := sound_fresh G M c HG HM Hc).
    destruct (d_run (dev_rbj R_ops kind) (configured (dev_biquad2 R_ops) c) calls) as [s2 log] eqn:El. cbn [snd map In] in Hin.
    destruct Hin as [Hin|Hin]; [discriminate|].
    apply (IH (fun x H => Hx x (or_intror H)) (fun a H => Hset a (or_intror H)) _ Hs'). rewrite El. exact Hin.
  - assert (E : d_last_out (dev_rbj R_ops kind) s = b2_output s) by (destruct kind; reflexivity).
    cbn [d_run d_step] in Hin. rewrite E in Hin.
    destruct (d_run (dev_rbj R_ops kind) s calls) as [s2 log] eqn:El. cbn [snd map In] in Hin.
    destruct Hin as [Hin|Hin]; [injection Hin as <-; apply Hs|].
    apply (IH (fun x H => Hx x (or_intror H)) (fun a H => Hset a (or_intror H)) s Hs). rewrite El. exact Hin.
Qed.

(*@PROP
Example C84_hyps :
  swept (dev_biquad2 R_ops) (fun a1 a2 => (1, 0, 0, a1, a2))
  /\ stable (-1.8) 0.9 /\ stable (- -1.8) 0.9 /\ 1 - 0.9 < Rabs (-1.8)
  /\ filter_eq (dev_two_zero R_ops) (1, 2, 3) (1, 2, 3, 0, 0)
  /\ List.Forall (valid LowPass) [RbjQ 48000 1000 1; RbjQ 48000 2000 0.5].
Proof.
  unfold stable. split; [constructor|].
  split; [split; unfold Rabs; destruct Rcase_abs; lra|]. split; [split; unfold Rabs; destruct Rcase_abs; lra|].
  split; [unfold Rabs; destruct Rcase_abs; lra|]. split; [constructor|].
  repeat constructor; cbn; lra.
Qed.
@*)
