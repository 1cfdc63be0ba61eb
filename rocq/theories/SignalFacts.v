(** Second-order recurrences: uniqueness, boundedness, decay, steady state. *)
From Coq Require Import Reals Lra Lia List Arith.
From Coquelicot Require Import Coquelicot.
From Verif Require Import Num NumR Device Signal.
Import ListNotations.
Open Scope R_scope.

(** ** The difference equation *)
Lemma back_0 x n : back 0%nat x n = x n.
Proof. unfold back. cbn. now rewrite Nat.sub_0_r. Qed.
Lemma back_S0 j x : back (S j) x 0%nat = 0.
Proof. reflexivity. Qed.
Lemma back_SS j x n : back (S j) x (S n) = back j x n.
Proof. reflexivity. Qed.

Lemma obeys_unique c x1 x2 y1 y2 :
  (forall n, x1 n = x2 n) -> obeys c x1 y1 -> obeys c x2 y2 -> forall n, y1 n = y2 n.
Proof.
  destruct c as [[[[b0 b1] b2] a1] a2]. intros Hx H1 H2 n.
  induction n as [n IH] using lt_wf_ind. rewrite H1, H2. unfold back.
  rewrite Hx. do 2 f_equal; [do 2 f_equal|..].
  - destruct (1 <=? n)%nat; now rewrite ?Hx.
  - destruct (2 <=? n)%nat; now rewrite ?Hx.
  - destruct (1 <=? n)%nat eqn:E; [|reflexivity]. apply Nat.leb_le in E. rewrite IH by lia. reflexivity.
  - destruct (2 <=? n)%nat eqn:E; [|reflexivity]. apply Nat.leb_le in E. rewrite IH by lia. reflexivity.
Qed.

Lemma back_lin a b u v j n : back j (fun n => a * u n + b * v n) n = a * back j u n + b * back j v n.
Proof. unfold back. destruct (j <=? n)%nat; ring. Qed.

Lemma obeys_lin c a b u v yu yv :
  obeys c u yu -> obeys c v yv ->
  obeys c (fun n => a * u n + b * v n) (fun n => a * yu n + b * yv n).
Proof.
  destruct c as [[[[b0 b1] b2] a1] a2]. intros H1 H2 n. rewrite !back_lin. rewrite H1, H2. ring.
Qed.

Lemma back_back i j x n : back i (back j x) n = back j (back i x) n.
Proof.
  unfold back. destruct (i <=? n)%nat eqn:E1, (j <=? n)%nat eqn:E2; try reflexivity;
  repeat match goal with
  | H : (_ <=? _)%nat = true |- _ => apply Nat.leb_le in H
  | H : (_ <=? _)%nat = false |- _ => apply Nat.leb_gt in H
  end.
  - destruct (j <=? n - i)%nat eqn:E3, (i <=? n - j)%nat eqn:E4;
    repeat match goal with
    | H : (_ <=? _)%nat = true |- _ => apply Nat.leb_le in H
    | H : (_ <=? _)%nat = false |- _ => apply Nat.leb_gt in H
    end; try lia; auto. f_equal. lia.
  - destruct (j <=? n - i)%nat eqn:E3; [apply Nat.leb_le in E3; lia|reflexivity].
  - destruct (i <=? n - j)%nat eqn:E3; [apply Nat.leb_le in E3; lia|reflexivity].
Qed.

Lemma obeys_back c j x y : obeys c x y -> obeys c (back j x) (back j y).
Proof.
  destruct c as [[[[b0 b1] b2] a1] a2]. intros H n.
  rewrite !(back_back _ j). unfold back at 1 2 3 5 7 9.
  destruct (j <=? n)%nat; [apply H|]. ring.
Qed.

(** ** From a second-order equation to a recurrence without boundary *)
Definition recur (c : R * R * R * R * R) (x y : signal) : Prop :=
  let '(b0, b1, b2, a1, a2) := c in
  forall n, y (S (S n)) = b0 * x (S (S n)) + b1 * x (S n) + b2 * x n
                          - a1 * y (S n) - a2 * y n.

Lemma obeys_recur c x y : obeys c x y -> recur c x y.
Proof.
  destruct c as [[[[b0 b1] b2] a1] a2]. intros H n. rewrite (H (S (S n))).
  rewrite !back_SS, !back_0. reflexivity.
Qed.

(** ** Poles *)
Lemma stable_poles a1 a2 : stable a1 a2 ->
  exists p q : C, (p + q = RtoC (- a1))%C /\ (p * q = RtoC a2)%C /\ Cmod p < 1 /\ Cmod q < 1.
Proof.
  intros [H2 H1]. apply Rabs_def2 in H2. apply Rabs_def2 in H1.
  set (disc := a1 * a1 - 4 * a2).
  destruct (Rle_lt_dec 0 disc) as [Hd|Hd].
  - assert (Hs : sqrt disc * sqrt disc = disc) by (apply sqrt_sqrt; lra).
    assert (Hs0 : 0 <= sqrt disc) by apply sqrt_pos.
    set (s := sqrt disc) in *.
    assert (Hb1 : s < 2 - a1). { apply Rsqr_incrst_0; unfold Rsqr, disc in *; nra. }
    assert (Hb2 : s < 2 + a1). { apply Rsqr_incrst_0; unfold Rsqr, disc in *; nra. }
    exists (RtoC ((- a1 + s) / 2)), (RtoC ((- a1 - s) / 2)).
    split; [rewrite <- RtoC_plus; f_equal; lra|].
    split; [rewrite <- RtoC_mult; f_equal; unfold disc in Hs; nra|].
    rewrite !Cmod_R. split; apply Rabs_def1; lra.
  - assert (Hs : sqrt (- disc) * sqrt (- disc) = - disc) by (apply sqrt_sqrt; lra).
    set (s := sqrt (- disc)) in *. unfold disc in *.
    exists (- a1 / 2, s / 2), (- a1 / 2, - s / 2).
    split; [unfold Cplus, RtoC; cbn; f_equal; lra|].
    split; [unfold Cmult, RtoC; cbn; f_equal; nra|].
    assert (E : forall u v, u * u + v * v < 1 -> Cmod (u, v) < 1).
    { intros u v H. unfold Cmod. cbn [fst snd]. rewrite <- sqrt_1. apply sqrt_lt_1_alt.
      split; [nra|]. cbn. lra. }
    split; apply E; nra.
Qed.

(** ** First-order inequalities *)
Lemma first_order_bound (r F : R) (e : nat -> R) :
  0 <= r < 1 -> 0 <= F -> e 0%nat <= F / (1 - r) ->
  (forall n, e (S n) <= r * e n + F) -> forall n, e n <= F / (1 - r).
Proof.
  intros Hr HF H0 Hs n. induction n as [|n IH]; [exact H0|].
  specialize (Hs n).
  assert (Hq : F / (1 - r) * (1 - r) = F) by (field; lra).
  nra.
Qed.

Lemma geom_lim r : 0 <= r < 1 -> is_lim_seq (fun n => r ^ n) 0.
Proof. intros H. apply is_lim_seq_geom. rewrite Rabs_pos_eq; lra. Qed.

Lemma first_order_decay (r : R) (e f : nat -> R) :
  0 <= r < 1 -> (forall n, 0 <= e n) -> (forall n, e (S n) <= r * e n + f n) ->
  is_lim_seq f 0 -> is_lim_seq e 0.
Proof.
  intros Hr He Hs Hf. apply is_lim_seq_spec. intros eps. cbn.
  apply is_lim_seq_spec in Hf.
  assert (Hep : 0 < eps) by apply cond_pos.
  assert (He2 : 0 < eps * (1 - r) / 2).
  { apply Rdiv_lt_0_compat; [|lra]. apply Rmult_lt_0_compat; lra. }
  destruct (Hf (mkposreal _ He2)) as [N HN]. cbn in HN.
  assert (Hk : forall k, e (N + k)%nat <= r ^ k * e N + eps / 2).
  { induction k as [|k IH].
    - rewrite Nat.add_0_r. cbn. lra.
    - rewrite Nat.add_succ_r. eapply Rle_trans; [apply Hs|].
      specialize (HN (N + k)%nat ltac:(lia)). apply Rabs_def2 in HN.
      cbn [pow]. nra. }
  assert (Hg := geom_lim r Hr). apply is_lim_seq_spec in Hg.
  assert (He3 : 0 < eps / 2 / (1 + e N)).
  { apply Rdiv_lt_0_compat; [lra|]. specialize (He N). lra. }
  destruct (Hg (mkposreal _ He3)) as [M HM]. cbn in HM.
  exists (N + M)%nat. intros n Hn.
  replace n with (N + (n - N))%nat by lia. set (k := (n - N)%nat).
  assert (Hkm : (M <= k)%nat) by (unfold k; lia).
  specialize (HM k Hkm). specialize (Hk k). rewrite Rminus_0_r in HM |- *.
  rewrite Rabs_pos_eq by apply He.
  assert (Hrk : 0 <= r ^ k) by (apply pow_le; lra).
  rewrite Rabs_pos_eq in HM by exact Hrk.
  specialize (He N).
  assert (r ^ k * (1 + e N) < eps / 2).
  { apply Rmult_lt_reg_r with (/ (1 + e N)); [apply Rinv_0_lt_compat; lra|].
    rewrite Rmult_assoc, Rinv_r, Rmult_1_r by lra. exact HM. }
  nra.
Qed.

(** ** The recurrence y'' = - a1 y' - a2 y + u as a cascade of two one-poles *)
Lemma cascade (p q : C) a1 a2 (y u : signal) :
  (p + q = RtoC (- a1))%C -> (p * q = RtoC a2)%C ->
  (forall n, y (S (S n)) = u n - a1 * y (S n) - a2 * y n) ->
  forall n, (RtoC (y (S (S n))) - p * RtoC (y (S n))
             = q * (RtoC (y (S n)) - p * RtoC (y n)) + RtoC (u n))%C.
Proof.
  intros Hs Hp Hr n. rewrite Hr.
  unfold Rminus. rewrite !RtoC_plus, !RtoC_opp, !RtoC_mult.
  rewrite <- Hp.
  assert (Ha : (RtoC a1 = - (p + q))%C).
  { rewrite Hs, RtoC_opp. ring. }
  rewrite Ha. ring.
Qed.

Lemma recur_bound a1 a2 (y u : signal) M :
  stable a1 a2 -> (forall n, y (S (S n)) = u n - a1 * y (S n) - a2 * y n) ->
  0 <= M -> (forall n, Rabs (u n) <= M) -> y 0%nat = 0 -> y 1%nat = 0 ->
  forall p q : C, (p + q = RtoC (- a1))%C -> (p * q = RtoC a2)%C -> Cmod p < 1 -> Cmod q < 1 ->
  forall n, Rabs (y n) <= M / (1 - Cmod q) / (1 - Cmod p).
Proof.
  intros _ Hr HM Hu Hy0 Hy1 p q Hs Hp Hpm Hqm.
  assert (Hp0 := Cmod_ge_0 p). assert (Hq0 := Cmod_ge_0 q).
  assert (HMq : 0 <= M / (1 - Cmod q)).
  { apply Rmult_le_pos; [exact HM|]. left. apply Rinv_0_lt_compat. lra. }
  assert (Hw : forall n, Cmod (RtoC (y (S n)) - p * RtoC (y n))%C <= M / (1 - Cmod q)).
  { apply (first_order_bound (Cmod q) M (fun n => Cmod (RtoC (y (S n)) - p * RtoC (y n))%C)).
    - lra.
    - exact HM.
    - rewrite Hy0, Hy1. replace (RtoC 0 - p * RtoC 0)%C with (RtoC 0) by ring.
      rewrite Cmod_0. exact HMq.
    - intros n. rewrite (cascade p q a1 a2 y u Hs Hp Hr n).
      eapply Rle_trans; [apply Cmod_triangle|]. rewrite Cmod_mult, Cmod_R.
      specialize (Hu n). lra. }
  intros n. rewrite <- Cmod_R. revert n.
  apply (first_order_bound (Cmod p) (M / (1 - Cmod q)) (fun n => Cmod (RtoC (y n)))).
  - lra.
  - exact HMq.
  - rewrite Hy0, Cmod_0. apply Rmult_le_pos; [exact HMq|]. left. apply Rinv_0_lt_compat. lra.
  - intros n. specialize (Hw n).
    replace (RtoC (y (S n))) with (p * RtoC (y n) + (RtoC (y (S n)) - p * RtoC (y n)))%C by ring.
    eapply Rle_trans; [apply Cmod_triangle|]. rewrite Cmod_mult. lra.
Qed.

Lemma recur_decay a1 a2 (y u : signal) :
  stable a1 a2 -> (forall n, y (S (S n)) = u n - a1 * y (S n) - a2 * y n) ->
  is_lim_seq u 0 -> is_lim_seq y 0.
Proof.
  intros Hst Hr Hu. destruct (stable_poles a1 a2 Hst) as [p [q [Hs [Hp [Hpm Hqm]]]]].
  assert (Hp0 := Cmod_ge_0 p). assert (Hq0 := Cmod_ge_0 q).
  assert (Hw : is_lim_seq (fun n => Cmod (RtoC (y (S n)) - p * RtoC (y n))%C) 0).
  { apply (first_order_decay (Cmod q) _ (fun n => Rabs (u n))).
    - lra.
    - intros n. apply Cmod_ge_0.
    - intros n. rewrite (cascade p q a1 a2 y u Hs Hp Hr n).
      eapply Rle_trans; [apply Cmod_triangle|]. rewrite Cmod_mult, Cmod_R. lra.
    - apply -> is_lim_seq_abs_0. exact Hu. }
  apply is_lim_seq_abs_0.
  apply (first_order_decay (Cmod p) _ (fun n => Cmod (RtoC (y (S n)) - p * RtoC (y n))%C)).
  - lra.
  - intros n. apply Rabs_pos.
  - intros n. rewrite <- !Cmod_R.
    replace (RtoC (y (S n))) with (p * RtoC (y n) + (RtoC (y (S n)) - p * RtoC (y n)))%C at 1 by ring.
    eapply Rle_trans; [apply Cmod_triangle|]. rewrite Cmod_mult. lra.
  - exact Hw.
Qed.

(** Two solutions of the same stable recurrence approach each other. *)
Lemma recur_approach b0 b1 b2 a1 a2 x y z :
  stable a1 a2 -> recur (b0, b1, b2, a1, a2) x y -> recur (b0, b1, b2, a1, a2) x z ->
  approaches y z.
Proof.
  intros Hst Hy Hz. unfold approaches.
  apply (recur_decay a1 a2 _ (fun _ => 0) Hst).
  - intros n. rewrite Hy, Hz. ring.
  - apply is_lim_seq_const.
Qed.

(** Vanishing input, vanishing output. *)
Lemma recur_vanish b0 b1 b2 a1 a2 x y :
  stable a1 a2 -> recur (b0, b1, b2, a1, a2) x y -> is_lim_seq x 0 -> is_lim_seq y 0.
Proof.
  intros Hst Hy Hx.
  apply (recur_decay a1 a2 _ (fun n => b0 * x (S (S n)) + b1 * x (S n) + b2 * x n) Hst).
  - intros n. rewrite Hy. reflexivity.
  - assert (H1 : is_lim_seq (fun n => x (S n)) 0) by (apply (is_lim_seq_incr_1 x); exact Hx).
    assert (H2 : is_lim_seq (fun n => x (S (S n))) 0)
      by (apply (is_lim_seq_incr_1 (fun n => x (S n))); exact H1).
    replace (Finite 0) with (Finite (b0 * 0 + b1 * 0 + b2 * 0)) by (f_equal; ring).
    apply is_lim_seq_plus'; [apply is_lim_seq_plus'|];
      (apply is_lim_seq_mult'; [apply is_lim_seq_const|assumption]).
Qed.

(** Bounded input, bounded output. *)
Lemma obeys_bound a1 a2 : stable a1 a2 ->
  exists G, 0 <= G /\ forall b0 b1 b2 x y M, obeys (b0, b1, b2, a1, a2) x y -> 
    (forall n, Rabs (x n) <= M) -> 
    forall n, Rabs (y n) <= (Rabs b0 + Rabs b1 + Rabs b2) * G * M.
Proof.
  intros Hst. destruct (stable_poles a1 a2 Hst) as [p [q [Hs [Hp [Hpm Hqm]]]]].
  exists (/ (1 - Cmod q) / (1 - Cmod p)).
  assert (H1 : 0 < / (1 - Cmod q)) by (apply Rinv_0_lt_compat; lra).
  assert (H2 : 0 < / (1 - Cmod p)) by (apply Rinv_0_lt_compat; lra).
  split; [left; apply Rmult_lt_0_compat; assumption|].
  intros b0 b1 b2 x y M Ho Hx n.
  assert (HM : 0 <= M) by (eapply Rle_trans; [apply Rabs_pos|apply (Hx 0%nat)]).
  assert (Ho2 := obeys_back _ 2 x y Ho). apply obeys_recur in Ho2.
  assert (Hb : forall j n, Rabs (back j x n) <= M).
  { intros j m. unfold back. destruct (j <=? m)%nat; [apply Hx|]. rewrite Rabs_R0. exact HM. }
  assert (E := recur_bound a1 a2 (back 2 y)
    (fun n => b0 * back 2 x (S (S n)) + b1 * back 2 x (S n) + b2 * back 2 x n)
    ((Rabs b0 + Rabs b1 + Rabs b2) * M) Hst).
  specialize (E Ho2).
  replace (y n) with (back 2 y (S (S n))) by (rewrite !back_SS, back_0; reflexivity).
  replace ((Rabs b0 + Rabs b1 + Rabs b2) * (/ (1 - Cmod q) / (1 - Cmod p)) * M)
    with ((Rabs b0 + Rabs b1 + Rabs b2) * M / (1 - Cmod q) / (1 - Cmod p)) by (field; lra).
  apply E; auto.
  - assert (A0 := Rabs_pos b0). assert (A1 := Rabs_pos b1). assert (A2 := Rabs_pos b2). 
    apply Rmult_le_pos; lra.
  - intros m. eapply Rle_trans; [apply Rabs_triang|]. eapply Rle_trans.
    { apply Rplus_le_compat_r. apply Rabs_triang. }
    rewrite !Rabs_mult.
    assert (A0 := Rabs_pos b0). assert (A1 := Rabs_pos b1). assert (A2 := Rabs_pos b2).
    assert (B0 := Hb 2%nat (S (S m))). assert (B1 := Hb 2%nat (S m)). assert (B2 := Hb 2%nat m).
    nra.
Qed.

(** ** Steady state *)
Definition cis (t : R) : C := (cos t, sin t).

Lemma cis_plus s t : (cis (s + t) = cis s * cis t)%C.
Proof. unfold cis, Cmult; cbn. rewrite cos_plus, sin_plus. f_equal; ring. Qed.

Lemma Cmod_cis t : Cmod (cis t) = 1.
Proof.
  unfold Cmod, cis; cbn [fst snd].
  assert (H := sin2_cos2 t). unfold Rsqr in H.
  replace (cos t ^ 2 + sin t ^ 2) with 1 by (cbn; lra). apply sqrt_1.
Qed.

(** Transfer function at [cis w]: numerator and denominator times z^2. *)
Definition num_at (b0 b1 b2 w : R) : C :=
  (RtoC b0 * (cis w * cis w) + RtoC b1 * cis w + RtoC b2)%C.
Definition den_at (a1 a2 w : R) : C :=
  ((cis w * cis w) + RtoC a1 * cis w + RtoC a2)%C.

Lemma steady b0 b1 b2 a1 a2 w g theta A phi y :
  stable a1 a2 ->
  (num_at b0 b1 b2 w = RtoC g * cis theta * den_at a1 a2 w)%C ->
  recur (b0, b1, b2, a1, a2) (sinusoid A w phi) y ->
  approaches y (sinusoid (g * A) w (phi + theta)).
Proof.
  intros Hst HH Hy. apply (recur_approach b0 b1 b2 a1 a2 (sinusoid A w phi)); auto.
  intros n. unfold sinusoid.
  assert (Hre : forall t, cos t = fst (cis t)) by reflexivity.
  replace (INR (S (S n)) * w + phi) with (INR n * w + phi + (w + w)) by (rewrite !S_INR; ring).
  replace (INR (S n) * w + phi) with (INR n * w + phi + w) by (rewrite !S_INR; ring).
  replace (INR (S (S n)) * w + (phi + theta)) with (INR n * w + phi + (w + w) + theta)
    by (rewrite !S_INR; ring).
  replace (INR (S n) * w + (phi + theta)) with (INR n * w + phi + w + theta)
    by (rewrite !S_INR; ring).
  replace (INR n * w + (phi + theta)) with (INR n * w + phi + theta) by ring.
  generalize (INR n * w + phi). intros X0. set (E := cis X0).
  assert (K : (RtoC (g * A) * (E * (cis w * cis w) * cis theta)
     = RtoC b0 * (RtoC A * (E * (cis w * cis w))) + RtoC b1 * (RtoC A * (E * cis w))
       + RtoC b2 * (RtoC A * E)
       - RtoC a1 * (RtoC (g * A) * (E * cis w * cis theta))
       - RtoC a2 * (RtoC (g * A) * (E * cis theta)))%C).
  { assert (X : (RtoC A * E * num_at b0 b1 b2 w = RtoC A * E * (RtoC g * cis theta * den_at a1 a2 w))%C)
      by (rewrite HH; reflexivity).
    unfold num_at, den_at in X. rewrite RtoC_mult.
    match type of X with ?l = ?r =>
      assert (Y : (l - r)%C = RtoC 0) by (rewrite X; ring) end.
    match goal with |- ?l = ?r => assert (Z : (l - r)%C = RtoC 0) end.
    { transitivity (- (RtoC 0))%C; [|ring]. rewrite <- Y. ring. }
    match goal with |- ?l = ?r => transitivity (l - r + r)%C; [ring|]; rewrite Z; ring end. }
  rewrite !Hre. rewrite !cis_plus. fold E.
  apply (f_equal fst) in K. 
  assert (Hs : forall r (z : C), fst (RtoC r * z)%C = r * fst z) by (intros; cbn; ring).
  assert (Hp : forall u v : C, fst (u + v)%C = fst u + fst v) by reflexivity.
  assert (Hm : forall u v : C, fst (u - v)%C = fst u - fst v) by (intros; cbn; ring).
  rewrite !Hm, !Hp, !Hs in K.
  rewrite K. ring.
Qed.
