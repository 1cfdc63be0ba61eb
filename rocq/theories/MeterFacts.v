(** Facts for C98: one-pole followers with two gains, on periodic signals. *)
From Coq Require Import ZArith Reals List Bool Lra Lia.
From Coquelicot Require Import Coquelicot.
From Verif Require Import Base Num NumR AnalysisM Device Signal AnaSpec AnaFacts AnaLemmas2 MeterSpec.
Import ListNotations.
Open Scope R_scope.

Lemma total_plus k x y n : total k (fun i => x i + y i) n = total k x n + total k y n.
Proof. induction k as [|k IH]; cbn; [lra|]. rewrite IH. lra. Qed.
Lemma total_scal k c x n : total k (fun i => c * x i) n = c * total k x n.
Proof. induction k as [|k IH]; cbn; [lra|]. rewrite IH. lra. Qed.
Lemma total_ext k x y n : (forall i, x i = y i) -> total k x n = total k y n.
Proof. intros H. induction k as [|k IH]; cbn; [reflexivity|]. rewrite IH, H. reflexivity. Qed.
Lemma total_le k x y n : (forall i, x i <= y i) -> total k x n <= total k y n.
Proof. intros H. induction k as [|k IH]; cbn; [lra|]. specialize (H (n + k)%nat). lra. Qed.
Lemma total_const k c n : total k (fun _ => c) n = INR k * c.
Proof. induction k as [|k IH]; [cbn; lra|]. cbn [total]. rewrite IH, S_INR. lra. Qed.
Lemma total_next k x n : total k x (S n) = total k (fun i => x (S i)) n.
Proof. induction k as [|k IH]; cbn; [reflexivity|]. rewrite IH. reflexivity. Qed.
Lemma total_shift k x n : total k x (S n) = total k x n + x (n + k)%nat - x n.
Proof.
  induction k as [|k IH]; cbn [total].
  - replace (n + 0)%nat with n by lia. lra.
  - rewrite IH. replace (S n + k)%nat with (n + S k)%nat by lia. lra.
Qed.
Lemma total_periodic P x n : periodic P x -> total P x n = total P x 0.
Proof.
  intros [_ H]. induction n as [|n IH]; [reflexivity|].
  rewrite total_shift, IH, H. lra.
Qed.

(** A follower: gain [a] when rising, [r] otherwise. *)
Definition follows (a r : R) (v e : signal) : Prop :=
  forall n, e (S n) = v n + (if Rlt_dec (e n) (v n) then a else r) * (e n - v n).

Section Follow.
  Context (a r : R) (v e : signal).
  Hypothesis Ha : 0 <= a < 1.
  Hypothesis Hr : 0 <= r < 1.
  Hypothesis HF : follows a r v e.

  Lemma follow_range lo hi : (forall n, lo <= v n <= hi) -> lo <= e 0%nat <= hi -> forall n, lo <= e n <= hi.
  Proof.
    intros Hv H0. induction n as [|n IH]; [exact H0|]. rewrite HF. specialize (Hv n).
    destruct (Rlt_dec (e n) (v n)); nra.
  Qed.

  (** Equal gains: the mean is a one-pole of the mean. *)
  Lemma follow_total_eq P : periodic P v -> a = r ->
    forall n, total P e n - total P v 0 = r ^ n * (total P e 0 - total P v 0).
  Proof.
    intros HP E. induction n as [|n IH]; [cbn; lra|].
    rewrite total_next. rewrite (total_ext _ _ (fun i => (1 - r) * v i + r * e i)).
    2: { intros i. rewrite HF. destruct (Rlt_dec _ _); subst a; lra. }
    rewrite total_plus, !total_scal, (total_periodic P v n HP). cbn [pow]. nra.
  Qed.

  Lemma follow_total_ge P : periodic P v -> a <= r ->
    forall n, total P e n - total P v 0 >= r ^ n * (total P e 0 - total P v 0).
  Proof.
    intros HP E. induction n as [|n IH]; [cbn; lra|].
    rewrite total_next.
    assert (K : total P (fun i => (1 - r) * v i + r * e i) n <= total P (fun i => e (S i)) n).
    { apply total_le. intros i. rewrite HF. destruct (Rlt_dec _ _); nra. }
    rewrite total_plus, !total_scal, (total_periodic P v n HP) in K. cbn [pow].
    apply Rle_ge. apply Rge_le in IH. nra.
  Qed.

  Lemma follow_total_le P : periodic P v -> r <= a ->
    forall n, total P e n - total P v 0 <= r ^ n * (total P e 0 - total P v 0).
  Proof.
    intros HP E. induction n as [|n IH]; [cbn; lra|].
    rewrite total_next.
    assert (K : total P (fun i => e (S i)) n <= total P (fun i => (1 - r) * v i + r * e i) n).
    { apply total_le. intros i. rewrite HF. destruct (Rlt_dec _ _); nra. }
    rewrite total_plus, !total_scal, (total_periodic P v n HP) in K. cbn [pow]. nra.
  Qed.

  (** Step size, hence ripple. *)
  Lemma follow_step B g : a <= 1 -> 1 - a <= g -> 1 - r <= g -> (forall n, 0 <= v n <= B) -> 0 <= e 0%nat <= B ->
    forall n, Rabs (e (S n) - e n) <= g * B.
  Proof.
    intros _ G1 G2 Hv H0 n. assert (K := follow_range 0 B Hv H0 n). specialize (Hv n).
    rewrite HF. assert (D : Rabs (v n - e n) <= B) by (apply Rabs_le; lra).
    destruct (Rlt_dec _ _).
    - replace (v n + a * (e n - v n) - e n) with ((1 - a) * (v n - e n)) by ring.
      rewrite Rabs_mult, (Rabs_pos_eq (1 - a)) by lra. assert (P0 := Rabs_pos (v n - e n)). nra.
    - replace (v n + r * (e n - v n) - e n) with ((1 - r) * (v n - e n)) by ring.
      rewrite Rabs_mult, (Rabs_pos_eq (1 - r)) by lra. assert (P0 := Rabs_pos (v n - e n)). nra.
  Qed.
End Follow.

Lemma walk e c : (forall n : nat, Rabs (e (S n) - e n) <= c) -> forall n i, Rabs (e (n + i)%nat - e n) <= INR i * c.
Proof.
  intros H n. induction i as [|i IH].
  - replace (n + 0)%nat with n by lia. rewrite Rminus_diag_eq by reflexivity. rewrite Rabs_R0. cbn. lra.
  - replace (n + S i)%nat with (S (n + i)) by lia. rewrite S_INR.
    assert (K := Rabs_triang (e (S (n + i)) - e (n + i)%nat) (e (n + i)%nat - e n)).
    replace (e (S (n + i)) - e (n + i)%nat + (e (n + i)%nat - e n)) with (e (S (n + i)) - e n) in K by ring.
    specialize (H (n + i)%nat). lra.
Qed.

Lemma walk_total e c : (forall n : nat, Rabs (e (S n) - e n) <= c) ->
  forall n P, Rabs (total P e n - INR P * e n) <= INR P * (INR P - 1) / 2 * c.
Proof.
  intros H n P. induction P as [|P IH].
  - cbn. replace (0 - 0 * e n) with 0 by ring. rewrite Rabs_R0. lra.
  - cbn [total]. rewrite S_INR. assert (W := walk e c H n P).
    assert (K := Rabs_triang (total P e n - INR P * e n) (e (n + P)%nat - e n)).
    replace (total P e n - INR P * e n + (e (n + P)%nat - e n)) with (total P e n + e (n + P)%nat - (INR P + 1) * e n) in K by ring.
    nra.
Qed.

(** Two followers of the same levels approach each other. *)
Lemma step_contracts a r v x y : 0 <= a < 1 -> 0 <= r < 1 ->
  Rabs (v + (if Rlt_dec x v then a else r) * (x - v) - (v + (if Rlt_dec y v then a else r) * (y - v)))
  <= Rmax a r * Rabs (x - y).
Proof.
  intros Ha Hr. set (m := Rmax a r). assert (a <= m) by apply Rmax_l. assert (r <= m) by apply Rmax_r.
  destruct (Rle_dec x y) as [L|L].
  - rewrite (Rabs_left1 (x - y)) by lra. apply Rabs_le.
    destruct (Rlt_dec x v), (Rlt_dec y v); split; nra.
  - rewrite (Rabs_pos_eq (x - y)) by lra. apply Rabs_le.
    destruct (Rlt_dec x v), (Rlt_dec y v); split; nra.
Qed.

Lemma contracts a r v e e' : 0 <= a < 1 -> 0 <= r < 1 -> follows a r v e -> follows a r v e' ->
  forall n, Rabs (e n - e' n) <= Rmax a r ^ n * Rabs (e 0%nat - e' 0%nat).
Proof.
  intros Ha Hr HF HF'. assert (0 <= Rmax a r) by (apply Rle_trans with a; [lra|apply Rmax_l]).
  induction n as [|n IH]; [cbn; lra|]. rewrite HF, HF'. cbn [pow].
  eapply Rle_trans; [apply step_contracts; assumption|].
  rewrite Rmult_assoc. apply Rmult_le_compat_l; assumption.
Qed.

Lemma follow_unique a r v e e' : follows a r v e -> follows a r v e' -> e 0%nat = e' 0%nat -> forall n, e n = e' n.
Proof. intros H H' E. induction n as [|n IH]; [exact E|]. rewrite H, H', IH. reflexivity. Qed.

(** Settling: a steady state exists. *)
Section Settle.
  Context (a r : R) (v : signal) (P : nat).
  Hypothesis Ha : 0 <= a < 1.
  Hypothesis Hr : 0 <= r < 1.
  Hypothesis HP : periodic P v.

  (** The follower started from zero. *)
  Fixpoint z0 (n : nat) : R :=
    match n with
    | O => 0
    | S n' => v n' + (if Rlt_dec (z0 n') (v n') then a else r) * (z0 n' - v n')
    end.
  Lemma z0_follows : follows a r v z0.
  Proof. intros n. reflexivity. Qed.

  Let m := Rmax a r.
  Lemma m_range : 0 <= m < 1.
  Proof. unfold m. split; [apply Rle_trans with a; [lra|apply Rmax_l]|apply Rmax_lub_lt; lra]. Qed.

  Lemma shifted k : follows a r v (fun n => z0 (n + k * P)%nat).
  Proof.
    intros n. cbv beta. replace (S n + k * P)%nat with (S (n + k * P)) by lia. rewrite (z0_follows (n + k * P)%nat).
    assert (E : v (n + k * P)%nat = v n).
    { clear -HP. destruct HP as [_ H]. induction k as [|k IH]; [f_equal; lia|].
      replace (n + S k * P)%nat with (n + k * P + P)%nat by lia. rewrite H. exact IH. }
    rewrite E. reflexivity.
  Qed.

  Lemma z0_bounded : exists B, forall k, Rabs (z0 k) <= B.
  Proof.
    assert (Hb : exists B, 0 <= B /\ forall n, Rabs (v n) <= B).
    { assert (K : forall q, exists B, 0 <= B /\ forall n, (n < q)%nat -> Rabs (v n) <= B).
      { induction q as [|q [B [B0 HB]]]; [exists 0; split; [lra|lia]|].
        exists (Rmax B (Rabs (v q))). split; [eapply Rle_trans; [exact B0|apply Rmax_l]|].
        intros n Hn. destruct (Nat.eq_dec n q) as [->|]; [apply Rmax_r|].
        eapply Rle_trans; [apply HB; lia|apply Rmax_l]. }
      destruct (K P) as [B [B0 HB]]. exists B. split; [exact B0|].
      intros n. destruct HP as [P0 H]. induction n as [n IH] using (well_founded_induction lt_wf).
      destruct (lt_dec n P) as [L|L]; [apply HB, L|].
      replace n with ((n - P) + P)%nat by lia. rewrite H. apply IH. lia. }
    destruct Hb as [B [B0 HB]]. exists B. intros k.
    apply Rabs_le. apply (follow_range a r v z0 Ha Hr z0_follows).
    - intros n. apply Rabs_le_between, HB.
    - cbn. lra.
  Qed.

  Lemma z0_cauchy n : ex_finite_lim_seq (fun k => z0 (n + k * P)%nat).
  Proof.
    apply ex_lim_seq_cauchy_corr. intros eps.
    destruct z0_bounded as [B HB].
    assert (B0 : 0 <= B) by (eapply Rle_trans; [apply Rabs_pos|apply (HB 0%nat)]).
    assert (M := m_range).
    assert (HPp : (0 < P)%nat) by apply HP.
    assert (G : is_lim_seq (fun k => m ^ k) 0) by (apply is_lim_seq_geom, Rabs_def1; lra).
    apply is_lim_seq_spec in G.
    assert (Pe : 0 < pos eps / (B + 1)) by (apply Rdiv_lt_0_compat; [apply cond_pos|lra]).
    destruct (G (mkposreal _ Pe)) as [N HN]. cbn in HN.
    assert (K : forall k l, (N <= k <= l)%nat -> Rabs (z0 (n + l * P)%nat - z0 (n + k * P)%nat) < eps).
    { intros k l [H1 H2].
      assert (C := contracts a r v _ _ Ha Hr (shifted (l - k)) z0_follows (n + k * P)%nat).
      cbv beta in C. replace (n + k * P + (l - k) * P)%nat with (n + l * P)%nat in C by nia.
      eapply Rle_lt_trans; [exact C|]. fold m.
      assert (Q : Rabs (z0 (0 + (l - k) * P)%nat - z0 0%nat) <= B).
      { cbn [z0]. rewrite Rminus_0_r. apply HB. }
      assert (W : m ^ (n + k * P) <= m ^ N).
      { assert (exists d, (n + k * P = N + d)%nat) as [d ->] by (exists (n + k * P - N)%nat; nia).
        rewrite pow_add. assert (0 <= m ^ N) by (apply pow_le; lra). assert (m ^ d <= 1).
        { rewrite <- (pow1 d). apply pow_incr. lra. }
        assert (0 <= m ^ d) by (apply pow_le; lra). nra. }
      assert (HN' := HN N (Nat.le_refl N)). rewrite Rminus_0_r, Rabs_pos_eq in HN' by (apply pow_le; lra).
      assert (0 <= m ^ (n + k * P)) by (apply pow_le; lra).
      assert (P1 := Rabs_pos (z0 (0 + (l - k) * P)%nat - z0 0%nat)).
      apply Rle_lt_trans with (m ^ N * B); [nra|].
      assert (m ^ N * (B + 1) < eps).
      { apply (Rmult_lt_compat_r (B + 1)) in HN'; [|lra]. unfold Rdiv in HN'. rewrite Rmult_assoc, Rinv_l in HN' by lra. lra. }
      assert (0 <= m ^ N) by (apply pow_le; lra). nra. }
    exists N. intros k l H1 H2. destruct (le_ge_dec k l) as [L|L].
    - rewrite Rabs_minus_sym. apply K. lia.
    - apply K. lia.
  Qed.

  Definition steady (n : nat) : R := real (Lim_seq (fun k => z0 (n + k * P)%nat)).

  Lemma steady_lim n : is_lim_seq (fun k => z0 (n + k * P)%nat) (steady n).
  Proof. apply Lim_seq_correct', z0_cauchy. Qed.

  Lemma steady_periodic : periodic P steady.
  Proof.
    split; [apply HP|]. intros n. unfold steady. f_equal.
    rewrite <- (Lim_seq_incr_1 (fun k => z0 (n + k * P)%nat)). apply Lim_seq_ext.
    intros k. f_equal. lia.
  Qed.

  Lemma steady_close : exists B, forall n : nat, Rabs (z0 n - steady n) <= m ^ n * B.
  Proof.
    destruct z0_bounded as [B HB]. exists B. intros n.
    assert (L : is_lim_seq (fun k => Rabs (z0 n - z0 (n + k * P)%nat)) (Rabs (z0 n - steady n))).
    { apply (is_lim_seq_abs _ (Finite (z0 n - steady n))).
      apply is_lim_seq_minus'; [apply is_lim_seq_const|apply steady_lim]. }
    apply (is_lim_seq_le _ (fun _ => m ^ n * B) (Finite (Rabs (z0 n - steady n))) (Finite (m ^ n * B))) in L; [exact L| |apply is_lim_seq_const].
    intros k. assert (C := contracts a r v _ _ Ha Hr z0_follows (shifted k) n). cbv beta in C.
    eapply Rle_trans; [exact C|]. fold m. apply Rmult_le_compat_l; [apply pow_le, m_range|].
    cbn [z0]. rewrite Rminus_0_l, Rabs_Ropp. apply HB.
  Qed.
End Settle.
