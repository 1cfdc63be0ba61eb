(** When the output of a second-order filter stays bounded (property C105). *)
From Coq Require Import Reals List Lra Lia Arith Psatz.
From Verif Require Import Base Num NumR FilterM RbjM Device Signal RbjSpec SysSpec SignalFacts FilterFacts RbjFacts SysLemmas
  SymSpec SymLemmas.
Import ListNotations.
Open Scope R_scope.

(** A recurrence both of whose modes grow. *)
Section Grow.
  Context (a1 a2 : R) (h : nat -> R).
  Hypothesis Hrec : forall n, h (S (S n)) = - a1 * h (S n) - a2 * h n.
  Hypothesis Hbig : 1 < Rabs a2.
  Hypothesis Hout : Rabs a1 < Rabs (1 + a2).
  Hypothesis Hnz : h 0%nat <> 0 \/ h 1%nat <> 0.

  Definition cass (n : nat) : R := h (S n) * h (S n) - h n * h (S (S n)).

  Lemma cass_step n : cass (S n) = a2 * cass n.
  Proof. unfold cass. rewrite (Hrec (S n)), (Hrec n). ring. Qed.
  Lemma cass_pow n : cass n = a2 ^ n * cass 0.
  Proof. induction n as [|n IH]; [cbn; ring|]. rewrite cass_step, IH. cbn. ring. Qed.

  Lemma outside r : r * r + a1 * r + a2 = 0 -> 1 < Rabs r.
  Proof.
    intros E. destruct (Rlt_dec 1 (Rabs r)) as [L|L]; [exact L|exfalso]. apply Rnot_lt_le in L.
    assert (R0 : 0 <= Rabs r) by apply Rabs_pos.
    assert (E2 : r * r = Rabs r * Rabs r) by (rewrite <- Rabs_mult, Rabs_pos_eq; nra).
    assert (A : Rabs (a1 * r) = Rabs a1 * Rabs r) by apply Rabs_mult.
    assert (A1 := Rle_abs (a1 * r)). assert (A2 := Rle_abs (- (a1 * r))). rewrite Rabs_Ropp in A2.
    set (t := Rabs r) in *. set (m := Rabs a1) in *. assert (M0 : 0 <= m) by apply Rabs_pos.
    assert (T : m * t <= m * 1) by (apply Rmult_le_compat_l; lra).
    unfold Rabs in Hbig, Hout. destruct (Rcase_abs a2), (Rcase_abs (1 + a2)); try lra.
    - assert (m * t <= - (1 + a2) * t) by (apply Rmult_le_compat_r; lra).
      assert (0 <= (1 - t) * (t - a2)) by (apply Rmult_le_pos; lra).
      destruct (Req_dec t 0) as [Z|Z]; [rewrite Z in *; lra|].
      assert (m * t < - (1 + a2) * t) by (apply Rmult_lt_compat_r; lra). lra.
    - assert (0 <= (1 - t) * (a2 - t)) by (apply Rmult_le_pos; lra).
      destruct (Req_dec t 0) as [Z|Z]; [rewrite Z in *; lra|].
      assert (m * t < (1 + a2) * t) by (apply Rmult_lt_compat_r; lra). lra.
  Qed.

  Lemma unbounded : ~ (exists M, forall n, Rabs (h n) <= M).
  Proof.
    intros [M HM]. assert (M0 : 0 <= M) by (eapply Rle_trans; [apply Rabs_pos|apply (HM 0%nat)]).
    destruct (Req_dec (cass 0) 0) as [Z|Z].
    - (* a single mode *)
      assert (H0 : h 0%nat <> 0).
      { intros E. destruct Hnz as [N|N]; [exact (N E)|]. unfold cass in Z. rewrite E in Z. apply N. nra. }
      set (r := h 1%nat / h 0%nat).
      assert (G : forall n, h (S n) = r * h n).
      { intros n. induction n as [|n IH]; [unfold r; field; exact H0|].
        assert (C := cass_pow n). rewrite Z, Rmult_0_r in C. unfold cass in C.
        destruct (Req_dec (h n) 0) as [Y|Y].
        - assert (h (S n) = 0) by (rewrite IH, Y; ring). rewrite Hrec, H, Y. ring.
        - apply Rmult_eq_reg_l with (h n); [|exact Y].
          transitivity (h (S n) * h (S n)); [lra|]. rewrite IH at 1. ring. }
      assert (Rr : r * r + a1 * r + a2 = 0).
      { apply Rmult_eq_reg_l with (h 0%nat); [|exact H0]. assert (Q := Hrec 0%nat). rewrite (G 1%nat), (G 0%nat) in Q. lra. }
      assert (P : forall n, h n = r ^ n * h 0%nat).
      { intros n. induction n as [|n IH]; [cbn; ring|]. rewrite G, IH. cbn. ring. }
      destruct (grows (Rabs r) (M / Rabs (h 0%nat)) (outside r Rr)) as [n Hn].
      specialize (HM n). rewrite P, Rabs_mult, <- RPow_abs in HM.
      assert (A0 : 0 < Rabs (h 0%nat)) by (apply Rabs_pos_lt; exact H0).
      apply Rmult_lt_compat_r with (r := Rabs (h 0%nat)) in Hn; [|exact A0].
      unfold Rdiv in Hn. rewrite Rmult_assoc, Rinv_l, Rmult_1_r in Hn by lra. lra.
    - assert (A0 : 0 < Rabs (cass 0)) by (apply Rabs_pos_lt; exact Z).
      destruct (grows (Rabs a2) (2 * M * M / Rabs (cass 0)) Hbig) as [n Hn].
      apply Rmult_lt_compat_r with (r := Rabs (cass 0)) in Hn; [|exact A0].
      unfold Rdiv in Hn. rewrite Rmult_assoc, Rinv_l, Rmult_1_r in Hn by lra.
      rewrite RPow_abs, <- Rabs_mult, <- cass_pow in Hn. unfold cass in Hn.
      assert (B : forall i j, Rabs (h i * h j) <= M * M).
      { intros i j. rewrite Rabs_mult. apply Rmult_le_compat; try apply Rabs_pos; apply HM. }
      assert (B1 := B (S n) (S n)). assert (B2 := B n (S (S n))).
      assert (Tr := Rabs_triang (h (S n) * h (S n)) (- (h n * h (S (S n))))). rewrite Rabs_Ropp in Tr.
      unfold Rminus in Hn. lra.
  Qed.
End Grow.

Lemma click_grows b0 b1 b2 a1 a2 y : obeys (b0, b1, b2, a1, a2) impulse y ->
  1 < Rabs a2 -> Rabs a1 < Rabs (1 + a2) -> b1 - a1 * b0 <> 0 \/ b2 - a2 * b0 <> 0 -> ~ bounded y.
Proof.
  intros Ho H1 H2 Hnz [M HM].
  assert (Y0 : y 0%nat = b0) by (rewrite (Ho 0%nat); unfold back; cbn; ring).
  assert (Y1 : y 1%nat = b1 - a1 * b0) by (rewrite (Ho 1%nat); unfold back; cbn; rewrite Y0; ring).
  assert (Y2 : y 2%nat = b2 - a2 * b0 - a1 * y 1%nat) by (rewrite (Ho 2%nat); unfold back; cbn; rewrite Y0; ring).
  apply (unbounded a1 a2 (fun n => y (S n))); try assumption.
  - intros n. assert (G := obeys_recur _ _ _ Ho). cbn in G. rewrite (G (S n)). unfold impulse. ring.
  - cbn beta. rewrite Y1. destruct Hnz as [N|N]; [left; exact N|].
    destruct (Req_dec (b1 - a1 * b0) 0) as [E|E]; [right|left; exact E].
    rewrite Y2, Y1, E. lra.
  - exists M. intros n. apply HM.
Qed.

(** ** The RBJ filters: [P] is the even part of the denominator, [sg] its odd part *)
Lemma raw_coef kind a : takes kind a -> coef kind a = norm6 (raw kind a).
Proof.
  intros H. unfold coef. destruct kind, a; cbn in H; try contradiction; cbn [rbj_coeffs raw].
  all: open_coeffs; unfold raw_q, raw_peak,
    raw_lowshelf, raw_highshelf, norm6; cbn -[Rpower]; rewrite ?amp_model; fold (omega sample_rate frequency).
  all: reflexivity.
Qed.

Definition split6 (r : sextuple) (P sg : R) : Prop :=
  let '(b0, b1, b2, a0, a1, a2) := r in
  a0 = P + sg /\ a2 = P - sg /\ 0 < P /\ Rabs a1 < 2 * P
  /\ a0 <> 0 /\ (sg <> 0 -> b1 * a0 - a1 * b0 <> 0 \/ b2 * a0 - a2 * b0 <> 0).

Lemma split_stable r P sg : split6 r P sg -> 0 < sg ->
  let '(b0, b1, b2, a1, a2) := norm6 r in stable a1 a2.
Proof.
  destruct r as [[[[[b0 b1] b2] a0] a1] a2]. intros [E0 [E2 [HP [H1 [H0 _]]]]] Hs. cbn [norm6].
  assert (A : 0 < a0) by lra. assert (I : 0 < / a0) by (apply Rinv_0_lt_compat; exact A).
  unfold stable. apply Rabs_def2 in H1. 
  assert (X : forall u, u = (u / a0) * a0) by (intros; field; lra).
  assert (X1 := X a1). assert (X2 := X a2). set (p := a1 / a0) in *. set (q := a2 / a0) in *.
  split; apply Rabs_def1; nra.
Qed.

Lemma split_unstable r P sg : split6 r P sg -> sg < 0 ->
  let '(b0, b1, b2, a1, a2) := norm6 r in
  1 < Rabs a2 /\ Rabs a1 < Rabs (1 + a2) /\ (b1 - a1 * b0 <> 0 \/ b2 - a2 * b0 <> 0).
Proof.
  destruct r as [[[[[b0 b1] b2] a0] a1] a2]. intros [E0 [E2 [HP [H1 [H0 N]]]]] Hs. cbn [norm6].
  assert (A : 0 < Rabs a0) by (apply Rabs_pos_lt; exact H0).
  split; [|split].
  - unfold Rdiv. rewrite Rabs_mult, Rabs_inv. apply Rmult_lt_reg_r with (Rabs a0); [exact A|].
    rewrite Rmult_assoc, Rinv_l, Rmult_1_l, Rmult_1_r by lra.
    rewrite (Rabs_pos_eq a2) by lra. apply Rabs_def1; lra.
  - replace (1 + a2 / a0) with (2 * P / a0) by (rewrite E0, E2; field; lra).
    unfold Rdiv. rewrite !Rabs_mult, Rabs_inv. apply Rmult_lt_compat_r; [apply Rinv_0_lt_compat; exact A|].
    rewrite (Rabs_pos_eq 2), (Rabs_pos_eq P) by lra. exact H1.
  - destruct (N ltac:(lra)) as [N1|N1]; [left|right]; intros E; apply N1.
    + transitivity ((b1 / a0 - a1 / a0 * (b0 / a0)) * (a0 * a0)); [field; exact H0|rewrite E; ring].
    + transitivity ((b2 / a0 - a2 / a0 * (b0 / a0)) * (a0 * a0)); [field; exact H0|rewrite E; ring].
Qed.

Lemma strict_cos w : sin w <> 0 -> -1 < cos w < 1.
Proof. intros H. assert (G := sin2_cos2 w). unfold Rsqr in G. assert (0 < sin w * sin w) by nra. split; nra. Qed.

Lemma amp_not_one g : g <> 0 -> amp g <> 1.
Proof.
  intros H E. unfold amp, Rpower in E. rewrite <- exp_0 in E. apply exp_inv in E.
  assert (0 < ln 10) by (rewrite <- ln_1; apply ln_increasing; lra). apply H. nra.
Qed.

Definition odd_part (kind : rbj_kind) (a : rbj_args R) : R :=
  match kind, a with
  | (LowShelf | HighShelf), RbjGain sr f g sl => shelf_sp sr f g sl
  | _, RbjGain sr f g q => alpha_q sr f q / amp g
  | _, RbjQ sr f q => alpha_q sr f q
  end.
Definition even_part (kind : rbj_kind) (a : rbj_args R) : R :=
  match kind, a with
  | LowShelf, RbjGain sr f g sl => amp g + 1 + (amp g - 1) * cos (omega sr f)
  | HighShelf, RbjGain sr f g sl => amp g + 1 - (amp g - 1) * cos (omega sr f)
  | _, _ => 1
  end.

Lemma proper_split kind a : proper kind a -> split6 (raw kind a) (even_part kind a) (odd_part kind a).
Proof.
  intros [Ht [Hs [H0 Hk]]].
  assert (C := strict_cos _ Hs).
  destruct kind, a; cbn in Ht; try contradiction;
    cbn [rate_of freq_of cookbook_a0 raw split6 even_part odd_part raw_q raw_peak raw_lowshelf raw_highshelf] in *;
    try fold (amp db_gain) in *; try fold (alpha_q sample_rate frequency q) in *;
    try fold (alpha_q sample_rate frequency x) in *.
  all: set (c := cos (omega sample_rate frequency)) in *.
  1-6: set (al := alpha_q sample_rate frequency q) in *; unfold raw_q.
  1-6: split; [ring|split; [ring|split; [lra|split; [apply Rabs_def1; lra|split; [exact H0|]]]]].
  - intros S. right. assert ((1 - c) / 2 * (1 + al) - (1 - al) * ((1 - c) / 2) = (1 - c) * al) by field.
    rewrite H. apply Rmult_integral_contrapositive_currified; lra.
  - intros S. right. assert ((1 + c) / 2 * (1 + al) - (1 - al) * ((1 + c) / 2) = (1 + c) * al) by field.
    rewrite H. apply Rmult_integral_contrapositive_currified; lra.
  - intros S. right. replace (- q * al * (1 + al) - (1 - al) * (q * al)) with (- (2 * (q * al))) by ring.
    apply Ropp_neq_0_compat. apply Rmult_integral_contrapositive_currified; [lra|].
    apply Rmult_integral_contrapositive_currified; assumption.
  - intros S. right. lra.
  - intros S. right. lra.
  - intros S. right. intros E. apply S.
    assert (E' : 4 * al = 0) by (rewrite <- E; ring). lra.
  - destruct Hk as [Hq Hg]. assert (A := amp_pos db_gain). assert (A1 := amp_not_one _ Hg).
    set (al := alpha_q sample_rate frequency x) in *. set (am := amp db_gain) in *.
    split; [reflexivity|split; [reflexivity|split; [lra|split; [apply Rabs_def1; lra|split; [exact H0|]]]]].
    intros S. right.
    assert (E : (1 - al * am) * (1 + al / am) - (1 - al / am) * (1 + al * am) = 2 * (al / am) * ((1 - am) * (1 + am))) by (field; lra).
    rewrite E. apply Rmult_integral_contrapositive_currified; [lra|].
    apply Rmult_integral_contrapositive_currified; lra.
  - destruct Hk as [Hv Hg]. assert (A := amp_pos db_gain). assert (A1 := amp_not_one _ Hg).
    fold (shelf_sp sample_rate frequency db_gain x) in H0.
    set (sp := shelf_sp sample_rate frequency db_gain x) in *. set (am := amp db_gain) in *.
    assert (P : 0 < am + 1 + (am - 1) * c) by nra. unfold raw_lowshelf.
    split; [reflexivity|split; [reflexivity|split; [exact P|split; [apply Rabs_def1; nra|split; [exact H0|]]]]].
    intros S. destruct (Req_dec c 0) as [Z|Z].
    + left. rewrite Z in *.
      match goal with |- ?X <> 0 => replace X with (4 * am * (am - 1) * (am + 1 + (am - 1) * 0 + sp)) by ring end.
      apply Rmult_integral_contrapositive_currified; [|exact H0].
      apply Rmult_integral_contrapositive_currified; lra.
    + right.
      match goal with |- ?X <> 0 => replace X with (- (4 * am * (am - 1) * (c * sp))) by ring end.
      apply Ropp_neq_0_compat. apply Rmult_integral_contrapositive_currified; apply Rmult_integral_contrapositive_currified; lra.
  - destruct Hk as [Hv Hg]. assert (A := amp_pos db_gain). assert (A1 := amp_not_one _ Hg).
    fold (shelf_sp sample_rate frequency db_gain x) in H0.
    set (sp := shelf_sp sample_rate frequency db_gain x) in *. set (am := amp db_gain) in *.
    assert (P : 0 < am + 1 - (am - 1) * c) by nra. unfold raw_highshelf.
    split; [reflexivity|split; [reflexivity|split; [exact P|split; [apply Rabs_def1; nra|split; [exact H0|]]]]].
    intros S. destruct (Req_dec c 0) as [Z|Z].
    + left. rewrite Z in *.
      match goal with |- ?X <> 0 => replace X with (- (4 * am * (am - 1) * (am + 1 - (am - 1) * 0 + sp))) by ring end.
      apply Ropp_neq_0_compat. apply Rmult_integral_contrapositive_currified; [|exact H0].
      apply Rmult_integral_contrapositive_currified; lra.
    + right.
      match goal with |- ?X <> 0 => replace X with (4 * am * (am - 1) * (c * sp)) by ring end.
      apply Rmult_integral_contrapositive_currified; apply Rmult_integral_contrapositive_currified; lra.
Qed.
