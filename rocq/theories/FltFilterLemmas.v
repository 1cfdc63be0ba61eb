(** Proofs of C81. *)
From Coq Require Import ZArith Reals Lra Lia Psatz List Arith.
From Flocq Require Import Core.Core IEEE754.BinarySingleNaN.
From Verif Require Import Base Num NumR NumF Witness FilterM RbjM Device Signal SignalFacts FilterFacts
  FloatFacts FloatSpec FltFilterSpec FltFilterFacts.
Import ListNotations.
Open Scope R_scope.

Definition feedback (a1 a2 : R) (w : signal) : signal :=
  out (dev_two_pole R_ops) (configured (dev_two_pole R_ops) (1, a1, a2)) w.

Lemma feedback_obeys a1 a2 w : obeys (1, 0, 0, a1, a2) w (feedback a1 a2 w).
Proof. apply filter_obeys. constructor. Qed.

Lemma peak_gain_ge1 a1 a2 G : peak_gain a1 a2 G -> 1 <= G.
Proof.
  intros H. assert (Ho := feedback_obeys a1 a2 (fun _ => 1)).
  assert (H1 : forall n : nat, Rabs ((fun _ : nat => 1) n) <= 1) by (intros n; rewrite Rabs_R1; lra).
  assert (B := H _ _ 1 Ho H1 0%nat).
  specialize (Ho 0%nat). rewrite !back_S0 in Ho. rewrite Ho in B.
  replace (1 * 1 + 0 * 0 + 0 * 0 - a1 * 0 - a2 * 0) with 1 in B by ring. rewrite Rabs_R1 in B. lra.
Qed.

Lemma peak_gain_exists a1 a2 : stable a1 a2 -> exists G, peak_gain a1 a2 G.
Proof.
  intros H. destruct (obeys_bound a1 a2 H) as [G [_ HG]]. exists G. intros x y M Ho Hx n.
  eapply Rle_trans; [apply (HG 1 0 0 x y M Ho Hx)|]. rewrite Rabs_R1, Rabs_R0. lra.
Qed.

(** A bounded right-hand side on a prefix bounds the solution there. *)
Lemma prefix_bound a1 a2 G (y w : signal) W n : peak_gain a1 a2 G -> 0 <= W ->
  (forall j, (j <= n)%nat -> y j = w j - a1 * back 1 y j - a2 * back 2 y j) ->
  (forall j, (j <= n)%nat -> Rabs (w j) <= W) ->
  Rabs (y n) <= G * W.
Proof.
  intros HG HW Hy Hw. set (w' := fun j => if (j <=? n)%nat then w j else 0).
  assert (Ho := feedback_obeys a1 a2 w'). set (z := feedback a1 a2 w') in *.
  assert (E : forall j, (j <= n)%nat -> y j = z j).
  { intros j. induction j as [j IH] using lt_wf_ind. intros Hj. rewrite (Hy j Hj), (Ho j).
    assert (B : forall i, back (S i) y j = back (S i) z j).
    { intros i. unfold back. destruct (S i <=? j)%nat eqn:Q; [|reflexivity]. apply Nat.leb_le in Q. apply IH; lia. }
    rewrite !B. unfold w' at 1. apply Nat.leb_le in Hj. rewrite Hj. ring. }
  rewrite (E n (Nat.le_refl n)). apply (HG w' z W Ho). intros j. unfold w'.
  destruct (j <=? n)%nat eqn:Q; [apply Hw, Nat.leb_le, Q|]. rewrite Rabs_R0. exact HW.
Qed.

Section Track.
  Context (prec emax : Z) {Hp : Prec_gt_0 prec} {Hm : Prec_lt_emax prec emax}.
  Hypothesis H5 : (5 <= prec)%Z.
  Notation F := (binary_float prec emax).
  Notation V := (ieee_view prec emax).
  Notation u := (uro prec).
  Notation fm := (bpow radix2 (2 - emax)).

  Lemma u_small : 0 < u <= / 32.
  Proof.
    split; [apply uro_pos|]. unfold uro. replace (/ 32) with (bpow radix2 (-5)) by (cbn; lra).
    apply bpow_le. lia.
  Qed.

  Lemma pow5 : 1 <= (1 + u) ^ 5 /\ (1 + u) ^ 5 - 1 <= 8 * u /\ 5 * (1 + u) ^ 5 <= 8.
  Proof.
    assert (U := u_small). split; [apply pow_u|]. 
    assert (E : (1 + u) ^ 5 - 1 <= 6 * u).
    { replace ((1 + u) ^ 5 - 1) with (u * (5 + u * (10 + u * (10 + u * (5 + u))))) by ring.
      rewrite (Rmult_comm 6). apply Rmult_le_compat_l; [lra|].
      assert (u * (10 + u * (10 + u * (5 + u))) <= / 32 * 12); [|lra].
      apply Rmult_le_compat; try lra; nra. }
    split; lra.
  Qed.

  Context (Ops : num_ops F).
  Hypothesis Hadd : n_add Ops = f_add prec emax.
  Hypothesis Hsub : n_sub Ops = f_sub prec emax.
  Hypothesis Hmul : n_mul Ops = f_mul prec emax.
  Hypothesis Hzero : n_zero Ops = (B754_zero false : F).

  Lemma track {S K} (D : device S K F) k b0 b1 b2 a1 a2 (x : nat -> F) G M :
    has_coeffs Ops D k (b0, b1, b2, a1, a2) -> all_finite V (b0, b1, b2, a1, a2) ->
    peak_gain (B2R a1) (B2R a2) G ->
    (forall n, is_finite (x n) = true /\ Rabs (B2R (x n)) <= M) ->
    let A := Rabs (B2R a1) + Rabs (B2R a2) in
    let L := (Rabs (B2R b0) + Rabs (B2R b1) + Rabs (B2R b2)) * M + fm in
    A * G <= bpow radix2 (prec - 5) ->
    4 * (1 + 4 * A * G) * L <= fmax V ->
    forall z, obeys (B2R b0, B2R b1, B2R b2, B2R a1, B2R a2) (fun n => B2R (x n)) z ->
    forall n, is_finite (stream D k x n) = true
              /\ Rabs (B2R (stream D k x n) - z n) <= bpow radix2 (3 - prec) * G * (1 + 4 * A * G) * L.
  Proof.
    intros Hc Hf HG Hx A L HAG Hbig z Hz. set (y := stream D k x).
    assert (G1 := peak_gain_ge1 _ _ _ HG).
    assert (M0 : 0 <= M) by (destruct (Hx 0%nat) as [_ Q]; eapply Rle_trans; [apply Rabs_pos|exact Q]).
    assert (U := u_small). assert (FM : 0 < fm) by apply bpow_gt_0.
    assert (A0 : 0 <= A) by (unfold A; assert (P1 := Rabs_pos (B2R a1)); assert (P2 := Rabs_pos (B2R a2)); lra).
    set (BM := (Rabs (B2R b0) + Rabs (B2R b1) + Rabs (B2R b2)) * M) in *.
    assert (BM0 : 0 <= BM).
    { unfold BM. apply Rmult_le_pos; [|exact M0].
      assert (P0 := Rabs_pos (B2R b0)). assert (P1 := Rabs_pos (B2R b1)). assert (P2 := Rabs_pos (B2R b2)). lra. }
    assert (L0 : 0 < L) by (unfold L; lra).
    set (Y := 4 * G * L). assert (Y0 : 0 < Y) by (unfold Y; apply Rmult_lt_0_compat; lra).
    assert (AG0 : 0 <= A * G) by (apply Rmult_le_pos; lra).
    set (s := sz prec emax b0 b1 b2 a1 a2 M Y).
    assert (Es : s = BM + A * Y) by (unfold s, sz, BM, A; ring).
    assert (Es2 : s + fm = (1 + 4 * A * G) * L).
    { rewrite Es. unfold Y, L. ring. }
    assert (SL : 0 < (1 + 4 * A * G) * L) by (apply Rmult_lt_0_compat; lra).
    set (m := bpow radix2 (emax - 1)).
    assert (Fm : generic_format radix2 (SpecFloat.fexp prec emax) m).
    { apply (format_bpow prec emax). unfold SpecFloat.emin, Prec_lt_emax, Prec_gt_0 in *. lia. }
    assert (Hmax : m < bpow radix2 emax) by (apply bpow_lt; lia).
    assert (Hfm : fmax V <= 2 * m).
    { cbn [fmax ieee_view]. unfold m. replace (bpow radix2 emax) with (2 * bpow radix2 (emax - 1)).
      - assert (0 < bpow radix2 (- prec)) by apply bpow_gt_0.
        assert (0 < bpow radix2 (emax - 1)) by apply bpow_gt_0. nra.
      - replace emax with (emax - 1 + 1)%Z at 2 by lia. rewrite (bpow_plus radix2 (emax - 1) 1). cbn. lra. }
    destruct pow5 as [W1 [W2 W3]].
    assert (Ee : eta prec emax = u * fm) by reflexivity.
    set (noise := 8 * u * (s + fm)).
    assert (S0 : 0 <= s) by (rewrite Es; assert (0 <= A * Y) by (apply Rmult_le_pos; lra); lra).
    assert (Nn : ((1 + u) ^ 5 - 1) * s + 5 * (1 + u) ^ 5 * eta prec emax <= noise).
    { rewrite Ee. unfold noise.
      assert (((1 + u) ^ 5 - 1) * s <= 8 * u * s) by (apply Rmult_le_compat_r; lra).
      assert (5 * (1 + u) ^ 5 * (u * fm) <= 8 * (u * fm)) by (apply Rmult_le_compat_r; [apply Rmult_le_pos|]; lra).
      lra. }
    assert (N4 : noise <= / 4 * (s + fm)).
    { unfold noise. apply Rmult_le_compat_r; lra. }
    assert (Hroom : (1 + u) ^ 5 * s + 5 * (1 + u) ^ 5 * eta prec emax <= m) by lra.
    assert (Hn : noise <= 2 * L).
    { unfold noise. rewrite Es2.
      assert (Q : 8 * u * (4 * A * G) <= 1).
      { replace (8 * u * (4 * A * G)) with (32 * u * (A * G)) by ring.
        apply Rle_trans with (32 * u * bpow radix2 (prec - 5)).
        - apply Rmult_le_compat_l; lra.
        - replace (bpow radix2 (prec - 5)) with (bpow radix2 prec * / 32).
          2: { replace (/ 32) with (bpow radix2 (-5)) by (cbn; lra). rewrite <- bpow_plus. f_equal. }
          unfold uro. rewrite bpow_opp. right. field. assert (P := bpow_gt_0 radix2 prec). lra. }
      assert (8 * u * (1 + 4 * A * G) <= 2) by lra.
      replace (8 * u * ((1 + 4 * A * G) * L)) with (8 * u * (1 + 4 * A * G) * L) by ring.
      apply Rmult_le_compat_r; lra. }
    assert (N0 : 0 <= noise) by (unfold noise; apply Rmult_le_pos; lra).
    (* one step *)
    assert (Step : forall n, (forall i, (i < n)%nat -> good prec emax Y (y i)) ->
              is_finite (y n) = true
              /\ Rabs (B2R (y n) - target prec emax b0 b1 b2 a1 a2 x y n) <= noise).
    { intros n Hg.
      assert (Nr := device_step prec emax Ops Hadd Hsub Hmul Hzero x m M Y Fm Hmax Hx (Rlt_le _ _ Y0)
                      D k b0 b1 b2 a1 a2 n Hc Hf Hroom Hg).
      destruct Nr as [R1 [_ R3]]. split; [exact R1|]. eapply Rle_trans; [exact R3|exact Nn]. }
    set (X := fun n => B2R (x n)) in *. set (Yr := fun n => B2R (y n)).
    set (e := fun n => Yr n - target prec emax b0 b1 b2 a1 a2 x y n).
    assert (Et : forall n, target prec emax b0 b1 b2 a1 a2 x y n
        = B2R b0 * X n + B2R b1 * back 1 X n + B2R b2 * back 2 X n
          - B2R a1 * back 1 Yr n - B2R a2 * back 2 Yr n).
    { intros n. unfold target. rewrite !fb_val. reflexivity. }
    assert (Hb : forall j n, Rabs (back j X n) <= M).
    { intros j n. unfold back. destruct (j <=? n)%nat; [apply Hx|]. rewrite Rabs_R0. exact M0. }
    assert (All : forall n, good prec emax Y (y n)).
    { intros n. induction n as [n IH] using lt_wf_ind. destruct (Step n IH) as [Fn En].
      split; [exact Fn|].
      apply Rle_trans with (G * (BM + noise)).
      2: { unfold Y. replace (4 * G * L) with (G * (4 * L)) by ring. apply Rmult_le_compat_l; [lra|].
           unfold L at 1 in L0. assert (BM <= L) by (unfold L; lra). lra. }
      apply (prefix_bound (B2R a1) (B2R a2) G Yr
               (fun j => B2R b0 * X j + B2R b1 * back 1 X j + B2R b2 * back 2 X j + e j)); [exact HG|lra| |].
      - intros j _. unfold e. rewrite Et. ring.
      - intros j Hj. eapply Rle_trans; [apply Rabs_triang|]. apply Rplus_le_compat.
        + eapply Rle_trans; [apply Rabs_triang|]. 
          eapply Rle_trans; [apply Rplus_le_compat_r, Rabs_triang|]. rewrite !Rabs_mult.
          unfold BM. rewrite !Rmult_plus_distr_r.
          apply Rplus_le_compat; [apply Rplus_le_compat|]; (apply Rmult_le_compat_l; [apply Rabs_pos|]);
            [apply Hx|apply Hb|apply Hb].
        + apply (Step j). intros i Hi. apply IH. lia. }
    intros n. split; [apply All|].
    assert (Q : Rabs (Yr n - z n) <= G * noise).
    { apply (prefix_bound (B2R a1) (B2R a2) G (fun j => Yr j - z j) e); [exact HG|exact N0| |].
      - intros j _. unfold e. rewrite Et. rewrite (Hz j).
        replace (back 1 (fun i => Yr i - z i) j) with (back 1 Yr j - back 1 z j)
          by (unfold back; destruct (1 <=? j)%nat; ring).
        replace (back 2 (fun i => Yr i - z i) j) with (back 2 Yr j - back 2 z j)
          by (unfold back; destruct (2 <=? j)%nat; ring).
        ring.
      - intros j Hj. apply (Step j). intros i Hi. apply All. }
    eapply Rle_trans; [exact Q|]. right. unfold noise. rewrite Es2.
    replace (bpow radix2 (3 - prec)) with (8 * u).
    2: { unfold uro, Zminus. rewrite bpow_plus. cbn. lra. }
    ring.
  Qed.
End Track.

(*@PROP
(** Property C81: the floating-point filters against the exact difference
    equation, over unbounded runs.

    Vocabulary: [Signal], [FloatSpec] and [FltFilterSpec]. *)
From Coq Require Import ZArith Reals List Lra.
From Flocq Require Import Core.Core IEEE754.BinarySingleNaN.
From Verif Require Import Base Num NumR NumF Witness FilterM RbjM Device Signal FloatSpec FltFilterSpec
  FltFilterLemmas.
Import ListNotations.
Open Scope R_scope.
@*)

(** C81: with finite coefficients [c], feedback gain at most [G] and finite
    samples of magnitude at most [M], leaving head room below T::MAX, every
    output is finite and stays, for ever, within a fixed distance of the exact
    solution [z] for the same coefficients and samples. *)
Lemma C81_float_tracks_exact_thm :
  forall (T : Type) (O : num_ops T) (V : float_view T), ieee O V ->
  forall (S K : Type) (D : device S K T) (k : K) (c : T * T * T * T * T),
    has_coeffs O D k c -> all_finite V c ->
  forall (b0 b1 b2 a1 a2 G M A L : R) (x : nat -> T) (z : signal),
    vals V c = (b0, b1, b2, a1, a2) ->
    A = Rabs a1 + Rabs a2 ->
    L = (Rabs b0 + Rabs b1 + Rabs b2) * M + fmin V ->
    peak_gain a1 a2 G ->
    (forall n, fin V (x n) = true /\ Rabs (val V (x n)) <= M) ->
    A * G <= bpow radix2 (fprec V - 5) ->
    4 * (1 + 4 * A * G) * L <= fmax V ->
    obeys (b0, b1, b2, a1, a2) (fun n => val V (x n)) z ->
    forall n, fin V (stream D k x n) = true
      /\ Rabs (val V (stream D k x n) - z n) <= bpow radix2 (3 - fprec V) * G * (1 + 4 * A * G) * L.
Proof.
  intros T O V HO. destruct HO as [lm b|lm b];
    intros S K D k [[[[b0 b1] b2] a1] a2] Hc Hf r0 r1 r2 q1 q2 G M A L x z E EA EL HG Hx HAG Hbig Hz n;
    cbn [vals] in E; injection E as <- <- <- <- <-; subst A L.
  - exact (track 24 128 ltac:(lia) (f32_ops lm b) eq_refl eq_refl eq_refl eq_refl D k b0 b1 b2 a1 a2 x G M
             Hc Hf HG Hx HAG Hbig z Hz n).
  - exact (track 53 1024 ltac:(lia) (f64_ops lm b) eq_refl eq_refl eq_refl eq_refl D k b0 b1 b2 a1 a2 x G M
             Hc Hf HG Hx HAG Hbig z Hz n).
Qed.

(** C81: every stable pair of feedback coefficients has such a [G]. *)
Lemma C81_stable_has_gain_thm :
  forall a1 a2 : R, stable a1 a2 -> exists G, peak_gain a1 a2 G.
Proof.
  exact peak_gain_exists.
Qed.

(** C81: for coefficients with |a1| + |a2| < 1 it is explicit; without feedback
    it is 1. *)
Lemma C81_explicit_gain_thm :
  forall a1 a2 : R, Rabs a1 + Rabs a2 < 1 -> peak_gain a1 a2 (1 / (1 - (Rabs a1 + Rabs a2))).
Proof.
  intros a1 a2 H x y M Ho Hx. set (A := Rabs a1 + Rabs a2) in *.
  assert (P1 := Rabs_pos a1). assert (P2 := Rabs_pos a2).
  assert (M0 : 0 <= M) by (eapply Rle_trans; [apply Rabs_pos|exact (Hx 0%nat)]).
  set (B := 1 / (1 - A) * M). assert (EB : B = M + A * B) by (unfold B; field; lra).
  assert (B0 : 0 <= B) by (unfold B, Rdiv; rewrite Rmult_1_l; apply Rmult_le_pos; [left; apply Rinv_0_lt_compat; lra|exact M0]).
  intros n. induction n as [n IH] using lt_wf_ind. rewrite (Ho n).
  assert (Bk : forall i, Rabs (back (S i) y n) <= B).
  { intros i. unfold back. destruct (S i <=? n)%nat eqn:Q; [apply Nat.leb_le in Q; apply IH; lia|].
    rewrite Rabs_R0. exact B0. }
  replace (1 * x n + 0 * back 1 x n + 0 * back 2 x n - a1 * back 1 y n - a2 * back 2 y n)
    with (x n + (- (a1 * back 1 y n) + - (a2 * back 2 y n))) by ring.
  eapply Rle_trans; [apply Rabs_triang|]. eapply Rle_trans; [apply Rplus_le_compat_l, Rabs_triang|].
  rewrite !Rabs_Ropp, !Rabs_mult.
  assert (Rabs a1 * Rabs (back 1 y n) <= Rabs a1 * B) by (apply Rmult_le_compat_l; [exact P1|apply Bk]).
  assert (Rabs a2 * Rabs (back 2 y n) <= Rabs a2 * B) by (apply Rmult_le_compat_l; [exact P2|apply Bk]).
  assert (X := Hx n). rewrite EB. unfold A. lra.
Qed.

Ltac lit := repeat match goal with |- context[B2R ?x] => rewrite <- (SF2R_B2SF _ _ x);
  let v := eval vm_compute in (B2SF x) in
  replace (B2SF x) with v by (vm_compute; reflexivity); cbn [SF2R cond_Zopp] end; unfold F2R; cbn.

Lemma C81_hyps_aux :
  let c := (fl32 1 0, n_zero O32, n_zero O32, fl32 (-1) (-1), n_zero O32) in
  let V := ieee_view 24 128 in
  has_coeffs O32 (dev_one_pole O32) (fl32 1 0, fl32 (-1) (-1)) c /\ all_finite V c
  /\ vals V c = (1, 0, 0, - (1 / 2), 0)
  /\ peak_gain (- (1 / 2)) 0 2
  /\ (fin V (fl32 1 0) = true /\ Rabs (val V (fl32 1 0)) <= 1)
  /\ 1 / 2 * 2 <= bpow radix2 (fprec V - 5)
  /\ 4 * (1 + 4 * (1 / 2) * 2) * (1 * 1 + fmin V) <= fmax V.
Proof.
  intros c V.
  assert (E1 : B2R (fl32 1 0) = 1) by (lit; lra).
  assert (E2 : B2R (fl32 (-1) (-1)) = - (1 / 2)) by (lit; lra).
  split; [constructor|]. split; [repeat split|].
  split; [unfold c, V; cbn [vals val ieee_view]; rewrite E1, E2; reflexivity|].
  split.
  { assert (Q := C81_explicit_gain_thm (- (1 / 2)) 0). rewrite Rabs_Ropp, Rabs_R0, Rabs_pos_eq in Q by lra.
    replace (1 / (1 - (1 / 2 + 0))) with 2 in Q by lra. apply Q. lra. }
  split; [split; [reflexivity|unfold V; cbn [val ieee_view]; rewrite E1, Rabs_R1; lra]|].
  unfold V; cbn [fprec fmin fmax ieee_view]. split.
  - change (24 - 5)%Z with 19%Z. cbn. lra.
  - assert (bpow radix2 (2 - 128) <= bpow radix2 0) by (apply bpow_le; lia).
    assert (bpow radix2 (-24) <= bpow radix2 (-1)) by (apply bpow_le; lia).
    assert (bpow radix2 10 <= bpow radix2 128) by (apply bpow_le; lia).
    change (- (24))%Z with (-24)%Z.
    assert (0 < bpow radix2 (-24)) by apply bpow_gt_0.
    change (bpow radix2 0) with 1 in *. change (bpow radix2 (-1)) with (/ 2) in *.
    assert (bpow radix2 10 = 1024) by (cbn; lra). nra.
Qed.

(*@PROP
(** The hypotheses hold, for example, for the f32 one-pole y = x + 0.5 y[n-1]
    on the input 1, 1, 1, ..., with G = 2 and M = 1. *)
Example C81_hyps :
  let c := (fl32 1 0, n_zero O32, n_zero O32, fl32 (-1) (-1), n_zero O32) in
  let V := ieee_view 24 128 in
  has_coeffs O32 (dev_one_pole O32) (fl32 1 0, fl32 (-1) (-1)) c /\ all_finite V c
  /\ vals V c = (1, 0, 0, - (1 / 2), 0)
  /\ peak_gain (- (1 / 2)) 0 2
  /\ (fin V (fl32 1 0) = true /\ Rabs (val V (fl32 1 0)) <= 1)
  /\ 1 / 2 * 2 <= bpow radix2 (fprec V - 5)
  /\ 4 * (1 + 4 * (1 / 2) * 2) * (1 * 1 + fmin V) <= fmax V.
Proof. exact C81_hyps_aux. Qed.
@*)
