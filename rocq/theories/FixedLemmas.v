(** Lemmas behind property C119.  The [@PROP] blocks are copied into [PropFixed.v]. *)
(*@PROP
(** Property C119: fixed-point signals pass through the filters and delay lines without any
    rounding, as long as they fit.

    Vocabulary: [fixed], [fixed_coeffs], [swing] ([FixedSpec]); [has_coeffs], [all_finite], [vals],
    [stream] ([FltFilterSpec]); [obeys] ([Signal]); [ieee_line], [on_grid] ([OrderLineSpec]);
    [modulated], [heard], [earlier] ([ModSpec]); [lin_session] ([LinRun]). *)
From Coq Require Import ZArith Reals List Bool Lra Lia.
From Flocq Require Import Core.Core IEEE754.BinarySingleNaN.
From Verif Require Import Base Num NumR NumF Witness FloatSpec FilterM RbjM AnalysisM Device Signal FltFilterSpec FltFilterLemmas
  DelayM LinDelayM DelaySpec LinRun ModSpec OrderLineSpec FixedSpec FixedLemmas.
Import ListNotations.
Open Scope R_scope.
@*)
From Coq Require Import ZArith Reals List Bool Lra Lia Arith ZifyBool.
From Flocq Require Import Core.Core IEEE754.BinarySingleNaN.
From Verif Require Import Base BaseLemmas Num NumR NumF FloatSpec FloatFacts FilterM RbjM AnalysisM Device Signal FltFilterSpec FltFilterFacts FltFilterLemmas
  DelayM LinDelayM DelaySpec DelayRun DelayProofs LinSpec LinRun LinFloatSpec LinProofs LinCtlR LinCtlF LinInv LinFacts LinFloat LinLemmas2
  LinAccLemmas Witness ModSpec ModLemmas ModFLemmas OrderLineSpec OrderLineLemmas FixedSpec.
Import ListNotations.
Open Scope R_scope.

Lemma fx_add q a b : fixed q a -> fixed q b -> fixed q (a + b).
Proof. intros [k ->] [l ->]. exists (k + l)%Z. rewrite plus_IZR. ring. Qed.
Lemma fx_sub q a b : fixed q a -> fixed q b -> fixed q (a - b).
Proof. intros [k ->] [l ->]. exists (k - l)%Z. rewrite minus_IZR. ring. Qed.
Lemma fx_mul p q a b : fixed p a -> fixed q b -> fixed (p + q) (a * b).
Proof. intros [k ->] [l ->]. exists (k * l)%Z. rewrite mult_IZR, bpow_plus. ring. Qed.
Lemma fx_0 q : fixed q 0.
Proof. exists 0%Z. ring. Qed.

Section Exact.
  Context (prec emax : Z) {Hp : Prec_gt_0 prec} {Hm : Prec_lt_emax prec emax}.
  Notation F := (binary_float prec emax).
  Notation V := (ieee_view prec emax).
  Notation mul := (f_mul prec emax). Notation add := (f_add prec emax). Notation sub := (f_sub prec emax).
  Notation fb := (FltFilterFacts.fb prec emax).
  Context (e : Z) (He : (SpecFloat.emin prec emax <= e)%Z) (He' : (prec + e < emax)%Z).
  Notation B := (bpow radix2 (prec + e)).

  Lemma fixed_format r : fixed e r -> Rabs r <= B -> generic_format radix2 (SpecFloat.fexp prec emax) r.
  Proof.
    intros [k ->] H. assert (Hp' : (0 < prec)%Z) by exact Hp.
    assert (Hk : (Z.abs k <= 2 ^ prec)%Z).
    { apply le_IZR. rewrite abs_IZR. rewrite Rabs_mult, (Rabs_pos_eq (bpow _ _)) in H by apply bpow_ge_0.
      rewrite bpow_plus in H. apply Rmult_le_reg_r in H; [|apply bpow_gt_0].
      change 2%Z with (radix_val radix2). rewrite IZR_Zpower by lia. exact H. }
    destruct (Z.eq_dec (Z.abs k) (2 ^ prec)) as [E|E].
    - assert (G : generic_format radix2 (SpecFloat.fexp prec emax) (IZR (2 ^ prec) * bpow radix2 e)).
      { change 2%Z with (radix_val radix2). rewrite IZR_Zpower by lia. rewrite <- bpow_plus. apply format_bpow; [assumption..|lia]. }
      destruct (Z.abs_eq_or_opp k) as [A|A]; rewrite A in E; [rewrite E; exact G|].
      replace k with (- 2 ^ prec)%Z by lia. rewrite opp_IZR, Ropp_mult_distr_l_reverse. apply generic_format_opp. exact G.
    - change (IZR k * bpow radix2 e) with (F2R (Float radix2 k e)). apply generic_format_F2R. intros Hnz. cbn [Fnum Fexp].
      unfold cexp, SpecFloat.fexp.
      assert (Hmag : (mag radix2 (F2R (Float radix2 k e)) <= prec + e)%Z).
      { apply mag_le_bpow; [apply F2R_neq_0; exact Hnz|]. rewrite <- F2R_Zabs. unfold F2R; cbn [Fnum Fexp].
        rewrite bpow_plus. apply Rmult_lt_compat_r; [apply bpow_gt_0|]. rewrite <- IZR_Zpower by lia. apply IZR_lt.
        change (radix_val radix2) with 2%Z. lia. }
      lia.
  Qed.

  (** [v] is finite and holds the number [r] of the grid. *)
  Definition ex (v : F) (r : R) : Prop := is_finite v = true /\ B2R v = r /\ fixed e r.

  Lemma BF : generic_format radix2 (SpecFloat.fexp prec emax) B /\ B < bpow radix2 emax.
  Proof. assert (Hp' : (0 < prec)%Z) by exact Hp. split; [apply format_bpow; [assumption..|lia]|apply bpow_lt; lia]. Qed.

  Lemma ex_add a b r s : ex a r -> ex b s -> Rabs (r + s) <= B -> ex (add a b) (r + s).
  Proof.
    intros [A1 [A2 A3]] [B1 [B2 B3]] H. destruct BF as [F1 F2].
    destruct (add_ok prec emax a b B A1 B1 F1 F2) as [G1 G2]; [rewrite A2, B2; exact H|].
    assert (Q := fx_add _ _ _ A3 B3). split; [exact G1|]. split; [|exact Q].
    rewrite G2, A2, B2. apply RN_id, fixed_format; assumption.
  Qed.
  Lemma ex_sub a b r s : ex a r -> ex b s -> Rabs (r - s) <= B -> ex (sub a b) (r - s).
  Proof.
    intros [A1 [A2 A3]] [B1 [B2 B3]] H. destruct BF as [F1 F2].
    destruct (sub_ok prec emax a b B A1 B1 F1 F2) as [G1 G2]; [rewrite A2, B2; exact H|].
    assert (Q := fx_sub _ _ _ A3 B3). split; [exact G1|]. split; [|exact Q].
    rewrite G2, A2, B2. apply RN_id, fixed_format; assumption.
  Qed.
  Lemma ex_mul (a b : F) : is_finite a = true -> is_finite b = true -> fixed e (B2R a * B2R b) -> Rabs (B2R a * B2R b) <= B ->
    ex (mul a b) (B2R a * B2R b).
  Proof.
    intros A1 B1 Q H. destruct BF as [F1 F2].
    destruct (mul_ok prec emax a b B A1 B1 F1 F2 H) as [G1 G2]. split; [exact G1|]. split; [|exact Q].
    rewrite G2. apply RN_id, fixed_format; assumption.
  Qed.
  Lemma ex_zero : ex (B754_zero false) 0.
  Proof. split; [reflexivity|]. split; [reflexivity|apply fx_0]. Qed.

  Context (Ops : num_ops F).
  Hypothesis Hadd : n_add Ops = f_add prec emax.
  Hypothesis Hsub : n_sub Ops = f_sub prec emax.
  Hypothesis Hmul : n_mul Ops = f_mul prec emax.
  Hypothesis Hzero : n_zero Ops = (B754_zero false : F).

  Section Run.
  Context (p q : Z) (Ee : e = (p + q)%Z).
  Context (x : nat -> F) (Hx : forall n, is_finite (x n) = true /\ fixed q (B2R (x n))).
  Notation X := (fun n => B2R (x n)).

  Lemma fb_x j n : is_finite (fb j x n) = true /\ B2R (fb j x n) = back j X n /\ fixed q (back j X n).
  Proof.
    rewrite <- fb_val. unfold FltFilterFacts.fb. destruct (j <=? n)%nat; [destruct (Hx (n - j)); auto|].
    split; [reflexivity|]. split; [reflexivity|apply fx_0].
  Qed.

  Lemma ex_term b j n : is_finite b = true -> fixed p (B2R b) -> Rabs (B2R b * back j X n) <= B ->
    ex (mul b (fb j x n)) (B2R b * back j X n).
  Proof.
    intros Fb Pb Hb. destruct (fb_x j n) as [A1 [A2 A3]]. rewrite <- A2 in *. apply ex_mul; try assumption.
    rewrite Ee. apply fx_mul; assumption.
  Qed.

  Lemma fb_y (y : nat -> F) (z : signal) j n : (forall i, (i < n)%nat -> ex (y i) (z i)) -> ex (fb (Datatypes.S j) y n) (back (Datatypes.S j) z n).
  Proof.
    intros H. unfold FltFilterFacts.fb, back. destruct (Datatypes.S j <=? n)%nat eqn:E; [|apply ex_zero].
    apply Nat.leb_le in E. apply H. lia.
  Qed.

  Lemma ex_back a (y : nat -> F) (z : signal) j n : (forall i, (i < n)%nat -> ex (y i) (z i)) ->
    is_finite a = true -> fixed 0 (B2R a) -> Rabs (B2R a * back (Datatypes.S j) z n) <= B ->
    ex (mul a (fb (Datatypes.S j) y n)) (B2R a * back (Datatypes.S j) z n).
  Proof.
    intros H Fa Pa Hb. destruct (fb_y y z j n H) as [A1 [A2 A3]]. rewrite <- A2 in *. apply ex_mul; try assumption.
    replace e with (0 + e)%Z by lia. apply fx_mul; assumption.
  Qed.

  Lemma zz_exact b1 b2 a1 a2 (y : nat -> F) (z : signal) n :
    (forall i, (i < n)%nat -> ex (y i) (z i)) ->
    is_finite b1 = true -> is_finite b2 = true -> is_finite a1 = true -> is_finite a2 = true ->
    fixed p (B2R b1) -> fixed p (B2R b2) -> fixed 0 (B2R a1) -> fixed 0 (B2R a2) ->
    Rabs (B2R b1 * back 1 X n) + Rabs (B2R b2 * back 2 X n) + Rabs (B2R a1 * back 1 z n) + Rabs (B2R a2 * back 2 z n) <= B ->
    ex (zz1 prec emax b1 b2 a1 a2 x y n)
       (B2R b1 * back 1 X n + (B2R b2 * back 2 X n - B2R a2 * back 2 z n) - B2R a1 * back 1 z n).
  Proof.
    intros Hy F1 F2 F3 F4 P1 P2 P3 P4 Hb.
    assert (T1 := fun H => ex_term b1 1 n F1 P1 H). assert (T2 := fun H => ex_term b2 2 n F2 P2 H).
    assert (T3 := fun H => ex_back a1 y z 0 n Hy F3 P3 H). assert (T4 := fun H => ex_back a2 y z 1 n Hy F4 P4 H).
    set (t1 := B2R b1 * back 1 X n) in *. set (t2 := B2R b2 * back 2 X n) in *.
    set (t3 := B2R a1 * back 1 z n) in *. set (t4 := B2R a2 * back 2 z n) in *.
    assert (P := Rabs_pos t1). assert (Q := Rabs_pos t2). assert (R := Rabs_pos t3). assert (S := Rabs_pos t4).
    specialize (T1 ltac:(lra)). specialize (T2 ltac:(lra)). specialize (T3 ltac:(lra)). specialize (T4 ltac:(lra)).
    assert (A1 := Rabs_triang t1 (t2 - t4)). assert (A2 := Rabs_triang t2 (- t4)). rewrite Rabs_Ropp in A2.
    replace (t2 + - t4) with (t2 - t4) in A2 by ring.
    assert (A3 := Rabs_triang (t1 + (t2 - t4)) (- t3)). rewrite Rabs_Ropp in A3.
    replace (t1 + (t2 - t4) + - t3) with (t1 + (t2 - t4) - t3) in A3 by ring.
    destruct n as [|k].
    { cbn [zz1]. replace (t1 + (t2 - t4) - t3) with 0; [apply ex_zero|].
      unfold t1, t2, t3, t4, back. cbn [Nat.leb]. ring. }
    rewrite !fb_SS, fb_0 in T1. rewrite fb_SS in T2. rewrite fb_SS, fb_0 in T3. rewrite fb_SS in T4.
    cbn [zz1]. apply ex_sub; [|exact T3|lra]. apply ex_add; [exact T1| |lra].
    destruct k as [|k].
    - cbn [zz2]. replace (t2 - t4) with 0; [apply ex_zero|]. unfold t2, t4, back. cbn [Nat.leb]. ring.
    - rewrite fb_SS, fb_0 in T2. rewrite fb_SS, fb_0 in T4. cbn [zz2]. apply ex_sub; [exact T2|exact T4|lra].
  Qed.

  Lemma exact_run {S K} (D : device S K F) k b0 b1 b2 a1 a2 (z : signal) (N : nat) :
    has_coeffs Ops D k (b0, b1, b2, a1, a2) -> all_finite V (b0, b1, b2, a1, a2) ->
    fixed_coeffs p (vals V (b0, b1, b2, a1, a2)) ->
    obeys (vals V (b0, b1, b2, a1, a2)) X z ->
    (forall n, (n <= N)%nat -> swing (vals V (b0, b1, b2, a1, a2)) X z n <= B) ->
    forall n, (n <= N)%nat -> ex (stream D k x n) (z n).
  Proof.
    intros Hc [F0 [F1 [F2 [F3 F4]]]] [P0 [P1 [P2 [P3 P4]]]] Hz Hs n Hn. cbn [fin val ieee_view vals] in *.
    induction n as [n IH] using lt_wf_ind.
    assert (Hy : forall i, (i < n)%nat -> ex (stream D k x i) (z i)) by (intros i Hi; apply IH; lia). clear IH.
    specialize (Hs n Hn). rewrite Hz. unfold swing in Hs.
    assert (EX : B2R (x n) = back 0 X n) by (unfold back; cbn [Nat.leb]; rewrite Nat.sub_0_r; reflexivity).
    cbv beta in Hs |- *. rewrite EX in Hs |- *. clear EX.
    assert (T0 := fun H => ex_term b0 0 n F0 P0 H). rewrite fb_0 in T0.
    assert (T1 := fun H => ex_term b1 1 n F1 P1 H). assert (T2 := fun H => ex_term b2 2 n F2 P2 H).
    assert (T3 := fun H => ex_back a1 _ z 0 n Hy F3 P3 H). assert (T4 := fun H => ex_back a2 _ z 1 n Hy F4 P4 H).
    assert (TZ := zz_exact b1 b2 a1 a2 _ z n Hy F1 F2 F3 F4 P1 P2 P3 P4).
    set (t0 := B2R b0 * back 0 X n) in *.
    set (t1 := B2R b1 * back 1 X n) in *. set (t2 := B2R b2 * back 2 X n) in *.
    set (t3 := B2R a1 * back 1 z n) in *. set (t4 := B2R a2 * back 2 z n) in *.
    assert (Q0 := Rabs_pos t0). assert (Q1 := Rabs_pos t1). assert (Q2 := Rabs_pos t2). assert (Q3 := Rabs_pos t3). assert (Q4 := Rabs_pos t4).
    specialize (T0 ltac:(lra)). specialize (T1 ltac:(lra)). specialize (T2 ltac:(lra)). specialize (T3 ltac:(lra)). specialize (T4 ltac:(lra)).
    specialize (TZ ltac:(lra)).
    assert (Tri : forall s0 s1 s2 s3 s4, (s0 = 0 \/ s0 = t0) -> (s1 = 0 \/ s1 = t1) -> (s2 = 0 \/ s2 = t2) -> (s3 = 0 \/ s3 = t3) -> (s4 = 0 \/ s4 = t4) ->
      Rabs (s0 + s1 + s2 - s3 - s4) <= B).
    { intros s0 s1 s2 s3 s4 D0 D1 D2 D3 D4.
      assert (G : forall s t, s = 0 \/ s = t -> Rabs s <= Rabs t) by (intros s t [->| ->]; [rewrite Rabs_R0; apply Rabs_pos|apply Rle_refl]).
      apply G in D0, D1, D2, D3, D4.
      assert (A1 := Rabs_triang (s0 + s1 + s2 - s3) (- s4)). assert (A2 := Rabs_triang (s0 + s1 + s2) (- s3)).
      assert (A3 := Rabs_triang (s0 + s1) s2). assert (A4 := Rabs_triang s0 s1). rewrite !Rabs_Ropp in *.
      unfold Rminus in *. lra. }
    assert (Z0 : B2R (n_zero Ops) = 0) by (rewrite Hzero; reflexivity).
    remember (b0, b1, b2, a1, a2) as c eqn:Ec.
    destruct Hc.
    - injection Ec as <- <- <- <- <-. 
      rewrite (unroll_one_pole prec emax Ops Hsub Hmul Hzero x _ _ n).
      replace (t0 + t1 + t2 - t3 - t4) with (t0 - t3) by (unfold t1, t2, t4; rewrite ?Z0; ring).
      apply ex_sub; [exact T0|exact T3|]. replace (t0 - t3) with (t0 + 0 + 0 - t3 - 0) by ring. apply Tri; auto.
    - injection Ec as <- <- <- <- <-.
      rewrite (unroll_one_zero prec emax Ops Hadd Hmul Hzero x _ _ n).
      replace (t0 + t1 + t2 - t3 - t4) with (t0 + t1) by (unfold t2, t3, t4; rewrite ?Z0; ring).
      apply ex_add; [exact T0|exact T1|]. replace (t0 + t1) with (t0 + t1 + 0 - 0 - 0) by ring. apply Tri; auto.
    - injection Ec as <- <- <- <- <-.
      rewrite (unroll_two_pole prec emax Ops Hsub Hmul Hzero x _ _ _ n).
      replace (t0 + t1 + t2 - t3 - t4) with (t0 - t3 - t4) by (unfold t1, t2; rewrite ?Z0; ring).
      apply ex_sub; [apply ex_sub; [exact T0|exact T3|]|exact T4|].
      + replace (t0 - t3) with (t0 + 0 + 0 - t3 - 0) by ring. apply Tri; auto.
      + replace (t0 - t3 - t4) with (t0 + 0 + 0 - t3 - t4) by ring. apply Tri; auto.
    - injection Ec as <- <- <- <- <-.
      rewrite (unroll_two_zero prec emax Ops Hadd Hmul Hzero x _ _ _ n).
      replace (t0 + t1 + t2 - t3 - t4) with (t0 + t1 + t2) by (unfold t3, t4; rewrite ?Z0; ring).
      apply ex_add; [apply ex_add; [exact T0|exact T1|]|exact T2|].
      + replace (t0 + t1) with (t0 + t1 + 0 - 0 - 0) by ring. apply Tri; auto.
      + replace (t0 + t1 + t2) with (t0 + t1 + t2 - 0 - 0) by ring. apply Tri; auto.
    - subst c. rewrite (unroll_biquad1 prec emax Ops Hadd Hsub Hmul Hzero x b0 b1 b2 a1 a2 n).
      apply ex_sub; [apply ex_sub; [apply ex_add; [apply ex_add; [exact T0|exact T1|]|exact T2|]|exact T3|]|exact T4|].
      + replace (t0 + t1) with (t0 + t1 + 0 - 0 - 0) by ring. apply Tri; auto.
      + replace (t0 + t1 + t2) with (t0 + t1 + t2 - 0 - 0) by ring. apply Tri; auto.
      + replace (t0 + t1 + t2 - t3) with (t0 + t1 + t2 - t3 - 0) by ring. apply Tri; auto.
      + apply Tri; auto.
    - subst c. rewrite (unroll_biquad2 prec emax Ops Hadd Hsub Hmul x (dev_biquad2 Ops) _ b0 b1 b2 a1 a2 n); [|reflexivity|rewrite <- Hzero; reflexivity].
      replace (t0 + t1 + t2 - t3 - t4) with (t0 + (t1 + (t2 - t4) - t3)) by ring.
      apply ex_add; [exact T0|exact TZ|]. replace (t0 + (t1 + (t2 - t4) - t3)) with (t0 + t1 + t2 - t3 - t4) by ring. apply Tri; auto.
    - subst c. rewrite (unroll_biquad2 prec emax Ops Hadd Hsub Hmul x (dev_rbj Ops kind) _ b0 b1 b2 a1 a2 n).
      + replace (t0 + t1 + t2 - t3 - t4) with (t0 + (t1 + (t2 - t4) - t3)) by ring.
        apply ex_add; [exact T0|exact TZ|]. replace (t0 + (t1 + (t2 - t4) - t3)) with (t0 + t1 + t2 - t3 - t4) by ring. apply Tri; auto.
      + destruct kind; reflexivity.
      + rewrite <- Hzero. cbn. unfold rbj_set_coefficients. rewrite H. destruct kind; reflexivity.
  Qed.
  End Run.
End Exact.

(** C119: samples that are multiples of 2^q, forward coefficients that are multiples of 2^p and
    integer feedback coefficients.  As long as the five terms of the exact difference equation add
    up to at most 2^(24 + p + q) in magnitude (2^53 for [f64]), what the filter returns is exactly
    what the exact equation says: not one rounding happens.  (For FIR filters that is for ever.) *)
Lemma C119_exact_thm :
  forall (T : Type) (O : num_ops T) (V : float_view T), ieee O V ->
  forall (S K : Type) (D : device S K T) (k : K) (c : T * T * T * T * T),
    has_coeffs O D k c -> all_finite V c ->
  forall (x : nat -> T) (y : signal) (p q : Z) (N : nat),
    (-149 <= p + q <= 100)%Z ->
    fixed_coeffs p (vals V c) -> (forall n, fin V (x n) = true /\ fixed q (val V (x n))) ->
    obeys (vals V c) (fun n => val V (x n)) y ->
    (forall n, (n <= N)%nat -> swing (vals V c) (fun n => val V (x n)) y n <= bpow radix2 (fprec V + (p + q))) ->
    forall n, (n <= N)%nat -> fin V (stream D k x n) = true /\ val V (stream D k x n) = y n.
Proof.
  intros T O V HO. destruct HO as [lm b|lm b];
    intros S K D k [[[[b0 b1] b2] a1] a2] Hc Hf x y p q N Hpq Hfx Hx Hy Hs n Hn.
  - destruct (exact_run 24 128 (p + q) ltac:(unfold SpecFloat.emin; lia) ltac:(lia) (f32_ops lm b) eq_refl eq_refl eq_refl eq_refl p q eq_refl x Hx
      D k b0 b1 b2 a1 a2 y N Hc Hf Hfx Hy Hs n Hn) as [G1 [G2 _]]. split; assumption.
  - destruct (exact_run 53 1024 (p + q) ltac:(unfold SpecFloat.emin; lia) ltac:(lia) (f64_ops lm b) eq_refl eq_refl eq_refl eq_refl p q eq_refl x Hx
      D k b0 b1 b2 a1 a2 y N Hc Hf Hfx Hy Hs n Hn) as [G1 [G2 _]]. split; assumption.
Qed.
(*@PROP
(** An accumulator (y[n] = x[n] + y[n-1]) fed with the integers 3, 3, 3, ... is exact for at
    least a million samples. *)
Example C119_exact_hyps :
  let V := ieee_view 24 128 in let c := (fl32 1 0, n_zero O32, n_zero O32, fl32 (-1) 0, n_zero O32) in
  has_coeffs O32 (dev_one_pole O32) (fl32 1 0, fl32 (-1) 0) c /\ all_finite V c /\ (-149 <= 0 + 0 <= 100)%Z
  /\ fixed_coeffs 0 (vals V c) /\ fixed 0 (val V (fl32 3 0))
  /\ obeys (vals V c) (fun n => val V ((fun _ => fl32 3 0) n)) (fun n => 3 * INR (n + 1))
  /\ forall n : nat, INR n <= 1000000 -> swing (vals V c) (fun n => val V ((fun _ => fl32 3 0) n)) (fun n => 3 * INR (n + 1)) n <= bpow radix2 (24 + (0 + 0)).
Proof.
  intros V c.
  assert (E1 : B2R (fl32 1 0) = 1) by (lit; lra). assert (E2 : B2R (fl32 (-1) 0) = -1) by (lit; lra).
  assert (E3 : B2R (fl32 3 0) = 3) by (lit; lra). assert (E0 : B2R (n_zero O32) = 0) by reflexivity.
  split; [apply hc_one_pole|]. split; [repeat split|]. split; [lia|].
  cbn [vals c V val ieee_view]. rewrite E1, E2, E3, E0.
  split; [repeat split; [exists 1%Z|exists 0%Z|exists 0%Z|exists (-1)%Z|exists 0%Z]; cbn; ring|].
  split; [exists 3%Z; cbn; ring|].
  assert (Bk : forall n, back 1 (fun n => 3 * INR (n + 1)) n = 3 * INR n).
  { intros [|n]; unfold back; cbn [Nat.leb]; [cbn; ring|]. do 2 f_equal. lia. }
  split.
  - intros n. rewrite Bk, plus_INR. cbn [INR]. ring.
  - intros n Hn. unfold swing. rewrite Bk, !Rmult_0_l, !Rabs_R0.
    rewrite Rabs_pos_eq by lra. replace (-1 * (3 * INR n)) with (- (3 * INR n)) by ring. rewrite Rabs_Ropp, Rabs_pos_eq by (assert (P := pos_INR n); lra).
    apply Rle_trans with 3000003; [lra|]. change (24 + (0 + 0))%Z with 24%Z. cbn. lra.
Qed.
@*)

(** C119: an FIR filter (TwoZero, OneZero, or a biquad without feedback) with coefficients that are
    multiples of 2^p, fed with multiples of 2^q not exceeding [M], is exact for ever if the sum of
    the coefficients' magnitudes times [M] is at most 2^(24 + p + q) (2^(53 + p + q) for [f64]). *)
Lemma C119_fir_thm :
  forall (T : Type) (O : num_ops T) (V : float_view T), ieee O V ->
  forall (S K : Type) (D : device S K T) (k : K) (c : T * T * T * T * T),
    has_coeffs O D k c -> all_finite V c ->
  forall (x : nat -> T) (b0 b1 b2 M : R) (p q : Z),
    vals V c = (b0, b1, b2, 0, 0) -> (-149 <= p + q <= 100)%Z ->
    fixed p b0 -> fixed p b1 -> fixed p b2 ->
    (forall n, fin V (x n) = true /\ fixed q (val V (x n)) /\ Rabs (val V (x n)) <= M) ->
    (Rabs b0 + Rabs b1 + Rabs b2) * M <= bpow radix2 (fprec V + (p + q)) ->
    forall n, fin V (stream D k x n) = true
      /\ val V (stream D k x n) = b0 * val V (x n) + b1 * back 1 (fun i => val V (x i)) n + b2 * back 2 (fun i => val V (x i)) n.
Proof.
  intros T O V HO S K D k c Hc Hf x b0 b1 b2 M p q Ec Hpq P0 P1 P2 Hx HM n.
  set (X := fun i => val V (x i)).
  set (y := fun n => b0 * X n + b1 * back 1 X n + b2 * back 2 X n).
  assert (M0 : 0 <= M) by (eapply Rle_trans; [apply Rabs_pos|apply (Hx 0%nat)]).
  assert (Hb : forall j i, Rabs (back j X i) <= M).
  { intros j i. unfold back. destruct (j <=? i)%nat; [apply Hx|rewrite Rabs_R0; exact M0]. }
  destruct (C119_exact_thm T O V HO S K D k c Hc Hf x y p q n Hpq) with (n := n) as [G1 G2].
  - rewrite Ec. repeat split; try assumption; apply fx_0.
  - intros i. destruct (Hx i) as [A [B _]]. split; assumption.
  - rewrite Ec. intros i. unfold y, X. ring.
  - intros i Hi. rewrite Ec. unfold swing. rewrite !Rmult_0_l, Rabs_R0, !Rabs_mult.
    eapply Rle_trans; [|exact HM]. rewrite !Rmult_plus_distr_r.
    assert (Q0 : Rabs b0 * Rabs (val V (x i)) <= Rabs b0 * M) by (apply Rmult_le_compat_l; [apply Rabs_pos|apply Hx]).
    assert (Q1 : Rabs b1 * Rabs (back 1 X i) <= Rabs b1 * M) by (apply Rmult_le_compat_l; [apply Rabs_pos|apply Hb]).
    assert (Q2 : Rabs b2 * Rabs (back 2 X i) <= Rabs b2 * M) by (apply Rmult_le_compat_l; [apply Rabs_pos|apply Hb]).
    fold X. lra.
  - apply Nat.le_refl.
  - split; [exact G1|exact G2].
Qed.
(*@PROP
(** 16-bit audio through the smoothing filter 1/4, 1/2, 1/4 in [f32]. *)
Example C119_fir_hyps :
  let V := ieee_view 24 128 in let c := (fl32 1 (-2), fl32 1 (-1), fl32 1 (-2), n_zero O32, n_zero O32) in
  has_coeffs O32 (dev_two_zero O32) (fl32 1 (-2), fl32 1 (-1), fl32 1 (-2)) c /\ all_finite V c
  /\ vals V c = (1 / 4, 1 / 2, 1 / 4, 0, 0) /\ (-149 <= -2 + -15 <= 100)%Z
  /\ fixed (-2) (1 / 4) /\ fixed (-2) (1 / 2)
  /\ fixed (-15) (val V (fl32 32767 (-15))) /\ Rabs (val V (fl32 32767 (-15))) <= 1
  /\ (Rabs (1 / 4) + Rabs (1 / 2) + Rabs (1 / 4)) * 1 <= bpow radix2 (24 + (-2 + -15)).
Proof.
  assert (E1 : B2R (fl32 1 (-2)) = 1 / 4) by (lit; lra). assert (E2 : B2R (fl32 1 (-1)) = 1 / 2) by (lit; lra).
  assert (E3 : B2R (fl32 32767 (-15)) = 32767 / 32768) by (lit; lra).
  split; [apply hc_two_zero|]. split; [repeat split|]. cbn [vals val ieee_view]. rewrite E1, E2, E3. split; [reflexivity|]. split; [lia|].
  split; [exists 1%Z; cbn; lra|]. split; [exists 2%Z; cbn; lra|]. split; [exists 32767%Z; cbn; lra|].
  split; [rewrite Rabs_pos_eq; lra|]. rewrite !Rabs_pos_eq by lra. cbn. lra.
Qed.
@*)

(** ** LinearDelay *)
Section Blend.
  Context (prec emax : Z) {Hp : Prec_gt_0 prec} {Hm : Prec_lt_emax prec emax}.
  Lemma blend_exact (a b wo wn : binary_float prec emax) (q j : Z) (M : R) :
    (SpecFloat.emin prec emax <= q - j)%Z -> (prec + (q - j) < emax)%Z ->
    is_finite a = true -> is_finite b = true -> is_finite wo = true -> is_finite wn = true ->
    fixed q (B2R a) -> fixed q (B2R b) -> fixed (- j) (B2R wo) -> fixed (- j) (B2R wn) ->
    0 <= B2R wo -> 0 <= B2R wn -> B2R wo + B2R wn = 1 ->
    Rabs (B2R a) <= M -> Rabs (B2R b) <= M -> M <= bpow radix2 (prec + (q - j)) ->
    is_finite (f_add prec emax (f_mul prec emax a wo) (f_mul prec emax b wn)) = true
    /\ B2R (f_add prec emax (f_mul prec emax a wo) (f_mul prec emax b wn)) = B2R a * B2R wo + B2R b * B2R wn.
  Proof.
    intros E1 E2 Fa Fb Fo Fn Ga Gb Go Gn Po Pn Hs Ma Mb HM.
    assert (M0 : 0 <= M) by (eapply Rle_trans; [apply Rabs_pos|exact Ma]).
    assert (A : Rabs (B2R a * B2R wo) <= M * B2R wo) by (rewrite Rabs_mult, (Rabs_pos_eq (B2R wo)) by exact Po; apply Rmult_le_compat_r; assumption).
    assert (B : Rabs (B2R b * B2R wn) <= M * B2R wn) by (rewrite Rabs_mult, (Rabs_pos_eq (B2R wn)) by exact Pn; apply Rmult_le_compat_r; assumption).
    assert (Sm : M * B2R wo + M * B2R wn = M) by (rewrite <- Rmult_plus_distr_l, Hs; ring).
    assert (0 <= M * B2R wo) by (apply Rmult_le_pos; assumption). assert (0 <= M * B2R wn) by (apply Rmult_le_pos; assumption).
    destruct (ex_add prec emax (q - j) E1 E2 (f_mul prec emax a wo) (f_mul prec emax b wn) (B2R a * B2R wo) (B2R b * B2R wn)) as [G1 [G2 _]].
    - apply ex_mul; try assumption; [|lra]. apply (fx_mul q (- j)); assumption.
    - apply ex_mul; try assumption; [|lra]. apply (fx_mul q (- j)); assumption.
    - eapply Rle_trans; [apply Rabs_triang|]. lra.
    - split; assumption.
  Qed.
End Blend.

Lemma line_blend_exact {T} (K : ctl_ops f32 T) O V : ieee_line K O V ->
  forall (a b wo wn : T) (q j : Z) (M : R),
    (-149 <= q - j <= 100)%Z ->
    fin V a = true -> fin V b = true -> fin V wo = true -> fin V wn = true ->
    fixed q (val V a) -> fixed q (val V b) -> fixed (- j) (val V wo) -> fixed (- j) (val V wn) ->
    0 <= val V wo -> 0 <= val V wn -> val V wo + val V wn = 1 ->
    Rabs (val V a) <= M -> Rabs (val V b) <= M -> M <= bpow radix2 (fprec V + (q - j)) ->
    fin V (n_add O (n_mul O a wo) (n_mul O b wn)) = true
    /\ val V (n_add O (n_mul O a wo) (n_mul O b wn)) = val V a * val V wo + val V b * val V wn.
Proof.
  intros HL. destruct HL as [lm bb|lm bb]; intros a b wo wn q j M Hq Fa Fb Fo Fn Ga Gb Go Gn Po Pn Hs Ma Mb HM.
  - apply (blend_exact 24 128 a b wo wn q j M); try assumption; [unfold SpecFloat.emin|]; lia.
  - apply (blend_exact 53 1024 a b wo wn q j M); try assumption; [unfold SpecFloat.emin|]; lia.
Qed.

Lemma ieee_line_float {T} (K : ctl_ops f32 T) O V : ieee_line K O V -> exists rnd, float_line K O (val V) (fin V) rnd /\ rnd 1 = 1
  /\ forall r j, (0 <= j <= 24)%Z -> fixed (- j) r -> 0 <= r <= 1 -> rnd r = r.
Proof.
  intros HL. destruct HL as [lm b|lm b]; eexists.
  - split; [constructor|]. split; [apply (RN_id 24 128), (format_IZR 24 128 1); lia|].
    intros r j Hj Hr H. apply (RN_id 24 128). apply (fixed_format 24 128 (- j)); [unfold SpecFloat.emin; lia|exact Hr|].
    rewrite Rabs_pos_eq by lra. apply Rle_trans with (bpow radix2 0); [cbn; lra|apply bpow_le; lia].
  - split; [constructor|]. split; [apply (RN_id 53 1024), (format_IZR 53 1024 1); lia|].
    intros r j Hj Hr H. apply (RN_id 53 1024). apply (fixed_format 53 1024 (- j)); [unfold SpecFloat.emin; lia|exact Hr|].
    rewrite Rabs_pos_eq by lra. apply Rle_trans with (bpow radix2 0); [cbn; lra|apply bpow_le; lia].
Qed.

(** C119: a [LinearDelay] whose delay is moved before every sample in steps of 2^-j samples, fed
    with multiples of 2^q not exceeding [M] <= 2^(24 + q - j): every output is exactly the linear
    interpolation of the input the (clipped) delay earlier. *)
Lemma C119_linear_delay_thm :
  forall (T : Type) (K : ctl_ops f32 T) (O : num_ops T) (V : float_view T), ieee_line K O V ->
  forall (p : profile) (d0 : f32) (m j q : Z) (d : nat -> f32) (x : nat -> T) (M : R) (n : nat),
    (0 <= m)%Z -> (0 <= j)%Z -> ((m + 1) * 2 ^ j <= 2 ^ 24)%Z -> (forall i, on_grid j (d i)) ->
    (-149 <= q - j <= 100)%Z ->
    (forall i, fin V (x i) = true /\ fixed q (val V (x i)) /\ Rabs (val V (x i)) <= M) ->
    M <= bpow radix2 (fprec V + (q - j)) ->
    exists s y, lin_session K O p d0 m (modulated d x n) = Ok (s, heard y n)
      /\ forall i, fin V (y i) = true
           /\ val V (y i) = earlier (fun k => val V (x k)) (Rmax 0 (Rmin (B2R (d i)) (IZR m))) i.
Proof.
  intros T K O V HL p d0 m j q d x M n Hm0 Hj Hlim Hd Hq Hx HM.
  destruct (ieee_line_float K O V HL) as [rnd [HFL [_ Hrnd]]].
  assert (Hj1 : (1 <= 2 ^ j)%Z) by (assert (0 < 2 ^ j)%Z by (apply Z.pow_pos_nonneg; lia); lia).
  assert (Hm : (m + 1 <= 2 ^ 24)%Z) by nia.
  assert (Hj24 : (j <= 24)%Z) by (apply Z.pow_le_mono_r_iff with 2%Z; nia).
  assert (HJ : 1 <= IZR (2 ^ j)) by (apply IZR_le; exact Hj1).
  assert (EJ : bpow radix2 (- j) = / IZR (2 ^ j)).
  { rewrite bpow_opp. f_equal. change (2 ^ j)%Z with (radix2 ^ j)%Z. rewrite (IZR_Zpower radix2) by lia. reflexivity. }
  assert (HF := float_line_fline _ _ _ _ _ HFL). destruct (fl_zero _ _ _ _ _ HF) as [Zf Zv].
  destruct (mod_session K O (val V) (fin V) rnd HF p m Hm0 Hm d0 d x n) as [s E].
  exists s, (mod_y K O m d x). split; [exact E|]. intros i.
  destruct (Hd i) as [Hdf [k Hk]].
  assert (Hdn : d i <> B754_nan) by (intros E0; rewrite E0 in Hdf; discriminate).
  destruct (mod_y_step K O (val V) (fin V) rnd HF m Hm0 Hm d x i Hdn) as [Hw [Hc [HLg [wn [wo [Ey [Fn [Vn [Fo Vo]]]]]]]]].
  rewrite clip32_finite in * by exact Hdf. unfold clipR in *.
  set (c := Rmax 0 (Rmin (B2R (d i)) (IZR m))) in *.
  set (w := (Z.of_nat i mod (m + 1))%Z) in *. set (L := lag32 (m + 1) w c) in *.
  assert (Hc' : 0 <= c <= IZR m) by (rewrite plus_IZR in Hc; lra).
  destruct (grid_clip (fun r => r) (fun _ _ H => H) j Hj (B2R (d i)) k m Hk Hm0) as [k' Hk']. unfold clipR in Hk'. fold c in Hk'.
  destruct (grid_exact m w j k' c Hm0 Hw Hj Hlim Hc' Hk') as [_ [GL GA]]. fold L in GL. rewrite GA in Vn.
  assert (HM0 : 0 <= M) by (eapply Rle_trans; [apply Rabs_pos|apply (Hx 0%nat)]).
  assert (HB : forall jj, fin V (behind (n_zero O) x jj i) = true /\ fixed q (val V (behind (n_zero O) x jj i)) /\ Rabs (val V (behind (n_zero O) x jj i)) <= M).
  { intros jj. apply (behind_fin (fun v => fin V v = true /\ fixed q (val V v) /\ Rabs (val V v) <= M)); [|exact Hx].
    split; [exact Zf|]. rewrite Zv, Rabs_R0. split; [apply fx_0|exact HM0]. }
  assert (C1 := Zceil_ub c). assert (C2 := Zceil_lb c).
  assert (Gn : fixed (- j) (val V wn)).
  { rewrite Vn. exists (Zceil c * 2 ^ j - k')%Z. rewrite EJ, minus_IZR, mult_IZR, Hk'. field. lra. }
  assert (Go' : fixed (- j) (1 - val V wn)).
  { destruct Gn as [g Hg]. exists (2 ^ j - g)%Z. rewrite Hg, EJ, minus_IZR. field. lra. }
  rewrite (Hrnd (1 - val V wn) j ltac:(lia) Go') in Vo by (rewrite Vn; lra).
  destruct (line_blend_exact K O V HL (behind (n_zero O) x (Z.to_nat L) i)
     (behind (n_zero O) x (Z.to_nat (if (L =? 0)%Z then m else (L - 1)%Z)) i) wo wn q j M) as [B1 B2];
      try apply HB; auto; try (rewrite ?Vo, ?Vn; lra).
  { rewrite Vo. exact Go'. }
  rewrite Ey. split; [exact B1|]. rewrite B2.
  rewrite !(behind_val (val V)) by exact Zv.
  set (X := fun k => val V (x k)) in *.
  unfold earlier. rewrite Vo, Vn.
  assert (Hfl : (0 <= Zfloor c)%Z) by (apply Zfloor_lub; lra).
  destruct (ceil_floor c) as [[A B]|[A B]].
  - rewrite GL, B, <- A. replace (c - c) with 0 by ring. ring.
  - rewrite GL, B. destruct (Z.eqb_spec (Zfloor c + 1) 0) as [H0|H0]; [lia|].
    replace (Zfloor c + 1 - 1)%Z with (Zfloor c) by ring. rewrite Z2Nat.inj_add by lia. change (Z.to_nat 1) with 1%nat.
    rewrite plus_IZR. ring.
Qed.
(*@PROP
(** 16-bit audio through a line of 4096 slots in steps of 1/512 sample, in [f32]. *)
Example C119_linear_delay_hyps :
  let V := ieee_view 24 128 in
  ieee_line f32_ctl_f32 O32 V /\ ((4095 + 1) * 2 ^ 9 <= 2 ^ 24)%Z /\ on_grid 9 (fl32 1025 (-9)) /\ (-149 <= -15 - 9 <= 100)%Z
  /\ fixed (-15) (val V (fl32 32767 (-15))) /\ Rabs (val V (fl32 32767 (-15))) <= 1 /\ 1 <= bpow radix2 (24 + (-15 - 9)).
Proof.
  assert (E3 : B2R (fl32 32767 (-15)) = 32767 / 32768) by (lit; lra).
  split; [constructor|]. split; [lia|]. split; [split; [reflexivity|]; exists 1025%Z; lit; simpl; lra|]. split; [lia|].
  cbn [val ieee_view]. rewrite E3. split; [exists 32767%Z; cbn; lra|]. split; [rewrite Rabs_pos_eq; lra|cbn; lra].
Qed.
@*)

(** ** The limit is sharp: an accumulator stalls at 2^24 (2^53). *)
Lemma stall_gen (prec emax : Z) {Hp : Prec_gt_0 prec} {Hm : Prec_lt_emax prec emax} (Ops : num_ops (binary_float prec emax)) :
  n_sub Ops = f_sub prec emax -> n_mul Ops = f_mul prec emax -> n_zero Ops = B754_zero false ->
  (SpecFloat.emin prec emax <= 0)%Z -> (prec + 1 < emax)%Z ->
  round radix2 (SpecFloat.fexp prec emax) (round_mode mode_NE) (1 - - bpow radix2 prec) = bpow radix2 prec ->
  forall (b0 a1 : binary_float prec emax) (x : nat -> binary_float prec emax),
    is_finite b0 = true -> is_finite a1 = true -> (forall n, is_finite (x n) = true) ->
    B2R b0 = 1 -> B2R a1 = -1 -> (forall n, B2R (x n) = 1) ->
  forall n, is_finite (stream (dev_one_pole Ops) (b0, a1) x n) = true
    /\ B2R (stream (dev_one_pole Ops) (b0, a1) x n) = Rmin (INR (n + 1)) (bpow radix2 prec).
Proof.
  intros Hsub Hmul Hzero He Hemax HRN b0 a1 x Fb Fa Fx Vb Va Vx.
  assert (Hp' : (0 < prec)%Z) by exact Hp.
  set (P := bpow radix2 prec) in *.
  assert (EP : P = IZR (2 ^ prec)) by (unfold P; change 2%Z with (radix_val radix2); rewrite IZR_Zpower by lia; reflexivity).
  assert (P1 : 1 <= P) by (rewrite EP; apply IZR_le; assert (0 < 2 ^ prec)%Z by (apply Z.pow_pos_nonneg; lia); lia).
  assert (He' : (prec + 0 < emax)%Z) by lia.
  assert (EB : bpow radix2 (prec + 0) = P) by (unfold P; f_equal; lia).
  assert (FI : forall z : Z, fixed 0 (IZR z)) by (intros z; exists z; cbn; ring).
  assert (Step : forall n (y : binary_float prec emax) (k : Z), is_finite y = true -> B2R y = IZR k -> (0 <= k <= 2 ^ prec)%Z ->
     is_finite (f_sub prec emax (f_mul prec emax b0 (x n)) (f_mul prec emax a1 y)) = true
     /\ B2R (f_sub prec emax (f_mul prec emax b0 (x n)) (f_mul prec emax a1 y)) = IZR (Z.min (k + 1) (2 ^ prec))).
  { intros n y k Fy Vy Hk.
    assert (Hk1 := IZR_le _ _ (proj1 Hk)). assert (Hk2 := IZR_le _ _ (proj2 Hk)). rewrite <- EP in Hk2.
    assert (M1 : ex prec emax 0 (f_mul prec emax b0 (x n)) 1).
    { replace 1 with (B2R b0 * B2R (x n)) by (rewrite Vb, Vx; ring).
      apply ex_mul; auto; rewrite Vb, Vx, Rmult_1_l; [apply (FI 1%Z)|rewrite EB, Rabs_pos_eq; lra]. }
    assert (M2 : ex prec emax 0 (f_mul prec emax a1 y) (- IZR k)).
    { replace (- IZR k) with (B2R a1 * B2R y) by (rewrite Va, Vy; ring).
      apply ex_mul; auto; rewrite Va, Vy; replace (-1 * IZR k) with (- IZR k) by ring;
        [rewrite <- opp_IZR; apply FI|rewrite EB, Rabs_Ropp, Rabs_pos_eq; lra]. }
    destruct (Z.eq_dec k (2 ^ prec)) as [Ek|Ek].
    - destruct M1 as [A1 [A2 _]]. destruct M2 as [B1 [B2 _]].
      destruct (sub_ok prec emax (f_mul prec emax b0 (x n)) (f_mul prec emax a1 y) (bpow radix2 (prec + 1)) A1 B1) as [G1 G2].
      + apply format_bpow; [assumption..|unfold SpecFloat.emin in *; lia].
      + apply bpow_lt; lia.
      + rewrite A2, B2, Rabs_pos_eq, bpow_plus by lra. fold P. cbn. lra.
      + split; [exact G1|]. rewrite G2, A2, B2, Ek, <- EP, HRN, EP. f_equal. lia.
    - assert (Hk3 : IZR (k + 1) <= P) by (rewrite EP; apply IZR_le; lia). rewrite plus_IZR in Hk3.
      destruct (ex_sub prec emax 0 He He' _ _ _ _ M1 M2) as [G1 [G2 _]]; [rewrite EB, Rabs_pos_eq; lra|].
      split; [exact G1|]. rewrite G2, Z.min_l, plus_IZR by lia. ring. }
  assert (Main : forall n, is_finite (stream (dev_one_pole Ops) (b0, a1) x n) = true
    /\ B2R (stream (dev_one_pole Ops) (b0, a1) x n) = IZR (Z.min (Z.of_nat n + 1) (2 ^ prec))).
  { intros n. induction n as [|n [F1 IH]]; rewrite (unroll_one_pole prec emax Ops Hsub Hmul Hzero x b0 a1).
    - apply (Step 0%nat (B754_zero false) 0%Z); [reflexivity|reflexivity|]. assert (0 < 2 ^ prec)%Z by (apply Z.pow_pos_nonneg; lia). lia.
    - rewrite fb_SS, fb_0.
      replace (Z.min (Z.of_nat (Datatypes.S n) + 1) (2 ^ prec)) with (Z.min (Z.min (Z.of_nat n + 1) (2 ^ prec) + 1) (2 ^ prec)) by lia.
      apply Step; [exact F1|exact IH|]. assert (0 < 2 ^ prec)%Z by (apply Z.pow_pos_nonneg; lia). lia. }
  intros n. destruct (Main n) as [F1 E]. split; [exact F1|]. rewrite E.
  rewrite INR_IZR_INZ, EP, Nat2Z.inj_add. change (Z.of_nat 1) with 1%Z.
  destruct (Z.min_spec (Z.of_nat n + 1) (2 ^ prec)) as [[A ->]|[A ->]].
  - rewrite Rmin_left; [reflexivity|apply IZR_le; lia].
  - rewrite Rmin_right; [reflexivity|apply IZR_le; exact A].
Qed.

Lemma stall32 : round radix2 (SpecFloat.fexp 24 128) (round_mode mode_NE) (1 - - bpow radix2 24) = bpow radix2 24.
Proof.
  assert (E : f_sub 24 128 (fl32 1 0) (fl32 (-1) 24) = fl32 1 24) by (apply B2SF_inj; vm_compute; reflexivity).
  assert (V1 : B2R (fl32 1 0) = 1) by (lit; lra). assert (V2 : B2R (fl32 (-1) 24) = - bpow radix2 24) by (lit; cbn; lra).
  assert (V3 : B2R (fl32 1 24) = bpow radix2 24) by (lit; cbn; lra).
  destruct (sub_ok 24 128 (fl32 1 0) (fl32 (-1) 24) (bpow radix2 25)) as [_ G]; [reflexivity|reflexivity| | | |].
  - apply format_bpow; [typeclasses eauto..|unfold SpecFloat.emin; lia].
  - apply bpow_lt; lia.
  - rewrite V1, V2, Rabs_pos_eq; cbn; lra.
  - rewrite E, V1, V2, V3 in G. symmetry. exact G.
Qed.
Lemma stall64 : round radix2 (SpecFloat.fexp 53 1024) (round_mode mode_NE) (1 - - bpow radix2 53) = bpow radix2 53.
Proof.
  assert (E : f_sub 53 1024 (fl64 1 0) (fl64 (-1) 53) = fl64 1 53) by (apply B2SF_inj; vm_compute; reflexivity).
  assert (V1 : B2R (fl64 1 0) = 1) by (lit; lra). assert (V2 : B2R (fl64 (-1) 53) = - bpow radix2 53) by (lit; cbn; lra).
  assert (V3 : B2R (fl64 1 53) = bpow radix2 53) by (lit; cbn; lra).
  destruct (sub_ok 53 1024 (fl64 1 0) (fl64 (-1) 53) (bpow radix2 54)) as [_ G]; [reflexivity|reflexivity| | | |].
  - apply format_bpow; [typeclasses eauto..|unfold SpecFloat.emin; lia].
  - apply bpow_lt; lia.
  - rewrite V1, V2, Rabs_pos_eq; cbn; lra.
  - rewrite E, V1, V2, V3 in G. symmetry. exact G.
Qed.

(** C119: the limit is sharp.  A [OnePole] used as an accumulator (b0 = 1, a1 = -1) and fed with
    ones counts 1, 2, 3, ... up to 2^24 = 16777216 in [f32] (2^53 in [f64]) and stays there for ever,
    silently, although every sample is finite; the sum it should hold goes on growing. *)
Lemma C119_accumulator_stalls_thm :
  forall (T : Type) (O : num_ops T) (V : float_view T), ieee O V ->
  forall (b0 a1 : T) (x : nat -> T),
    fin V b0 = true -> fin V a1 = true -> (forall n, fin V (x n) = true) ->
    val V b0 = 1 -> val V a1 = -1 -> (forall n, val V (x n) = 1) ->
  forall n, fin V (stream (dev_one_pole O) (b0, a1) x n) = true
    /\ val V (stream (dev_one_pole O) (b0, a1) x n) = Rmin (INR (n + 1)) (bpow radix2 (fprec V)).
Proof.
  intros T O V HO. destruct HO as [lm b|lm b]; intros b0 a1 x Fb Fa Fx Vb Va Vx n.
  - apply (stall_gen 24 128); try assumption; try reflexivity; try (unfold SpecFloat.emin; lia). exact stall32.
  - apply (stall_gen 53 1024); try assumption; try reflexivity; try (unfold SpecFloat.emin; lia). exact stall64.
Qed.
(*@PROP
Example C119_accumulator_stalls_hyps :
  let V := ieee_view 24 128 in val V (fl32 1 0) = 1 /\ val V (fl32 (-1) 0) = -1 /\ fin V (fl32 1 0) = true /\ fin V (fl32 (-1) 0) = true.
Proof. cbn [val fin ieee_view]. split; [lit; lra|]. split; [lit; lra|]. split; reflexivity. Qed.
@*)

Lemma C119_accumulator_refuted_thm :
  ~ (forall (x : nat -> f32) (y : signal),
       (forall n, is_finite (x n) = true /\ fixed 0 (B2R (x n)) /\ Rabs (B2R (x n)) <= 1) ->
       obeys (vals (ieee_view 24 128) (fl32 1 0, n_zero O32, n_zero O32, fl32 (-1) 0, n_zero O32)) (fun n => B2R (x n)) y ->
       forall n, B2R (stream (dev_one_pole O32) (fl32 1 0, fl32 (-1) 0) x n) = y n).
Proof.
  intros H.
  assert (E1 : B2R (fl32 1 0) = 1) by (lit; lra). assert (E2 : B2R (fl32 (-1) 0) = -1) by (lit; lra).
  assert (E0 : B2R (n_zero O32) = 0) by reflexivity.
  assert (G : forall n, B2R (stream (dev_one_pole O32) (fl32 1 0, fl32 (-1) 0) (fun _ => fl32 1 0) n) = INR (n + 1)).
  { apply (H (fun _ => fl32 1 0) (fun n => INR (n + 1))).
    - intros _. rewrite E1. split; [reflexivity|]. split; [exists 1%Z; cbn; ring|rewrite Rabs_pos_eq; lra].
    - cbn [vals val ieee_view]. rewrite E0, E1, E2. intros n.
      replace (back 1 (fun n => INR (n + 1)) n) with (INR n).
      + rewrite plus_INR. cbn [INR]. ring.
      + destruct n as [|n]; unfold back; cbn [Nat.leb]; [reflexivity|]. f_equal. lia. }
  assert (HN : exists N, Z.of_nat N = (2 ^ 24)%Z) by (exists (Z.to_nat (2 ^ 24)); rewrite Z2Nat.id; [reflexivity|lia]).
  destruct HN as [N HN]. specialize (G N).
  destruct (C119_accumulator_stalls_thm f32 O32 (ieee_view 24 128) (ieee_f32 _ _) (fl32 1 0) (fl32 (-1) 0) (fun _ => fl32 1 0)
     eq_refl eq_refl (fun _ => eq_refl) E1 E2 (fun _ => E1) N) as [_ Q].
  cbn [val fprec ieee_view] in Q. rewrite G in Q.
  rewrite INR_IZR_INZ, Nat2Z.inj_add, HN in Q. change (Z.of_nat 1) with 1%Z in Q.
  replace (bpow radix2 24) with (IZR (2 ^ 24)) in Q by (cbn; lra).
  rewrite Rmin_right in Q by (apply IZR_le; lia). apply eq_IZR in Q. lia.
Qed.
