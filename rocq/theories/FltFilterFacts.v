(** Rounding errors of the filters. *)
From Coq Require Import ZArith Reals Lra Lia Psatz List Arith.
From Flocq Require Import Core.Core Relative Plus_error IEEE754.BinarySingleNaN.
From Verif Require Import Base Num NumR NumF FilterM RbjM Device Signal SignalFacts FilterFacts
  FloatFacts FloatSpec FltFilterSpec.
Import ListNotations.
Open Scope R_scope.

Section Round.
  Context (prec emax : Z) {Hp : Prec_gt_0 prec} {Hm : Prec_lt_emax prec emax}.
  Notation F := (binary_float prec emax).
  Notation fexp := (SpecFloat.fexp prec emax).
  Notation RN := (round radix2 fexp (round_mode mode_NE)).
  Notation fadd := (f_add prec emax).
  Notation fsub := (f_sub prec emax).
  Notation fmul := (f_mul prec emax).
  Notation fzero := (B754_zero false : F).
  #[local] Instance vexp : Valid_exp fexp := fexp_correct prec emax Hp.
  #[local] Instance vrnd : Valid_rnd (round_mode mode_NE) := valid_rnd_round_mode mode_NE.

  Definition uro : R := bpow radix2 (- prec).
  Definition eta : R := uro * bpow radix2 (2 - emax).

  Lemma uro_pos : 0 < uro.
  Proof. apply bpow_gt_0. Qed.
  Lemma eta_pos : 0 < eta.
  Proof. apply Rmult_lt_0_compat; apply bpow_gt_0. Qed.

  Lemma half_ulp : / 2 * bpow radix2 (- prec + 1) = uro.
  Proof. unfold uro. rewrite bpow_plus. cbn [bpow Z.pow_pos Pos.iter]. cbn. lra. Qed.

  Lemma half_min : / 2 * bpow radix2 (SpecFloat.emin prec emax) = eta.
  Proof.
    unfold eta, uro. rewrite <- bpow_plus.
    replace (SpecFloat.emin prec emax) with ((- prec + (2 - emax)) + 1)%Z by (unfold SpecFloat.emin; lia).
    rewrite (bpow_plus radix2 (- prec + (2 - emax)) 1). cbn. lra.
  Qed.

  Lemma RN_err x : Rabs (RN x - x) <= uro * Rabs x + eta.
  Proof.
    destruct (error_N_FLT radix2 (SpecFloat.emin prec emax) prec Hp (fun x => negb (Z.even x)) x)
      as [eps [et [H1 [H2 [_ H4]]]]].
    rewrite half_ulp in H1. rewrite half_min in H2.
    replace (RN x) with (x * (1 + eps) + et) by (symmetry; exact H4).
    replace (x * (1 + eps) + et - x) with (x * eps + et) by ring.
    eapply Rle_trans; [apply Rabs_triang|]. rewrite Rabs_mult.
    apply Rplus_le_compat; [|exact H2]. rewrite Rmult_comm. apply Rmult_le_compat_r; [apply Rabs_pos|exact H1].
  Qed.

  Lemma RN_err_format x y : generic_format radix2 fexp x -> generic_format radix2 fexp y ->
    Rabs (RN (x + y) - (x + y)) <= uro * Rabs (x + y).
  Proof.
    intros Fx Fy.
    destruct (FLT_plus_error_N_ex radix2 (SpecFloat.emin prec emax) prec (fun x => negb (Z.even x)) x y Fx Fy)
      as [eps [H1 H2]].
    replace (RN (x + y)) with ((x + y) * (1 + eps)) by (symmetry; exact H2).
    replace ((x + y) * (1 + eps) - (x + y)) with ((x + y) * eps) by ring.
    rewrite Rabs_mult, Rmult_comm. apply Rmult_le_compat_r; [apply Rabs_pos|].
    eapply Rle_trans; [exact H1|]. unfold u_ro. rewrite half_ulp.
    assert (P := uro_pos). apply Rmult_le_reg_r with (1 + uro); [lra|].
    replace (uro / (1 + uro) * (1 + uro)) with uro by (field; lra). nra.
  Qed.

  (** [near k j v r S]: the float [v] is within k roundings of [r], whose terms
      sum to [S] in magnitude, with j underflow errors. *)
  Definition near (k : nat) (j : R) (v : F) (r S : R) : Prop :=
    is_finite v = true /\ Rabs r <= S
    /\ Rabs (B2R v - r) <= ((1 + uro) ^ k - 1) * S + j * (1 + uro) ^ k * eta.

  Variable m : R.
  Hypothesis Fm : generic_format radix2 fexp m.
  Hypothesis Hmax : m < bpow radix2 emax.

  Lemma pow_u k : 1 <= (1 + uro) ^ k.
  Proof. apply pow_R1_Rle. assert (P := uro_pos). lra. Qed.

  Lemma near_size k j v r S : near k j v r S ->
    Rabs (B2R v) <= (1 + uro) ^ k * S + j * (1 + uro) ^ k * eta.
  Proof.
    intros [_ [Hr He]]. replace (B2R v) with (r + (B2R v - r)) by ring.
    eapply Rle_trans; [apply Rabs_triang|]. lra.
  Qed.

  Lemma near_mono k k' j v r S : (k <= k')%nat -> 0 <= j -> near k j v r S -> near k' j v r S.
  Proof.
    intros Hk Hj [H1 [H2 H3]]. split; [exact H1|]. split; [exact H2|].
    eapply Rle_trans; [exact H3|]. assert (P := uro_pos). assert (E := eta_pos).
    assert (Hs : 0 <= S) by (eapply Rle_trans; [apply Rabs_pos|exact H2]).
    assert (Hw : (1 + uro) ^ k <= (1 + uro) ^ k') by (apply Rle_pow; [lra|exact Hk]).
    apply Rplus_le_compat.
    - apply Rmult_le_compat_r; lra.
    - apply Rmult_le_compat_r; [lra|]. apply Rmult_le_compat_l; assumption.
  Qed.

  Lemma near_mul (x y : F) S : is_finite x = true -> is_finite y = true ->
    Rabs (B2R x * B2R y) <= S -> S <= m -> near 1 1 (fmul x y) (B2R x * B2R y) S.
  Proof.
    intros Hx Hy HS Hle.
    destruct (mul_ok prec emax x y m Hx Hy Fm Hmax ltac:(lra)) as [H1 H2].
    split; [exact H1|]. split; [exact HS|]. rewrite H2.
    eapply Rle_trans; [apply RN_err|]. assert (P := uro_pos). assert (E := eta_pos).
    rewrite pow_1. nra.
  Qed.

  Lemma near_add k j1 j2 (x y : F) r1 r2 S1 S2 : 0 <= j1 -> 0 <= j2 ->
    near k j1 x r1 S1 -> near k j2 y r2 S2 ->
    (1 + uro) ^ k * (S1 + S2) + (j1 + j2) * (1 + uro) ^ k * eta <= m ->
    near (S k) (j1 + j2) (fadd x y) (r1 + r2) (S1 + S2).
  Proof.
    intros Hj1 Hj2 N1 N2 Hle.
    assert (Z1 := near_size _ _ _ _ _ N1). assert (Z2 := near_size _ _ _ _ _ N2).
    destruct N1 as [F1 [R1 E1]]. destruct N2 as [F2 [R2 E2]].
    assert (A : Rabs (B2R x + B2R y) <= (1 + uro) ^ k * (S1 + S2) + (j1 + j2) * (1 + uro) ^ k * eta).
    { eapply Rle_trans; [apply Rabs_triang|]. lra. }
    destruct (add_ok prec emax x y m F1 F2 Fm Hmax ltac:(lra)) as [H1 H2].
    split; [exact H1|]. split; [eapply Rle_trans; [apply Rabs_triang|]; lra|].
    rewrite H2.
    replace (RN (B2R x + B2R y) - (r1 + r2))
      with ((RN (B2R x + B2R y) - (B2R x + B2R y)) + ((B2R x - r1) + (B2R y - r2))) by ring.
    eapply Rle_trans; [apply Rabs_triang|].
    eapply Rle_trans; [apply Rplus_le_compat_l, Rabs_triang|].
    assert (B := RN_err_format (B2R x) (B2R y) (generic_format_B2R _ _ x) (generic_format_B2R _ _ y)).
    assert (P := uro_pos). 
    assert (B' : uro * Rabs (B2R x + B2R y)
                 <= uro * ((1 + uro) ^ k * (S1 + S2) + (j1 + j2) * (1 + uro) ^ k * eta))
      by (apply Rmult_le_compat_l; lra).
    cbn [pow]. lra.
  Qed.

  Lemma near_opp k j v r S : near k j v r S -> near k j (Bopp v) (- r) S.
  Proof.
    intros [H1 [H2 H3]]. split; [rewrite is_finite_Bopp; exact H1|].
    split; [rewrite Rabs_Ropp; exact H2|]. rewrite B2R_Bopp.
    replace (- B2R v - - r) with (- (B2R v - r)) by ring. rewrite Rabs_Ropp. exact H3.
  Qed.

  Lemma near_sub k j1 j2 (x y : F) r1 r2 S1 S2 : 0 <= j1 -> 0 <= j2 ->
    near k j1 x r1 S1 -> near k j2 y r2 S2 ->
    (1 + uro) ^ k * (S1 + S2) + (j1 + j2) * (1 + uro) ^ k * eta <= m ->
    near (S k) (j1 + j2) (fsub x y) (r1 - r2) (S1 + S2).
  Proof.
    intros Hj1 Hj2 N1 N2 Hle.
    assert (Z1 := near_size _ _ _ _ _ N1). assert (Z2 := near_size _ _ _ _ _ N2).
    destruct N1 as [F1 [R1 E1]]. destruct N2 as [F2 [R2 E2]].
    assert (A : Rabs (B2R x - B2R y) <= (1 + uro) ^ k * (S1 + S2) + (j1 + j2) * (1 + uro) ^ k * eta).
    { unfold Rminus. eapply Rle_trans; [apply Rabs_triang|]. rewrite Rabs_Ropp. lra. }
    destruct (sub_ok prec emax x y m F1 F2 Fm Hmax ltac:(lra)) as [H1 H2].
    split; [exact H1|].
    split; [unfold Rminus; eapply Rle_trans; [apply Rabs_triang|]; rewrite Rabs_Ropp; lra|].
    rewrite H2.
    replace (RN (B2R x - B2R y) - (r1 - r2))
      with ((RN (B2R x - B2R y) - (B2R x - B2R y)) + ((B2R x - r1) + - (B2R y - r2))) by ring.
    eapply Rle_trans; [apply Rabs_triang|].
    eapply Rle_trans; [apply Rplus_le_compat_l, Rabs_triang|]. rewrite (Rabs_Ropp (B2R y - r2)).
    assert (B := RN_err_format (B2R x) (- B2R y) (generic_format_B2R _ _ x)
                   (generic_format_opp _ _ _ (generic_format_B2R _ _ y))).
    fold (B2R x - B2R y) in B.
    assert (P := uro_pos). 
    assert (B' : uro * Rabs (B2R x - B2R y)
                 <= uro * ((1 + uro) ^ k * (S1 + S2) + (j1 + j2) * (1 + uro) ^ k * eta))
      by (apply Rmult_le_compat_l; lra).
    cbn [pow]. lra.
  Qed.

  Lemma near_zero k : near k 0 fzero 0 0.
  Proof.
    split; [reflexivity|]. split; [rewrite Rabs_R0; lra|]. cbn [B2R].
    replace (0 - 0) with 0 by ring. rewrite Rabs_R0. lra.
  Qed.
End Round.

Section Steps.
  Context (prec emax : Z) {Hp : Prec_gt_0 prec} {Hm : Prec_lt_emax prec emax}.
  Notation F := (binary_float prec emax).
  Notation fexp := (SpecFloat.fexp prec emax).
  Notation u := (uro prec).
  Notation eta := (eta prec emax).
  Notation near := (near prec emax).
  Notation fzero := (B754_zero false : F).
  Context (O : num_ops F).
  Hypothesis Hadd : n_add O = f_add prec emax.
  Hypothesis Hsub : n_sub O = f_sub prec emax.
  Hypothesis Hmul : n_mul O = f_mul prec emax.
  Hypothesis Hzero : n_zero O = fzero.
  Context (m : R).
  Hypothesis Fm : generic_format radix2 fexp m.
  Hypothesis Hmax : m < bpow radix2 emax.

  Definition fb (j : nat) (x : nat -> F) (n : nat) : F :=
    if (j <=? n)%nat then x (n - j)%nat else fzero.

  Lemma fb_S0 j x : fb (S j) x 0 = fzero.
  Proof. reflexivity. Qed.
  Lemma fb_SS j x n : fb (S j) x (S n) = fb j x n.
  Proof. reflexivity. Qed.
  Lemma fb_0 x n : fb 0 x n = x n.
  Proof. unfold fb. cbn. now rewrite Nat.sub_0_r. Qed.

  Lemma fb_val j x n : B2R (fb j x n) = back j (fun i => B2R (x i)) n.
  Proof. unfold fb, back. destruct (j <=? n)%nat; reflexivity. Qed.

  Context (b0 b1 b2 a1 a2 : F).
  Hypothesis Fb0 : is_finite b0 = true.
  Hypothesis Fb1 : is_finite b1 = true.
  Hypothesis Fb2 : is_finite b2 = true.
  Hypothesis Fa1 : is_finite a1 = true.
  Hypothesis Fa2 : is_finite a2 = true.
  Context (M Y : R) (x y : nat -> F).
  Hypothesis Hx : forall n, is_finite (x n) = true /\ Rabs (B2R (x n)) <= M.
  Hypothesis HY : 0 <= Y.

  Definition sz : R := Rabs (B2R b0) * M + Rabs (B2R b1) * M + Rabs (B2R b2) * M
                       + Rabs (B2R a1) * Y + Rabs (B2R a2) * Y.
  Hypothesis Hroom : (1 + u) ^ 5 * sz + 5 * (1 + u) ^ 5 * eta <= m.

  Definition good (v : F) : Prop := is_finite v = true /\ Rabs (B2R v) <= Y.
  Definition target (n : nat) : R :=
    B2R b0 * B2R (x n) + B2R b1 * B2R (fb 1 x n) + B2R b2 * B2R (fb 2 x n)
    - B2R a1 * B2R (fb 1 y n) - B2R a2 * B2R (fb 2 y n).

  Lemma M_nneg : 0 <= M.
  Proof. destruct (Hx 0%nat) as [_ H]. eapply Rle_trans; [apply Rabs_pos|exact H]. Qed.

  Lemma fb_x j n : is_finite (fb j x n) = true /\ Rabs (B2R (fb j x n)) <= M.
  Proof.
    unfold fb. destruct (j <=? n)%nat; [apply Hx|]. cbn. rewrite Rabs_R0. split; [reflexivity|apply M_nneg].
  Qed.

  Lemma fb_y j n : (forall i, (i < n)%nat -> good (y i)) -> good (fb (S j) y n).
  Proof.
    intros H. unfold fb. destruct (S j <=? n)%nat eqn:E.
    - apply Nat.leb_le in E. apply H. lia.
    - split; [reflexivity|]. cbn. rewrite Rabs_R0. exact HY.
  Qed.

  Lemma room k j s : (k <= 5)%nat -> 0 <= j <= 5 -> s <= sz ->
    (1 + u) ^ k * s + j * (1 + u) ^ k * eta <= m.
  Proof.
    intros Hk Hj Hs. eapply Rle_trans; [|exact Hroom].
    assert (P := uro_pos prec). assert (E := eta_pos prec emax).
    assert (W : (1 + u) ^ k <= (1 + u) ^ 5) by (apply Rle_pow; [lra|exact Hk]).
    assert (W1 : 1 <= (1 + u) ^ k) by apply pow_u.
    assert (M0 := M_nneg).
    assert (S0 : 0 <= sz).
    { unfold sz. repeat apply Rplus_le_le_0_compat; (apply Rmult_le_pos; [apply Rabs_pos|assumption]). }
    apply Rplus_le_compat.
    - apply Rle_trans with ((1 + u) ^ k * sz).
      + apply Rmult_le_compat_l; lra.
      + apply Rmult_le_compat_r; lra.
    - apply Rmult_le_compat_r; [lra|]. apply Rmult_le_compat; lra.
  Qed.

  Lemma term (b v : F) B : is_finite b = true -> is_finite v = true -> Rabs (B2R v) <= B ->
    Rabs (B2R b) * B <= sz -> near 1 1 (f_mul prec emax b v) (B2R b * B2R v) (Rabs (B2R b) * B).
  Proof.
    intros H1 H2 H3 H4. apply (near_mul prec emax m Fm Hmax); auto.
    - rewrite Rabs_mult. apply Rmult_le_compat_l; [apply Rabs_pos|exact H3].
    - assert (R := room 0 0 sz ltac:(lia) ltac:(lra) ltac:(lra)). cbn [pow] in R. lra.
  Qed.

  (** The parts of [sz]. *)
  Lemma parts : 0 <= Rabs (B2R b0) * M /\ 0 <= Rabs (B2R b1) * M /\ 0 <= Rabs (B2R b2) * M
             /\ 0 <= Rabs (B2R a1) * Y /\ 0 <= Rabs (B2R a2) * Y.
  Proof.
    assert (M0 := M_nneg). repeat split; (apply Rmult_le_pos; [apply Rabs_pos|assumption]).
  Qed.

  Lemma near_weaken k j j' (v : F) r s : 0 <= j -> j <= j' -> s <= sz -> (k <= 5)%nat ->
    near k j v r s -> near 5 j' v r sz.
  Proof.
    intros Hj Hjj Hs Hk H. apply (near_mono prec emax k 5 j v r s Hk Hj) in H.
    destruct H as [H1 [H2 H3]]. split; [exact H1|]. split; [lra|].
    eapply Rle_trans; [exact H3|].
    assert (W := pow_u prec 5). assert (E := eta_pos prec emax).
    apply Rplus_le_compat.
    - apply Rmult_le_compat_l; lra.
    - apply Rmult_le_compat_r; [lra|]. apply Rmult_le_compat_r; lra.
  Qed.

  Notation mul := (f_mul prec emax).
  Notation add := (f_add prec emax).
  Notation sub := (f_sub prec emax).

  Lemma nadd k j1 j2 v w r1 r2 s1 s2 : near k j1 v r1 s1 -> near k j2 w r2 s2 ->
    (k <= 5)%nat -> 0 <= j1 -> 0 <= j2 -> j1 + j2 <= 5 -> s1 + s2 <= sz ->
    near (S k) (j1 + j2) (add v w) (r1 + r2) (s1 + s2).
  Proof.
    intros H1 H2 Hk Hj1 Hj2 Hj Hs. apply (near_add prec emax m Fm Hmax); auto. apply room; auto. lra.
  Qed.

  Lemma nsub k j1 j2 v w r1 r2 s1 s2 : near k j1 v r1 s1 -> near k j2 w r2 s2 ->
    (k <= 5)%nat -> 0 <= j1 -> 0 <= j2 -> j1 + j2 <= 5 -> s1 + s2 <= sz ->
    near (S k) (j1 + j2) (sub v w) (r1 - r2) (s1 + s2).
  Proof.
    intros H1 H2 Hk Hj1 Hj2 Hj Hs. apply (near_sub prec emax m Fm Hmax); auto. apply room; auto. lra.
  Qed.

  Ltac szl := match goal with P0 : 0 <= Rabs (B2R b0) * M, P1 : 0 <= Rabs (B2R b1) * M, P2 : 0 <= Rabs (B2R b2) * M,
      P3 : 0 <= Rabs (B2R a1) * Y, P4 : 0 <= Rabs (B2R a2) * Y |- _ => clear - P0 P1 P2 P3 P4; unfold sz; lra end.
  Ltac side N := do 5 (specialize (N ltac:(first [clear; lia | clear; lra | szl]))).


  (** Direct form I. *)
  Lemma form1 n : (forall i, (i < n)%nat -> good (y i)) ->
    near 5 5 (sub (sub (add (add (mul b0 (x n)) (mul b1 (fb 1 x n))) (mul b2 (fb 2 x n)))
                       (mul a1 (fb 1 y n))) (mul a2 (fb 2 y n)))
         (target n) sz.
  Proof.
    intros H. destruct parts as [P0 [P1 [P2 [P3 P4]]]].
    destruct (Hx n) as [X0 X0']. destruct (fb_x 1 n) as [X1 X1']. destruct (fb_x 2 n) as [X2 X2'].
    destruct (fb_y 0 n H) as [Y1 Y1']. destruct (fb_y 1 n H) as [Y2 Y2'].
    assert (T0 := term b0 (x n) M Fb0 X0 X0' ltac:(szl)).
    assert (T1 := term b1 _ M Fb1 X1 X1' ltac:(szl)).
    assert (T2 := term b2 _ M Fb2 X2 X2' ltac:(szl)).
    assert (T3 := term a1 _ Y Fa1 Y1 Y1' ltac:(szl)).
    assert (T4 := term a2 _ Y Fa2 Y2 Y2' ltac:(szl)).
    assert (N1 := nadd 1 1 1 _ _ _ _ _ _ T0 T1). side N1.
    assert (N2 := nadd 2 (1 + 1) 1 _ _ _ _ _ _ N1
                    (near_mono prec emax 1 2 1 _ _ _ ltac:(clear; lia) ltac:(clear; lra) T2)). side N2.
    assert (N3 := nsub 3 (1 + 1 + 1) 1 _ _ _ _ _ _ N2
                    (near_mono prec emax 1 3 1 _ _ _ ltac:(clear; lia) ltac:(clear; lra) T3)). side N3.
    assert (N4 := nsub 4 (1 + 1 + 1 + 1) 1 _ _ _ _ _ _ N3
                    (near_mono prec emax 1 4 1 _ _ _ ltac:(clear; lia) ltac:(clear; lra) T4)). side N4.
    apply (near_weaken 5 (1 + 1 + 1 + 1 + 1) 5) in N4; [|clear; lra|clear; lra|szl|clear; lia]. exact N4.
  Qed.

  (** Transposed direct form II. *)
  Definition zz2 (n : nat) : F :=
    match n with 0%nat => fzero | S k => sub (mul b2 (x k)) (mul a2 (y k)) end.
  Definition zz1 (n : nat) : F :=
    match n with 0%nat => fzero | S k => sub (add (mul b1 (x k)) (zz2 k)) (mul a1 (y k)) end.

  Lemma form2 n : (forall i, (i < n)%nat -> good (y i)) ->
    near 5 5 (add (mul b0 (x n)) (zz1 n)) (target n) sz.
  Proof.
    intros H. destruct parts as [P0 [P1 [P2 [P3 P4]]]].
    assert (Z2 : forall k, (k < n)%nat -> near 2 2 (zz2 k)
              (B2R b2 * B2R (fb 1 x k) - B2R a2 * B2R (fb 1 y k)) (Rabs (B2R b2) * M + Rabs (B2R a2) * Y)).
    { intros [|k] Hk; cbn [zz2].
      - rewrite !fb_S0. cbn [B2R]. replace (B2R b2 * 0 - B2R a2 * 0) with 0 by ring.
        split; [reflexivity|]. split; [rewrite Rabs_R0; lra|]. cbn [B2R].
        replace (0 - 0) with 0 by ring. rewrite Rabs_R0.
        assert (E := eta_pos prec emax). assert (W := pow_u prec 2).
        apply Rplus_le_le_0_compat; apply Rmult_le_pos; lra.
      - rewrite !fb_SS, !fb_0. destruct (Hx k) as [X0 X0']. destruct (H k ltac:(lia)) as [Y0 Y0'].
        replace (near 2 2) with (near 2 (1 + 1)) by (f_equal; lra).
        apply (near_sub prec emax m Fm Hmax 1 1 1); try lra.
        + apply term; auto. unfold sz; lra.
        + apply term; auto. unfold sz; lra.
        + apply (room 1 (1 + 1)); [lia|lra|unfold sz; lra]. }
    assert (Z1 : near 4 4 (zz1 n)
              (B2R b1 * B2R (fb 1 x n) + B2R b2 * B2R (fb 2 x n)
               - B2R a1 * B2R (fb 1 y n) - B2R a2 * B2R (fb 2 y n))
              (Rabs (B2R b1) * M + (Rabs (B2R b2) * M + Rabs (B2R a2) * Y) + Rabs (B2R a1) * Y)).
    { destruct n as [|k]; cbn [zz1].
      - rewrite !fb_S0. cbn [B2R].
        replace (B2R b1 * 0 + B2R b2 * 0 - B2R a1 * 0 - B2R a2 * 0) with 0 by ring.
        split; [reflexivity|]. split; [rewrite Rabs_R0; lra|]. cbn [B2R].
        replace (0 - 0) with 0 by ring. rewrite Rabs_R0.
        assert (E := eta_pos prec emax). assert (W := pow_u prec 4).
        apply Rplus_le_le_0_compat; apply Rmult_le_pos; lra.
      - rewrite !fb_SS, !fb_0. destruct (Hx k) as [X0 X0']. destruct (H k ltac:(lia)) as [Y0 Y0'].
        replace (B2R b1 * B2R (x k) + B2R b2 * B2R (fb 1 x k) - B2R a1 * B2R (y k) - B2R a2 * B2R (fb 1 y k))
          with (B2R b1 * B2R (x k) + (B2R b2 * B2R (fb 1 x k) - B2R a2 * B2R (fb 1 y k)) - B2R a1 * B2R (y k)) by ring.
        assert (T1 := term b1 _ M Fb1 X0 X0' ltac:(szl)).
        assert (T3 := term a1 _ Y Fa1 Y0 Y0' ltac:(szl)).
        assert (N1 := nadd 2 1 2 _ _ _ _ _ _
                        (near_mono prec emax 1 2 1 _ _ _ ltac:(clear; lia) ltac:(clear; lra) T1) (Z2 k ltac:(lia))). side N1.
        assert (N2 := nsub 3 (1 + 2) 1 _ _ _ _ _ _ N1
                        (near_mono prec emax 1 3 1 _ _ _ ltac:(clear; lia) ltac:(clear; lra) T3)). side N2.
        replace (1 + 2 + 1) with 4 in N2 by lra. exact N2. }
    destruct (Hx n) as [X0 X0'].
    assert (T0 := term b0 (x n) M Fb0 X0 X0' ltac:(szl)).
    assert (N := nadd 4 1 4 _ _ _ _ _ _
                   (near_mono prec emax 1 4 1 _ _ _ ltac:(clear; lia) ltac:(clear; lra) T0) Z1). side N.
    apply (near_weaken 5 (1 + 4) 5) in N; [|clear; lra|clear; lra|szl|clear; lia].
    unfold target.
    replace (B2R b0 * B2R (x n) + B2R b1 * B2R (fb 1 x n) + B2R b2 * B2R (fb 2 x n)
             - B2R a1 * B2R (fb 1 y n) - B2R a2 * B2R (fb 2 y n))
      with (B2R b0 * B2R (x n) + (B2R b1 * B2R (fb 1 x n) + B2R b2 * B2R (fb 2 x n)
             - B2R a1 * B2R (fb 1 y n) - B2R a2 * B2R (fb 2 y n))) by ring.
    exact N.
  Qed.

  (** The shorter filters. *)
  Lemma form_one_pole n : b1 = fzero -> b2 = fzero -> a2 = fzero ->
    (forall i, (i < n)%nat -> good (y i)) ->
    near 5 5 (sub (mul b0 (x n)) (mul a1 (fb 1 y n))) (target n) sz.
  Proof.
    intros E1 E2 E3 H. destruct parts as [P0 [P1 [P2 [P3 P4]]]].
    destruct (Hx n) as [X0 X0']. destruct (fb_y 0 n H) as [Y1 Y1'].
    assert (T0 := term b0 (x n) M Fb0 X0 X0' ltac:(szl)).
    assert (T3 := term a1 _ Y Fa1 Y1 Y1' ltac:(szl)).
    assert (N1 := nsub 1 1 1 _ _ _ _ _ _ T0 T3). side N1.
    apply (near_weaken 2 (1 + 1) 5) in N1; [|clear; lra|clear; lra|szl|clear; lia].
    unfold target. rewrite E1, E2, E3. cbn [B2R].
    replace (B2R b0 * B2R (x n) + 0 * B2R (fb 1 x n) + 0 * B2R (fb 2 x n) - B2R a1 * B2R (fb 1 y n) - 0 * B2R (fb 2 y n))
      with (B2R b0 * B2R (x n) - B2R a1 * B2R (fb 1 y n)) by ring. exact N1.
  Qed.

  Lemma form_two_pole n : b1 = fzero -> b2 = fzero ->
    (forall i, (i < n)%nat -> good (y i)) ->
    near 5 5 (sub (sub (mul b0 (x n)) (mul a1 (fb 1 y n))) (mul a2 (fb 2 y n))) (target n) sz.
  Proof.
    intros E1 E2 H. destruct parts as [P0 [P1 [P2 [P3 P4]]]].
    destruct (Hx n) as [X0 X0']. destruct (fb_y 0 n H) as [Y1 Y1']. destruct (fb_y 1 n H) as [Y2 Y2'].
    assert (T0 := term b0 (x n) M Fb0 X0 X0' ltac:(szl)).
    assert (T3 := term a1 _ Y Fa1 Y1 Y1' ltac:(szl)).
    assert (T4 := term a2 _ Y Fa2 Y2 Y2' ltac:(szl)).
    assert (N1 := nsub 1 1 1 _ _ _ _ _ _ T0 T3). side N1.
    assert (N2 := nsub 2 (1 + 1) 1 _ _ _ _ _ _ N1
                    (near_mono prec emax 1 2 1 _ _ _ ltac:(clear; lia) ltac:(clear; lra) T4)). side N2.
    apply (near_weaken 3 (1 + 1 + 1) 5) in N2; [|clear; lra|clear; lra|szl|clear; lia].
    unfold target. rewrite E1, E2. cbn [B2R].
    replace (B2R b0 * B2R (x n) + 0 * B2R (fb 1 x n) + 0 * B2R (fb 2 x n) - B2R a1 * B2R (fb 1 y n) - B2R a2 * B2R (fb 2 y n))
      with (B2R b0 * B2R (x n) - B2R a1 * B2R (fb 1 y n) - B2R a2 * B2R (fb 2 y n)) by ring. exact N2.
  Qed.

  Lemma form_one_zero n : b2 = fzero -> a1 = fzero -> a2 = fzero ->
    near 5 5 (add (mul b0 (x n)) (mul b1 (fb 1 x n))) (target n) sz.
  Proof.
    intros E1 E2 E3. destruct parts as [P0 [P1 [P2 [P3 P4]]]].
    destruct (Hx n) as [X0 X0']. destruct (fb_x 1 n) as [X1 X1'].
    assert (T0 := term b0 (x n) M Fb0 X0 X0' ltac:(szl)).
    assert (T1 := term b1 _ M Fb1 X1 X1' ltac:(szl)).
    assert (N1 := nadd 1 1 1 _ _ _ _ _ _ T0 T1). side N1.
    apply (near_weaken 2 (1 + 1) 5) in N1; [|clear; lra|clear; lra|szl|clear; lia].
    unfold target. rewrite E1, E2, E3. cbn [B2R].
    replace (B2R b0 * B2R (x n) + B2R b1 * B2R (fb 1 x n) + 0 * B2R (fb 2 x n) - 0 * B2R (fb 1 y n) - 0 * B2R (fb 2 y n))
      with (B2R b0 * B2R (x n) + B2R b1 * B2R (fb 1 x n)) by ring. exact N1.
  Qed.

  Lemma form_two_zero n : a1 = fzero -> a2 = fzero ->
    near 5 5 (add (add (mul b0 (x n)) (mul b1 (fb 1 x n))) (mul b2 (fb 2 x n))) (target n) sz.
  Proof.
    intros E2 E3. destruct parts as [P0 [P1 [P2 [P3 P4]]]].
    destruct (Hx n) as [X0 X0']. destruct (fb_x 1 n) as [X1 X1']. destruct (fb_x 2 n) as [X2 X2'].
    assert (T0 := term b0 (x n) M Fb0 X0 X0' ltac:(szl)).
    assert (T1 := term b1 _ M Fb1 X1 X1' ltac:(szl)).
    assert (T2 := term b2 _ M Fb2 X2 X2' ltac:(szl)).
    assert (N1 := nadd 1 1 1 _ _ _ _ _ _ T0 T1). side N1.
    assert (N2 := nadd 2 (1 + 1) 1 _ _ _ _ _ _ N1
                    (near_mono prec emax 1 2 1 _ _ _ ltac:(clear; lia) ltac:(clear; lra) T2)). side N2.
    apply (near_weaken 3 (1 + 1 + 1) 5) in N2; [|clear; lra|clear; lra|szl|clear; lia].
    unfold target. rewrite E2, E3. cbn [B2R].
    replace (B2R b0 * B2R (x n) + B2R b1 * B2R (fb 1 x n) + B2R b2 * B2R (fb 2 x n) - 0 * B2R (fb 1 y n) - 0 * B2R (fb 2 y n))
      with (B2R b0 * B2R (x n) + B2R b1 * B2R (fb 1 x n) + B2R b2 * B2R (fb 2 x n)) by ring. exact N2.
  Qed.
End Steps.

Section Unroll.
  Context (prec emax : Z) {Hp : Prec_gt_0 prec} {Hm : Prec_lt_emax prec emax}.
  Notation F := (binary_float prec emax).
  Notation fzero := (B754_zero false : F).
  Notation fb := (fb prec emax).
  Context (Ops : num_ops F).
  Hypothesis Hadd : n_add Ops = f_add prec emax.
  Hypothesis Hsub : n_sub Ops = f_sub prec emax.
  Hypothesis Hmul : n_mul Ops = f_mul prec emax.
  Hypothesis Hzero : n_zero Ops = fzero.
  Context (x : nat -> F).
  Notation mul := (f_mul prec emax).
  Notation add := (f_add prec emax).
  Notation sub := (f_sub prec emax).

  Lemma unroll_one_pole b0 a1 n : let y := stream (dev_one_pole Ops) (b0, a1) x in
    y n = sub (mul b0 (x n)) (mul a1 (fb 1 y n)).
  Proof.
    intros y.
    assert (E : forall n, fed (dev_one_pole Ops) (after (dev_one_pole Ops) [CSet (b0, a1)]) x n
                          = OnePole (fb 1 y n) b0 a1).
    { clear n. intros n. induction n as [|n IH].
      - unfold FltFilterFacts.fb. cbn [Nat.leb]. rewrite <- Hzero. reflexivity.
      - rewrite fb_SS, fb_0. unfold y, stream. cbn [fed]. rewrite IH. reflexivity. }
    unfold y at 1, stream. rewrite E. cbn. unfold one_pole_process. cbn. rewrite Hsub, Hmul. reflexivity.
  Qed.

  Lemma unroll_two_pole b0 a1 a2 n : let y := stream (dev_two_pole Ops) (b0, a1, a2) x in
    y n = sub (sub (mul b0 (x n)) (mul a1 (fb 1 y n))) (mul a2 (fb 2 y n)).
  Proof.
    intros y.
    assert (E : forall n, fed (dev_two_pole Ops) (after (dev_two_pole Ops) [CSet (b0, a1, a2)]) x n
                          = TwoPole (fb 1 y n) (fb 2 y n) b0 a1 a2).
    { clear n. intros n. induction n as [|n IH].
      - unfold FltFilterFacts.fb. cbn [Nat.leb]. rewrite <- Hzero. reflexivity.
      - rewrite !fb_SS, fb_0. unfold y at 1, stream. cbn [fed]. rewrite IH. reflexivity. }
    unfold y at 1, stream. rewrite E. cbn. unfold two_pole_process. cbn. rewrite Hsub, Hmul. reflexivity.
  Qed.

  Lemma unroll_one_zero b0 b1 n : let y := stream (dev_one_zero Ops) (b0, b1) x in
    y n = add (mul b0 (x n)) (mul b1 (fb 1 x n)).
  Proof.
    intros y.
    assert (E : forall n, fed (dev_one_zero Ops) (after (dev_one_zero Ops) [CSet (b0, b1)]) x n
                          = OneZero (fb 1 x n) (fb 1 y n) b0 b1).
    { clear n. intros n. induction n as [|n IH].
      - unfold FltFilterFacts.fb. cbn [Nat.leb]. rewrite <- Hzero. reflexivity.
      - rewrite !fb_SS, !fb_0. unfold y, stream. cbn [fed]. rewrite IH. reflexivity. }
    unfold y at 1, stream. rewrite E. cbn. unfold one_zero_process. cbn. rewrite Hadd, Hmul. reflexivity.
  Qed.

  Lemma unroll_two_zero b0 b1 b2 n : let y := stream (dev_two_zero Ops) (b0, b1, b2) x in
    y n = add (add (mul b0 (x n)) (mul b1 (fb 1 x n))) (mul b2 (fb 2 x n)).
  Proof.
    intros y.
    assert (E : forall n, fed (dev_two_zero Ops) (after (dev_two_zero Ops) [CSet (b0, b1, b2)]) x n
                          = TwoZero (fb 1 x n) (fb 2 x n) (fb 1 y n) b0 b1 b2).
    { clear n. intros n. induction n as [|n IH].
      - unfold FltFilterFacts.fb. cbn [Nat.leb]. rewrite <- Hzero. reflexivity.
      - rewrite !fb_SS, !fb_0. unfold y, stream. cbn [fed]. rewrite IH. reflexivity. }
    unfold y at 1, stream. rewrite E. cbn. unfold two_zero_process. cbn. rewrite Hadd, Hmul. reflexivity.
  Qed.

  Lemma unroll_biquad1 b0 b1 b2 a1 a2 n :
    let y := stream (dev_biquad1 Ops) (b0, b1, b2, a1, a2) x in
    y n = sub (sub (add (add (mul b0 (x n)) (mul b1 (fb 1 x n))) (mul b2 (fb 2 x n)))
                       (mul a1 (fb 1 y n))) (mul a2 (fb 2 y n)).
  Proof.
    intros y.
    assert (E : forall n, fed (dev_biquad1 Ops) (after (dev_biquad1 Ops) [CSet (b0, b1, b2, a1, a2)]) x n
                          = Biquad1 (fb 1 x n) (fb 2 x n) (fb 1 y n) (fb 2 y n) b0 b1 b2 a1 a2).
    { clear n. intros n. induction n as [|n IH].
      - unfold FltFilterFacts.fb. cbn [Nat.leb]. rewrite <- Hzero. reflexivity.
      - rewrite !fb_SS, !fb_0. unfold y at 1, stream. cbn [fed]. rewrite IH. reflexivity. }
    unfold y at 1, stream. rewrite E. cbn. unfold biquad1_process. cbn. rewrite Hadd, Hsub, Hmul. reflexivity.
  Qed.

  Lemma unroll_biquad2 {K} (D : device (biquad2 F) K F) k b0 b1 b2 a1 a2 n :
    (forall s v, d_process D s v = biquad2_process Ops s v) ->
    after D [CSet k] = Biquad2 fzero fzero fzero b0 b1 b2 a1 a2 ->
    let y := stream D k x in
    y n = add (mul b0 (x n)) (zz1 prec emax b1 b2 a1 a2 x y n).
  Proof.
    intros Hpr Hs y.
    assert (E : forall n, fed D (after D [CSet k]) x n
      = Biquad2 (zz1 prec emax b1 b2 a1 a2 x y n) (zz2 prec emax b2 a2 x y n) (fb 1 y n) b0 b1 b2 a1 a2).
    { clear n. intros n. induction n as [|n IH].
      - cbn [fed]. rewrite Hs. reflexivity.
      - rewrite !fb_SS, !fb_0. cbn [fed zz1 zz2].
        assert (Ey : y n = n_add Ops (n_mul Ops b0 (x n)) (zz1 prec emax b1 b2 a1 a2 x y n)).
        { unfold y at 1, stream. rewrite IH, Hpr. reflexivity. }
        rewrite IH, Hpr. unfold biquad2_process.
        cbn [fst b2_b0 b2_b1 b2_b2 b2_a1 b2_a2 b2_z1 b2_z2]. rewrite <- Ey.
        rewrite Hsub, Hmul, Hadd. reflexivity. }
    unfold y at 1, stream. rewrite E, Hpr. unfold biquad2_process. cbn. rewrite Hadd, Hmul. reflexivity.
  Qed.

  Context (m M Y : R).
  Notation u := (uro prec).
  Notation eta := (eta prec emax).
  Notation near := (near prec emax).
  Hypothesis Fm : generic_format radix2 (SpecFloat.fexp prec emax) m.
  Hypothesis Hmax : m < bpow radix2 emax.
  Hypothesis Hx : forall n, is_finite (x n) = true /\ Rabs (B2R (x n)) <= M.
  Hypothesis HY : 0 <= Y.

  Lemma device_step {S K} (D : device S K F) k b0 b1 b2 a1 a2 n :
    has_coeffs Ops D k (b0, b1, b2, a1, a2) ->
    all_finite (ieee_view prec emax) (b0, b1, b2, a1, a2) ->
    (1 + u) ^ 5 * sz prec emax b0 b1 b2 a1 a2 M Y + 5 * (1 + u) ^ 5 * eta <= m ->
    let y := stream D k x in
    (forall i, (i < n)%nat -> good prec emax Y (y i)) ->
    near 5 5 (y n) (target prec emax b0 b1 b2 a1 a2 x y n) (sz prec emax b0 b1 b2 a1 a2 M Y).
  Proof.
    intros Hc [F0 [F1 [F2 [F3 F4]]]] Hr y. unfold y. clear y. cbn [fin ieee_view] in *.
    remember (b0, b1, b2, a1, a2) as c eqn:Ec.
    destruct Hc; intros Hg.
    - injection Ec as <- <- <- <- <-. rewrite Hzero in *.
      rewrite (unroll_one_pole b3 a0 n). apply (form_one_pole prec emax m); auto.
    - injection Ec as <- <- <- <- <-. rewrite Hzero in *.
      rewrite (unroll_one_zero b3 b4 n). apply (form_one_zero prec emax m); auto.
    - injection Ec as <- <- <- <- <-. rewrite Hzero in *.
      rewrite (unroll_two_pole b3 a0 a3 n). apply (form_two_pole prec emax m); auto.
    - injection Ec as <- <- <- <- <-. rewrite Hzero in *.
      rewrite (unroll_two_zero b3 b4 b5 n). apply (form_two_zero prec emax m); auto.
    - subst c. rewrite (unroll_biquad1 b0 b1 b2 a1 a2 n). apply (form1 prec emax m); auto.
    - subst c. rewrite (unroll_biquad2 (dev_biquad2 Ops) _ b0 b1 b2 a1 a2 n); [|reflexivity|].
      + apply (form2 prec emax m); auto.
      + rewrite <- Hzero. reflexivity.
    - subst c. rewrite (unroll_biquad2 (dev_rbj Ops kind) _ b0 b1 b2 a1 a2 n).
      + apply (form2 prec emax m); auto.
      + destruct kind; reflexivity.
      + rewrite <- Hzero. cbn. unfold rbj_set_coefficients. rewrite H. destruct kind; reflexivity.
  Qed.
End Unroll.
