(** Proofs of C60, C61, C64, C74: windows in floating point. *)
From Coq Require Import ZArith Reals List Bool Lra Lia.
From Flocq Require Import Core.Core Mult_error IEEE754.BinarySingleNaN.
From Verif Require Import Base Num NumF FloatSpec FloatFacts SmoothF CrLibm Witness WindowM WinSpec WinFacts.
Import ListNotations.
Open Scope R_scope.

(*@PROP
(** Properties C60, C61, C64, C74: windows in [f32] and [f64].

    Vocabulary: [yields O k p n i g] says that the iterator made by [new(n)] yields
    [g] as sample number [i] ([WinSpec]); [ieee O V] that [O] is the arithmetic of
    [f32] or [f64], which [V] reads as numbers ([FloatSpec]). *)
From Coq Require Import ZArith Reals List Bool Lra Lia.
From Flocq Require Import Core.Core IEEE754.BinarySingleNaN.
From Verif Require Import Base Num NumF FloatSpec CrLibm Witness WindowM WinSpec WinLemmasF.
Import ListNotations.
Open Scope R_scope.

@*)

Section F.
  Context (prec emax : Z) {Hp : Prec_gt_0 prec} {Hm : Prec_lt_emax prec emax} (Hm3 : (3 <= emax)%Z)
    (Hbig : (72 < emax)%Z) (Hp2 : (2 <= prec)%Z).
  Notation F := (binary_float prec emax).
  Notation fexp := (SpecFloat.fexp prec emax).
  Notation RN := (round radix2 fexp (round_mode mode_NE)).
  Notation fmt := (generic_format radix2 fexp).

  Lemma emin_neg : (SpecFloat.emin prec emax < -1)%Z.
  Proof. unfold SpecFloat.emin. lia. Qed.

  (** A power of two bounding everything. *)
  Lemma bp_fmt e : (-1 <= e)%Z -> fmt (bpow radix2 e).
  Proof. intros H. apply (format_bpow prec emax). assert (K := emin_neg). lia. Qed.
  Lemma bp_lt e : (e < emax)%Z -> bpow radix2 e < bpow radix2 emax.
  Proof. apply bpow_lt. Qed.

  Lemma div_ok (x y : F) m : is_finite x = true -> B2R y <> 0 -> fmt m -> m < bpow radix2 emax ->
    Rabs (B2R x / B2R y) <= m ->
    is_finite (f_div prec emax x y) = true /\ B2R (f_div prec emax x y) = RN (B2R x / B2R y).
  Proof.
    intros Fx Hy Fm Hlt H. assert (G := Bdiv_correct prec emax Hp Hm mode_NE x y Hy).
    rewrite Rlt_bool_true in G.
    - destruct G as [G1 [G2 _]]. unfold f_div. rewrite G1, G2, Fx. auto.
    - apply Rle_lt_trans with m; [|exact Hlt]. apply (RN_abs_le prec emax); assumption.
  Qed.

  Lemma half_fmt x : fmt x -> x = 0 \/ 1 <= Rabs x -> fmt (x / 2).
  Proof.
    intros Fx H. replace (x / 2) with (x * bpow radix2 (-1)) by (change (bpow radix2 (-1)) with (/ 2); lra).
    destruct H as [-> |H]; [rewrite Rmult_0_l; apply generic_format_0|].
    apply (mult_bpow_exact_FLT radix2 (SpecFloat.emin prec emax) prec); [exact Fx|].
    assert (K : (1 <= mag radix2 x)%Z).
    { apply mag_ge_bpow. change (bpow radix2 (1 - 1)) with 1. exact H. }
    assert (Hpp := Hp). unfold Prec_gt_0 in Hpp. unfold SpecFloat.emin. lia.
  Qed.

  (** Sizes and indices. *)
  Lemma two64_bpow : IZR two64 = bpow radix2 64.
  Proof. reflexivity. Qed.
  Lemma ofZ j : (0 <= j < two64)%Z ->
    is_finite (f_of_Z prec emax j) = true /\ B2R (f_of_Z prec emax j) = RN (IZR j)
    /\ 0 <= RN (IZR j) <= bpow radix2 64 /\ (RN (IZR j) = 0 \/ 1 <= RN (IZR j)).
  Proof.
    intros H. assert (F64 : fmt (bpow radix2 64)) by (apply bp_fmt; lia).
    destruct (of_Z_ok prec emax j (bpow radix2 64) F64) as [A B].
    - apply bp_lt. lia.
    - rewrite Rabs_pos_eq by (apply IZR_le; lia). rewrite <- two64_bpow. apply IZR_le. lia.
    - split; [exact A|]. split; [exact B|]. split.
      + split.
        * rewrite <- (RN_0 prec emax). apply (RN_le prec emax). apply IZR_le. lia.
        * rewrite <- (RN_id prec emax _ F64). apply (RN_le prec emax). rewrite <- two64_bpow. apply IZR_le. lia.
      + destruct (Z.eq_dec j 0) as [->|Hj]; [left; apply (RN_0 prec emax)|right].
        rewrite <- (RN_id prec emax 1 (format_F2R_1 prec emax)). apply (RN_le prec emax). apply IZR_le. lia.
  Qed.

  Lemma two_ok : is_finite (f_of_Z prec emax 2) = true /\ B2R (f_of_Z prec emax 2) = 2.
  Proof.
    apply (of_Z_exact prec emax). change 2%Z with (2 ^ 1)%Z at 1. rewrite Z.abs_eq by lia. apply Z.pow_le_mono_r; lia.
  Qed.

  Lemma halfZ j : (0 <= j < two64)%Z ->
    is_finite (f_div prec emax (f_of_Z prec emax j) (f_of_Z prec emax 2)) = true
    /\ B2R (f_div prec emax (f_of_Z prec emax j) (f_of_Z prec emax 2)) = RN (IZR j) / 2
    /\ fmt (RN (IZR j) / 2).
  Proof.
    intros H. destruct (ofZ j H) as [A [B [C D]]]. destruct two_ok as [E1 E2].
    assert (Fh : fmt (RN (IZR j) / 2)).
    { apply half_fmt; [apply (RN_format prec emax)|]. destruct D as [D|D]; [left; exact D|right].
      rewrite Rabs_pos_eq by lra. exact D. }
    destruct (div_ok (f_of_Z prec emax j) (f_of_Z prec emax 2) (bpow radix2 64)) as [G1 G2].
    - exact A.
    - rewrite E2. lra.
    - apply bp_fmt. lia.
    - apply bp_lt. lia.
    - rewrite B, E2. rewrite Rabs_pos_eq by lra. lra.
    - split; [exact G1|]. split; [|exact Fh]. rewrite G2, B, E2. apply (RN_id prec emax). exact Fh.
  Qed.

  (** The triangle 1 - |(x - a) / d|. *)
  Lemma tri_ok (x a d : F) : is_finite x = true -> is_finite a = true ->
    0 <= B2R x <= 2 * B2R a -> B2R a <= B2R d -> 0 < B2R d ->
    let q := f_div prec emax (f_sub prec emax x a) d in
    is_finite q = true /\ B2R q = RN (RN (B2R x - B2R a) / B2R d) /\ Rabs (B2R q) <= 1.
  Proof.
    intros Fx Fa Hx Had Hd q.
    assert (Fm : fmt (B2R a)) by apply generic_format_B2R.
    assert (La : B2R a < bpow radix2 emax).
    { apply Rle_lt_trans with (Rabs (B2R a)); [apply Rle_abs|]. apply abs_B2R_lt_emax. }
    assert (Hn : Rabs (B2R x - B2R a) <= B2R a) by (apply Rabs_le; lra).
    destruct (sub_ok prec emax x a (B2R a) Fx Fa Fm La Hn) as [S1 S2].
    assert (Hn2 : Rabs (RN (B2R x - B2R a)) <= B2R a) by (apply (RN_abs_le prec emax); assumption).
    assert (F1 := format_F2R_1 prec emax).
    assert (L1 : 1 < bpow radix2 emax) by (change 1 with (bpow radix2 0); apply bpow_lt; lia).
    assert (Hq : Rabs (RN (B2R x - B2R a) / B2R d) <= 1).
    { unfold Rdiv. rewrite Rabs_mult, (Rabs_pos_eq (/ B2R d)) by (apply Rlt_le, Rinv_0_lt_compat, Hd).
      apply Rmult_le_reg_r with (B2R d); [exact Hd|]. rewrite Rmult_assoc, Rinv_l by lra. lra. }
    destruct (div_ok (f_sub prec emax x a) d 1) as [Q1 Q2].
    - exact S1.
    - lra.
    - exact F1.
    - exact L1.
    - rewrite S2. exact Hq.
    - split; [exact Q1|]. rewrite S2 in Q2. split; [exact Q2|]. unfold q. rewrite Q2.
      apply (RN_abs_le prec emax); assumption.
  Qed.

  Lemma one_minus (q : F) : is_finite q = true -> 0 <= B2R q <= 2 ->
    is_finite (f_sub prec emax (f_of_Z prec emax 1) q) = true
    /\ B2R (f_sub prec emax (f_of_Z prec emax 1) q) = RN (1 - B2R q).
  Proof.
    intros Fq Hq. destruct (fone_correct prec emax) as [O1 [O2 _]].
    destruct (sub_ok prec emax (f_of_Z prec emax 1) q 1 O2 Fq (format_F2R_1 prec emax)) as [A B].
    - change 1 with (bpow radix2 0). apply bpow_lt. lia.
    - rewrite O1. apply Rabs_le. lra.
    - rewrite O1 in B. auto.
  Qed.

  Lemma unit_range r : 0 <= r <= 1 -> 0 <= RN r <= 1.
  Proof.
    intros H. split; [rewrite <- (RN_0 prec emax)|rewrite <- (RN_id prec emax 1 (format_F2R_1 prec emax))];
      apply (RN_le prec emax); lra.
  Qed.

  Context (pim pie sz : Z) (lm : libm F) (nn : bool).
  Notation O := (ieee_ops prec emax pim pie sz lm nn).
  Notation V := (ieee_view prec emax).

  (** What triangular and Bartlett windows divide. *)
  Definition win_den k n : F :=
    match k with WTriangular => f_div prec emax (f_of_Z prec emax n) (f_of_Z prec emax 2)
            | _ => f_div prec emax (f_of_Z prec emax (n - 1)) (f_of_Z prec emax 2) end.
  Lemma tri_val k n j : k = WTriangular \/ k = WBartlett ->
    win_val O k n j = f_sub prec emax (f_of_Z prec emax 1)
      (Babs (f_div prec emax (f_sub prec emax (f_of_Z prec emax j)
               (f_div prec emax (f_of_Z prec emax (n - 1)) (f_of_Z prec emax 2))) (win_den k n))).
  Proof. intros [-> | ->]; reflexivity. Qed.

  Lemma tri_q k n j : k = WTriangular \/ k = WBartlett -> (min_size k <= n <= usize_max)%Z -> (0 <= j < n)%Z ->
    let q := f_div prec emax (f_sub prec emax (f_of_Z prec emax j)
               (f_div prec emax (f_of_Z prec emax (n - 1)) (f_of_Z prec emax 2))) (win_den k n) in
    is_finite q = true /\ B2R q = RN (RN (RN (IZR j) - RN (IZR (n - 1)) / 2) / B2R (win_den k n)) /\ Rabs (B2R q) <= 1.
  Proof.
    intros Hk Hn Hj.
    assert (Hn1 : (1 <= n)%Z) by (destruct Hk as [-> | ->]; cbn [min_size] in Hn; lia).
    unfold usize_max in Hn.
    destruct (ofZ j ltac:(lia)) as [J1 [J2 [J3 _]]]. destruct (halfZ (n - 1) ltac:(lia)) as [A1 [A2 A3]].
    destruct (halfZ n ltac:(lia)) as [D1 [D2 D3]]. destruct (ofZ n ltac:(lia)) as [_ [_ [_ N4]]].
    destruct (ofZ (n - 1) ltac:(lia)) as [_ [_ [M3 M4]]].
    assert (Hj1 : RN (IZR j) <= RN (IZR (n - 1))) by (apply (RN_le prec emax); apply IZR_le; lia).
    assert (Hn2 : RN (IZR (n - 1)) <= RN (IZR n)) by (apply (RN_le prec emax); apply IZR_le; lia).
    assert (Np : 1 <= RN (IZR n)).
    { rewrite <- (RN_id prec emax 1 (format_F2R_1 prec emax)). apply (RN_le prec emax). apply IZR_le. lia. }
    assert (Hd : RN (IZR (n - 1)) / 2 <= B2R (win_den k n) /\ 0 < B2R (win_den k n)).
    { destruct Hk as [-> | ->]; cbn [win_den].
      - rewrite D2. lra.
      - rewrite A2. cbn [min_size] in Hn. assert (1 <= RN (IZR (n - 1))); [|lra].
        rewrite <- (RN_id prec emax 1 (format_F2R_1 prec emax)). apply (RN_le prec emax). apply IZR_le. lia. }
    destruct (tri_ok (f_of_Z prec emax j) (f_div prec emax (f_of_Z prec emax (n - 1)) (f_of_Z prec emax 2)) (win_den k n)) as [Q1 [Q2 Q3]].
    - exact J1.
    - exact A1.
    - rewrite J2, A2. lra.
    - rewrite A2. lra.
    - lra.
    - cbn zeta. split; [exact Q1|]. split; [|exact Q3]. rewrite Q2, J2, A2. reflexivity.
  Qed.

  Lemma tri_range k n j : k = WTriangular \/ k = WBartlett -> (min_size k <= n <= usize_max)%Z -> (0 <= j < n)%Z ->
    is_finite (win_val O k n j) = true /\ 0 <= B2R (win_val O k n j) <= 1.
  Proof.
    intros Hk Hn Hj. rewrite tri_val by exact Hk. destruct (tri_q k n j Hk Hn Hj) as [Q1 [_ Q3]].
    set (q := f_div prec emax _ _) in *. clearbody q.
    assert (P := Rabs_pos (B2R q)).
    destruct (one_minus (Babs q)) as [A B].
    - rewrite is_finite_Babs. exact Q1.
    - rewrite B2R_Babs. lra.
    - split; [exact A|]. rewrite B, B2R_Babs. apply unit_range. lra.
  Qed.

  Lemma tri_sym k n j j' : k = WTriangular \/ k = WBartlett -> (min_size k <= n <= usize_max)%Z ->
    (n - 1 <= 2 ^ prec)%Z -> (0 <= j < n)%Z -> (0 <= j' < n)%Z -> (j + j' = n - 1)%Z ->
    win_val O k n j = win_val O k n j'.
  Proof.
    intros Hk Hn Hs Hj Hj' E. rewrite !tri_val by exact Hk. f_equal.
    destruct (tri_q k n j Hk Hn Hj) as [Q1 [Q2 _]]. destruct (tri_q k n j' Hk Hn Hj') as [Q1' [Q2' _]].
    rewrite (RN_id prec emax (IZR j)), (RN_id prec emax (IZR (n - 1))) in Q2 by (apply (format_IZR prec emax); lia).
    rewrite (RN_id prec emax (IZR j')), (RN_id prec emax (IZR (n - 1))) in Q2' by (apply (format_IZR prec emax); lia).
    apply B2R_Bsign_inj.
    - rewrite is_finite_Babs. exact Q1.
    - rewrite is_finite_Babs. exact Q1'.
    - rewrite !B2R_Babs, Q2, Q2'.
      replace (IZR j' - IZR (n - 1) / 2) with (- (IZR j - IZR (n - 1) / 2)).
      2:{ rewrite <- E, plus_IZR. field. }
      rewrite (RN_opp prec emax). set (u := RN (IZR j - _)). set (d := B2R (win_den k n)).
      replace (- u / d) with (- (u / d)) by (unfold Rdiv; ring). rewrite (RN_opp prec emax), Rabs_Ropp. reflexivity.
    - rewrite !Bsign_Babs. reflexivity.
  Qed.

  (** *** Cosine windows *)
  Context (Hpi : is_finite (n_pi O) = true /\ 0 < B2R (n_pi O) <= 4).
  Lemma arg_ok n j : (2 <= n <= usize_max)%Z -> (0 <= j < n)%Z ->
    is_finite (n_div O (n_mul O (n_mul O (n_two O) (n_pi O)) (n_of_usize O j)) (n_of_usize O (n - 1))) = true
    /\ Rabs (B2R (n_div O (n_mul O (n_mul O (n_two O) (n_pi O)) (n_of_usize O j)) (n_of_usize O (n - 1)))) <= bpow radix2 67.
  Proof.
    intros Hn Hj. unfold usize_max in Hn. destruct Hpi as [P1 P2]. destruct two_ok as [T1 T2].
    destruct (ofZ j ltac:(lia)) as [J1 [J2 [J3 _]]]. destruct (ofZ (n - 1) ltac:(lia)) as [M1 [M2 [M3 M4]]].
    assert (F8 : fmt 8) by (change 8 with (bpow radix2 3); apply bp_fmt; lia).
    assert (L8 : 8 < bpow radix2 emax) by (change 8 with (bpow radix2 3); apply bp_lt; lia).
    destruct (mul_ok prec emax (n_two O) (n_pi O) 8 T1 P1 F8 L8) as [A1 A2].
    { change (B2R (n_two O)) with (B2R (f_of_Z prec emax 2)). rewrite T2, Rabs_pos_eq by lra. lra. }
    change (B2R (n_two O)) with (B2R (f_of_Z prec emax 2)) in A2. rewrite T2 in A2.
    assert (A3 : 0 <= B2R (f_mul prec emax (n_two O) (n_pi O)) <= 8).
    { rewrite A2. split; [rewrite <- (RN_0 prec emax)|rewrite <- (RN_id prec emax 8 F8)]; apply (RN_le prec emax); lra. }
    assert (F67 : fmt (bpow radix2 67)) by (apply bp_fmt; lia).
    assert (L67 : bpow radix2 67 < bpow radix2 emax) by (apply bp_lt; lia).
    assert (E67 : bpow radix2 67 = 8 * bpow radix2 64) by (change 67%Z with (3 + 64)%Z; rewrite bpow_plus; reflexivity).
    destruct (mul_ok prec emax (f_mul prec emax (n_two O) (n_pi O)) (f_of_Z prec emax j) (bpow radix2 67) A1 J1 F67 L67) as [B1 B2].
    { rewrite J2. rewrite Rabs_pos_eq by (apply Rmult_le_pos; lra). rewrite E67. apply Rmult_le_compat; lra. }
    assert (B3 : 0 <= B2R (f_mul prec emax (f_mul prec emax (n_two O) (n_pi O)) (f_of_Z prec emax j)) <= bpow radix2 67).
    { rewrite B2, J2. split; [rewrite <- (RN_0 prec emax)|rewrite <- (RN_id prec emax _ F67)]; apply (RN_le prec emax).
      - apply Rmult_le_pos; lra.
      - rewrite E67. apply Rmult_le_compat; lra. }
    assert (Mp : 1 <= RN (IZR (n - 1))).
    { rewrite <- (RN_id prec emax 1 (format_F2R_1 prec emax)). apply (RN_le prec emax). apply IZR_le. lia. }
    assert (K : Rabs (B2R (f_mul prec emax (f_mul prec emax (n_two O) (n_pi O)) (f_of_Z prec emax j)) / B2R (f_of_Z prec emax (n - 1))) <= bpow radix2 67).
    { rewrite M2. rewrite Rabs_pos_eq.
      + apply Rmult_le_reg_r with (RN (IZR (n - 1))); [lra|]. unfold Rdiv. rewrite Rmult_assoc, Rinv_l by lra.
        assert (0 < bpow radix2 67) by apply bpow_gt_0. nra.
      + apply Rmult_le_pos; [lra|]. apply Rlt_le, Rinv_0_lt_compat. lra. }
    destruct (div_ok (f_mul prec emax (f_mul prec emax (n_two O) (n_pi O)) (f_of_Z prec emax j)) (f_of_Z prec emax (n - 1)) (bpow radix2 67)) as [D1 D2];
      [exact B1|rewrite M2; lra|exact F67|exact L67|exact K|].
    split; [exact D1|]. cbn [n_div n_mul n_of_usize ieee_ops]. rewrite D2. apply (RN_abs_le prec emax); assumption.
  Qed.

  Lemma hann_range n j : cos_sound O V -> B2R (n_of_f64 O (F64lit 5 10)) = / 2 -> is_finite (n_of_f64 O (F64lit 5 10)) = true ->
    (2 <= n <= usize_max)%Z -> (0 <= j < n)%Z ->
    is_finite (win_val O WHann n j) = true /\ 0 <= B2R (win_val O WHann n j) <= 1.
  Proof.
    intros Hc H5 F5 Hn Hj. destruct (Hc _ (proj1 (arg_ok n j Hn Hj))) as [C1 C2]. unfold win_val.
    set (c := n_cos O _) in *. clearbody c. cbn [fin val ieee_view] in C1, C2.
    destruct (fone_correct prec emax) as [O1 [O2 _]].
    assert (F2 : fmt 2) by (change 2 with (bpow radix2 1); apply bp_fmt; lia).
    assert (L2 : 2 < bpow radix2 emax) by (change 2 with (bpow radix2 1); apply bp_lt; lia).
    destruct (sub_ok prec emax (f_of_Z prec emax 1) c 2 O2 C1 F2 L2) as [S1 S2].
    { rewrite O1. apply Rabs_le. lra. }
    rewrite O1 in S2.
    assert (S3 : 0 <= B2R (f_sub prec emax (f_of_Z prec emax 1) c) <= 2).
    { rewrite S2. split; [rewrite <- (RN_0 prec emax)|rewrite <- (RN_id prec emax 2 F2)]; apply (RN_le prec emax); lra. }
    destruct (mul_ok prec emax (n_of_f64 O (F64lit 5 10)) (f_sub prec emax (f_of_Z prec emax 1) c) 2 F5 S1 F2 L2) as [M1 M2].
    { rewrite H5. apply Rabs_le. lra. }
    split; [exact M1|]. cbn [n_mul n_sub n_one ieee_ops]. rewrite M2, H5. apply unit_range. lra.
  Qed.

  Lemma hamming_range n j : cos_sound O V ->
    let a := n_of_f64 O (F64lit 54 100) in let b := n_sub O (n_one O) a in
    is_finite a = true -> is_finite b = true -> 0 <= B2R b <= B2R a -> B2R a + B2R b = 1 ->
    (2 <= n <= usize_max)%Z -> (0 <= j < n)%Z ->
    is_finite (win_val O WHamming n j) = true /\ 0 <= B2R (win_val O WHamming n j) <= 1.
  Proof.
    intros Hc a b Fa Fb Hab Hs Hn Hj. destruct (Hc _ (proj1 (arg_ok n j Hn Hj))) as [C1 C2]. unfold win_val. fold a. fold b.
    set (c := n_cos O _) in *. clearbody c. clearbody b. clearbody a. cbn [fin val ieee_view] in C1, C2.
    assert (F1 := format_F2R_1 prec emax).
    assert (L1 : 1 < bpow radix2 emax) by (change 1 with (bpow radix2 0); apply bp_lt; lia).
    assert (Hbc : Rabs (B2R b * B2R c) <= B2R b).
    { rewrite Rabs_mult, (Rabs_pos_eq (B2R b)) by lra. assert (Rabs (B2R c) <= 1) by (apply Rabs_le; lra).
      assert (0 <= Rabs (B2R c)) by apply Rabs_pos. nra. }
    destruct (mul_ok prec emax b c 1 Fb C1 F1 L1) as [M1 M2]; [lra|].
    assert (M3 : Rabs (B2R (f_mul prec emax b c)) <= B2R b).
    { rewrite M2. apply (RN_abs_le prec emax); [apply generic_format_B2R|exact Hbc]. }
    apply Rabs_le_inv in M3.
    destruct (sub_ok prec emax a (f_mul prec emax b c) 1 Fa M1 F1 L1) as [S1 S2].
    { apply Rabs_le. lra. }
    split; [exact S1|]. cbn [n_sub n_mul ieee_ops]. rewrite S2. apply unit_range. lra.
  Qed.

  (** All windows are finite. *)
  Lemma term_ok (a c : F) : is_finite a = true -> Rabs (B2R a) <= 1 -> is_finite c = true -> -1 <= B2R c <= 1 ->
    is_finite (f_mul prec emax a c) = true /\ -1 <= B2R (f_mul prec emax a c) <= 1.
  Proof.
    intros Fa Ha Fc Hc. assert (F1 := format_F2R_1 prec emax).
    assert (L1 : 1 < bpow radix2 emax) by (change 1 with (bpow radix2 0); apply bp_lt; lia).
    assert (K : Rabs (B2R a * B2R c) <= 1).
    { rewrite Rabs_mult. assert (Rabs (B2R c) <= 1) by (apply Rabs_le; lra).
      assert (0 <= Rabs (B2R c)) by apply Rabs_pos. assert (0 <= Rabs (B2R a)) by apply Rabs_pos. nra. }
    destruct (mul_ok prec emax a c 1 Fa Fc F1 L1 K) as [M1 M2]. split; [exact M1|].
    apply Rabs_le_inv. rewrite M2. apply (RN_abs_le prec emax); assumption.
  Qed.
  Lemma sum_ok (f : F -> F -> F) (x y : F) e : f = f_add prec emax \/ f = f_sub prec emax -> (0 <= e < emax - 1)%Z ->
    is_finite x = true -> is_finite y = true -> Rabs (B2R x) <= bpow radix2 e -> -1 <= B2R y <= 1 ->
    is_finite (f x y) = true /\ Rabs (B2R (f x y)) <= bpow radix2 (e + 1).
  Proof.
    intros Hf He Fx Fy Hx Hy. assert (Fe : fmt (bpow radix2 (e + 1))) by (apply bp_fmt; lia).
    assert (Le : bpow radix2 (e + 1) < bpow radix2 emax) by (apply bp_lt; lia).
    assert (E : bpow radix2 (e + 1) = bpow radix2 e * 2) by (rewrite bpow_plus; reflexivity).
    assert (1 <= bpow radix2 e) by (change 1 with (bpow radix2 0); apply bpow_le; lia).
    apply Rabs_le_inv in Hx.
    destruct Hf as [-> | ->].
    - destruct (add_ok prec emax x y _ Fx Fy Fe Le) as [A B]; [apply Rabs_le; lra|].
      split; [exact A|]. rewrite B. apply (RN_abs_le prec emax); [exact Fe|apply Rabs_le; lra].
    - destruct (sub_ok prec emax x y _ Fx Fy Fe Le) as [A B]; [apply Rabs_le; lra|].
      split; [exact A|]. rewrite B. apply (RN_abs_le prec emax); [exact Fe|apply Rabs_le; lra].
  Qed.
  Lemma times_ok (a x : F) : is_finite a = true -> Rabs (B2R a) <= 4 -> is_finite x = true -> Rabs (B2R x) <= bpow radix2 67 ->
    is_finite (f_mul prec emax a x) = true.
  Proof.
    intros Fa Ha Fx Hx. apply (mul_ok prec emax a x (bpow radix2 69) Fa Fx); [apply bp_fmt; lia|apply bp_lt; lia|].
    rewrite Rabs_mult. change 69%Z with (2 + 67)%Z. rewrite bpow_plus. apply Rmult_le_compat; try apply Rabs_pos; assumption.
  Qed.

  Lemma cos_arg (a : F) n j : cos_sound O V -> (2 <= n <= usize_max)%Z -> (0 <= j < n)%Z ->
    is_finite a = true -> Rabs (B2R a) <= 4 ->
    let c := n_cos O (n_mul O a (n_div O (n_mul O (n_mul O (n_two O) (n_pi O)) (n_of_usize O j)) (n_of_usize O (n - 1)))) in
    is_finite c = true /\ -1 <= B2R c <= 1.
  Proof.
    intros Hc Hn Hj Fa Ha c. destruct (arg_ok n j Hn Hj) as [A1 A2]. apply Hc. apply times_ok; assumption.
  Qed.

  Definition lit_ok c : Prop := is_finite (n_of_f64 O c) = true /\ Rabs (B2R (n_of_f64 O c)) <= 1.
  Lemma blackman_finite n j : cos_sound O V ->
    lit_ok (F64div (F64sub (F64lit 1 1) (F64lit 16 100)) (F64lit 2 1)) -> lit_ok (F64lit 5 10) ->
    lit_ok (F64div (F64lit 16 100) (F64lit 2 1)) ->
    (2 <= n <= usize_max)%Z -> (0 <= j < n)%Z -> is_finite (win_val O WBlackman n j) = true.
  Proof.
    intros Hc [A0 B0] [A1 B1] [A2 B2] Hn Hj. destruct two_ok as [T1 T2].
    destruct (Hc _ (proj1 (arg_ok n j Hn Hj))) as [C1 C2]. cbn [fin val ieee_view] in C1, C2.
    destruct (cos_arg (n_two O) n j Hc Hn Hj T1) as [D1 D2].
    { change (B2R (n_two O)) with (B2R (f_of_Z prec emax 2)). rewrite T2, Rabs_pos_eq; lra. }
    unfold win_val.
    set (c := n_cos O _) in *. clearbody c. set (d := n_cos O _) in *. clearbody d.
    set (a0 := n_of_f64 O _) in *. clearbody a0. set (a1 := n_of_f64 O (F64lit 5 10)) in *. clearbody a1.
    set (a2 := n_of_f64 O _) in *. clearbody a2.
    destruct (term_ok a1 c A1 B1 C1 C2) as [P1 P2]. destruct (term_ok a2 d A2 B2 D1 D2) as [Q1 Q2].
    destruct (sum_ok _ a0 (f_mul prec emax a1 c) 0 (or_intror eq_refl)) as [S1 S2]; [lia|assumption..|].
    destruct (sum_ok _ (f_sub prec emax a0 (f_mul prec emax a1 c)) (f_mul prec emax a2 d) 1 (or_introl eq_refl)) as [R1 R2];
      [lia|assumption..|]. exact R1.
  Qed.
  Lemma blackman_harris_finite n j : cos_sound O V ->
    lit_ok (F64lit 35875 100000) -> lit_ok (F64lit 48829 100000) -> lit_ok (F64lit 14128 100000) -> lit_ok (F64lit 1168 100000) ->
    is_finite (n_of_f64 O (F64lit 3 1)) = true -> Rabs (B2R (n_of_f64 O (F64lit 3 1))) <= 4 ->
    (2 <= n <= usize_max)%Z -> (0 <= j < n)%Z -> is_finite (win_val O WBlackmanHarris n j) = true.
  Proof.
    intros Hc [A0 B0] [A1 B1] [A2 B2] [A3 B3] Fth Hth Hn Hj. destruct two_ok as [T1 T2].
    destruct (Hc _ (proj1 (arg_ok n j Hn Hj))) as [C1 C2]. cbn [fin val ieee_view] in C1, C2.
    destruct (cos_arg (n_two O) n j Hc Hn Hj T1) as [D1 D2].
    { change (B2R (n_two O)) with (B2R (f_of_Z prec emax 2)). rewrite T2, Rabs_pos_eq; lra. }
    destruct (cos_arg (n_of_f64 O (F64lit 3 1)) n j Hc Hn Hj Fth Hth) as [E1 E2].
    unfold win_val.
    set (c := n_cos O _) in *. clearbody c. set (d := n_cos O _) in *. clearbody d. set (e := n_cos O _) in *. clearbody e.
    set (a0 := n_of_f64 O (F64lit 35875 100000)) in *. clearbody a0. set (a1 := n_of_f64 O (F64lit 48829 100000)) in *. clearbody a1.
    set (a2 := n_of_f64 O (F64lit 14128 100000)) in *. clearbody a2. set (a3 := n_of_f64 O (F64lit 1168 100000)) in *. clearbody a3.
    destruct (term_ok a1 c A1 B1 C1 C2) as [P1 P2]. destruct (term_ok a2 d A2 B2 D1 D2) as [Q1 Q2].
    destruct (term_ok a3 e A3 B3 E1 E2) as [U1 U2].
    destruct (sum_ok _ a0 (f_mul prec emax a1 c) 0 (or_intror eq_refl)) as [S1 S2]; [lia|assumption..|].
    destruct (sum_ok _ (f_sub prec emax a0 (f_mul prec emax a1 c)) (f_mul prec emax a2 d) 1 (or_introl eq_refl)) as [R1 R2];
      [lia|assumption..|].
    destruct (sum_ok _ (f_add prec emax (f_sub prec emax a0 (f_mul prec emax a1 c)) (f_mul prec emax a2 d)) (f_mul prec emax a3 e) 2
      (or_intror eq_refl)) as [W1 W2]; [lia|assumption..|]. exact W1.
  Qed.

  (** *** One sample *)
  Lemma mul_one_eq (x : F) : f_mul prec emax (f_of_Z prec emax 1) x = x.
  Proof.
    destruct (fone_correct prec emax) as [O1 [O2 O3]].
    destruct (is_finite x) eqn:Fx.
    - assert (G := Bmult_correct prec emax Hp Hm mode_NE (f_of_Z prec emax 1) x).
      rewrite O1, Rmult_1_l, (RN_B2R prec emax) in G. rewrite Rlt_bool_true in G by apply abs_B2R_lt_emax.
      destruct G as [G1 [G2 G3]]. rewrite O2, Fx in G2. apply B2R_Bsign_inj.
      + exact G2.
      + exact Fx.
      + exact G1.
      + unfold f_mul. rewrite G3, O3; [destruct (Bsign x); reflexivity|]. destruct (Bmult mode_NE (f_of_Z prec emax 1) x); try reflexivity; discriminate.
    - unfold f_mul. destruct (f_of_Z prec emax 1) as [s1|s1| |s1 m1 e1 H1]; try discriminate.
      + cbn in O1. lra.
      + cbn in O3. subst s1. destruct x as [s|s| |s m e Hb]; try discriminate; [destruct s|]; reflexivity.
  Qed.
End F.

(** ** Literals *)
Ltac lit := repeat match goal with |- context[B2R ?x] => rewrite <- (SF2R_B2SF _ _ x);
  let v := eval vm_compute in (B2SF x) in
  replace (B2SF x) with v by (vm_compute; reflexivity); cbn [SF2R cond_Zopp] end; unfold F2R; cbn.
Lemma lits32 lm b c : In c [F64div (F64sub (F64lit 1 1) (F64lit 16 100)) (F64lit 2 1); F64lit 5 10; F64div (F64lit 16 100) (F64lit 2 1);
    F64lit 35875 100000; F64lit 48829 100000; F64lit 14128 100000; F64lit 1168 100000] ->
  is_finite (n_of_f64 (f32_ops lm b) c) = true /\ Rabs (B2R (n_of_f64 (f32_ops lm b) c)) <= 1.
Proof.
  intros H. repeat (destruct H as [<-|H]; [split; [vm_compute; reflexivity|]; apply Rabs_le; lit; lra|]). destruct H.
Qed.
Lemma lits64 lm b c : In c [F64div (F64sub (F64lit 1 1) (F64lit 16 100)) (F64lit 2 1); F64lit 5 10; F64div (F64lit 16 100) (F64lit 2 1);
    F64lit 35875 100000; F64lit 48829 100000; F64lit 14128 100000; F64lit 1168 100000] ->
  is_finite (n_of_f64 (f64_ops lm b) c) = true /\ Rabs (B2R (n_of_f64 (f64_ops lm b) c)) <= 1.
Proof.
  intros H. repeat (destruct H as [<-|H]; [split; [vm_compute; reflexivity|]; apply Rabs_le; lit; lra|]). destruct H.
Qed.
Lemma pi32 lm b : is_finite (n_pi (f32_ops lm b)) = true /\ 0 < B2R (n_pi (f32_ops lm b)) <= 4.
Proof. split; [vm_compute; reflexivity|]. lit. lra. Qed.
Lemma pi64 lm b : is_finite (n_pi (f64_ops lm b)) = true /\ 0 < B2R (n_pi (f64_ops lm b)) <= 4.
Proof. split; [vm_compute; reflexivity|]. lit. lra. Qed.
Lemma wle3_32 : (3 <= 128)%Z. Proof. discriminate. Qed.
Lemma wle3_64 : (3 <= 1024)%Z. Proof. discriminate. Qed.
Lemma wbig_32 : (72 < 128)%Z. Proof. reflexivity. Qed.
Lemma wbig_64 : (72 < 1024)%Z. Proof. reflexivity. Qed.
Lemma wp_32 : (2 <= 24)%Z. Proof. discriminate. Qed.
Lemma wp_64 : (2 <= 53)%Z. Proof. discriminate. Qed.

(** ** The correctly rounded cosine *)
Section Cr.
  Context (prec emax : Z) {Hp : Prec_gt_0 prec} {Hm : Prec_lt_emax prec emax} (Hm3 : (3 <= emax)%Z).
  Notation RN := (round radix2 (SpecFloat.fexp prec emax) (round_mode mode_NE)).
  Lemma cr_cos_R2F r : -1 <= r <= 1 -> is_finite (R2F prec emax r) = true /\ B2R (R2F prec emax r) = RN r /\ Rabs (RN r) <= 1.
  Proof.
    intros H. assert (K : Rabs (RN r) <= 1) by (apply (RN_abs_le prec emax); [exact (format_F2R_1 prec emax)|apply Rabs_le; lra]).
    destruct (R2F_ok prec emax r) as [A B]; [|auto].
    apply Rle_lt_trans with 1; [exact K|]. change 1 with (bpow radix2 0). apply bpow_lt. lia.
  Qed.
  Lemma cr_cos_sound (x : binary_float prec emax) : is_finite x = true ->
    is_finite (m_cos (cr_libm prec emax) x) = true /\ -1 <= B2R (m_cos (cr_libm prec emax) x) <= 1.
  Proof.
    intros Fx.
    assert (E : m_cos (cr_libm prec emax) x = R2F prec emax (cos (B2R x))) by (destruct x; try discriminate; reflexivity).
    rewrite E. destruct (cr_cos_R2F (cos (B2R x)) (COS_bound _)) as [A [B C]]. split; [exact A|].
    rewrite B. apply Rabs_le_inv. exact C.
  Qed.
  Lemma cr_cos_0 : m_cos (cr_libm prec emax) (B754_zero false) = f_of_Z prec emax 1.
  Proof.
    cbn [m_cos cr_libm lift1 B2R]. rewrite cos_0. destruct (cr_cos_R2F 1 ltac:(lra)) as [A [B _]].
    rewrite (RN_id prec emax 1 (format_F2R_1 prec emax)) in B.
    destruct (fone_correct prec emax) as [O1 [O2 O3]]. apply B2R_inj.
    - apply is_finite_strict_B2R. intros Z. lra.
    - apply is_finite_strict_B2R. intros Z. lra.
    - lra.
  Qed.
End Cr.
Lemma cr_cos_sound_32 b : cos_sound (f32_ops (cr_libm 24 128) b) (ieee_view 24 128).
Proof. intros x. apply (cr_cos_sound 24 128 wle3_32). Qed.
Lemma cr_cos_sound_64 b : cos_sound (f64_ops (cr_libm 53 1024) b) (ieee_view 53 1024).
Proof. intros x. apply (cr_cos_sound 53 1024 wle3_64). Qed.

(** The iterator in [f32] and [f64]. *)
(** C60: in [f32] and [f64], triangular and Bartlett windows are symmetric bit for bit
    as long as the sizes are exact (2^24 + 1 and 2^53 + 1 samples). *)
Lemma C60_symmetric_float_thm :
  forall (T : Type) (O : num_ops T) (V : float_view T) (k : win_kind) (p : profile) (n : Z) (i i' : nat) (g g' : T),
    ieee O V -> k = WTriangular \/ k = WBartlett ->
    (min_size k <= n <= usize_max)%Z -> (n - 1 <= 2 ^ fprec V)%Z ->
    yields O k p n i g -> yields O k p n i' g' -> (Z.of_nat i + Z.of_nat i' = n - 1)%Z ->
    g = g'.
Proof.
  intros T O V k p n i i' g g' HO Hk Hn Hs Y Y' E.
  assert (S : is_size n) by (split; [destruct Hk as [-> | ->]; cbn [min_size] in Hn|]; lia).
  apply (yields_iff O k p n i g S) in Y. apply (yields_iff O k p n i' g' S) in Y'.
  destruct Y as [Y1 ->], Y' as [Y1' ->]. destruct HO; cbn [fprec ieee_view] in Hs.
  - apply (tri_sym 24 128 wle3_32 wbig_32 wp_32 _ _ _ lm b k n); try assumption; lia.
  - apply (tri_sym 53 1024 wle3_64 wbig_64 wp_64 _ _ _ lm b k n); try assumption; lia.
Qed.

(*@PROP
Example C60_float_hyps :
  (min_size WBartlett <= 1025 <= usize_max)%Z /\ (1025 - 1 <= 2 ^ fprec (ieee_view 24 128))%Z
  /\ (exists g, yields O32 WBartlett Debug 1025 1 g) /\ (Z.of_nat 1 + Z.of_nat 1023 = 1025 - 1)%Z.
Proof.
  split; [vm_compute; split; discriminate|]. split; [vm_compute; discriminate|]. split; [|reflexivity].
  eexists. eexists. eexists. split; reflexivity.
Qed.
@*)

(** C61: in [f32] and [f64], every sample of the triangular and Bartlett windows of any
    size, and of the Hann and Hamming windows when the cosine stays within [-1, 1],
    is a number in [0, 1]. *)
Lemma C61_range_float_thm :
  forall (T : Type) (O : num_ops T) (V : float_view T) (k : win_kind) (p : profile) (n : Z) (i : nat) (g : T),
    ieee O V ->
    match k with
    | WTriangular | WBartlett => True
    | WHann | WHamming => cos_sound O V
    | WBlackman | WBlackmanHarris => False
    end ->
    (min_size k <= n <= usize_max)%Z -> yields O k p n i g ->
    fin V g = true /\ 0 <= val V g <= 1.
Proof.
  intros T O V k p n i g HO Hk Hn Y.
  assert (S : is_size n) by (split; [destruct k; cbn [min_size] in Hn|]; lia).
  apply (yields_iff O k p n i g S) in Y. destruct Y as [Y ->].
  destruct HO; cbn [fin val ieee_view].
  - destruct k; try contradiction.
    + apply (tri_range 24 128 wle3_32 wbig_32 wp_32 _ _ _ lm b); auto; lia.
    + apply (tri_range 24 128 wle3_32 wbig_32 wp_32 _ _ _ lm b); auto; lia.
    + apply (hann_range 24 128 wle3_32 wbig_32 wp_32 _ _ _ lm b (pi32 lm b)); auto; [lit; lra|lia].
    + apply (hamming_range 24 128 wle3_32 wbig_32 wp_32 _ _ _ lm b (pi32 lm b)); auto; [| |lia].
      * lit. lra.
      * lit. lra.
  - destruct k; try contradiction.
    + apply (tri_range 53 1024 wle3_64 wbig_64 wp_64 _ _ _ lm b); auto; lia.
    + apply (tri_range 53 1024 wle3_64 wbig_64 wp_64 _ _ _ lm b); auto; lia.
    + apply (hann_range 53 1024 wle3_64 wbig_64 wp_64 _ _ _ lm b (pi64 lm b)); auto; [lit; lra|lia].
    + apply (hamming_range 53 1024 wle3_64 wbig_64 wp_64 _ _ _ lm b (pi64 lm b)); auto; [| |lia].
      * lit. lra.
      * lit. lra.
Qed.

(*@PROP
(** A correctly rounded cosine stays within [-1, 1]. *)
Example C61_float_hyps :
  cos_sound (f32_ops (cr_libm 24 128) false) (ieee_view 24 128) /\ cos_sound (f64_ops (cr_libm 53 1024) false) (ieee_view 53 1024)
  /\ (min_size WHann <= 512 <= usize_max)%Z /\ exists g, yields (f32_ops (cr_libm 24 128) false) WHann Debug 512 1 g.
Proof.
  split; [exact (cr_cos_sound_32 _)|]. split; [exact (cr_cos_sound_64 _)|]. split; [vm_compute; split; discriminate|].
  eexists. eexists. eexists. split; reflexivity.
Qed.
@*)

(** C61: in [f32] and [f64], every sample of every window of a size for which it is
    defined is a number, neither infinite nor NaN. *)
Lemma C61_finite_float_thm :
  forall (T : Type) (O : num_ops T) (V : float_view T) (k : win_kind) (p : profile) (n : Z) (i : nat) (g : T),
    ieee O V -> cos_sound O V ->
    (min_size k <= n <= usize_max)%Z -> yields O k p n i g -> fin V g = true.
Proof.
  intros T O V k p n i g HO Hc Hn Y.
  assert (D : k = WBlackman \/ k = WBlackmanHarris \/
    match k with WTriangular | WBartlett => True | WHann | WHamming => cos_sound O V | _ => False end).
  { destruct k; auto. }
  destruct D as [D|[D|D]].
  3:{ exact (proj1 (C61_range_float_thm T O V k p n i g HO D Hn Y)). }
  all: subst k; cbn [min_size] in Hn.
  all: assert (S : is_size n) by (split; lia).
  all: apply (yields_iff O _ p n i g S) in Y; destruct Y as [Y ->].
  - destruct HO; cbn [fin ieee_view].
    + apply (blackman_finite 24 128 wle3_32 wbig_32 wp_32 _ _ _ lm b (pi32 lm b)); auto; try (apply lits32; cbn; tauto); lia.
    + apply (blackman_finite 53 1024 wle3_64 wbig_64 wp_64 _ _ _ lm b (pi64 lm b)); auto; try (apply lits64; cbn; tauto); lia.
  - destruct HO; cbn [fin ieee_view].
    + apply (blackman_harris_finite 24 128 wle3_32 wbig_32 wp_32 _ _ _ lm b (pi32 lm b)); auto; try (apply lits32; cbn; tauto); try lia.
      apply Rabs_le. lit. lra.
    + apply (blackman_harris_finite 53 1024 wle3_64 wbig_64 wp_64 _ _ _ lm b (pi64 lm b)); auto; try (apply lits64; cbn; tauto); try lia.
      apply Rabs_le. lit. lra.
Qed.

(*@PROP
Example C61_finite_hyps :
  cos_sound (f64_ops (cr_libm 53 1024) true) (ieee_view 53 1024) /\ (min_size WBlackmanHarris <= 512 <= usize_max)%Z
  /\ exists g, yields (f64_ops (cr_libm 53 1024) true) WBlackmanHarris Release 512 1 g.
Proof.
  split; [exact (cr_cos_sound_64 _)|]. split; [vm_compute; split; discriminate|].
  eexists. eexists. eexists. split; reflexivity.
Qed.
@*)

Lemma zero_arg_32 lm b n : (2 <= n <= usize_max)%Z ->
  n_div (f32_ops lm b) (n_mul (f32_ops lm b) (n_mul (f32_ops lm b) (n_two (f32_ops lm b)) (n_pi (f32_ops lm b))) (n_of_usize (f32_ops lm b) 0))
    (n_of_usize (f32_ops lm b) (n - 1)) = B754_zero false.
Proof.
  intros Hn. unfold usize_max in Hn. destruct (ofZ 24 128 wbig_32 wp_32 (n - 1)%Z ltac:(lia)) as [A [B _]].
  assert (P : 1 <= B2R (f_of_Z 24 128 (n - 1))).
  { rewrite B. rewrite <- (RN_id 24 128 1 (format_F2R_1 24 128)). apply (RN_le 24 128). apply IZR_le. lia. }
  replace (n_mul (f32_ops lm b) _ _) with (B754_zero false : f32).
  2:{ apply B2SF_inj. vm_compute. reflexivity. }
  change (n_of_usize (f32_ops lm b) (n - 1)) with (f_of_Z 24 128 (n - 1)).
  destruct (f_of_Z 24 128 (n - 1)) as [s|s| |s m e H]; try discriminate; cbn in P; try lra.
  destruct s; [|reflexivity]. unfold F2R in P. cbn [Fnum Fexp cond_Zopp] in P.
  assert (0 < bpow radix2 e) by apply bpow_gt_0. assert (IZR (Z.neg m) < 0) by (apply IZR_lt; lia).
  change (IZR (- Z.pos m)) with (IZR (Z.neg m)) in P. nra.
Qed.
Lemma zero_arg_64 lm b n : (2 <= n <= usize_max)%Z ->
  n_div (f64_ops lm b) (n_mul (f64_ops lm b) (n_mul (f64_ops lm b) (n_two (f64_ops lm b)) (n_pi (f64_ops lm b))) (n_of_usize (f64_ops lm b) 0))
    (n_of_usize (f64_ops lm b) (n - 1)) = B754_zero false.
Proof.
  intros Hn. unfold usize_max in Hn. destruct (ofZ 53 1024 wbig_64 wp_64 (n - 1)%Z ltac:(lia)) as [A [B _]].
  assert (P : 1 <= B2R (f_of_Z 53 1024 (n - 1))).
  { rewrite B. rewrite <- (RN_id 53 1024 1 (format_F2R_1 53 1024)). apply (RN_le 53 1024). apply IZR_le. lia. }
  replace (n_mul (f64_ops lm b) _ _) with (B754_zero false : f64).
  2:{ apply B2SF_inj. vm_compute. reflexivity. }
  change (n_of_usize (f64_ops lm b) (n - 1)) with (f_of_Z 53 1024 (n - 1)).
  destruct (f_of_Z 53 1024 (n - 1)) as [s|s| |s m e H]; try discriminate; cbn in P; try lra.
  destruct s; [|reflexivity]. unfold F2R in P. cbn [Fnum Fexp cond_Zopp] in P.
  assert (0 < bpow radix2 e) by apply bpow_gt_0. assert (IZR (Z.neg m) < 0) by (apply IZR_lt; lia).
  change (IZR (- Z.pos m)) with (IZR (Z.neg m)) in P. nra.
Qed.

(** C74: with a cosine that is right at 0, the first sample of every Blackman window is
    negative: -2^-26 in [f32], -2^-56 in [f64], instead of 0. *)
Lemma C74_blackman_range_refuted_thm :
  (forall (lm : libm f32) (b : bool) (p : profile) (n : Z) (g : f32),
     m_cos lm (B754_zero false) = n_one (f32_ops lm b) ->
     (2 <= n <= usize_max)%Z -> yields (f32_ops lm b) WBlackman p n 0 g ->
     is_finite g = true /\ B2R g = - bpow radix2 (-26))
  /\ (forall (lm : libm f64) (b : bool) (p : profile) (n : Z) (g : f64),
     m_cos lm (B754_zero false) = n_one (f64_ops lm b) ->
     (2 <= n <= usize_max)%Z -> yields (f64_ops lm b) WBlackman p n 0 g ->
     is_finite g = true /\ B2R g = - bpow radix2 (-56)).
Proof.
  split; intros lm b p n g Hc Hn Y.
  - apply yields_iff in Y; [|split; lia]. destruct Y as [_ ->]. change (Z.of_nat 0) with 0%Z.
    unfold win_val. rewrite (zero_arg_32 lm b n Hn).
    replace (n_mul (f32_ops lm b) (n_two (f32_ops lm b)) (B754_zero false)) with (B754_zero false : f32)
      by (apply B2SF_inj; vm_compute; reflexivity).
    change (n_cos (f32_ops lm b)) with (m_cos lm). rewrite Hc.
    split; [vm_compute; reflexivity|]. lit. lra.
  - apply yields_iff in Y; [|split; lia]. destruct Y as [_ ->]. change (Z.of_nat 0) with 0%Z.
    unfold win_val. rewrite (zero_arg_64 lm b n Hn).
    replace (n_mul (f64_ops lm b) (n_two (f64_ops lm b)) (B754_zero false)) with (B754_zero false : f64)
      by (apply B2SF_inj; vm_compute; reflexivity).
    change (n_cos (f64_ops lm b)) with (m_cos lm). rewrite Hc.
    split; [vm_compute; reflexivity|]. lit. lra.
Qed.

(*@PROP
(** The correctly rounded cosine is right at 0. *)
Example C74_hyps :
  m_cos (cr_libm 24 128) (B754_zero false) = n_one (f32_ops (cr_libm 24 128) false)
  /\ m_cos (cr_libm 53 1024) (B754_zero false) = n_one (f64_ops (cr_libm 53 1024) false)
  /\ (2 <= 512 <= usize_max)%Z /\ exists g, yields (f32_ops (cr_libm 24 128) false) WBlackman Debug 512 0 g.
Proof.
  split; [exact (cr_cos_0 24 128 wle3_32)|]. split; [exact (cr_cos_0 53 1024 wle3_64)|]. split; [vm_compute; split; discriminate|].
  eexists. eexists. eexists. split; reflexivity.
Qed.
@*)

(** C64: on a slice of one sample, [Rectangular] and [Triangular] change nothing, bit
    for bit, and the five other windows put NaN, provided the cosine of NaN is NaN. *)
Lemma C64_size_one_thm :
  forall (p : profile) (w : window),
    (forall (lm : libm f32) (b : bool) (x : f32), m_cos lm B754_nan = B754_nan ->
      apply_window (f32_ops lm b) p [x] w =
        Ok [match w with Rectangular | Triangular => x | _ => B754_nan end])
    /\ (forall (lm : libm f64) (b : bool) (x : f64), m_cos lm B754_nan = B754_nan ->
      apply_window (f64_ops lm b) p [x] w =
        Ok [match w with Rectangular | Triangular => x | _ => B754_nan end]).
Proof.
  intros p w. split; intros lm b x Hc.
  - assert (G : forall k, win_val (f32_ops lm b) k 1 0 = match k with WTriangular => n_one (f32_ops lm b) | _ => B754_nan end).
    { intros k. assert (E : n_div (f32_ops lm b) (n_mul (f32_ops lm b) (n_mul (f32_ops lm b) (n_two (f32_ops lm b)) (n_pi (f32_ops lm b))) (n_of_usize (f32_ops lm b) 0))
        (n_of_usize (f32_ops lm b) (1 - 1)) = B754_nan) by (apply B2SF_inj; vm_compute; reflexivity).
      destruct k; [apply B2SF_inj; vm_compute; reflexivity|apply B2SF_inj; vm_compute; reflexivity|..];
        unfold win_val; rewrite E; change (n_cos (f32_ops lm b)) with (m_cos lm);
        rewrite ?(mul_nan 24 128 : forall y, n_mul (f32_ops lm b) y B754_nan = _), Hc; apply B2SF_inj; vm_compute; reflexivity. }
    destruct w; [reflexivity|..]; unfold apply_window; cbn [zip_apply]; unfold win_new; change (vlen [x]) with 1%Z;
      rewrite next_lt by (vm_compute; split; [discriminate|reflexivity] || vm_compute; discriminate);
      cbn [bind zip_apply]; rewrite G; cbn [n_mul f32_ops ieee_ops n_one]; f_equal; f_equal; try apply mul_one_eq; apply nan_mul.
  - assert (G : forall k, win_val (f64_ops lm b) k 1 0 = match k with WTriangular => n_one (f64_ops lm b) | _ => B754_nan end).
    { intros k. assert (E : n_div (f64_ops lm b) (n_mul (f64_ops lm b) (n_mul (f64_ops lm b) (n_two (f64_ops lm b)) (n_pi (f64_ops lm b))) (n_of_usize (f64_ops lm b) 0))
        (n_of_usize (f64_ops lm b) (1 - 1)) = B754_nan) by (apply B2SF_inj; vm_compute; reflexivity).
      destruct k; [apply B2SF_inj; vm_compute; reflexivity|apply B2SF_inj; vm_compute; reflexivity|..];
        unfold win_val; rewrite E; change (n_cos (f64_ops lm b)) with (m_cos lm);
        rewrite ?(mul_nan 53 1024 : forall y, n_mul (f64_ops lm b) y B754_nan = _), Hc; apply B2SF_inj; vm_compute; reflexivity. }
    destruct w; [reflexivity|..]; unfold apply_window; cbn [zip_apply]; unfold win_new; change (vlen [x]) with 1%Z;
      rewrite next_lt by (vm_compute; split; [discriminate|reflexivity] || vm_compute; discriminate);
      cbn [bind zip_apply]; rewrite G; cbn [n_mul f64_ops ieee_ops n_one]; f_equal; f_equal; try apply mul_one_eq; apply nan_mul.
Qed.

(*@PROP
Example C64_hyps : m_cos (cr_libm 24 128) B754_nan = B754_nan /\ m_cos (cr_libm 53 1024) B754_nan = B754_nan.
Proof. split; reflexivity. Qed.
@*)

