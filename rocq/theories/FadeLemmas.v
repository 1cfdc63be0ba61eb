(** Proofs of C113. *)
From Coq Require Import ZArith Reals Lra Lia Psatz List Arith.
From Coquelicot Require Import Rcomplements Rbar Lim_seq.
From Flocq Require Import Core.Core IEEE754.BinarySingleNaN.
From Verif Require Import Base Num NumR NumF Witness FilterM RbjM Device Signal SignalFacts FilterFacts
  FloatFacts FloatSpec TrackSpec FltFilterSpec FltFilterFacts FltFilterLemmas.
Import ListNotations.
Open Scope R_scope.

(** [y] is at most [B] in magnitude from some point on. *)
Definition settles (y : signal) (B : R) : Prop := exists N : nat, forall n, (N <= n)%nat -> Rabs (y n) <= B.

Lemma settle a1 a2 G (y w : signal) (P : nat) W : stable a1 a2 -> peak_gain a1 a2 G ->
  (forall n, (P <= n)%nat -> y (S (S n)) = w (S (S n)) - a1 * y (S n) - a2 * y n) ->
  (forall n, (P <= n)%nat -> Rabs (w (S (S n))) <= W) ->
  forall d, 0 < d -> settles y (G * W + d).
Proof.
  intros Hst HG Hy Hw d Hd.
  set (w' := fun n => w (S (S (n + P)))%nat).
  assert (Ho := feedback_obeys a1 a2 w'). set (r := feedback a1 a2 w') in *. clearbody r.
  set (y' := fun n => y (S (S (n + P)))%nat).
  assert (Hr : forall n, Rabs (r n) <= G * W).
  { intros n. apply (HG w' r W Ho). intros j. apply Hw. lia. }
  assert (Hl : is_lim_seq (fun n => y' n - r n) 0).
  { apply (recur_decay a1 a2 _ (fun _ => 0) Hst).
    - intros n. assert (E := Ho (S (S n))). cbn [back Nat.leb Nat.sub] in E.
      unfold back in E. cbn [Nat.leb Nat.sub] in E. rewrite ?Nat.sub_0_r in E. rewrite E.
      unfold y', w'. cbn [Nat.add]. rewrite (Hy (S (S (n + P)))) by lia. ring.
    - apply is_lim_seq_const. }
  apply is_lim_seq_spec in Hl. destruct (Hl (mkposreal d Hd)) as [N HN]. cbn in HN.
  exists (N + P + 2)%nat. intros n Hn. specialize (HN (n - P - 2)%nat ltac:(lia)).
  rewrite Rminus_0_r in HN.
  replace (y n) with (r (n - P - 2)%nat + (y' (n - P - 2)%nat - r (n - P - 2)%nat)).
  2: { unfold y'. replace (S (S (n - P - 2 + P))) with n by lia. ring. }
  eapply Rle_trans; [apply Rabs_triang|]. specialize (Hr (n - P - 2)%nat). lra.
Qed.

Lemma settles_le y B B' : B <= B' -> settles y B -> settles y B'.
Proof. intros H [N HN]. exists N. intros n Hn. specialize (HN n Hn). lra. Qed.

(** A level that feeds back into itself by less than a fifth. *)
Lemma level_iter (y : signal) C B0 : 0 <= C -> settles y B0 ->
  (forall B d, 0 <= B <= B0 -> settles y B -> 0 < d -> settles y (C + 3 / 16 * B + d)) ->
  forall d, 0 < d -> settles y (4 / 3 * C + d).
Proof.
  intros HC H0 Hs d Hd.
  assert (It : forall k : nat, settles y (Rmax (4 / 3 * C + d) (B0 - INR k * (3 / 4 * d)))).
  { intros k. induction k as [|k IH].
    - apply (settles_le y B0); [|exact H0]. cbn [INR]. eapply Rle_trans; [|apply Rmax_r]. lra.
    - set (B := Rmax (4 / 3 * C + d) (B0 - INR k * (3 / 4 * d))) in *.
      assert (HB1 : 4 / 3 * C + d <= B) by apply Rmax_l.
      destruct (Rle_lt_dec B0 B) as [Q|Q].
      + (* not above the start: the start itself is low enough or k = 0 *)
        destruct (Rle_lt_dec B0 (4 / 3 * C + d)) as [Q2|Q2].
        * apply (settles_le y B0); [|exact H0]. eapply Rle_trans; [exact Q2|apply Rmax_l].
        * assert (B0p : 0 <= B0) by lra.
          apply (settles_le y (C + 3 / 16 * B0 + d / 16)).
          2: { apply Hs; [lra|exact H0|lra]. }
          assert (Hk : INR k * (3 / 4 * d) <= 0).
          { unfold B in Q. unfold Rmax in Q. destruct (Rle_dec (4 / 3 * C + d) (B0 - INR k * (3 / 4 * d))); lra. }
          eapply Rle_trans; [|apply Rmax_r]. rewrite S_INR. lra.
      + apply (settles_le y (C + 3 / 16 * B + d / 16)).
        2: { apply Hs; [lra|exact IH|lra]. }
        rewrite S_INR. unfold B, Rmax in *.
        destruct (Rle_dec (4 / 3 * C + d) (B0 - INR k * (3 / 4 * d)));
        destruct (Rle_dec (4 / 3 * C + d) (B0 - (INR k + 1) * (3 / 4 * d))); lra. }
  destruct (Coquelicot.Rcomplements.nfloor_ex (Rmax 0 (B0 / (3 / 4 * d))) (Rmax_l _ _)) as [k0 [_ Hk]].
  set (k := S k0). rewrite <- S_INR in Hk. fold k in Hk.
  assert (Hk1 : B0 / (3 / 4 * d) < INR k) by (eapply Rle_lt_trans; [apply Rmax_r|exact Hk]).
  assert (Hk' : B0 < INR k * (3 / 4 * d)).
  { apply Rmult_lt_compat_r with (r := 3 / 4 * d) in Hk1; [|lra].
    replace (B0 / (3 / 4 * d) * (3 / 4 * d)) with B0 in Hk1 by (field; lra). lra. }
  apply (settles_le y _ _ ) with (2 := It k). apply Rmax_lub; lra.
Qed.

Section Fade.
  Context (prec emax : Z) {Hp : Prec_gt_0 prec} {Hm : Prec_lt_emax prec emax}.
  Hypothesis H5 : (5 <= prec)%Z.
  Notation F := (binary_float prec emax).
  Notation V := (ieee_view prec emax).
  Notation u := (uro prec).
  Notation fm := (bpow radix2 (2 - emax)).
  Notation fzero := (B754_zero false : F).
  Notation fb := (fb prec emax).

  Lemma pow5' : 1 <= (1 + u) ^ 5 /\ (1 + u) ^ 5 - 1 <= 6 * u /\ 5 * (1 + u) ^ 5 <= 6.
  Proof.
    assert (U := u_small prec H5). split; [apply pow_u|].
    assert (E : (1 + u) ^ 5 - 1 <= u * (5 + / 32 * 11)).
    { replace ((1 + u) ^ 5 - 1) with (u * (5 + u * (10 + u * (10 + u * (5 + u))))) by ring.
      apply Rmult_le_compat_l; [lra|].
      assert (u * (10 + u * (10 + u * (5 + u))) <= / 32 * 11); [|lra].
      apply Rmult_le_compat; try lra; nra. }
    split; lra.
  Qed.

  Context (Ops : num_ops F).
  Hypothesis Hadd : n_add Ops = f_add prec emax.
  Hypothesis Hsub : n_sub Ops = f_sub prec emax.
  Hypothesis Hmul : n_mul Ops = f_mul prec emax.
  Hypothesis Hzero : n_zero Ops = fzero.

  (** The part of a stream that sample [n] can depend on. *)
  Definition cut (n : nat) (f : nat -> F) (j : nat) : F :=
    if ((n <=? j + 2)%nat && (j <=? n)%nat)%bool then f j else fzero.

  Lemma cut_fb n f j : (2 <= n)%nat -> (j <= 2)%nat -> fb j (cut n f) n = fb j f n.
  Proof.
    intros Hn Hj. unfold FltFilterFacts.fb, cut. destruct (j <=? n)%nat eqn:E; [|reflexivity].
    replace (n <=? n - j + 2)%nat with true by (symmetry; apply Nat.leb_le; lia).
    replace (n - j <=? n)%nat with true by (symmetry; apply Nat.leb_le; lia). reflexivity.
  Qed.

  Lemma cut_at n f : cut n f n = f n.
  Proof.
    unfold cut. replace (n <=? n + 2)%nat with true by (symmetry; apply Nat.leb_le; lia).
    rewrite Nat.leb_refl. reflexivity.
  Qed.

  Lemma cut_zz1 b1 b2 a1 a2 x y n : (2 <= n)%nat ->
    zz1 prec emax b1 b2 a1 a2 (cut n x) (cut n y) n = zz1 prec emax b1 b2 a1 a2 x y n.
  Proof.
    intros Hn. destruct n as [|[|n]]; try lia. cbn [zz1 zz2].
    assert (E : forall f, cut (S (S n)) f (S n) = f (S n)).
    { intros f. unfold cut. replace (S (S n) <=? S n + 2)%nat with true by (symmetry; apply Nat.leb_le; lia).
      replace (S n <=? S (S n))%nat with true by (symmetry; apply Nat.leb_le; lia). reflexivity. }
    assert (E' : forall f, cut (S (S n)) f n = f n).
    { intros f. unfold cut. replace (S (S n) <=? n + 2)%nat with true by (symmetry; apply Nat.leb_le; lia).
      replace (n <=? S (S n))%nat with true by (symmetry; apply Nat.leb_le; lia). reflexivity. }
    rewrite !E, !E'. reflexivity.
  Qed.

  (** One step, knowing only the last two samples and outputs. *)
  Lemma local_step {S K} (D : device S K F) k b0 b1 b2 a1 a2 (x : nat -> F) m M Y n :
    generic_format radix2 (SpecFloat.fexp prec emax) m -> m < bpow radix2 emax -> 0 <= M -> 0 <= Y ->
    has_coeffs Ops D k (b0, b1, b2, a1, a2) ->
    all_finite (ieee_view prec emax) (b0, b1, b2, a1, a2) ->
    (1 + u) ^ 5 * sz prec emax b0 b1 b2 a1 a2 M Y + 5 * (1 + u) ^ 5 * eta prec emax <= m ->
    let y := stream D k x in
    (2 <= n)%nat ->
    (forall i, (n <= i + 2)%nat -> (i <= n)%nat -> is_finite (x i) = true /\ Rabs (B2R (x i)) <= M) ->
    (forall i, (n <= i + 2)%nat -> (i < n)%nat -> good prec emax Y (y i)) ->
    near prec emax 5 5 (y n) (target prec emax b0 b1 b2 a1 a2 x y n) (sz prec emax b0 b1 b2 a1 a2 M Y).
  Proof.
    intros Fm Hmax HM HY Hc [F0 [F1 [F2 [F3 F4]]]] Hr y Hn Hx Hg. cbn [fin ieee_view] in *.
    assert (Hx' : forall i, is_finite (cut n x i) = true /\ Rabs (B2R (cut n x i)) <= M).
    { intros i. unfold cut. destruct ((n <=? i + 2)%nat && (i <=? n)%nat)%bool eqn:E.
      - apply andb_prop in E. destruct E as [E1 E2]. apply Nat.leb_le in E1, E2. apply Hx; assumption.
      - cbn. rewrite Rabs_R0. split; [reflexivity|exact HM]. }
    assert (Hg' : forall i, (i < n)%nat -> good prec emax Y (cut n y i)).
    { intros i Hi. unfold cut. destruct ((n <=? i + 2)%nat && (i <=? n)%nat)%bool eqn:E.
      - apply andb_prop in E. destruct E as [E1 E2]. apply Nat.leb_le in E1, E2. apply Hg; assumption.
      - split; [reflexivity|]. cbn. rewrite Rabs_R0. exact HY. }
    assert (Et : target prec emax b0 b1 b2 a1 a2 x y n = target prec emax b0 b1 b2 a1 a2 (cut n x) (cut n y) n).
    { unfold target. rewrite !cut_fb, cut_at by lia. reflexivity. }
    rewrite Et. clear Et.
    remember (b0, b1, b2, a1, a2) as c eqn:Ec.
    destruct Hc.
    - injection Ec as <- <- <- <- <-. rewrite Hzero in *.
      assert (E := unroll_one_pole prec emax Ops Hsub Hmul Hzero x b3 a0 n). fold y in E. cbn zeta in E.
      rewrite E, <- (cut_at n x), <- (cut_fb n y 1) by lia. apply (form_one_pole prec emax m); auto.
    - injection Ec as <- <- <- <- <-. rewrite Hzero in *.
      assert (E := unroll_one_zero prec emax Ops Hadd Hmul Hzero x b3 b4 n). fold y in E. cbn zeta in E.
      rewrite E, <- (cut_at n x), <- (cut_fb n x 1) by lia. apply (form_one_zero prec emax m); auto.
    - injection Ec as <- <- <- <- <-. rewrite Hzero in *.
      assert (E := unroll_two_pole prec emax Ops Hsub Hmul Hzero x b3 a0 a3 n). fold y in E. cbn zeta in E.
      rewrite E, <- (cut_at n x), <- (cut_fb n y 1), <- (cut_fb n y 2) by lia. apply (form_two_pole prec emax m); auto.
    - injection Ec as <- <- <- <- <-. rewrite Hzero in *.
      assert (E := unroll_two_zero prec emax Ops Hadd Hmul Hzero x b3 b4 b5 n). fold y in E. cbn zeta in E.
      rewrite E, <- (cut_at n x), <- (cut_fb n x 1), <- (cut_fb n x 2) by lia. apply (form_two_zero prec emax m); auto.
    - subst c.
      assert (E := unroll_biquad1 prec emax Ops Hadd Hsub Hmul Hzero x b0 b1 b2 a1 a2 n). fold y in E. cbn zeta in E.
      rewrite E, <- (cut_at n x), <- (cut_fb n x 1), <- (cut_fb n x 2), <- (cut_fb n y 1), <- (cut_fb n y 2) by lia.
      apply (form1 prec emax m); auto.
    - subst c.
      assert (E := unroll_biquad2 prec emax Ops Hadd Hsub Hmul x (dev_biquad2 Ops)
                     (b0, b1, b2, a1, a2) b0 b1 b2 a1 a2 n
                     ltac:(reflexivity) ltac:(rewrite <- Hzero; reflexivity)). fold y in E. cbn zeta in E.
      rewrite E, <- (cut_at n x), <- (cut_zz1 b1 b2 a1 a2 x y n) by lia.
      apply (form2 prec emax m); auto.
    - subst c.
      assert (E := unroll_biquad2 prec emax Ops Hadd Hsub Hmul x (dev_rbj Ops kind) a b0 b1 b2 a1 a2 n
                     ltac:(destruct kind; reflexivity)
                     ltac:(rewrite <- Hzero; cbn; unfold rbj_set_coefficients; rewrite H; destruct kind; reflexivity)).
      fold y in E. cbn zeta in E.
      rewrite E, <- (cut_at n x), <- (cut_zz1 b1 b2 a1 a2 x y n) by lia.
      apply (form2 prec emax m); auto.
  Qed.

  (** What the level of the recent input says about output and error. *)
  Lemma levels {S K} (D : device S K F) k b0 b1 b2 a1 a2 (x : nat -> F) G M mu (N0 : nat) :
    has_coeffs Ops D k (b0, b1, b2, a1, a2) -> all_finite V (b0, b1, b2, a1, a2) ->
    stable (B2R a1) (B2R a2) -> peak_gain (B2R a1) (B2R a2) G ->
    (forall n, is_finite (x n) = true /\ Rabs (B2R (x n)) <= M) ->
    (forall n, (N0 <= n)%nat -> Rabs (B2R (x n)) <= mu) ->
    let A := Rabs (B2R a1) + Rabs (B2R a2) in
    let Bs := Rabs (B2R b0) + Rabs (B2R b1) + Rabs (B2R b2) in
    let L := Bs * M + fm in
    let L' := Bs * mu + fm in
    A * G <= bpow radix2 (prec - 5) ->
    4 * (1 + 4 * A * G) * L <= fmax V ->
    let Yr := fun n => B2R (stream D k x n) in
    (forall d, 0 < d -> settles Yr (4 / 3 * (G * (Bs * mu) + 6 * u * G * L') + d))
    /\ (forall z, obeys (B2R b0, B2R b1, B2R b2, B2R a1, B2R a2) (fun n => B2R (x n)) z ->
        settles (fun n => Yr n - z n) (8 * u * G * (1 + 2 * A * G) * L')).
  Proof.
    intros Hc Hf Hst HG Hx Hx' A Bs L L' HAG Hbig Yr. set (y := stream D k x) in *.
    assert (Tr := track prec emax H5 Ops Hadd Hsub Hmul Hzero D k b0 b1 b2 a1 a2 x G M Hc Hf HG Hx HAG Hbig).
    fold Bs A y in Tr. fold L in Tr.
    assert (G1 := peak_gain_ge1 _ _ _ HG).
    assert (M0 : 0 <= M) by (destruct (Hx 0%nat) as [_ Q]; eapply Rle_trans; [apply Rabs_pos|exact Q]).
    assert (mu0 : 0 <= mu) by (eapply Rle_trans; [apply Rabs_pos|exact (Hx' N0 (Nat.le_refl _))]).
    assert (U := u_small prec H5). assert (FM : 0 < fm) by apply bpow_gt_0.
    assert (A0 : 0 <= A) by (unfold A; assert (P1 := Rabs_pos (B2R a1)); assert (P2 := Rabs_pos (B2R a2)); lra).
    assert (Bs0 : 0 <= Bs).
    { unfold Bs. assert (P0 := Rabs_pos (B2R b0)). assert (P1 := Rabs_pos (B2R b1)). assert (P2 := Rabs_pos (B2R b2)). lra. }
    assert (BM0 : 0 <= Bs * M) by (apply Rmult_le_pos; assumption).
    assert (Bmu0 : 0 <= Bs * mu) by (apply Rmult_le_pos; assumption).
    assert (L0 : 0 < L) by (unfold L; lra). assert (L'0 : 0 < L') by (unfold L'; lra).
    assert (AG0 : 0 <= A * G) by (apply Rmult_le_pos; lra).
    assert (UAG : 32 * u * (A * G) <= 1).
    { apply Rle_trans with (32 * u * bpow radix2 (prec - 5)).
      - apply Rmult_le_compat_l; lra.
      - replace (bpow radix2 (prec - 5)) with (bpow radix2 prec * / 32).
        2: { replace (/ 32) with (bpow radix2 (-5)) by (cbn; lra). rewrite <- bpow_plus. f_equal. }
        unfold uro. rewrite bpow_opp. right. field. assert (P := bpow_gt_0 radix2 prec). lra. }
    set (Y := 4 * G * L). assert (Y0 : 0 < Y) by (unfold Y; apply Rmult_lt_0_compat; lra).
    set (m := bpow radix2 (emax - 1)).
    assert (Fm : generic_format radix2 (SpecFloat.fexp prec emax) m).
    { apply (format_bpow prec emax). unfold SpecFloat.emin, Prec_lt_emax, Prec_gt_0 in *. lia. }
    assert (Hmax : m < bpow radix2 emax) by (apply bpow_lt; lia).
    assert (Hfm : fmax V <= 2 * m).
    { cbn [fmax ieee_view]. unfold m. replace (bpow radix2 emax) with (2 * bpow radix2 (emax - 1)).
      - assert (0 < bpow radix2 (- prec)) by apply bpow_gt_0.
        assert (0 < bpow radix2 (emax - 1)) by apply bpow_gt_0. nra.
      - replace emax with (emax - 1 + 1)%Z at 2 by lia. rewrite (bpow_plus radix2 (emax - 1) 1). cbn. lra. }
    destruct pow5' as [W1 [W2 W3]].
    assert (Ee : eta prec emax = u * fm) by reflexivity.
    (* the global bound *)
    assert (Glob : forall n, is_finite (y n) = true /\ Rabs (Yr n) <= Y).
    { intros n.
      set (z := out (dev_biquad1 R_ops) (configured (dev_biquad1 R_ops) (B2R b0, B2R b1, B2R b2, B2R a1, B2R a2)) (fun n => B2R (x n))).
      assert (Hz : obeys (B2R b0, B2R b1, B2R b2, B2R a1, B2R a2) (fun n => B2R (x n)) z)
        by (apply filter_obeys; constructor).
      destruct (Tr z Hz n) as [T1 T2]. split; [exact T1|].
      assert (Zb : Rabs (z n) <= G * (Bs * M)).
      { apply (prefix_bound (B2R a1) (B2R a2) G z
                 (fun j => B2R b0 * B2R (x j) + B2R b1 * back 1 (fun n => B2R (x n)) j + B2R b2 * back 2 (fun n => B2R (x n)) j));
          [exact HG|exact BM0| |].
        - intros j _. rewrite (Hz j). ring.
        - intros j _. assert (Hb : forall i n, Rabs (back i (fun n => B2R (x n)) n) <= M).
          { intros i n'. unfold back. destruct (i <=? n')%nat; [apply Hx|]. rewrite Rabs_R0. exact M0. }
          eapply Rle_trans; [apply Rabs_triang|].
          eapply Rle_trans; [apply Rplus_le_compat_r, Rabs_triang|]. rewrite !Rabs_mult.
          unfold Bs. rewrite !Rmult_plus_distr_r.
          apply Rplus_le_compat; [apply Rplus_le_compat|]; (apply Rmult_le_compat_l; [apply Rabs_pos|]);
            [apply Hx|apply Hb|apply Hb]. }
      replace (bpow radix2 (3 - prec)) with (8 * u) in T2.
      2: { unfold uro, Zminus. rewrite bpow_plus. cbn. lra. }
      assert (Q : 8 * u * G * (1 + 4 * A * G) * L <= 2 * (G * L)).
      { replace (8 * u * G * (1 + 4 * A * G) * L) with ((8 * u + 32 * u * (A * G)) * (G * L)) by ring.
        apply Rmult_le_compat_r; [apply Rmult_le_pos; lra|lra]. }
      assert (Q2 : G * (Bs * M) <= G * L) by (apply Rmult_le_compat_l; [lra|unfold L; lra]).
      replace (Yr n) with (z n + (B2R (y n) - z n)) by (unfold Yr, y; ring).
      eapply Rle_trans; [apply Rabs_triang|]. unfold Y.
      assert (0 <= G * L) by (apply Rmult_le_pos; lra). lra. }
    (* the error of late steps *)
    set (e := fun n => Yr n - target prec emax b0 b1 b2 a1 a2 x y n).
    assert (Err : forall B P, 0 <= B <= Y -> (N0 <= P)%nat -> (forall n, (P <= n)%nat -> Rabs (Yr n) <= B) ->
              forall n, (P <= n)%nat -> Rabs (e (Datatypes.S (Datatypes.S n))) <= 6 * u * (L' + A * B)).
    { intros B P HB HP HBn n Hn. set (M1 := Rmin M mu).
      assert (M10 : 0 <= M1) by (apply Rmin_glb; assumption).
      set (s := sz prec emax b0 b1 b2 a1 a2 M1 B).
      assert (Es : s = Bs * M1 + A * B) by (unfold s, sz, Bs, A; ring).
      assert (AB0 : 0 <= A * B) by (apply Rmult_le_pos; lra).
      assert (S1 : Bs * M1 <= Bs * mu) by (apply Rmult_le_compat_l; [exact Bs0|apply Rmin_r]).
      assert (S2 : Bs * M1 <= Bs * M) by (apply Rmult_le_compat_l; [exact Bs0|apply Rmin_l]).
      assert (S3 : A * B <= A * Y) by (apply Rmult_le_compat_l; lra).
      assert (S4 : 0 <= Bs * M1) by (apply Rmult_le_pos; assumption).
      assert (N1 : ((1 + u) ^ 5 - 1) * s + 5 * (1 + u) ^ 5 * eta prec emax <= 6 * u * (s + fm)).
      { rewrite Ee.
        assert (((1 + u) ^ 5 - 1) * s <= 6 * u * s) by (apply Rmult_le_compat_r; lra).
        assert (5 * (1 + u) ^ 5 * (u * fm) <= 6 * (u * fm)) by (apply Rmult_le_compat_r; [apply Rmult_le_pos|]; lra).
        lra. }
      assert (Sb : s + fm <= (1 + 4 * A * G) * L).
      { rewrite Es. unfold Y, L in *. lra. }
      assert (N2 : 6 * u * (s + fm) <= / 4 * (s + fm)) by (apply Rmult_le_compat_r; lra).
      assert (Hroom : (1 + u) ^ 5 * s + 5 * (1 + u) ^ 5 * eta prec emax <= m) by lra.
      assert (Nr := local_step D k b0 b1 b2 a1 a2 x m M1 B (Datatypes.S (Datatypes.S n)) Fm Hmax M10
                      ltac:(lra) Hc Hf Hroom ltac:(lia)).
      destruct Nr as [_ [_ R3]].
      - intros i Hi1 Hi2. split; [apply Hx|]. apply Rmin_glb; [apply Hx|apply Hx'; lia].
      - intros i Hi1 Hi2. split; [apply Glob|]. apply HBn. lia.
      - eapply Rle_trans; [exact R3|]. eapply Rle_trans; [exact N1|].
        apply Rmult_le_compat_l; [lra|]. rewrite Es. unfold L'. lra. }
    set (X := fun n => B2R (x n)) in *.
    assert (Et : forall n, target prec emax b0 b1 b2 a1 a2 x y (Datatypes.S (Datatypes.S n))
        = B2R b0 * X (Datatypes.S (Datatypes.S n)) + B2R b1 * X (Datatypes.S n) + B2R b2 * X n
          - B2R a1 * Yr (Datatypes.S n) - B2R a2 * Yr n).
    { intros n. unfold target. rewrite !fb_SS, !fb_0. reflexivity. }
    assert (Fb : forall n, (N0 <= n)%nat ->
       Rabs (B2R b0 * X (Datatypes.S (Datatypes.S n)) + B2R b1 * X (Datatypes.S n) + B2R b2 * X n) <= Bs * mu).
    { intros n Hn. eapply Rle_trans; [apply Rabs_triang|].
      eapply Rle_trans; [apply Rplus_le_compat_r, Rabs_triang|]. rewrite !Rabs_mult.
      unfold Bs. rewrite !Rmult_plus_distr_r.
      apply Rplus_le_compat; [apply Rplus_le_compat|]; (apply Rmult_le_compat_l; [apply Rabs_pos|]); apply Hx'; lia. }
    set (C := G * (Bs * mu) + 6 * u * G * L').
    assert (C0 : 0 <= C).
    { unfold C. apply Rplus_le_le_0_compat; [apply Rmult_le_pos; lra|].
      apply Rmult_le_pos; [|lra]. apply Rmult_le_pos; lra. }
    assert (Part1 : forall d, 0 < d -> settles Yr (4 / 3 * C + d)).
    { apply (level_iter Yr C Y C0).
      - exists 0%nat. intros n _. apply Glob.
      - intros B d HB [P HP] Hd. set (P' := Nat.max P N0).
        assert (E1 := Err B P' HB ltac:(lia) ltac:(intros n Hn; apply HP; lia)).
        assert (Q := settle (B2R a1) (B2R a2) G Yr
                  (fun n => B2R b0 * X n + B2R b1 * back 1 X n + B2R b2 * back 2 X n + e n) P'
                  (Bs * mu + 6 * u * (L' + A * B)) Hst HG).
        apply (settles_le Yr (G * (Bs * mu + 6 * u * (L' + A * B)) + d)).
        + unfold C. assert (6 * u * (A * G) * B <= 3 / 16 * B) by (apply Rmult_le_compat_r; lra). lra.
        + apply Q; [| |exact Hd].
          * intros n Hn. unfold back. cbn [Nat.leb Nat.sub]. rewrite ?Nat.sub_0_r. unfold e. rewrite Et. ring.
          * intros n Hn. unfold back. cbn [Nat.leb Nat.sub]. rewrite ?Nat.sub_0_r.
            eapply Rle_trans; [apply Rabs_triang|]. apply Rplus_le_compat; [apply Fb; lia|apply E1; exact Hn]. }
    split; [exact Part1|].
    intros z Hz.
    assert (GL0 : 0 < G * L') by (apply Rmult_lt_0_compat; lra).
    assert (CL : C <= 19 / 16 * (G * L')).
    { unfold C. assert (G * (Bs * mu) <= G * L') by (apply Rmult_le_compat_l; [lra|unfold L'; lra]).
      assert (6 * u * (G * L') <= 3 / 16 * (G * L')) by (apply Rmult_le_compat_r; lra). lra. }
    (* the level, kept below the global bound *)
    set (B := Rmin Y (2 * (G * L'))).
    assert (HB : 0 <= B <= Y) by (unfold B; split; [apply Rmin_glb; lra|apply Rmin_l]).
    assert (SB : settles Yr B).
    { destruct (Part1 (1 / 3 * (G * L')) ltac:(lra)) as [P HP]. exists P. intros n Hn.
      apply Rmin_glb; [apply Glob|]. specialize (HP n Hn). lra. }
    destruct SB as [P HP]. set (P' := Nat.max P N0).
    assert (E1 := Err B P' HB ltac:(lia) ltac:(intros n Hn; apply HP; lia)).
    assert (Q := settle (B2R a1) (B2R a2) G (fun n => Yr n - z n) e P' (6 * u * (L' + A * B)) Hst HG).
    assert (AGp : 0 < (1 + 2 * A * G) * (G * L')) by (apply Rmult_lt_0_compat; lra).
    apply (settles_le _ (G * (6 * u * (L' + A * B)) + 2 * u * ((1 + 2 * A * G) * (G * L')))).
    - assert (HB2 : A * B <= A * (2 * (G * L'))) by (apply Rmult_le_compat_l; [exact A0|apply Rmin_r]).
      assert (6 * u * G * (A * B) <= 6 * u * G * (A * (2 * (G * L')))).
      { apply Rmult_le_compat_l; [|exact HB2]. apply Rmult_le_pos; lra. }
      replace (8 * u * G * (1 + 2 * A * G) * L')
        with (6 * u * G * L' + 6 * u * G * (A * (2 * (G * L'))) + 2 * u * ((1 + 2 * A * G) * (G * L'))) by ring.
      lra.
    - apply Q.
      + intros n Hn. unfold e. rewrite Et. rewrite (Hz (Datatypes.S (Datatypes.S n))).
        unfold back. cbn [Nat.leb Nat.sub]. rewrite ?Nat.sub_0_r. fold X. ring.
      + intros n Hn. apply E1, Hn.
      + apply Rmult_lt_0_compat; lra.
  Qed.
End Fade.

(*@PROP
(** Property C113: rounding noise follows the present level of the signal, and
    the tail of a floating-point filter dies away to a few of the tiniest
    numbers.

    Vocabulary: [Signal], [FloatSpec], [TrackSpec.half_tiny] (half the smallest
    positive number) and [FltFilterSpec]. *)
From Coq Require Import ZArith Reals List Lra.
From Flocq Require Import Core.Core IEEE754.BinarySingleNaN.
From Verif Require Import Base Num NumR NumF Witness FilterM RbjM Device Signal FloatSpec TrackSpec FltFilterSpec
  FadeLemmas.
Import ListNotations.
Open Scope R_scope.
@*)

(** C113: the filter is stable, its input was finite and bounded with head room
    (as in C81) and from sample [N0] on it is silent. From some sample [N] on
    every output is within 9 [G] halves of the smallest positive number of
    zero, whatever happened before. *)
Lemma C113_tail_fades_thm :
  forall (T : Type) (O : num_ops T) (V : float_view T), ieee O V ->
  forall (S K : Type) (D : device S K T) (k : K) (c : T * T * T * T * T),
    has_coeffs O D k c -> all_finite V c ->
  forall (b0 b1 b2 a1 a2 G M A L : R) (x : nat -> T) (N0 : nat),
    vals V c = (b0, b1, b2, a1, a2) ->
    A = Rabs a1 + Rabs a2 ->
    L = (Rabs b0 + Rabs b1 + Rabs b2) * M + fmin V ->
    stable a1 a2 -> peak_gain a1 a2 G ->
    (forall n, fin V (x n) = true /\ Rabs (val V (x n)) <= M) ->
    A * G <= bpow radix2 (fprec V - 5) ->
    4 * (1 + 4 * A * G) * L <= fmax V ->
    (forall n, (N0 <= n)%nat -> val V (x n) = 0) ->
    exists N : nat, forall n, (N <= n)%nat ->
      fin V (stream D k x n) = true /\ Rabs (val V (stream D k x n)) <= 9 * G * half_tiny V.
Proof.
  intros T O V HO S K D k c Hc Hf b0 b1 b2 a1 a2 G M A L x N0 E EA EL Hst HG Hx HAG Hbig Hs.
  assert (Gen : forall p q (Hp : Prec_gt_0 p) (Hm : Prec_lt_emax p q) (H5 : (5 <= p)%Z)
      (Ops : num_ops (binary_float p q)) (D' : device S K (binary_float p q)) c0 c1 c2 d1 d2 x' ,
      n_add Ops = f_add p q -> n_sub Ops = f_sub p q -> n_mul Ops = f_mul p q -> n_zero Ops = B754_zero false ->
      has_coeffs Ops D' k (c0, c1, c2, d1, d2) -> all_finite (ieee_view p q) (c0, c1, c2, d1, d2) ->
      vals (ieee_view p q) (c0, c1, c2, d1, d2) = (b0, b1, b2, a1, a2) ->
      L = (Rabs b0 + Rabs b1 + Rabs b2) * M + fmin (ieee_view p q) ->
      (forall n, is_finite (x' n) = true /\ Rabs (B2R (x' n)) <= M) ->
      A * G <= bpow radix2 (p - 5) -> 4 * (1 + 4 * A * G) * L <= fmax (ieee_view p q) ->
      (forall n, (N0 <= n)%nat -> B2R (x' n) = 0) ->
      exists N : nat, forall n, (N <= n)%nat ->
        is_finite (stream D' k x' n) = true
        /\ Rabs (B2R (stream D' k x' n)) <= 9 * G * half_tiny (ieee_view p q)).
  { clear x Hx Hs HAG Hbig Hf Hc c E D EL.
    intros p q Hp Hm H5 Ops D' c0 c1 c2 d1 d2 x' Ha Hs Hmu Hz Hc Hf E EL Hx HAG Hbig Hs0.
    cbn [vals val ieee_view] in E. injection E as <- <- <- <- <-. subst A L.
    assert (Hmu0 : forall n, (N0 <= n)%nat -> Rabs (B2R (x' n)) <= 0)
      by (intros n Hn; rewrite (Hs0 n Hn), Rabs_R0; lra).
    destruct (levels p q H5 Ops Ha Hs Hmu Hz D' k c0 c1 c2 d1 d2 x' G M 0 N0 Hc Hf Hst HG Hx Hmu0 HAG Hbig) as [Q _].
    assert (G1 := peak_gain_ge1 _ _ _ HG).
    assert (U := uro_pos p). assert (FM := bpow_gt_0 radix2 (2 - q)).
    assert (UF : 0 < uro p * bpow radix2 (2 - q)) by (apply Rmult_lt_0_compat; lra).
    destruct (Q (G * (uro p * bpow radix2 (2 - q))) ltac:(apply Rmult_lt_0_compat; lra)) as [N HN].
    exists N. intros n Hn. split.
    - apply (track p q H5 Ops Ha Hs Hmu Hz D' k c0 c1 c2 d1 d2 x' G M Hc Hf HG Hx HAG Hbig
               (out (dev_biquad1 R_ops) (configured (dev_biquad1 R_ops)
                  (B2R c0, B2R c1, B2R c2, B2R d1, B2R d2)) (fun n => B2R (x' n)))).
      apply filter_obeys. constructor.
    - eapply Rle_trans; [apply HN, Hn|]. right. unfold half_tiny, TrackSpec.half_ulp, uro. cbn [fprec fmin ieee_view]. field. }
  destruct HO as [lm b|lm b]; destruct c as [[[[c0 c1] c2] d1] d2].
  - exact (Gen 24%Z 128%Z _ _ ltac:(lia) (f32_ops lm b) D c0 c1 c2 d1 d2 x eq_refl eq_refl eq_refl eq_refl
             Hc Hf E EL Hx HAG Hbig Hs).
  - exact (Gen 53%Z 1024%Z _ _ ltac:(lia) (f64_ops lm b) D c0 c1 c2 d1 d2 x eq_refl eq_refl eq_refl eq_refl
             Hc Hf E EL Hx HAG Hbig Hs).
Qed.

(** C113: when the input has magnitude at most [m] from sample [N0] on, the
    distance to the exact solution [z] is from some sample [N] on bounded in
    terms of [m] alone; the loud past is forgotten. *)
Lemma C113_noise_follows_level_thm :
  forall (T : Type) (O : num_ops T) (V : float_view T), ieee O V ->
  forall (S K : Type) (D : device S K T) (k : K) (c : T * T * T * T * T),
    has_coeffs O D k c -> all_finite V c ->
  forall (b0 b1 b2 a1 a2 G M A L m : R) (x : nat -> T) (N0 : nat) (z : signal),
    vals V c = (b0, b1, b2, a1, a2) ->
    A = Rabs a1 + Rabs a2 ->
    L = (Rabs b0 + Rabs b1 + Rabs b2) * M + fmin V ->
    stable a1 a2 -> peak_gain a1 a2 G ->
    (forall n, fin V (x n) = true /\ Rabs (val V (x n)) <= M) ->
    A * G <= bpow radix2 (fprec V - 5) ->
    4 * (1 + 4 * A * G) * L <= fmax V ->
    (forall n, (N0 <= n)%nat -> Rabs (val V (x n)) <= m) ->
    obeys (b0, b1, b2, a1, a2) (fun n => val V (x n)) z ->
    exists N : nat, forall n, (N <= n)%nat ->
      fin V (stream D k x n) = true
      /\ Rabs (val V (stream D k x n) - z n)
         <= bpow radix2 (3 - fprec V) * G * (1 + 2 * A * G) * ((Rabs b0 + Rabs b1 + Rabs b2) * m + fmin V).
Proof.
  intros T O V HO S K D k c Hc Hf b0 b1 b2 a1 a2 G M A L m x N0 z E EA EL Hst HG Hx HAG Hbig Hs Hz.
  assert (Gen : forall p q (Hp : Prec_gt_0 p) (Hm : Prec_lt_emax p q) (H5 : (5 <= p)%Z)
      (Ops : num_ops (binary_float p q)) (D' : device S K (binary_float p q)) c0 c1 c2 d1 d2 x' ,
      n_add Ops = f_add p q -> n_sub Ops = f_sub p q -> n_mul Ops = f_mul p q -> n_zero Ops = B754_zero false ->
      has_coeffs Ops D' k (c0, c1, c2, d1, d2) -> all_finite (ieee_view p q) (c0, c1, c2, d1, d2) ->
      vals (ieee_view p q) (c0, c1, c2, d1, d2) = (b0, b1, b2, a1, a2) ->
      L = (Rabs b0 + Rabs b1 + Rabs b2) * M + fmin (ieee_view p q) ->
      (forall n, is_finite (x' n) = true /\ Rabs (B2R (x' n)) <= M) ->
      A * G <= bpow radix2 (p - 5) -> 4 * (1 + 4 * A * G) * L <= fmax (ieee_view p q) ->
      (forall n, (N0 <= n)%nat -> Rabs (B2R (x' n)) <= m) ->
      obeys (b0, b1, b2, a1, a2) (fun n => B2R (x' n)) z ->
      exists N : nat, forall n, (N <= n)%nat ->
        is_finite (stream D' k x' n) = true
        /\ Rabs (B2R (stream D' k x' n) - z n)
           <= bpow radix2 (3 - p) * G * (1 + 2 * A * G)
              * ((Rabs b0 + Rabs b1 + Rabs b2) * m + bpow radix2 (2 - q))).
  { clear x Hx Hs HAG Hbig Hf Hc c E D EL Hz.
    intros p q Hp Hm H5 Ops D' c0 c1 c2 d1 d2 x' Ha Hs Hmu Hz Hc Hf E EL Hx HAG Hbig Hs0 Hobs.
    cbn [vals val ieee_view] in E. injection E as <- <- <- <- <-. subst A L.
    destruct (levels p q H5 Ops Ha Hs Hmu Hz D' k c0 c1 c2 d1 d2 x' G M m N0 Hc Hf Hst HG Hx Hs0 HAG Hbig) as [_ Q].
    destruct (Q z Hobs) as [N HN]. exists N. intros n Hn. split.
    - apply (track p q H5 Ops Ha Hs Hmu Hz D' k c0 c1 c2 d1 d2 x' G M Hc Hf HG Hx HAG Hbig z Hobs).
    - replace (bpow radix2 (3 - p)) with (8 * uro p).
      + apply HN, Hn.
      + unfold uro, Zminus. rewrite bpow_plus. cbn. lra. }
  destruct HO as [lm b|lm b]; destruct c as [[[[c0 c1] c2] d1] d2].
  - exact (Gen 24%Z 128%Z _ _ ltac:(lia) (f32_ops lm b) D c0 c1 c2 d1 d2 x eq_refl eq_refl eq_refl eq_refl
             Hc Hf E EL Hx HAG Hbig Hs Hz).
  - exact (Gen 53%Z 1024%Z _ _ ltac:(lia) (f64_ops lm b) D c0 c1 c2 d1 d2 x eq_refl eq_refl eq_refl eq_refl
             Hc Hf E EL Hx HAG Hbig Hs Hz).
Qed.

Lemma C113_hyps_aux :
  let c := (fl32 1 0, n_zero O32, n_zero O32, fl32 (-1) (-1), n_zero O32) in
  let V := ieee_view 24 128 in
  let x n := if (n <? 5)%nat then fl32 1 0 else n_zero O32 in
  has_coeffs O32 (dev_one_pole O32) (fl32 1 0, fl32 (-1) (-1)) c /\ all_finite V c
  /\ vals V c = (1, 0, 0, - (1 / 2), 0)
  /\ stable (- (1 / 2)) 0 /\ peak_gain (- (1 / 2)) 0 2
  /\ (forall n, fin V (x n) = true /\ Rabs (val V (x n)) <= 1)
  /\ 1 / 2 * 2 <= bpow radix2 (fprec V - 5)
  /\ 4 * (1 + 4 * (1 / 2) * 2) * (1 * 1 + fmin V) <= fmax V
  /\ (forall n, (5 <= n)%nat -> val V (x n) = 0).
Proof.
  intros c V x. destruct C81_hyps_aux as [H1 [H2 [H3 [H4 [H5 [H6 H7]]]]]].
  do 3 (split; [assumption|]). split.
  { unfold stable. rewrite Rabs_Ropp, Rabs_R0, Rabs_pos_eq by lra. lra. }
  split; [exact H4|]. split.
  { intros n. unfold x. destruct (n <? 5)%nat; [exact H5|].
    split; [reflexivity|]. cbn. rewrite Rabs_R0. lra. }
  do 2 (split; [assumption|]). intros n Hn. unfold x.
  replace (n <? 5)%nat with false by (symmetry; apply Nat.ltb_ge; exact Hn). reflexivity.
Qed.

(*@PROP
(** The hypotheses hold, for example, for the f32 one-pole y = x + 0.5 y[n-1]
    on five ones followed by silence, with G = 2 and M = 1. *)
Example C113_hyps :
  let c := (fl32 1 0, n_zero O32, n_zero O32, fl32 (-1) (-1), n_zero O32) in
  let V := ieee_view 24 128 in
  let x n := if (n <? 5)%nat then fl32 1 0 else n_zero O32 in
  has_coeffs O32 (dev_one_pole O32) (fl32 1 0, fl32 (-1) (-1)) c /\ all_finite V c
  /\ vals V c = (1, 0, 0, - (1 / 2), 0)
  /\ stable (- (1 / 2)) 0 /\ peak_gain (- (1 / 2)) 0 2
  /\ (forall n, fin V (x n) = true /\ Rabs (val V (x n)) <= 1)
  /\ 1 / 2 * 2 <= bpow radix2 (fprec V - 5)
  /\ 4 * (1 + 4 * (1 / 2) * 2) * (1 * 1 + fmin V) <= fmax V
  /\ (forall n, (5 <= n)%nat -> val V (x n) = 0).
Proof. exact C113_hyps_aux. Qed.
@*)
