(** Rounding analysis of the windows. *)
From Coq Require Import ZArith Reals Bool Lra Lia Psatz.
From Flocq Require Import Core.Core Relative Mult_error IEEE754.BinarySingleNaN.
From Verif Require Import Base Num NumF FloatSpec FloatFacts SmoothF FltFilterFacts WinFacts WinLemmasF RbjFltFacts ConstLemmas
  WindowM WinSpec WinAccSpec.
Open Scope R_scope.

Lemma sin_abs t : Rabs (sin t) <= Rabs t.
Proof.
  assert (P : forall s, 0 <= s -> Rabs (sin s) <= s).
  { intros s Hs. assert (K := SIN_bound s). destruct (Rle_dec 1 s).
    - apply Rabs_le. lra.
    - destruct (Req_dec s 0) as [->|N]; [rewrite sin_0, Rabs_R0; lra|].
      assert (G := sin_lt_x s ltac:(lra)). assert (B := pi_20). assert (H : 0 <= sin s) by (apply sin_ge_0; lra).
      rewrite Rabs_pos_eq; lra. }
  destruct (Rle_dec 0 t).
  - rewrite (Rabs_pos_eq t) by assumption. apply P. assumption.
  - rewrite (Rabs_left t) by lra. rewrite <- Rabs_Ropp, <- sin_neg. apply P. lra.
Qed.
Lemma cos_lip x y : Rabs (cos x - cos y) <= Rabs (x - y).
Proof.
  rewrite Rtrigo1.form2. rewrite !Rabs_mult, (Rabs_left (-2)) by lra.
  assert (A := sin_abs ((x - y) / 2)). assert (B : Rabs (sin ((x + y) / 2)) <= 1) by (apply Rabs_le; apply SIN_bound).
  assert (E : Rabs ((x - y) / 2) = Rabs (x - y) / 2) by (unfold Rdiv; rewrite Rabs_mult, (Rabs_pos_eq (/ 2)); lra).
  assert (P := Rabs_pos (sin ((x + y) / 2))). assert (Q := Rabs_pos (sin ((x - y) / 2))). nra.
Qed.

(** Factors close to one. *)
Lemma factor u a b k l m : 0 <= u <= / 16777216 -> 0 <= k <= 100 -> 0 <= l <= 100 -> Rabs (a - 1) <= k * u -> Rabs (b - 1) <= l * u ->
  k + l + k * l * / 16777216 <= m -> Rabs (a * b - 1) <= m * u.
Proof.
  intros U K L A B M. replace (a * b - 1) with ((a - 1) + (b - 1) + (a - 1) * (b - 1)) by ring.
  eapply Rle_trans; [apply Rabs_triang|]. eapply Rle_trans; [apply Rplus_le_compat_r, Rabs_triang|]. rewrite Rabs_mult.
  assert (C : Rabs (a - 1) * Rabs (b - 1) <= (k * u) * (l * u)) by (apply Rmult_le_compat; try apply Rabs_pos; assumption).
  assert (D : (k * u) * (l * u) <= k * l * / 16777216 * u).
  { replace ((k * u) * (l * u)) with ((k * l * u) * u) by ring. apply Rmult_le_compat_r; [lra|].
    apply Rmult_le_compat_l; [apply Rmult_le_pos; lra|lra]. }
  nra.
Qed.
Lemma factor_inv u a : 0 <= u <= / 16777216 -> Rabs (a - 1) <= u -> Rabs (/ a - 1) <= (1 + / 10000) * u.
Proof.
  intros U A. assert (B := Rabs_le_inv _ _ A). assert (0 < a) by lra.
  replace (/ a - 1) with (- (a - 1) * / a) by (field; lra). rewrite Rabs_mult, Rabs_Ropp, (Rabs_pos_eq (/ a)).
  2:{ left. apply Rinv_0_lt_compat. assumption. }
  assert (/ a <= 1 + / 10000).
  { apply Rmult_le_reg_l with a; [assumption|]. rewrite Rinv_r by lra. nra. }
  assert (0 < / a) by (apply Rinv_0_lt_compat; assumption). assert (P := Rabs_pos (a - 1)). nra.
Qed.

Section F.
  Context (prec emax : Z) {Hp : Prec_gt_0 prec} {Hm : Prec_lt_emax prec emax}
    (Hp24 : (24 <= prec)%Z) (Hbig : (prec + 100 <= emax)%Z) (Hm3 : (3 <= emax)%Z) (Hb72 : (72 < emax)%Z) (Hp2 : (2 <= prec)%Z).
  Notation F := (binary_float prec emax).
  Notation RN := (round radix2 (SpecFloat.fexp prec emax) (round_mode mode_NE)).
  Notation fmt := (generic_format radix2 (SpecFloat.fexp prec emax)).
  Notation u := (uro prec).
  Notation et := (eta prec emax).
  Notation t := (/ 16777216).

  (** Relative error of one rounding. *)
  Lemma rel x : x = 0 \/ bpow radix2 (-70) <= Rabs x -> exists d, Rabs (d - 1) <= u /\ RN x = x * d.
  Proof.
    intros [->|H].
    { exists 1. rewrite Rminus_diag_eq, Rabs_R0 by reflexivity. split; [left; apply uro_pos|]. rewrite Rmult_0_l. apply (RN_0 prec emax). }
    destruct (relative_error_N_FLT_ex radix2 (SpecFloat.emin prec emax) prec Hp (fun x => negb (Z.even x)) x) as [e [E1 E2]].
    { eapply Rle_trans; [|exact H]. apply bpow_le. unfold SpecFloat.emin. lia. }
    exists (1 + e). replace (1 + e - 1) with e by ring. split; [|exact E2].
    rewrite <- (half_ulp prec). exact E1.
  Qed.
  Lemma twice (x : F) : is_finite x = true -> Rabs (B2R x) <= 100 ->
    is_finite (f_mul prec emax (f_of_Z prec emax 2) x) = true /\ B2R (f_mul prec emax (f_of_Z prec emax 2) x) = 2 * B2R x.
  Proof.
    intros Fx Hx. destruct (WinLemmasF.two_ok prec emax Hp2) as [T1 T2].
    assert (F128 : fmt (bpow radix2 8)) by (apply (bfmt prec emax Hp24 Hbig); lia).
    destruct (mul_ok prec emax (f_of_Z prec emax 2) x (bpow radix2 8) T1 Fx F128) as [A B].
    - apply bpow_lt. lia.
    - rewrite T2, Rabs_mult, (Rabs_pos_eq 2) by lra. change (bpow radix2 8) with 256. lra.
    - split; [exact A|]. rewrite B, T2. apply (RN_id prec emax).
      replace (2 * B2R x) with (B2R x * bpow radix2 1) by (change (bpow radix2 1) with 2; ring).
      apply (mult_bpow_pos_exact_FLT radix2 (SpecFloat.emin prec emax) prec); [apply generic_format_B2R|lia].
  Qed.

  (** [x] is finite and within [k] units of [r], which is at most [b] in magnitude. *)
  Definition near (x : F) (r k b : R) : Prop := is_finite x = true /\ Rabs (B2R x - r) <= k * u /\ Rabs r <= b.

  Lemma near_big x r k b : near x r k b -> 0 <= k <= 1000 -> Rabs (B2R x) <= b + k * t.
  Proof.
    intros [_ [A B]] K. assert (U := u_small prec Hp24). assert (k * u <= k * t) by (apply Rmult_le_compat_l; lra).
    replace (B2R x) with ((B2R x - r) + r) by ring. eapply Rle_trans; [apply Rabs_triang|]. lra.
  Qed.
  Lemma et_t : et <= u * t.
  Proof. assert (U := u_small prec Hp24). assert (T := et_small prec emax Hbig). nra. Qed.
  Lemma BIG_1000 : 2000000 <= bpow radix2 60.
  Proof. apply Rle_trans with (bpow radix2 21); [change (bpow radix2 21) with 2097152; lra|apply bpow_le; lia]. Qed.

  Lemma near_sum (x y : F) r s k l b c K B : near x r k b -> near y s l c -> 0 <= k <= 1000 -> 0 <= l <= 1000 ->
    0 <= B <= 1000 -> b <= 1000 -> c <= 1000 ->
    (Rabs (r + s) <= B -> k + l + (B + (k + l) * t) + t <= K -> near (f_add prec emax x y) (r + s) K B)
    /\ (Rabs (r - s) <= B -> k + l + (B + (k + l) * t) + t <= K -> near (f_sub prec emax x y) (r - s) K B).
  Proof.
    intros Hx Hy Hk Hl HB Hb Hc. assert (X := near_big _ _ _ _ Hx Hk). assert (Y := near_big _ _ _ _ Hy Hl).
    assert (E := et_t). assert (U := u_small prec Hp24).
    destruct Hx as [Fx [Dx Rx]]. destruct Hy as [Fy [Dy Ry]]. assert (W := BIG_1000).
    assert (KT : (k + l) * u <= (k + l) * t) by (apply Rmult_le_compat_l; lra).
    assert (KU : forall d, Rabs d <= (k + l) * u -> forall q, Rabs q <= B -> Rabs (q + d) <= B + (k + l) * t).
    { intros d Hd q Hq. eapply Rle_trans; [apply Rabs_triang|]. lra. }
    assert (FIN : forall q d, Rabs q <= B -> Rabs d <= (k + l) * u -> k + l + (B + (k + l) * t) + t <= K ->
      Rabs (RN (q + d) - q) <= K * u).
    { intros q d Hq Hd HK. assert (G := err prec emax Hp24 (q + d) _ (KU d Hd q Hq)).
      replace (RN (q + d) - q) with ((RN (q + d) - (q + d)) + d) by ring. eapply Rle_trans; [apply Rabs_triang|].
      assert ((k + l + (B + (k + l) * t) + t) * u <= K * u) by (apply Rmult_le_compat_r; lra). lra. }
    split; intros HR HK.
    - destruct (addk prec emax Hp24 Hbig x y Fx Fy) as [A1 A2].
      { eapply Rle_trans; [apply Rabs_triang|]. lra. }
      split; [exact A1|]. split; [|exact HR]. rewrite A2.
      replace (B2R x + B2R y) with ((r + s) + ((B2R x - r) + (B2R y - s))) by ring. apply FIN; try assumption.
      eapply Rle_trans; [apply Rabs_triang|]. lra.
    - destruct (subk prec emax Hp24 Hbig x y Fx Fy) as [A1 A2].
      { eapply Rle_trans; [apply Rabs_triang|]. rewrite Rabs_Ropp. lra. }
      split; [exact A1|]. split; [|exact HR]. rewrite A2.
      replace (B2R x - B2R y) with ((r - s) + ((B2R x - r) + - (B2R y - s))) by ring. apply FIN; try assumption.
      eapply Rle_trans; [apply Rabs_triang|]. rewrite Rabs_Ropp. lra.
  Qed.
  Lemma near_mul (x y : F) r s k l b c K : near x r k b -> near y s l c -> 0 <= k <= 1000 -> 0 <= l <= 1000 ->
    0 <= b <= 1000 -> 0 <= c <= 1000 -> b * l + c * k + k * l * t + (b + k * t) * (c + l * t) + t <= K ->
    near (f_mul prec emax x y) (r * s) K (b * c).
  Proof.
    intros Hx Hy Hk Hl Hb Hc HK. assert (X := near_big _ _ _ _ Hx Hk). assert (Y := near_big _ _ _ _ Hy Hl).
    assert (E := et_t). assert (U := u_small prec Hp24).
    destruct Hx as [Fx [Dx Rx]]. destruct Hy as [Fy [Dy Ry]]. assert (W := BIG_1000).
    assert (M : Rabs (B2R x * B2R y) <= (b + k * t) * (c + l * t)) by (rewrite Rabs_mult; apply Rmult_le_compat; try apply Rabs_pos; assumption).
    assert (M2 : (b + k * t) * (c + l * t) <= 1001 * 1001) by (apply Rmult_le_compat; lra || nra).
    destruct (mulk prec emax Hp24 Hbig x y Fx Fy ltac:(lra)) as [A1 A2].
    split; [exact A1|]. split.
    - rewrite A2. assert (G := err prec emax Hp24 _ _ M).
      replace (RN (B2R x * B2R y) - r * s) with ((RN (B2R x * B2R y) - B2R x * B2R y) + (r * (B2R y - s) + s * (B2R x - r) + (B2R x - r) * (B2R y - s))) by ring.
      assert (G1 : Rabs (r * (B2R y - s)) <= b * (l * u)) by (rewrite Rabs_mult; apply Rmult_le_compat; try apply Rabs_pos; assumption).
      assert (G2 : Rabs (s * (B2R x - r)) <= c * (k * u)) by (rewrite Rabs_mult; apply Rmult_le_compat; try apply Rabs_pos; assumption).
      assert (G3 : Rabs ((B2R x - r) * (B2R y - s)) <= (k * u) * (l * u)) by (rewrite Rabs_mult; apply Rmult_le_compat; try apply Rabs_pos; assumption).
      assert (G4 : (k * u) * (l * u) <= k * l * t * u).
      { replace ((k * u) * (l * u)) with ((k * l * u) * u) by ring. apply Rmult_le_compat_r; [lra|].
        apply Rmult_le_compat_l; [apply Rmult_le_pos; lra|lra]. }
      eapply Rle_trans; [apply Rabs_triang|]. assert (S1 := Rabs_triang (r * (B2R y - s) + s * (B2R x - r)) ((B2R x - r) * (B2R y - s))).
      assert (S2 := Rabs_triang (r * (B2R y - s)) (s * (B2R x - r))).
      assert ((b * l + c * k + k * l * t + (b + k * t) * (c + l * t) + t) * u <= K * u) by (apply Rmult_le_compat_r; lra).
      lra.
    - rewrite Rabs_mult. apply Rmult_le_compat; try apply Rabs_pos; assumption.
  Qed.

  Context (pim pie sz : Z) (lm : libm F) (nn : bool).
  Notation O := (ieee_ops prec emax pim pie sz lm nn).
  Notation V := (ieee_view prec emax).

  (** The triangle: five roundings of quantities at most twice the half size. *)
  Lemma tri_near k n j : k = WTriangular \/ k = WBartlett -> (min_size k <= n <= usize_max)%Z -> (0 <= j < n)%Z ->
    is_finite (win_val O k n j) = true /\ Rabs (B2R (win_val O k n j) - textbook k (IZR n) (IZR j)) <= 8 * u.
  Proof.
    intros Hk Hn Hj. assert (U := u_small prec Hp24). assert (U0 : 0 <= u <= / 16777216) by lra. assert (E := et_t).
    destruct (tri_q prec emax Hm3 Hb72 Hp2 k n j Hk Hn Hj) as [Q1 [Q2 Q3]].
    rewrite (tri_val prec emax pim pie sz lm nn k n j Hk).
    set (q := f_div prec emax _ (win_den prec emax k n)) in *.
    destruct (one_minus prec emax Hm3 (Babs q)) as [A1 A2].
    { rewrite is_finite_Babs. exact Q1. } { rewrite B2R_Babs. pose proof (Rabs_pos (B2R q)). lra. }
    split; [exact A1|]. rewrite A2, B2R_Babs.
    assert (Hn1 : (1 <= n)%Z) by (destruct Hk as [-> | ->]; cbn [min_size] in Hn; lia). unfold usize_max in Hn.
    set (N := IZR (n - 1)). assert (EN : IZR n = N + 1) by (unfold N; rewrite minus_IZR; lra).
    assert (low : forall z, (0 <= z)%Z -> exists d, Rabs (d - 1) <= u /\ RN (IZR z) = IZR z * d).
    { intros z Hz. apply rel. destruct (Z.eq_dec z 0) as [->|Nz]; [left; reflexivity|right].
      assert (1 <= IZR z) by (apply IZR_le; lia). rewrite Rabs_pos_eq by lra.
      apply Rle_trans with (bpow radix2 0); [apply bpow_le; lia|change (bpow radix2 0) with 1; lra]. }
    destruct (low j ltac:(lia)) as [a [Da Ea]]. destruct (low (n - 1)%Z ltac:(lia)) as [b [Db Eb]]. destruct (low n ltac:(lia)) as [c [Dc Ec]].
    fold N in Eb. set (J := IZR j) in *.
    assert (HJ : 0 <= J <= N) by (unfold J, N; split; apply IZR_le; lia).
    set (D := match k with WTriangular => IZR n / 2 | _ => N / 2 end).
    assert (HD : N / 2 <= D /\ 0 < D).
    { unfold D. destruct Hk as [-> | ->]; cbn [min_size] in Hn; [lra|]. assert (1 <= N) by (unfold N; apply IZR_le; lia). lra. }
    assert (TB : textbook k (IZR n) J = 1 - Rabs ((J - N / 2) / D)).
    { unfold textbook, D. rewrite EN. replace (N + 1 - 1) with N by ring. destruct Hk as [-> | ->]; reflexivity. }
    assert (exists d, Rabs (d - 1) <= u /\ B2R (win_den prec emax k n) = D * d) as [d [Dd Ed]].
    { unfold win_den, D. destruct Hk as [-> | ->].
      - exists c. split; [exact Dc|]. destruct (halfZ prec emax Hb72 Hp2 n ltac:(lia)) as [_ [H2 _]]. rewrite H2, Ec. lra.
      - exists b. split; [exact Db|]. destruct (halfZ prec emax Hb72 Hp2 (n - 1) ltac:(lia)) as [_ [H2 _]]. rewrite H2. fold N. rewrite Eb. lra. }
    rewrite Ed in Q2. fold J N in Q2. rewrite TB. clear TB A1 A2 Q1.
    assert (Hs : Rabs (RN (RN J - RN N / 2) - (RN J - RN N / 2)) <= u * Rabs (RN J - RN N / 2)).
    { unfold Rminus at 1 3 4. apply (RN_err_format prec emax); [apply (RN_format prec emax)|]. apply generic_format_opp.
      destruct (halfZ prec emax Hb72 Hp2 (n - 1) ltac:(lia)) as [_ [_ H3]]. exact H3. }
    rewrite Ea, Eb in Hs, Q2. set (s := RN (J * a - N * b / 2)) in *. set (r := J - N / 2) in *.
    assert (Hr : Rabs r <= N / 2) by (unfold r; apply Rabs_le; lra).
    assert (N0 : 0 <= N) by lra. assert (UN : 0 <= u * N) by (apply Rmult_le_pos; lra).
    assert (UU : u * (u * N) <= / 16777216 * (u * N)) by (apply Rmult_le_compat_r; lra).
    assert (Hi : Rabs (J * a - N * b / 2 - r) <= 3 / 2 * (u * N)).
    { replace (J * a - N * b / 2 - r) with (J * (a - 1) + - (N / 2 * (b - 1))) by (unfold r; field).
      eapply Rle_trans; [apply Rabs_triang|]. rewrite Rabs_Ropp, !Rabs_mult, (Rabs_pos_eq J), (Rabs_pos_eq (N / 2)) by lra.
      assert (J * Rabs (a - 1) <= N * u) by (apply Rmult_le_compat; try apply Rabs_pos; lra).
      assert (N / 2 * Rabs (b - 1) <= N / 2 * u) by (apply Rmult_le_compat_l; lra). lra. }
    assert (Hi2 : Rabs (J * a - N * b / 2) <= N / 2 + 3 / 2 * (u * N)).
    { replace (J * a - N * b / 2) with ((J * a - N * b / 2 - r) + r) by ring. eapply Rle_trans; [apply Rabs_triang|]. lra. }
    assert (Hsr : Rabs (s - r) <= 2.01 * (u * N)).
    { replace (s - r) with ((s - (J * a - N * b / 2)) + (J * a - N * b / 2 - r)) by ring. eapply Rle_trans; [apply Rabs_triang|].
      assert (u * Rabs (J * a - N * b / 2) <= u * (N / 2 + 3 / 2 * (u * N))) by (apply Rmult_le_compat_l; lra). lra. }
    clearbody s. set (i := / D). assert (Hi0 : 0 < i) by (apply Rinv_0_lt_compat; lra).
    assert (Di : D * i = 1) by (unfold i; field; lra).
    assert (Ni : N * i <= 2) by nra.
    assert (Ni0 : 0 <= N * i) by (apply Rmult_le_pos; lra).
    assert (UNi : u * N * i <= u * 2) by (rewrite Rmult_assoc; apply Rmult_le_compat_l; lra).
    assert (H1 : Rabs (s * i - r * i) <= 4.02 * u).
    { rewrite <- Rmult_minus_distr_r, Rabs_mult, (Rabs_pos_eq i) by lra.
      apply Rle_trans with (2.01 * (u * N) * i); [apply Rmult_le_compat_r; lra|]. lra. }
    assert (H2 : Rabs (r * i) <= 1).
    { rewrite Rabs_mult, (Rabs_pos_eq i) by lra. apply Rle_trans with (N / 2 * i); [apply Rmult_le_compat_r; lra|]. lra. }
    assert (H3 : Rabs (s * i) <= 1.001).
    { replace (s * i) with ((s * i - r * i) + r * i) by ring. eapply Rle_trans; [apply Rabs_triang|]. lra. }
    assert (G := factor_inv u d U0 Dd). assert (Dd' := Rabs_le_inv _ _ Dd).
    assert (H4 : Rabs (s / (D * d) - s * i) <= 1.01 * u).
    { replace (s / (D * d) - s * i) with (s * i * (/ d - 1)) by (unfold i; field; lra). rewrite Rabs_mult.
      apply Rle_trans with (1.001 * ((1 + / 10000) * u)); [apply Rmult_le_compat; try apply Rabs_pos; assumption|]. lra. }
    assert (H5 : Rabs (s / (D * d)) <= 1.002).
    { replace (s / (D * d)) with ((s / (D * d) - s * i) + s * i) by ring. eapply Rle_trans; [apply Rabs_triang|]. lra. }
    assert (H6 := err prec emax Hp24 _ _ H5). rewrite <- Q2 in H6.
    assert (H7 : Rabs (1 - Rabs (B2R q)) <= 1) by (pose proof (Rabs_pos (B2R q)); apply Rabs_le; lra).
    assert (H8 := err prec emax Hp24 _ _ H7).
    change (r / D) with (r * i).
    assert (H9 : Rabs (B2R q - r * i) <= 6.2 * u).
    { replace (B2R q - r * i) with ((B2R q - s / (D * d)) + ((s / (D * d) - s * i) + (s * i - r * i))) by ring.
      eapply Rle_trans; [apply Rabs_triang|]. eapply Rle_trans; [apply Rplus_le_compat_l, Rabs_triang|]. lra. }
    assert (H10 := Rabs_triang_inv2 (B2R q) (r * i)).
    replace (RN (1 - Rabs (B2R q)) - (1 - Rabs (r * i))) with ((RN (1 - Rabs (B2R q)) - (1 - Rabs (B2R q))) + - (Rabs (B2R q) - Rabs (r * i))) by ring.
    eapply Rle_trans; [apply Rabs_triang|]. rewrite Rabs_Ropp. lra.
  Qed.

  Hypothesis Fpi : is_finite (n_pi O) = true.
  Hypothesis Vpi : B2R (n_pi O) = RN PI.
  Hypothesis Hcos : cos_close O V.

  Definition angle (n j : Z) : F := n_div O (n_mul O (n_mul O (n_two O) (n_pi O)) (n_of_usize O j)) (n_of_usize O (n - 1)).

  (** The angle of sample [j]: five roundings. *)
  Lemma angle_near n j : (2 <= n <= usize_max)%Z -> (0 <= j < n)%Z ->
    near (angle n j) (2 * PI * IZR j / (IZR n - 1)) 32 (2 * PI).
  Proof.
    intros Hn Hj. unfold usize_max in Hn. assert (U := u_small prec Hp24). assert (B := pi_20).
    destruct (rel PI) as [d1 [D1 E1]].
    { right. rewrite Rabs_pos_eq by lra. apply Rle_trans with (bpow radix2 0); [apply bpow_le; lia|change (bpow radix2 0) with 1; lra]. }
    rewrite E1 in Vpi. assert (D1' := Rabs_le_inv _ _ D1).
    assert (P1 : 3 <= B2R (n_pi O) <= 4) by (rewrite Vpi; nra).
    assert (PI1 : is_finite (n_pi O) = true /\ 0 < B2R (n_pi O) <= 4) by (split; [exact Fpi|lra]).
    assert (Fin := proj1 (arg_ok prec emax Hb72 Hp2 pim pie sz lm nn PI1 n j Hn Hj)).
    split; [exact Fin|].
    destruct (twice (n_pi O) Fpi) as [A1 A2]; [rewrite Rabs_pos_eq; lra|].
    destruct (ofZ prec emax Hb72 Hp2 j ltac:(lia)) as [J1 [J2 [J3 _]]]. destruct (ofZ prec emax Hb72 Hp2 (n - 1) ltac:(lia)) as [M1 [M2 [M3 M4]]].
    set (p2 := f_mul prec emax (f_of_Z prec emax 2) (n_pi O)) in *.
    assert (S0 : 1 <= IZR (n - 1)) by (apply IZR_le; lia).
    assert (SJ : 0 <= IZR j <= IZR (n - 1)) by (split; apply IZR_le; lia).
    assert (low : forall r, 1 <= r -> bpow radix2 (-70) <= Rabs r).
    { intros r Hr. rewrite Rabs_pos_eq by lra. apply Rle_trans with (bpow radix2 0); [apply bpow_le; lia|exact Hr]. }
    destruct (rel (IZR j)) as [d2 [D2 E2]].
    { destruct (Z.eq_dec j 0) as [->|N]; [left; reflexivity|right]. apply low, IZR_le. lia. }
    destruct (rel (IZR (n - 1))) as [d4 [D4 E4]]; [right; apply low; exact S0|].
    assert (D2' := Rabs_le_inv _ _ D2). assert (D4' := Rabs_le_inv _ _ D4).
    assert (Hprod : B2R p2 * B2R (f_of_Z prec emax j) = 0 \/ 1 <= B2R p2 * B2R (f_of_Z prec emax j)).
    { rewrite A2, J2. destruct (Z.eq_dec j 0) as [->|N]; [left; rewrite (RN_0 prec emax); ring|right].
      assert (1 <= IZR j) by (apply IZR_le; lia). rewrite E2. assert (/ 2 <= IZR j * d2) by nra. nra. }
    assert (E64 : bpow radix2 67 = 8 * bpow radix2 64) by (change 67%Z with (3 + 64)%Z; rewrite bpow_plus; reflexivity).
    assert (P64 : 0 < bpow radix2 64) by apply bpow_gt_0.
    destruct (mul_ok prec emax p2 (f_of_Z prec emax j) (bpow radix2 67) A1 J1) as [B1 B2].
    { apply (bfmt prec emax Hp24 Hbig). lia. } { apply bpow_lt. lia. }
    { rewrite Rabs_pos_eq; rewrite A2, J2; [rewrite E64|apply Rmult_le_pos; lra]. apply Rmult_le_compat; lra. }
    set (m := f_mul prec emax p2 (f_of_Z prec emax j)) in *.
    assert (F1 : fmt 1) by (apply (bfmt prec emax Hp24 Hbig 0); lia).
    destruct (rel (B2R p2 * B2R (f_of_Z prec emax j))) as [d3 [D3 E3]].
    { destruct Hprod as [Z|Z]; [left; exact Z|right; apply low; exact Z]. }
    assert (Hm1 : B2R m = 0 \/ 1 <= B2R m <= bpow radix2 67).
    { destruct Hprod as [Z|Z]; [left; rewrite B2, Z; apply (RN_0 prec emax)|right]. rewrite B2. split.
      - apply Rle_trans with (RN 1); [right; symmetry; apply (RN_id prec emax), F1|apply (RN_le prec emax), Z].
      - apply Rle_trans with (RN (bpow radix2 67)); [|right; apply (RN_id prec emax), (bfmt prec emax Hp24 Hbig); lia].
        apply (RN_le prec emax). rewrite A2, J2, E64. apply Rmult_le_compat; lra. }
    assert (Mp : 1 <= RN (IZR (n - 1))) by (destruct M4 as [M4|M4]; [|exact M4]; exfalso; rewrite E4 in M4; nra).
    assert (Hq : B2R m / RN (IZR (n - 1)) = 0 \/ bpow radix2 (-70) <= Rabs (B2R m / RN (IZR (n - 1)))).
    { destruct Hm1 as [Z|Z]; [left; rewrite Z; unfold Rdiv; ring|right].
      assert (Q : bpow radix2 (-64) <= B2R m / RN (IZR (n - 1))).
      { change (-64)%Z with (- (64))%Z. rewrite bpow_opp. unfold Rdiv. rewrite <- (Rmult_1_l (/ bpow radix2 64)).
        apply Rmult_le_compat; try lra. left; apply Rinv_0_lt_compat; lra. apply Rinv_le_contravar; lra. }
      eapply Rle_trans; [|apply Rle_abs]. eapply Rle_trans; [|exact Q]. apply bpow_le. lia. }
    assert (Hqb : Rabs (B2R m / RN (IZR (n - 1))) <= bpow radix2 67).
    { assert (Hm0 : 0 <= B2R m <= bpow radix2 67) by (destruct Hm1 as [Z|Z]; lra).
      rewrite Rabs_pos_eq by (apply Rmult_le_pos; [lra|left; apply Rinv_0_lt_compat; lra]).
      apply Rle_trans with (B2R m / 1); [|lra]. apply Rmult_le_compat_l; [lra|]. apply Rinv_le_contravar; lra. }
    destruct (div_ok prec emax m (f_of_Z prec emax (n - 1)) (bpow radix2 67) B1) as [C1 C2].
    { rewrite M2. lra. } { apply (bfmt prec emax Hp24 Hbig). lia. } { apply bpow_lt. lia. } { rewrite M2. exact Hqb. }
    destruct (rel _ Hq) as [d5 [D5 E5]]. rewrite M2 in C2. rewrite <- C2 in E5.
    change (f_div prec emax m (f_of_Z prec emax (n - 1))) with (angle n j) in E5. clear C2.
    rewrite B2, E3, A2, J2, E2, Vpi, E4 in E5. rewrite E5.
    rewrite minus_IZR in *.
    assert (Z : 0 <= IZR j / (IZR n - 1) <= 1).
    { split; [apply Rmult_le_pos; [lra|left; apply Rinv_0_lt_compat; lra]|].
      apply Rmult_le_reg_r with (IZR n - 1); [lra|]. unfold Rdiv. rewrite Rmult_assoc, Rinv_l by lra. lra. }
    set (q := IZR j / (IZR n - 1)) in *.
    assert (TH : 2 * PI * IZR j / (IZR n - 1) = 2 * PI * q) by (unfold q; field; lra). rewrite TH.
    assert (TH' : 2 * (PI * d1) * (IZR j * d2) * d3 / ((IZR n - 1) * d4) * d5 = 2 * PI * q * (d1 * d2 * d3 * / d4 * d5)) by (unfold q; field; lra).
    assert (QP : 0 <= 2 * PI * q <= 2 * PI).
    { split; [apply Rmult_le_pos; lra|]. rewrite <- (Rmult_1_r (2 * PI)) at 2. apply Rmult_le_compat_l; lra. }
    rewrite TH'. split; [|rewrite Rabs_pos_eq; lra].
    assert (U0 : 0 <= u <= / 16777216) by lra.
    assert (G4 := factor_inv u d4 U0 D4).
    rewrite <- (Rmult_1_l u) in D1, D2, D3, D5.
    assert (G := factor u d1 d2 1 1 (2 + / 1000) U0 ltac:(lra) ltac:(lra) D1 D2 ltac:(lra)).
    assert (G' := factor u _ d3 (2 + / 1000) 1 (3 + 2 / 1000) U0 ltac:(split; lra) ltac:(lra) G D3 ltac:(lra)).
    assert (G'' := factor u _ (/ d4) (3 + 2 / 1000) (1 + / 10000) (4 + 4 / 1000) U0 ltac:(split; lra) ltac:(split; lra) G' G4 ltac:(lra)).
    assert (G3 := factor u _ d5 (4 + 4 / 1000) 1 (5 + 5 / 1000) U0 ltac:(split; lra) ltac:(lra) G'' D5 ltac:(lra)).
    clear G G' G''. set (D := d1 * d2 * d3 * / d4 * d5) in *.
    replace (2 * PI * q * D - 2 * PI * q) with (2 * PI * q * (D - 1)) by ring. rewrite Rabs_mult, (Rabs_pos_eq (2 * PI * q)) by lra.
    apply Rle_trans with (2 * PI * ((5 + 5 / 1000) * u)); [apply Rmult_le_compat; try apply Rabs_pos; lra|].
    assert (PI * u <= 3.1416 * u) by (apply Rmult_le_compat_r; lra). lra.
  Qed.

  (** Cosine of a nearby angle. *)
  Lemma cos_near (x : F) r k : near x r k 19 -> 0 <= k <= 1000 -> near (n_cos O x) (cos r) (k + 2) 1.
  Proof.
    intros H K. assert (X := near_big _ _ _ _ H K). destruct H as [Fx [Dx _]].
    destruct (Hcos x Fx) as [A B]; [cbn [val ieee_view]; lra|]. cbn [fin val fprec ieee_view] in A, B.
    split; [exact A|]. split; [|apply Rabs_le, COS_bound].
    assert (C := cos_lip (B2R x) r).
    assert (E : bpow radix2 (1 - prec) = 2 * u) by (unfold uro; change (1 - prec)%Z with (1 + - prec)%Z; rewrite bpow_plus; reflexivity).
    replace (B2R (n_cos O x) - cos r) with ((B2R (n_cos O x) - cos (B2R x)) + (cos (B2R x) - cos r)) by ring.
    eapply Rle_trans; [apply Rabs_triang|]. lra.
  Qed.
  Lemma near_weaken x r k b k' b' : near x r k b -> k <= k' -> b <= b' -> near x r k' b'.
  Proof.
    intros [A [B C]] H1 H2. split; [exact A|]. assert (U := u_small prec Hp24). split; [|lra].
    eapply Rle_trans; [exact B|]. apply Rmult_le_compat_r; lra.
  Qed.
  Lemma near_const c r b : is_finite (n_of_f64 O c) = true -> Rabs (B2R (n_of_f64 O c) - r) <= u -> Rabs r <= b -> near (n_of_f64 O c) r 1 b.
  Proof. intros A B C. split; [exact A|]. split; [lra|exact C]. Qed.

  Definition lit_near c r k b : Prop := near (n_of_f64 O c) r k b.

  Section One.
    Context (n j : Z) (Hn : (2 <= n <= usize_max)%Z) (Hj : (0 <= j < n)%Z).
    Notation th := (2 * PI * IZR j / (IZR n - 1)).
    Lemma c1 : near (n_cos O (angle n j)) (cos th) 34 1.
    Proof.
      assert (B := pi_20). assert (A := angle_near n j Hn Hj).
      apply (near_weaken _ _ (32 + 2) 1); try lra. apply cos_near; [|lra]. apply (near_weaken _ _ _ _ 32 19 A); lra.
    Qed.
    Lemma c2 : near (n_cos O (n_mul O (n_two O) (angle n j))) (cos (2 * th)) 66 1.
    Proof.
      assert (B := pi_20). assert (A := angle_near n j Hn Hj). assert (A' := near_big _ _ _ _ A ltac:(lra)). destruct A as [A1 [A2 A3]].
      apply (near_weaken _ _ (64 + 2) 1); try lra. apply cos_near; [|lra].
      destruct (twice (angle n j) A1) as [T1 T2]; [lra|].
      split; [exact T1|]. change (n_mul O (n_two O) (angle n j)) with (f_mul prec emax (f_of_Z prec emax 2) (angle n j)). rewrite T2.
      rewrite <- Rmult_minus_distr_l. rewrite (Rabs_mult 2), (Rabs_mult 2 th), (Rabs_pos_eq 2) by lra. lra.
    Qed.
    Lemma c3 : lit_near (F64lit 3 1) 3 0 3 -> near (n_cos O (n_mul O (n_of_f64 O (F64lit 3 1)) (angle n j))) (cos (3 * th)) 119 1.
    Proof.
      intros L. assert (B := pi_20). assert (A := angle_near n j Hn Hj).
      apply (near_weaken _ _ (117 + 2) 1); try lra. apply cos_near; [|lra].
      apply (near_weaken _ _ 117 (3 * (2 * PI))); try lra.
      apply (near_mul _ _ 3 th 0 32 3 (2 * PI) 117 L A); lra.
    Qed.
    Lemma one_near : near (n_one O) 1 0 1.
    Proof.
      destruct (fone_correct prec emax) as [O1 [O2 _]]. split; [exact O2|]. change (n_one O) with (f_of_Z prec emax 1).
      rewrite O1, Rminus_diag_eq, Rabs_R0 by reflexivity. split; [lra|rewrite Rabs_R1; lra].
    Qed.
    Definition good k : Prop :=
      is_finite (win_val O k n j) = true /\ Rabs (B2R (win_val O k n j) - textbook k (IZR n) (IZR j)) <= window_error k * u.

    Lemma hann_near : lit_near (F64lit 5 10) 0.5 0 0.5 -> good WHann.
    Proof.
      intros L. assert (C := c1). assert (One := one_near). unfold good, win_val, textbook. fold (angle n j).
      assert (K := COS_bound th).
      destruct (near_sum _ _ _ _ _ _ _ _ (36 + / 1000) 2 One C) as [_ S]; try lra.
      specialize (S ltac:(apply Rabs_le; lra) ltac:(lra)).
      destruct (near_mul _ _ _ _ _ _ _ _ 20 L S ltac:(lra) ltac:(split; lra) ltac:(lra) ltac:(lra) ltac:(lra)) as [M1 [M2 _]].
      split; [exact M1|]. replace (0.5 - 0.5 * cos th) with (0.5 * (1 - cos th)) by ring. exact M2.
    Qed.
    Lemma hamming_near : lit_near (F64lit 54 100) 0.54 1 0.54 -> good WHamming.
    Proof.
      intros L. assert (C := c1). assert (One := one_near). unfold good, win_val, textbook. fold (angle n j).
      assert (K := COS_bound th).
      destruct (near_sum _ _ _ _ _ _ _ _ 2 0.46 One L) as [_ S]; try lra.
      specialize (S ltac:(apply Rabs_le; lra) ltac:(lra)).
      replace (1 - 0.54) with 0.46 in S by lra.
      assert (M := near_mul _ _ _ _ _ _ _ _ 19 S C ltac:(lra) ltac:(split; lra) ltac:(lra) ltac:(lra) ltac:(lra)).
      destruct (near_sum _ _ _ _ _ _ _ _ 22 1 L M) as [_ [N1 [N2 _]]]; try lra; [apply Rabs_le; lra|].
      split; [exact N1|exact N2].
    Qed.
    Lemma blackman_near : lit_near (F64div (F64sub (F64lit 1 1) (F64lit 16 100)) (F64lit 2 1)) 0.42 1 0.42 ->
      lit_near (F64lit 5 10) 0.5 0 0.5 -> lit_near (F64div (F64lit 16 100) (F64lit 2 1)) 0.08 1 0.08 -> good WBlackman.
    Proof.
      intros L0 L1 L2. assert (C1 := c1). assert (C2 := c2). unfold good, win_val, textbook. fold (angle n j).
      assert (K1 := COS_bound th). assert (K2 := COS_bound (2 * th)).
      assert (M1 := near_mul _ _ _ _ _ _ _ _ 17.6 L1 C1 ltac:(lra) ltac:(split; lra) ltac:(lra) ltac:(lra) ltac:(lra)).
      assert (M2 := near_mul _ _ _ _ _ _ _ _ 6.5 L2 C2 ltac:(lra) ltac:(split; lra) ltac:(lra) ltac:(lra) ltac:(lra)).
      destruct (near_sum _ _ _ _ _ _ _ _ 19.7 0.92 L0 M1) as [_ S]; try lra.
      specialize (S ltac:(apply Rabs_le; lra) ltac:(lra)).
      destruct (near_sum _ _ _ _ _ _ _ _ 30 1 S M2) as [[N1 [N2 _]] _]; try lra; [apply Rabs_le; lra|].
      split; [exact N1|exact N2].
    Qed.
    Lemma blackman_harris_near : lit_near (F64lit 35875 100000) 0.35875 1 0.35875 -> lit_near (F64lit 48829 100000) 0.48829 1 0.48829 ->
      lit_near (F64lit 14128 100000) 0.14128 1 0.14128 -> lit_near (F64lit 1168 100000) 0.01168 1 0.01168 -> lit_near (F64lit 3 1) 3 0 3 -> good WBlackmanHarris.
    Proof.
      intros L0 L1 L2 L3 L4. assert (C1 := c1). assert (C2 := c2). assert (C3 := c3 L4). unfold good, win_val, textbook. fold (angle n j).
      assert (K1 := COS_bound th). assert (K2 := COS_bound (2 * th)). assert (K3 := COS_bound (3 * th)).
      assert (M1 := near_mul _ _ _ _ _ _ _ _ 18.2 L1 C1 ltac:(lra) ltac:(split; lra) ltac:(lra) ltac:(lra) ltac:(lra)).
      assert (M2 := near_mul _ _ _ _ _ _ _ _ 10.6 L2 C2 ltac:(lra) ltac:(split; lra) ltac:(lra) ltac:(lra) ltac:(lra)).
      assert (M3 := near_mul _ _ _ _ _ _ _ _ 2.5 L3 C3 ltac:(lra) ltac:(split; lra) ltac:(lra) ltac:(lra) ltac:(lra)).
      destruct (near_sum _ _ _ _ _ _ _ _ 20.2 0.85 L0 M1) as [_ S]; try lra.
      specialize (S ltac:(apply Rabs_le; lra) ltac:(lra)).
      destruct (near_sum _ _ _ _ _ _ _ _ 32 1 S M2) as [S2 _]; try lra.
      specialize (S2 ltac:(apply Rabs_le; lra) ltac:(lra)).
      destruct (near_sum _ _ _ _ _ _ _ _ 40 1.1 S2 M3) as [_ [N1 [N2 _]]]; try lra; [apply Rabs_le; lra|].
      split; [exact N1|exact N2].
    Qed.
  End One.
End F.
