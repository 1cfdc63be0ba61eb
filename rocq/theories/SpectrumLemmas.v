(** Proofs of C100. *)
From Coq Require Import ZArith Reals List Bool Lra Lia.
From Verif Require Import Base Num NumR WindowM WinSpec WinFacts WinLemmas SpectrumSpec.
Import ListNotations.
Open Scope R_scope.

(*@PROP
(** Property C100: windows in spectral analysis, in exact arithmetic.

    Vocabulary: [apply_window R_ops p xs w] is the slice after the call ([WindowM]);
    [yields R_ops k p n i g] says that the iterator made by [new(n)] yields [g] as
    sample number [i]; [terms], [end_value], [total] are in [WinSpec]; [tone],
    [correlate], [bin_gain], [window_sum], [window_energy] in [SpectrumSpec]. *)
From Coq Require Import ZArith Reals List Bool Lra Lia.
From Verif Require Import Base Num NumR WindowM WinSpec SpectrumSpec SpectrumLemmas.
Import ListNotations.
Open Scope R_scope.

@*)

(** *** Sums of cosines over whole cycles *)
Definition circ (N : nat) (q : Z) (a : R) : R := total (fun i => cos (a + INR i * (2 * PI * IZR q / INR N))) N.

Lemma circ_0 N a : circ N 0 a = INR N * cos a.
Proof.
  unfold circ. rewrite (total_ext _ (fun _ => cos a)), total_const; [reflexivity|].
  intros j _. f_equal. unfold Rdiv. ring.
Qed.

Lemma circ_zero N q a : (q <> 0)%Z -> (- Z.of_nat N < q < Z.of_nat N)%Z -> circ N q a = 0.
Proof.
  intros H0 H. unfold circ. destruct (Z_lt_le_dec 0 q) as [P|P].
  - rewrite (total_ext _ (fun j => cos (a + INR j * (2 * PI * INR (Z.to_nat q) / INR N)))).
    + apply sum_cos_zero. lia.
    + intros j _. rewrite (INR_IZR_INZ (Z.to_nat q)), Z2Nat.id by lia. reflexivity.
  - rewrite (total_ext _ (fun j => cos (- a + INR j * (2 * PI * INR (Z.to_nat (- q)) / INR N)))).
    + apply sum_cos_zero. lia.
    + intros j _. rewrite (INR_IZR_INZ (Z.to_nat (- q))), Z2Nat.id, opp_IZR by lia. rewrite <- cos_neg. f_equal.
      unfold Rdiv. ring.
Qed.

Lemma cos_cos a b : cos a * cos b = (cos (a + b) + cos (a - b)) / 2.
Proof. rewrite cos_plus, cos_minus. field. Qed.

(** The sum of cos(t.) cos(q. + a) over whole cycles. *)
Lemma circ_prod N t q a : (0 < N)%nat ->
  total (fun i => cos (INR i * (2 * PI * IZR t / INR N)) * cos (a + INR i * (2 * PI * IZR q / INR N))) N
  = (circ N (q + t) a + circ N (q - t) a) / 2.
Proof.
  intros HN. assert (0 < INR N) by (apply lt_0_INR, HN).
  unfold circ. rewrite <- total_plus.
  match goal with |- _ = total ?f N / 2 => replace (total f N / 2) with (/ 2 * total f N) by field end.
  rewrite <- total_scal. apply total_ext. intros j _.
  rewrite Rmult_comm, cos_cos, plus_IZR, minus_IZR.
  replace (INR j * (2 * PI * (IZR q + IZR t) / INR N)) with (INR j * (2 * PI * IZR q / INR N) + INR j * (2 * PI * IZR t / INR N)) by (field; lra).
  replace (INR j * (2 * PI * (IZR q - IZR t) / INR N)) with (INR j * (2 * PI * IZR q / INR N) - INR j * (2 * PI * IZR t / INR N)) by (field; lra).
  rewrite <- Rplus_assoc. replace (a + (INR j * (2 * PI * IZR q / INR N) - INR j * (2 * PI * IZR t / INR N)))
    with (a + INR j * (2 * PI * IZR q / INR N) - INR j * (2 * PI * IZR t / INR N)) by ring. lra.
Qed.

(** Coefficients of the window as a sum of cosines. *)
Definition coef (k : win_kind) (t : nat) : R := match t with 0%nat => bin_gain k 0 | _ => 2 * bin_gain k t end.

Lemma textbook_coef k N i : is_cos k -> (0 < N)%nat ->
  textbook k (INR (N + 1)) (INR i)
  = coef k 0 * cos (INR i * (2 * PI * IZR 0 / INR N)) + coef k 1 * cos (INR i * (2 * PI * IZR 1 / INR N))
    + coef k 2 * cos (INR i * (2 * PI * IZR 2 / INR N)) + coef k 3 * cos (INR i * (2 * PI * IZR 3 / INR N)).
Proof.
  intros Hk HN. assert (P : 0 < INR N) by (apply lt_0_INR, HN).
  rewrite plus_INR. cbn [INR].
  replace (INR i * (2 * PI * 0 / INR N)) with 0 by (field; lra). rewrite cos_0.
  destruct k; try contradiction; cbn [textbook coef bin_gain];
    replace (2 * PI * INR i / (INR N + 1 - 1)) with (INR i * (2 * PI * 1 / INR N)) by (field; lra);
    try replace (2 * (INR i * (2 * PI * 1 / INR N))) with (INR i * (2 * PI * 2 / INR N)) by (field; lra);
    try replace (3 * (INR i * (2 * PI * 1 / INR N))) with (INR i * (2 * PI * 3 / INR N)) by (field; lra); lra.
Qed.

Lemma coef_terms k t : (terms k < t)%nat -> coef k t = 0.
Proof. intros H. destruct k, t as [|[|[|[|t]]]]; cbn in *; try lia; lra. Qed.

(** A window times a tone, summed over whole cycles. *)
Lemma window_circ k N q a : is_cos k -> (0 < N)%nat ->
  total (fun i => textbook k (INR (N + 1)) (INR i) * cos (a + INR i * (2 * PI * IZR q / INR N))) N
  = coef k 0 * circ N q a + coef k 1 * ((circ N (q + 1) a + circ N (q - 1) a) / 2)
    + coef k 2 * ((circ N (q + 2) a + circ N (q - 2) a) / 2) + coef k 3 * ((circ N (q + 3) a + circ N (q - 3) a) / 2).
Proof.
  intros Hk HN. rewrite <- !circ_prod by exact HN.
  assert (E0 := circ_prod N 0 q a HN). replace (q + 0)%Z with q in E0 by ring. replace (q - 0)%Z with q in E0 by ring.
  replace (circ N q a) with ((circ N q a + circ N q a) / 2) by field. rewrite <- E0.
  rewrite <- !total_scal, <- !total_plus. apply total_ext. intros j _.
  rewrite textbook_coef by assumption. ring.
Qed.

Ltac circs := repeat match goal with |- context [circ ?N ?q ?a] => rewrite (circ_zero N q a) by lia end.

Ltac nums := repeat match goal with
  | |- context [Z.abs_nat ?q] => let v := eval vm_compute in (Z.abs_nat q) in change (Z.abs_nat q) with v
  | |- context [(?q + ?t)%Z] => let v := eval vm_compute in (q + t)%Z in change (q + t)%Z with v
  | |- context [(?q - ?t)%Z] => let v := eval vm_compute in (q - t)%Z in change (q - t)%Z with v end.

(** The window sum of a tone at distance q from a tone: [bin_gain]. *)
Lemma window_circ_far k N q a : is_cos k -> (Z.of_nat (terms k) < Z.abs q < Z.of_nat N - Z.of_nat (terms k))%Z ->
  total (fun i => textbook k (INR (N + 1)) (INR i) * cos (a + INR i * (2 * PI * IZR q / INR N))) N = 0.
Proof.
  intros Hk H. rewrite window_circ by (assumption || lia).
  destruct k; try contradiction; cbn [terms] in H; cbn [coef bin_gain]; circs; lra.
Qed.

Lemma window_circ_near k N q a : is_cos k -> (Z.abs q <= Z.of_nat (terms k))%Z -> (2 * terms k < N)%nat ->
  total (fun i => textbook k (INR (N + 1)) (INR i) * cos (a + INR i * (2 * PI * IZR q / INR N))) N
  = INR N * bin_gain k (Z.abs_nat q) * cos a.
Proof.
  intros Hk H HN. rewrite window_circ by (assumption || lia).
  assert (Q : (q = -3 \/ q = -2 \/ q = -1 \/ q = 0 \/ q = 1 \/ q = 2 \/ q = 3)%Z) by (destruct k; cbn [terms] in H; lia).
  destruct k; try contradiction; cbn [terms] in H, HN;
  destruct Q as [Q|[Q|[Q|[Q|[Q|[Q|Q]]]]]]; subst q; try lia; nums; cbn [coef bin_gain];
  rewrite ?circ_0; circs; lra.
Qed.

Lemma cosine_is_cos w k : cosine_window w k -> is_cos k.
Proof. intros [_ [A B]]. destruct k; try exact I; contradiction. Qed.

Lemma ends_textbook k N : is_cos k -> (0 < N)%nat -> textbook k (INR (N + 1)) (INR N) = end_value k (INR (N + 1)).
Proof.
  intros Hk HN. assert (P : 0 < INR N) by (apply lt_0_INR, HN). rewrite plus_INR. cbn [INR].
  assert (E : cos (2 * PI * INR N / (INR N + 1 - 1)) = 1).
  { replace (2 * PI * INR N / (INR N + 1 - 1)) with (0 + 2 * INR 1 * PI) by (cbn; field; lra). rewrite cos_period. apply cos_0. }
  assert (E2 : cos (2 * (2 * PI * INR N / (INR N + 1 - 1))) = 1).
  { replace (2 * (2 * PI * INR N / (INR N + 1 - 1))) with (0 + 2 * INR 2 * PI) by (cbn; field; lra). rewrite cos_period. apply cos_0. }
  assert (E3 : cos (3 * (2 * PI * INR N / (INR N + 1 - 1))) = 1).
  { replace (3 * (2 * PI * INR N / (INR N + 1 - 1))) with (0 + 2 * INR 3 * PI) by (cbn; field; lra). rewrite cos_period. apply cos_0. }
  destruct k; try contradiction; cbn [textbook end_value]; rewrite ?E, ?E2, ?E3; lra.
Qed.

Lemma cos_cycles N m a : (0 < N)%nat -> cos (bin_phase N m N + a) = cos a.
Proof.
  intros HN. assert (P : 0 < INR N) by (apply lt_0_INR, HN). unfold bin_phase.
  replace (2 * PI * INR m * INR N / INR N + a) with (a + 2 * INR m * PI) by (field; lra). apply cos_period.
Qed.

Lemma apply_tone w k p N m A phi : cosine_window w k -> (0 < N)%nat -> (Z.of_nat (N + 1) <= usize_max)%Z ->
  exists ys, apply_window R_ops p (tone N m A phi (N + 1)) w = Ok ys /\ length ys = (N + 1)%nat
   /\ forall i, (i < N + 1)%nat -> nth i ys 0 = textbook k (INR (N + 1)) (INR i) * (A * cos (bin_phase N m i + phi)).
Proof.
  intros [Hw [K1 K2]] HN Hs. set (xs := tone N m A phi (N + 1)).
  assert (Lx : length xs = (N + 1)%nat) by (unfold xs, tone; rewrite map_length, seq_length; reflexivity).
  assert (Vx : vlen xs = Z.of_nat (N + 1)) by (unfold vlen; rewrite Lx; reflexivity).
  destruct (C59_apply_window_thm R R_ops p xs w) as [ys [E [Ly H]]].
  { rewrite Vx. unfold is_size. lia. }
  exists ys. split; [exact E|]. split; [congruence|]. intros i Hi. rewrite Hw in H.
  destruct (H i (A * cos (bin_phase N m i + phi))) as [g [Hg Hn]].
  { unfold xs, tone. rewrite nth_error_map, nth_error_nth' with (d := 0%nat) by (rewrite seq_length; exact Hi).
    rewrite seq_nth by exact Hi. reflexivity. }
  rewrite (nth_error_nth _ _ 0 Hn). cbn [n_mul R_ops]. f_equal.
  rewrite Vx in Hg. destruct (yieldsR k p (Z.of_nat (N + 1)) i g) as [_ [_ [_ [_ [_ [_ Eg]]]]]].
  { destruct k; cbn [min_size]; lia. } { exact Hg. }
  rewrite Eg. rewrite <- INR_IZR_INZ. reflexivity.
Qed.

(** C100: apply a cosine window to a tone in bin [m] and correlate with the tone in bin
    [j] (neither near 0 nor near half the sample rate): what comes out is the tone
    times [bin_gain] of the distance of the bins, plus the product of the two
    windowed end samples, which is zero for Hann and Blackman. *)
Lemma C100_tone_spectrum_thm :
  forall (w : window) (k : win_kind) (p : profile) (N m j : nat) (A phi psi : R),
    cosine_window w k -> (Z.of_nat (N + 1) <= usize_max)%Z ->
    (terms k < m + j)%nat -> (m + j + terms k < N)%nat ->
    exists ys, apply_window R_ops p (tone N m A phi (N + 1)) w = Ok ys
      /\ correlate N j psi ys
         = A * (INR N / 2) * bin_gain k (distance m j) * cos (phi - psi)
           + end_value k (INR (N + 1)) * (A * cos phi) * cos psi.
Proof.
  intros w k p N m j A phi psi Hw Hs H1 H2.
  assert (Hk := cosine_is_cos w k Hw). assert (HN : (0 < N)%nat) by lia. assert (P : 0 < INR N) by (apply lt_0_INR, HN).
  destruct (apply_tone w k p N m A phi Hw HN Hs) as [ys [E [L H]]].
  exists ys. split; [exact E|]. unfold correlate. rewrite L. replace (N + 1)%nat with (S N) by lia. cbn [total].
  rewrite H by lia. rewrite ends_textbook, !cos_cycles by assumption. replace (S N) with (N + 1)%nat by lia. f_equal.
  rewrite (total_ext _ (fun i => A / 2 * (
      textbook k (INR (N + 1)) (INR i) * cos ((phi - psi) + INR i * (2 * PI * IZR (Z.of_nat m - Z.of_nat j) / INR N))
      + textbook k (INR (N + 1)) (INR i) * cos ((phi + psi) + INR i * (2 * PI * IZR (Z.of_nat m + Z.of_nat j) / INR N))))).
  2:{ intros i Hi. rewrite H by lia. rewrite minus_IZR, plus_IZR, <- !INR_IZR_INZ. unfold bin_phase.
      replace (phi - psi + INR i * (2 * PI * (INR m - INR j) / INR N))
        with ((2 * PI * INR m * INR i / INR N + phi) - (2 * PI * INR j * INR i / INR N + psi)) by (field; lra).
      replace (phi + psi + INR i * (2 * PI * (INR m + INR j) / INR N))
        with ((2 * PI * INR m * INR i / INR N + phi) + (2 * PI * INR j * INR i / INR N + psi)) by (field; lra).
      replace (textbook k (INR (N + 1)) (INR i) * (A * cos (2 * PI * INR m * INR i / INR N + phi)) * cos (2 * PI * INR j * INR i / INR N + psi))
        with (A * textbook k (INR (N + 1)) (INR i) * (cos (2 * PI * INR m * INR i / INR N + phi) * cos (2 * PI * INR j * INR i / INR N + psi))) by ring.
      rewrite cos_cos. field. }
  rewrite total_scal, total_plus.
  rewrite (window_circ_far k N (Z.of_nat m + Z.of_nat j)) by (assumption || lia).
  destruct (le_lt_dec (distance m j) (terms k)) as [D|D]; unfold distance in *.
  - rewrite window_circ_near by (assumption || lia).
    replace (Z.abs_nat (Z.of_nat m - Z.of_nat j)) with (m - j + (j - m))%nat by lia. field.
  - rewrite window_circ_far by (assumption || lia).
    assert (Z0 : bin_gain k (m - j + (j - m)) = 0).
    { assert (C := coef_terms k _ D). unfold coef in C. destruct (m - j + (j - m))%nat eqn:Ed; [lia|lra]. }
    rewrite Z0. ring.
Qed.

(** C100: so a Hann, Hamming, Blackman or Blackman-Harris window leaks a tone in the
    middle of a bin only 1, 1, 2 or 3 bins far: beyond, nothing is left but the
    product of the end samples. *)
Lemma C100_leakage_thm :
  forall (w : window) (k : win_kind) (p : profile) (N m j : nat) (A phi psi : R),
    cosine_window w k -> (Z.of_nat (N + 1) <= usize_max)%Z ->
    (terms k < m + j)%nat -> (m + j + terms k < N)%nat -> (terms k < distance m j)%nat ->
    exists ys, apply_window R_ops p (tone N m A phi (N + 1)) w = Ok ys
      /\ correlate N j psi ys = end_value k (INR (N + 1)) * (A * cos phi) * cos psi.
Proof.
  intros w k p N m j A phi psi Hw Hs H1 H2 H3.
  destruct (C100_tone_spectrum_thm w k p N m j A phi psi Hw Hs H1 H2) as [ys [E H]].
  exists ys. split; [exact E|]. rewrite H. assert (C := coef_terms k _ H3). unfold coef in C.
  destruct (distance m j); [lia|]. replace (bin_gain k (S n)) with 0 by lra. ring.
Qed.

(*@PROP
(** A tone of bin 10 in a Blackman window of 513 samples, seen in bins 11 and 100. *)
Example C100_tone_hyps :
  cosine_window Blackman WBlackman /\ (Z.of_nat (512 + 1) <= usize_max)%Z
  /\ (terms WBlackman < 10 + 11)%nat /\ (10 + 11 + terms WBlackman < 512)%nat /\ distance 10 11 = 1%nat
  /\ (terms WBlackman < 10 + 100)%nat /\ (10 + 100 + terms WBlackman < 512)%nat /\ (terms WBlackman < distance 10 100)%nat.
Proof. exact C100_wit. Qed.
@*)
Lemma C100_wit :
  cosine_window Blackman WBlackman /\ (Z.of_nat (512 + 1) <= usize_max)%Z
  /\ (terms WBlackman < 10 + 11)%nat /\ (10 + 11 + terms WBlackman < 512)%nat /\ distance 10 11 = 1%nat
  /\ (terms WBlackman < 10 + 100)%nat /\ (10 + 100 + terms WBlackman < 512)%nat /\ (terms WBlackman < distance 10 100)%nat.
Proof.
  split; [split; [reflexivity|split; discriminate]|]. split; [vm_compute; discriminate|].
  unfold distance. cbn [terms]. lia.
Qed.

(** *** Sums over a window *)
Lemma total_first f m : total f (S m) = f 0%nat + total (fun i => f (S i)) m.
Proof. induction m as [|m IH]; [cbn; ring|]. cbn [total] in *. rewrite IH. ring. Qed.

(** Distances from the middle, doubled. *)
Definition off (n i : nat) : R := Rabs (2 * INR i - (INR n - 1)).

Lemma off_shift n i : off (S (S n)) (S i) = off n i.
Proof. unfold off. rewrite !S_INR. f_equal. ring. Qed.

Lemma off_ends n : off (S (S n)) 0 = INR n + 1 /\ off (S (S n)) (S n) = INR n + 1.
Proof.
  unfold off. rewrite !S_INR. assert (0 <= INR n) by apply pos_INR. split.
  - cbn [INR]. rewrite Rabs_left by lra. ring.
  - rewrite Rabs_pos_eq by lra. ring.
Qed.

Lemma odd_SS n : odd_part (S (S n)) = odd_part n.
Proof. unfold odd_part. rewrite Nat.odd_succ_succ. reflexivity. Qed.

Lemma off_total n : total (off n) n = (INR n * INR n - odd_part n) / 2 /\ total (fun i => off n i * off n i) n = INR n * (INR n * INR n - 1) / 3.
Proof.
  enough (H : forall n, (total (off n) n = (INR n * INR n - odd_part n) / 2 /\ total (fun i => off n i * off n i) n = INR n * (INR n * INR n - 1) / 3)
    /\ (total (off (S n)) (S n) = (INR (S n) * INR (S n) - odd_part (S n)) / 2
        /\ total (fun i => off (S n) i * off (S n) i) (S n) = INR (S n) * (INR (S n) * INR (S n) - 1) / 3)) by apply H.
  clear n. induction n as [|n [[A B] C]].
  - split; split; cbn; unfold off, odd_part; cbn; try lra.
    all: replace (2 * 0 - (1 - 1)) with 0 by ring; rewrite Rabs_R0; lra.
  - split; [exact C|]. clear C. destruct (off_ends n) as [E1 E2]. rewrite odd_SS. split.
    + cbn [total]. change (total (off (S (S n))) n + off (S (S n)) n) with (total (off (S (S n))) (S n)).
      rewrite total_first, E1, E2, (total_ext _ (off n)) by (intros; apply off_shift). rewrite A, !S_INR. field.
    + change (total (fun i => off (S (S n)) i * off (S (S n)) i) (S n) + off (S (S n)) (S n) * off (S (S n)) (S n)
        = INR (S (S n)) * (INR (S (S n)) * INR (S (S n)) - 1) / 3).
      rewrite total_first, E1, E2, (total_ext _ (fun i => off n i * off n i)) by (intros; rewrite off_shift; reflexivity).
      rewrite B, !S_INR. field.
Qed.

Lemma textbook_off k n i : k = WTriangular \/ k = WBartlett -> (1 <= INR n) -> (k = WBartlett -> 1 < INR n) ->
  textbook k (INR n) (INR i) = 1 - / (match k with WTriangular => INR n | _ => INR n - 1 end) * off n i.
Proof.
  intros Hk H1 H2. unfold off.
  destruct Hk as [-> | ->]; cbn [textbook].
  - replace ((INR i - (INR n - 1) / 2) / (INR n / 2)) with (/ INR n * (2 * INR i - (INR n - 1))) by (field; lra).
    rewrite Rabs_mult, (Rabs_pos_eq (/ INR n)); [ring|]. left. apply Rinv_0_lt_compat. lra.
  - specialize (H2 eq_refl).
    replace ((INR i - (INR n - 1) / 2) / ((INR n - 1) / 2)) with (/ (INR n - 1) * (2 * INR i - (INR n - 1))) by (field; lra).
    rewrite Rabs_mult, (Rabs_pos_eq (/ (INR n - 1))); [ring|]. left. apply Rinv_0_lt_compat. lra.
Qed.

Lemma sums_off (c : R) n : total (fun i => 1 - c * off n i) n = INR n - c * ((INR n * INR n - odd_part n) / 2)
  /\ total (fun i => (1 - c * off n i) ^ 2) n = INR n - 2 * c * ((INR n * INR n - odd_part n) / 2) + c * c * (INR n * (INR n * INR n - 1) / 3).
Proof.
  destruct (off_total n) as [A B]. rewrite <- A, <- B. split.
  - rewrite (total_ext _ (fun i => 1 + - c * off n i)) by (intros; ring). rewrite total_plus, total_scal, total_const. ring.
  - rewrite (total_ext _ (fun i => (1 + (- 2 * c) * off n i) + (c * c) * (off n i * off n i))) by (intros; ring).
    rewrite !total_plus, !total_scal, total_const. ring.
Qed.

(** The square of a cosine window, summed over whole cycles. *)
Lemma window_square k N : is_cos k -> (2 * terms k < N)%nat ->
  total (fun i => textbook k (INR (N + 1)) (INR i) ^ 2) N
  = (mean k ^ 2 + 2 * (bin_gain k 1 ^ 2 + bin_gain k 2 ^ 2 + bin_gain k 3 ^ 2)) * INR N.
Proof.
  intros Hk HN. assert (P : (0 < N)%nat) by lia.
  set (W := fun i => textbook k (INR (N + 1)) (INR i)).
  assert (K : forall t, (Z.abs t <= Z.of_nat (terms k))%Z -> total (fun i => W i * cos (INR i * (2 * PI * IZR t / INR N))) N = INR N * bin_gain k (Z.abs_nat t)).
  { intros t Ht. rewrite <- (Rmult_1_r (INR N * _)), <- cos_0, <- (window_circ_near k N t 0 Hk Ht HN).
    apply total_ext. intros i _. rewrite Rplus_0_l. reflexivity. }
  assert (C : forall t : nat, coef k t * total (fun i => W i * cos (INR i * (2 * PI * IZR (Z.of_nat t) / INR N))) N
                 = coef k t * (INR N * bin_gain k t)).
  { intros t. destruct (le_lt_dec t (terms k)) as [L|L].
    - rewrite K by lia. replace (Z.abs_nat (Z.of_nat t)) with t by lia. reflexivity.
    - rewrite coef_terms by exact L. ring. }
  rewrite (total_ext _ (fun i => coef k 0 * (W i * cos (INR i * (2 * PI * IZR (Z.of_nat 0) / INR N)))
       + coef k 1 * (W i * cos (INR i * (2 * PI * IZR (Z.of_nat 1) / INR N)))
       + coef k 2 * (W i * cos (INR i * (2 * PI * IZR (Z.of_nat 2) / INR N)))
       + coef k 3 * (W i * cos (INR i * (2 * PI * IZR (Z.of_nat 3) / INR N))))).
  2:{ intros i _. unfold W. rewrite <- Rsqr_pow2. unfold Rsqr.
      rewrite (textbook_coef k N i Hk P) at 2. cbn [Z.of_nat Pos.of_succ_nat Pos.succ]. ring. }
  rewrite !total_plus, !total_scal, !C.
  destruct k; try contradiction; cbn [coef bin_gain mean]; lra.
Qed.

Lemma yields_total k p n g (f : R -> R) :
  (min_size k <= Z.of_nat n <= usize_max)%Z -> (forall i, (i < n)%nat -> yields R_ops k p (Z.of_nat n) i (g i)) ->
  total (fun i => f (g i)) n = total (fun i => f (textbook k (INR n) (INR i))) n.
Proof.
  intros Hn H. apply total_ext. intros i Hi. destruct (yieldsR _ _ _ _ _ Hn (H i Hi)) as [_ [_ [_ [_ [_ [_ E]]]]]].
  rewrite E, <- INR_IZR_INZ. reflexivity.
Qed.

(** C100: the sum of a window's samples (its gain for a constant signal), and the sum of
    their squares (its gain for the power of white noise), for every size of which
    the cosine windows make sense of all their terms. *)
Lemma C100_window_sums_thm :
  forall (k : win_kind) (p : profile) (n : nat) (g : nat -> R),
    (min_size k <= Z.of_nat n <= usize_max)%Z ->
    (forall i, (i < n)%nat -> yields R_ops k p (Z.of_nat n) i (g i)) ->
    ((terms k + 1 < n)%nat \/ terms k = 0%nat -> total g n = window_sum k n)
    /\ ((2 * terms k + 1 < n)%nat \/ terms k = 0%nat -> total (fun i => g i ^ 2) n = window_energy k n).
Proof.
  intros k p n g Hn H.
  assert (T1 := yields_total k p n g (fun x => x) Hn H). cbv beta in T1. assert (T2 := yields_total k p n g (fun x => x ^ 2) Hn H). cbv beta in T2.
  change (total (fun i => g i) n) with (total g n) in T1. rewrite T1, T2. clear T1 T2 H.
  assert (n1 : 1 <= INR n) by (change 1 with (INR 1); apply le_INR; destruct k; cbn [min_size] in Hn; lia).
  assert (Lin : k = WTriangular \/ k = WBartlett -> total (fun i => textbook k (INR n) (INR i)) n = window_sum k n
             /\ total (fun i => textbook k (INR n) (INR i) ^ 2) n = window_energy k n).
  { intros Hk. assert (n2 : k = WBartlett -> 1 < INR n).
    { intros ->. change 1 with (INR 1). apply lt_INR. cbn [min_size] in Hn. lia. }
    destruct (sums_off (/ match k with WTriangular => INR n | _ => INR n - 1 end) n) as [S1 S2]. split.
    - rewrite (total_ext _ _ n (fun i _ => textbook_off k n i Hk n1 n2)), S1.
      destruct Hk as [-> | ->]; cbn [window_sum]; [field; lra|]. specialize (n2 eq_refl). field; lra.
    - rewrite (total_ext _ (fun i => (1 - / match k with WTriangular => INR n | _ => INR n - 1 end * off n i) ^ 2)).
      2:{ intros i _. rewrite textbook_off by assumption. reflexivity. }
      rewrite S2. destruct Hk as [-> | ->]; cbn [window_energy]; [field; lra|]. specialize (n2 eq_refl). field; lra. }
  assert (Cos : is_cos k -> ((terms k + 1 < n)%nat -> total (fun i => textbook k (INR n) (INR i)) n = mean k * (INR n - 1) + end_value k (INR n))
     /\ ((2 * terms k + 1 < n)%nat -> total (fun i => textbook k (INR n) (INR i) ^ 2) n
         = (mean k ^ 2 + 2 * (bin_gain k 1 ^ 2 + bin_gain k 2 ^ 2 + bin_gain k 3 ^ 2)) * (INR n - 1) + end_value k (INR n) ^ 2)).
  { intros Hk. destruct n as [|N]; [cbn in n1; lra|].
    replace (INR (S N) - 1) with (INR N) by (rewrite S_INR; ring).
    cbn [total]. replace (S N) with (N + 1)%nat by lia. split; intros L.
    - rewrite ends_textbook by (assumption || lia). f_equal.
      rewrite (total_ext _ (fun i => textbook k (INR (N + 1)) (INR i) * cos (0 + INR i * (2 * PI * IZR 0 / INR N)))).
      2:{ intros i Hi. replace (0 + INR i * (2 * PI * 0 / INR N)) with 0; [rewrite cos_0; ring|].
          assert (0 < INR N) by (apply lt_0_INR; lia). field. lra. }
      rewrite window_circ by (assumption || lia). cbn [Z.add Z.sub Z.opp]. rewrite circ_0, cos_0.
      destruct k; try contradiction; cbn [terms] in L; cbn [coef bin_gain mean]; circs; lra.
    - rewrite ends_textbook by (assumption || lia). f_equal. apply window_square; [exact Hk|lia]. }
  destruct k; cbn [terms] in *; (split; (intros [L|L]; [|try discriminate L]));
    first [apply Lin; auto; fail | apply Cos; [exact I|exact L]].
Qed.

(*@PROP
Example C100_sums_hyps :
  (min_size WHann <= Z.of_nat 4 <= usize_max)%Z
  /\ (exists g, forall i, (i < 4)%nat -> yields R_ops WHann Debug (Z.of_nat 4) i (g i))
  /\ (2 * terms WHann + 1 < 4)%nat.
Proof. exact C100_wit2. Qed.
@*)
Lemma C100_wit2 :
  (min_size WHann <= Z.of_nat 4 <= usize_max)%Z
  /\ (exists g, forall i, (i < 4)%nat -> yields R_ops WHann Debug (Z.of_nat 4) i (g i))
  /\ (2 * terms WHann + 1 < 4)%nat.
Proof.
  split; [vm_compute; split; discriminate|]. split; [|cbn; lia].
  exists (fun i => match nexts R_ops WHann Debug (win_new WHann 4) (i + 1) with
                   | Ok (_, rs) => match nth_error rs i with Some (Some g) => g | _ => 0 end | _ => 0 end).
  intros i Hi. destruct i as [|[|[|[|i]]]]; [| | | |lia]; eexists; eexists; split; reflexivity.
Qed.
