(** Lemmas behind property C109.  The [@PROP] blocks are copied into [PropOla.v]. *)
(*@PROP
(** Property C109: overlap-add resynthesis with the windows, in exact arithmetic.

    Vocabulary: [OlaSpec] ([overlap_add], [strength]); [cosine_window w k]: [w] is Hann,
    Hamming, Blackman or BlackmanHarris ([SpectrumSpec]); [terms], [end_value] ([WinSpec]). *)
From Coq Require Import ZArith Reals List Bool Lra Lia.
From Verif Require Import Base Num NumR WindowM WinSpec SpectrumSpec OlaSpec OlaLemmas.
Import ListNotations.
Open Scope R_scope.
@*)
From Coq Require Import ZArith Reals List Bool Lra Lia Arith.
From Verif Require Import Base Num NumR WindowM WinSpec WinFacts WinLemmas SpectrumSpec SpectrumLemmas OlaSpec.
Import ListNotations.
Open Scope R_scope.

(** ** One frame *)
Lemma win_once w k p xs : window_iter w = Some k -> (min_size k <= Z.of_nat (length xs) <= usize_max)%Z ->
  exists ys, apply_window R_ops p xs w = Ok ys /\ length ys = length xs
   /\ forall i, (i < length xs)%nat -> nth i ys 0 = textbook k (INR (length xs)) (INR i) * nth i xs 0.
Proof.
  intros Hw Hs. destruct (C59_apply_window_thm R R_ops p xs w) as [ys [E [Ly H]]].
  { unfold is_size, vlen. destruct k; cbn [min_size] in Hs; lia. }
  exists ys. split; [exact E|]. split; [exact Ly|]. intros i Hi. rewrite Hw in H.
  destruct (H i (nth i xs 0)) as [g [Hg Hn]]; [apply nth_error_nth'; exact Hi|].
  rewrite (nth_error_nth _ _ 0 Hn). cbn [n_mul R_ops]. f_equal.
  destruct (yieldsR k p (vlen xs) i g) as [_ [_ [_ [_ [_ [_ Eg]]]]]]; [exact Hs|exact Hg|].
  rewrite Eg. unfold vlen. rewrite <- INR_IZR_INZ. reflexivity.
Qed.

Lemma win_many w k p c : window_iter w = Some k -> forall xs, (min_size k <= Z.of_nat (length xs) <= usize_max)%Z ->
  exists ys, windowed p w c xs = Ok ys /\ length ys = length xs
   /\ forall i, (i < length xs)%nat -> nth i ys 0 = textbook k (INR (length xs)) (INR i) ^ c * nth i xs 0.
Proof.
  intros Hw. induction c as [|c IH]; intros xs Hs.
  - exists xs. cbn. repeat split; auto. intros. ring.
  - destruct (win_once w k p xs Hw Hs) as [ys [E [L N]]]. cbn [windowed]. rewrite E. cbn [bind].
    destruct (IH ys) as [zs [E2 [L2 N2]]]; [rewrite L; exact Hs|]. exists zs. split; [exact E2|]. split; [congruence|].
    intros i Hi. rewrite N2, L, N by (rewrite ?L; exact Hi). cbn [pow]. ring.
Qed.

(** ** All frames *)
Section Frames.
  Context (p : profile) (w : window) (k : win_kind) (c n h : nat) (x : nat -> R).
  Hypothesis Hw : window_iter w = Some k.
  Hypothesis Hn : (min_size k <= Z.of_nat n <= usize_max)%Z.
  Notation G i := (textbook k (INR n) (INR i) ^ c).

  Definition share (t r : nat) : R := if (r * h <=? t)%nat && (t <? r * h + n)%nat then G (t - r * h)%nat else 0.

  Lemma ola_sum F : exists out, overlap_add p w c n h x F = Ok out /\ forall t, out t = x t * total (share t) F.
  Proof.
    induction F as [|F [out [E H]]].
    - exists (fun _ => 0). split; [reflexivity|]. intros t. cbn. ring.
    - cbn [overlap_add]. rewrite E. cbn [bind].
      assert (Lf : length (frame x (F * h) n) = n) by (unfold frame; rewrite map_length, seq_length; reflexivity).
      destruct (win_many w k p c Hw (frame x (F * h) n)) as [ys [E2 [L N]]]; [rewrite Lf; exact Hn|].
      rewrite E2. cbn [bind]. eexists; split; [reflexivity|]. intros t. cbn [total].
      unfold add_at, share at 2. rewrite L, Lf.
      destruct (Nat.leb_spec (F * h) t) as [A|A], (Nat.ltb_spec t (F * h + n)) as [B|B]; cbn [andb]; rewrite H; try ring.
      rewrite N, Lf by lia. unfold frame.
      rewrite (nth_indep _ 0 (x (F * h + 0)%nat)) by (rewrite map_length, seq_length; lia).
      rewrite (map_nth (fun i => x (F * h + i)%nat)), seq_nth by lia.
      replace (F * h + (0 + (t - F * h)))%nat with t by lia. ring.
  Qed.
End Frames.

Lemma total_app f a b : total f (a + b) = total f a + total (fun j => f (a + j)%nat) b.
Proof. induction b as [|b IH]; [rewrite Nat.add_0_r; cbn; ring|]. rewrite Nat.add_succ_r. cbn [total]. rewrite IH. ring. Qed.
Lemma total_zero f m : (forall j, (j < m)%nat -> f j = 0) -> total f m = 0.
Proof. intros H. rewrite (total_ext f (fun _ => 0) m H), total_const. ring. Qed.
Lemma total_rev f m : total f m = total (fun j => f (m - 1 - j)%nat) m.
Proof.
  induction m as [|m IH]; [reflexivity|]. rewrite (total_first (fun j => f (S m - 1 - j)%nat)). cbn [total]. rewrite IH.
  replace (S m - 1 - 0)%nat with m by lia. rewrite Rplus_comm. f_equal. apply total_ext. intros j Hj. f_equal. lia.
Qed.

(** The frames that reach sample [t] of the steady part. *)
Lemma share_sum k c (m h t F : nat) : (1 <= h)%nat -> (1 <= m)%nat -> (m * h <= t < F * h)%nat ->
  let i := (t mod h)%nat in
  let n := (m * h + 1)%nat in
  total (share k c n h t) F = total (fun j => textbook k (INR n) (INR (i + j * h)) ^ c) m
    + (if (i =? 0)%nat then textbook k (INR n) (INR (m * h)) ^ c else 0).
Proof.
  intros Hh Hm Ht i n. set (q := (t / h)%nat).
  assert (Hi : (i < h)%nat) by (apply Nat.mod_upper_bound; lia).
  assert (Et : t = (q * h + i)%nat) by (unfold q, i; rewrite (Nat.div_mod t h) at 1 by lia; lia).
  assert (Hq : (m <= q)%nat).
  { destruct (Nat.le_gt_cases m q); [assumption|]. assert ((q + 1) * h <= m * h)%nat by (apply Nat.mul_le_mono_r; lia). lia. }
  assert (HF : (q < F)%nat).
  { destruct (Nat.lt_ge_cases q F); [assumption|]. assert (F * h <= q * h)%nat by (apply Nat.mul_le_mono_r; lia). lia. }
  replace F with ((q - m) + (m + 1) + (F - q - 1))%nat by lia. rewrite total_app, total_app.
  assert (Z1 : total (share k c n h t) (q - m) = 0).
  { apply total_zero. intros r Hr. unfold share. destruct (Nat.ltb_spec t (r * h + n)) as [B|B]; [|rewrite andb_false_r; reflexivity].
    exfalso. assert ((r + m + 1) * h <= q * h)%nat by (apply Nat.mul_le_mono_r; lia). unfold n in B. lia. }
  assert (Z2 : total (fun j => share k c n h t (q - m + (m + 1) + j)%nat) (F - q - 1) = 0).
  { apply total_zero. intros j Hj. unfold share. destruct (Nat.leb_spec ((q - m + (m + 1) + j) * h) t) as [B|B]; [|reflexivity].
    exfalso. assert ((q + 1) * h <= (q - m + (m + 1) + j) * h)%nat by (apply Nat.mul_le_mono_r; lia). lia. }
  rewrite Z1, Z2, total_rev. replace (m + 1)%nat with (S m) by lia. cbn [total]. rewrite Rplus_0_l, Rplus_0_r.
  assert (K : forall j, (j <= m)%nat -> share k c n h t (q - m + (S m - 1 - j))%nat
     = if (i + j * h <? n)%nat then textbook k (INR n) (INR (i + j * h)) ^ c else 0).
  { intros j Hj. replace (q - m + (S m - 1 - j))%nat with (q - j)%nat by lia.
    assert (E : ((q - j) * h + j * h = q * h)%nat) by (rewrite <- Nat.mul_add_distr_r; f_equal; lia).
    unfold share. replace (t - (q - j) * h)%nat with (i + j * h)%nat by lia.
    destruct (Nat.leb_spec ((q - j) * h) t); [|lia]. cbn [andb].
    destruct (Nat.ltb_spec t ((q - j) * h + n)), (Nat.ltb_spec (i + j * h) n); try lia; reflexivity. }
  f_equal.
  - apply total_ext. intros j Hj. rewrite K by lia.
    assert ((j + 1) * h <= m * h)%nat by (apply Nat.mul_le_mono_r; lia).
    destruct (Nat.ltb_spec (i + j * h) n); [reflexivity|]. unfold n in *. lia.
  - rewrite K by lia. destruct (Nat.eqb_spec i 0) as [E0|E0], (Nat.ltb_spec (i + m * h) n); unfold n in *; try lia; [|reflexivity].
    rewrite E0. reflexivity.
Qed.

(** ** The cosine windows *)
Section Cos.
  Context (k : win_kind) (Hk : is_cos k) (m h i : nat) (Hh : (1 <= h)%nat).
  Let n := (m * h + 1)%nat.
  Let phi := 2 * PI * INR i / INR (m * h).
  Let C (t j : nat) : R := cos (INR t * phi + INR j * (2 * PI * IZR (Z.of_nat t) / INR m)).
  Let S (q : Z) : R := circ m q (IZR q * phi).

  Lemma lattice j : (1 <= m)%nat ->
    textbook k (INR n) (INR (i + j * h)) = coef k 0 * C 0 j + coef k 1 * C 1 j + coef k 2 * C 2 j + coef k 3 * C 3 j.
  Proof.
    intros Hm. assert (Pm : 0 < INR m) by (apply lt_0_INR; lia). assert (Ph : 0 < INR h) by (apply lt_0_INR; lia).
    unfold n. rewrite (textbook_coef k (m * h)) by (assumption || nia).
    assert (E : forall t : nat, cos (INR (i + j * h) * (2 * PI * IZR (Z.of_nat t) / INR (m * h))) = C t j).
    { intros t. unfold C, phi. f_equal. rewrite plus_INR, !mult_INR, <- INR_IZR_INZ. field. lra. }
    rewrite <- !E. reflexivity.
  Qed.

  Lemma lat_sum t : total (C t) m = S (Z.of_nat t).
  Proof. unfold S, C, circ. apply total_ext. intros j _. rewrite <- INR_IZR_INZ. reflexivity. Qed.

  Lemma lat_prod t s : (1 <= m)%nat -> total (fun j => C t j * C s j) m = (S (Z.of_nat t + Z.of_nat s) + S (Z.of_nat t - Z.of_nat s)) / 2.
  Proof.
    intros Hm. assert (Pm : 0 < INR m) by (apply lt_0_INR; lia).
    unfold S, C, circ. rewrite <- total_plus.
    match goal with |- _ = total ?f m / 2 => replace (total f m / 2) with (/ 2 * total f m) by field end.
    rewrite <- total_scal. apply total_ext. intros j _. rewrite cos_cos. unfold Rdiv at 1. rewrite Rmult_comm. f_equal.
    rewrite plus_IZR, minus_IZR, !INR_IZR_INZ. f_equal; f_equal; field; rewrite <- INR_IZR_INZ; lra.
  Qed.

  Lemma S_0 : S 0 = INR m.
  Proof. unfold S. rewrite circ_0, Rmult_0_l, cos_0. ring. Qed.

  Lemma lat_once : (terms k < m)%nat -> total (fun j => textbook k (INR n) (INR (i + j * h)) ^ 1) m = INR m * strength k 1.
  Proof.
    intros Hm. rewrite (total_ext _ (fun j => coef k 0 * C 0 j + coef k 1 * C 1 j + coef k 2 * C 2 j + coef k 3 * C 3 j)).
    2:{ intros j _. rewrite pow_1. apply lattice. lia. }
    rewrite !total_plus, !total_scal, !lat_sum.
    change (Z.of_nat 0) with 0%Z. change (Z.of_nat 1) with 1%Z. change (Z.of_nat 2) with 2%Z. change (Z.of_nat 3) with 3%Z.
    rewrite S_0. unfold S.
    destruct k; try contradiction; cbn [terms] in Hm; cbn [coef bin_gain strength mean]; circs; lra.
  Qed.

  Lemma lat_twice : (2 * terms k < m)%nat -> total (fun j => textbook k (INR n) (INR (i + j * h)) ^ 2) m = INR m * strength k 2.
  Proof.
    intros Hm.
    set (P := fun t s j => coef k t * coef k s * (C t j * C s j)).
    rewrite (total_ext _ (fun j => P 0%nat 0%nat j + P 1%nat 1%nat j + P 2%nat 2%nat j + P 3%nat 3%nat j
       + 2 * P 0%nat 1%nat j + 2 * P 0%nat 2%nat j + 2 * P 0%nat 3%nat j + 2 * P 1%nat 2%nat j + 2 * P 1%nat 3%nat j + 2 * P 2%nat 3%nat j)).
    2:{ intros j _. rewrite lattice by lia. unfold P. ring. }
    assert (E : forall t s, total (P t s) m = coef k t * coef k s * ((S (Z.of_nat t + Z.of_nat s) + S (Z.of_nat t - Z.of_nat s)) / 2)).
    { intros t s. unfold P. rewrite total_scal, lat_prod by lia. reflexivity. }
    rewrite !total_plus, !total_scal.
    repeat match goal with |- context [total (fun j => P ?t ?s j) m] => change (total (fun j => P t s j) m) with (total (P t s) m) end.
    rewrite !E. nums. rewrite S_0. unfold S.
    destruct k; try contradiction; cbn [terms] in Hm; cbn [coef bin_gain strength mean]; circs; lra.
  Qed.
End Cos.

(*@PROP
(** C109: cut any signal into frames of m h + 1 samples every h samples, apply a cosine window
    once or twice (c = 1, 2) to each and add the frames up: nothing panics, and in the steady
    part, where all the frames exist, the result is the signal times the constant
    [m * strength], provided m is more than [c] times the number of cosines of the window;
    except that at every h-th sample, where the last sample of one frame meets the first
    of another, the product of the end samples comes on top (nothing for Hann and
    Blackman). *)
@*)
Lemma C109_resynthesis_thm :
  forall (w : window) (k : win_kind) (p : profile) (c m h frames : nat) (x : nat -> R),
    cosine_window w k -> (1 <= c <= 2)%nat -> (1 <= h)%nat -> (c * terms k < m)%nat ->
    let n := (m * h + 1)%nat in
    (Z.of_nat n <= usize_max)%Z ->
    exists out, overlap_add p w c n h x frames = Ok out
      /\ forall t, (m * h <= t < frames * h)%nat ->
           out t = x t * (INR m * strength k c + (if (t mod h =? 0)%nat then end_value k (INR n) ^ c else 0)).
Proof.
  intros w k p c m h frames x Hw Hc Hh Hm n Hn. assert (Hk := cosine_is_cos w k Hw).
  assert (T1 : (1 <= terms k)%nat) by (destruct k; try contradiction; cbn; lia).
  assert (M1 : (1 <= m * h)%nat) by nia.
  assert (Hs : (min_size k <= Z.of_nat n <= usize_max)%Z) by (unfold n in *; destruct k; cbn [min_size]; lia).
  destruct (ola_sum p w k c n h x (proj1 Hw) Hs frames) as [out [E H]].
  exists out. split; [exact E|]. intros t Ht. rewrite H. f_equal. unfold n.
  rewrite (share_sum k c m h t frames) by (assumption || lia). rewrite (ends_textbook k (m * h)) by assumption.
  f_equal. destruct Hc as [C1 C2].
  assert (Hcc : c = 1%nat \/ c = 2%nat) by lia. destruct Hcc as [-> | ->].
  - apply lat_once; [exact Hk|exact Hh|lia].
  - apply lat_twice; [exact Hk|exact Hh|lia].
Qed.

(*@PROP
(** A Hann window applied twice with 75% overlap: 513 samples, hop 128. *)
Example C109_resynthesis_hyps :
  cosine_window Hann WHann /\ (1 <= 2 <= 2)%nat /\ (2 * terms WHann < 4)%nat /\ (Z.of_nat (4 * 128 + 1) <= usize_max)%Z.
Proof. repeat split; try discriminate; cbn; try lia. Qed.
@*)

(*@PROP
(** C109: with Hann and Blackman the signal comes back unchanged up to the constant. *)
@*)
Lemma C109_perfect_thm :
  forall (w : window) (k : win_kind) (p : profile) (c m h frames : nat) (x : nat -> R),
    cosine_window w k -> k = WHann \/ k = WBlackman -> (1 <= c <= 2)%nat -> (1 <= h)%nat -> (c * terms k < m)%nat ->
    (Z.of_nat (m * h + 1) <= usize_max)%Z ->
    exists out, overlap_add p w c (m * h + 1) h x frames = Ok out
      /\ forall t, (m * h <= t < frames * h)%nat -> out t = INR m * strength k c * x t.
Proof.
  intros w k p c m h frames x Hw Hk Hc Hh Hm Hn.
  destruct (C109_resynthesis_thm w k p c m h frames x Hw Hc Hh Hm Hn) as [out [E H]].
  exists out. split; [exact E|]. intros t Ht. rewrite (H t Ht).
  assert (E0 : end_value k (INR (m * h + 1)) ^ c = 0).
  { replace (end_value k (INR (m * h + 1))) with 0 by (destruct Hk as [-> | ->]; reflexivity). apply pow_i. lia. }
  rewrite E0. destruct (t mod h =? 0)%nat; ring.
Qed.

(*@PROP
Example C109_perfect_hyps :
  cosine_window Blackman WBlackman /\ (1 <= 1 <= 2)%nat /\ (1 * terms WBlackman < 3)%nat /\ (Z.of_nat (3 * 100 + 1) <= usize_max)%Z.
Proof. repeat split; try discriminate; cbn; try lia. Qed.
@*)

(*@PROP
(** C109, refuted for Hamming and Blackman-Harris: a constant signal comes back with a bump at
    every h-th sample, whatever the overlap. *)
@*)
Lemma C109_ripple_refuted_thm :
  forall (w : window) (k : win_kind) (p : profile) (c m h frames : nat),
    cosine_window w k -> k = WHamming \/ k = WBlackmanHarris -> (1 <= c <= 2)%nat -> (2 <= h)%nat -> (c * terms k < m)%nat ->
    (Z.of_nat (m * h + 1) <= usize_max)%Z -> (m < frames)%nat ->
    exists out, overlap_add p w c (m * h + 1) h (fun _ => 1) frames = Ok out
      /\ out (m * h)%nat = out (m * h + 1)%nat + end_value k (INR (m * h + 1)) ^ c
      /\ out (m * h)%nat > out (m * h + 1)%nat.
Proof.
  intros w k p c m h frames Hw Hk Hc Hh Hm Hn HF.
  destruct (C109_resynthesis_thm w k p c m h frames (fun _ => 1) Hw Hc ltac:(lia) Hm Hn) as [out [E H]].
  exists out. split; [exact E|].
  assert (HB : ((m + 1) * h <= frames * h)%nat) by (apply Nat.mul_le_mono_r; lia).
  rewrite (H (m * h)%nat), (H (m * h + 1)%nat) by lia.
  rewrite Nat.mod_mul by lia. rewrite Nat.add_comm, Nat.mod_add, Nat.mod_small by lia. cbn [Nat.eqb].
  assert (P : 0 < end_value k (INR (1 + m * h)) ^ c).
  { apply pow_lt. destruct Hk as [-> | ->]; cbn [end_value]; lra. }
  split; lra.
Qed.

(*@PROP
Example C109_ripple_refuted_hyps :
  cosine_window Hamming WHamming /\ (1 <= 1 <= 2)%nat /\ (1 * terms WHamming < 2)%nat /\ (Z.of_nat (2 * 128 + 1) <= usize_max)%Z.
Proof. repeat split; try discriminate; cbn; try lia. Qed.
@*)

(** ** The straight windows *)
Lemma bartlett_pair h i : (1 <= h)%nat -> (i < h)%nat ->
  textbook WBartlett (INR (2 * h + 1)) (INR i) + textbook WBartlett (INR (2 * h + 1)) (INR (i + h)) = 1.
Proof.
  intros Hh Hi. cbn [textbook]. assert (P : 0 < INR h) by (apply lt_0_INR; lia). assert (Q : INR i < INR h) by (apply lt_INR; exact Hi).
  assert (Q0 := pos_INR i).
  replace ((INR (2 * h + 1) - 1) / 2) with (INR h) by (rewrite plus_INR, mult_INR; cbn; field).
  rewrite plus_INR. replace ((INR i + INR h - INR h) / INR h) with (INR i / INR h) by (field; lra).
  assert (I : 0 < / INR h) by (apply Rinv_0_lt_compat; lra).
  rewrite (Rabs_pos_eq (INR i / INR h)) by (apply Rmult_le_pos; lra).
  rewrite Rabs_left1.
  - field. lra.
  - replace ((INR i - INR h) / INR h) with (- ((INR h - INR i) * / INR h)) by (field; lra).
    assert (0 <= (INR h - INR i) * / INR h) by (apply Rmult_le_pos; lra). lra.
Qed.

(*@PROP
(** C109: with a Bartlett window of 2 h + 1 samples and hop h the signal comes back unchanged. *)
@*)
Lemma C109_bartlett_thm :
  forall (p : profile) (h frames : nat) (x : nat -> R),
    (1 <= h)%nat -> (Z.of_nat (2 * h + 1) <= usize_max)%Z ->
    exists out, overlap_add p Bartlett 1 (2 * h + 1) h x frames = Ok out
      /\ forall t, (2 * h <= t < frames * h)%nat -> out t = x t.
Proof.
  intros p h frames x Hh Hn.
  destruct (ola_sum p Bartlett WBartlett 1 (2 * h + 1) h x eq_refl ltac:(cbn [min_size]; lia) frames) as [out [E H]].
  exists out. split; [exact E|]. intros t Ht. rewrite H, (share_sum WBartlett 1 2 h t frames) by lia.
  set (i := (t mod h)%nat). assert (Hi : (i < h)%nat) by (apply Nat.mod_upper_bound; lia).
  cbn [total]. rewrite !pow_1. replace (i + 0 * h)%nat with i by lia. replace (i + 1 * h)%nat with (i + h)%nat by lia.
  assert (B := bartlett_pair h i Hh Hi).
  assert (Z0 : textbook WBartlett (INR (2 * h + 1)) (INR (2 * h)) = 0).
  { cbn [textbook]. assert (P : 0 < INR h) by (apply lt_0_INR; lia).
    replace ((INR (2 * h + 1) - 1) / 2) with (INR h) by (rewrite plus_INR, mult_INR; cbn; field).
    rewrite mult_INR. replace ((INR 2 * INR h - INR h) / INR h) with 1 by (cbn; field; lra). rewrite Rabs_R1. ring. }
  rewrite Z0. destruct (i =? 0)%nat; rewrite Rplus_0_l, Rplus_0_r, B; ring.
Qed.

(*@PROP
Example C109_bartlett_hyps : (1 <= 256)%nat /\ (Z.of_nat (2 * 256 + 1) <= usize_max)%Z.
Proof. split; [lia|vm_compute; discriminate]. Qed.
@*)
