(** Property C100: windows in spectral analysis, in exact arithmetic.

    Vocabulary: [apply_window R_ops p xs w] is the slice after the call ([WindowM]);
    [yields R_ops k p n i g] says that the iterator made by [new(n)] yields [g] as
    sample number [i]; [terms], [end_value], [total] are in [WinSpec]; [tone],
    [correlate], [bin_gain], [window_sum], [window_energy] in [SpectrumSpec]. *)
From Coq Require Import ZArith Reals List Bool Lra Lia.
From Verif Require Import Base Num NumR WindowM WinSpec SpectrumSpec SpectrumLemmas.
Import ListNotations.
Open Scope R_scope.

(** C100: apply a cosine window to a tone in bin [m] and correlate with the tone in bin
    [j] (neither near 0 nor near half the sample rate): what comes out is the tone
    times [bin_gain] of the distance of the bins, plus the product of the two
    windowed end samples, which is zero for Hann and Blackman. *)
Theorem C100_tone_spectrum :
  forall (w : window) (k : win_kind) (p : profile) (N m j : nat) (A phi psi : R),
    cosine_window w k -> (Z.of_nat (N + 1) <= usize_max)%Z ->
    (terms k < m + j)%nat -> (m + j + terms k < N)%nat ->
    exists ys, apply_window R_ops p (tone N m A phi (N + 1)) w = Ok ys
      /\ correlate N j psi ys
         = A * (INR N / 2) * bin_gain k (distance m j) * cos (phi - psi)
           + end_value k (INR (N + 1)) * (A * cos phi) * cos psi.
Proof. exact C100_tone_spectrum_thm. Qed.
Print Assumptions C100_tone_spectrum.

(** C100: so a Hann, Hamming, Blackman or Blackman-Harris window leaks a tone in the
    middle of a bin only 1, 1, 2 or 3 bins far: beyond, nothing is left but the
    product of the end samples. *)
Theorem C100_leakage :
  forall (w : window) (k : win_kind) (p : profile) (N m j : nat) (A phi psi : R),
    cosine_window w k -> (Z.of_nat (N + 1) <= usize_max)%Z ->
    (terms k < m + j)%nat -> (m + j + terms k < N)%nat -> (terms k < distance m j)%nat ->
    exists ys, apply_window R_ops p (tone N m A phi (N + 1)) w = Ok ys
      /\ correlate N j psi ys = end_value k (INR (N + 1)) * (A * cos phi) * cos psi.
Proof. exact C100_leakage_thm. Qed.
Print Assumptions C100_leakage.

(** A tone of bin 10 in a Blackman window of 513 samples, seen in bins 11 and 100. *)
Example C100_tone_hyps :
  cosine_window Blackman WBlackman /\ (Z.of_nat (512 + 1) <= usize_max)%Z
  /\ (terms WBlackman < 10 + 11)%nat /\ (10 + 11 + terms WBlackman < 512)%nat /\ distance 10 11 = 1%nat
  /\ (terms WBlackman < 10 + 100)%nat /\ (10 + 100 + terms WBlackman < 512)%nat /\ (terms WBlackman < distance 10 100)%nat.
Proof. exact C100_wit. Qed.

(** C100: the sum of a window's samples (its gain for a constant signal), and the sum of
    their squares (its gain for the power of white noise), for every size of which
    the cosine windows make sense of all their terms. *)
Theorem C100_window_sums :
  forall (k : win_kind) (p : profile) (n : nat) (g : nat -> R),
    (min_size k <= Z.of_nat n <= usize_max)%Z ->
    (forall i, (i < n)%nat -> yields R_ops k p (Z.of_nat n) i (g i)) ->
    ((terms k + 1 < n)%nat \/ terms k = 0%nat -> total g n = window_sum k n)
    /\ ((2 * terms k + 1 < n)%nat \/ terms k = 0%nat -> total (fun i => g i ^ 2) n = window_energy k n).
Proof. exact C100_window_sums_thm. Qed.
Print Assumptions C100_window_sums.

Example C100_sums_hyps :
  (min_size WHann <= Z.of_nat 4 <= usize_max)%Z
  /\ (exists g, forall i, (i < 4)%nat -> yields R_ops WHann Debug (Z.of_nat 4) i (g i))
  /\ (2 * terms WHann + 1 < 4)%nat.
Proof. exact C100_wit2. Qed.
