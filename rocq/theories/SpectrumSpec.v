(** Vocabulary of property C100: windows in spectral analysis. *)
From Coq Require Import ZArith Reals List.
From Verif Require Import Base NumF Witness WindowM WinSpec.
Import ListNotations.
Open Scope R_scope.

(** Frequencies are counted in bins: bin [m] makes [m] cycles in [N] samples. *)
Definition bin_phase (N m : nat) (i : nat) : R := 2 * PI * INR m * INR i / INR N.

(** [n] samples of the tone of amplitude [A] and phase [phi] in bin [m]. *)
Definition tone (N m : nat) (A phi : R) (n : nat) : list R :=
  map (fun i => A * cos (bin_phase N m i + phi)) (seq 0 n).

(** The correlation of the samples [ys] with the tone of bin [j] and phase [psi]: the
    real part of the bin's spectrum for [psi] = 0, the imaginary part for
    [psi] = pi/2. *)
Definition correlate (N j : nat) (psi : R) (ys : list R) : R :=
  total (fun i => nth i ys 0 * cos (bin_phase N j i + psi)) (length ys).

(** How much of a tone a window leaves [d] bins away: half the coefficient of the
    window's cosine number [d], all of the constant. *)
Definition bin_gain (k : win_kind) (d : nat) : R :=
  match k, d with
  | WHann, 0%nat => 0.5 | WHann, 1%nat => - 0.5 / 2
  | WHamming, 0%nat => 0.54 | WHamming, 1%nat => - 0.46 / 2
  | WBlackman, 0%nat => 0.42 | WBlackman, 1%nat => - 0.5 / 2 | WBlackman, 2%nat => 0.08 / 2
  | WBlackmanHarris, 0%nat => 0.35875 | WBlackmanHarris, 1%nat => - 0.48829 / 2
  | WBlackmanHarris, 2%nat => 0.14128 / 2 | WBlackmanHarris, 3%nat => - 0.01168 / 2
  | _, _ => 0
  end.

(** The windows that are sums of cosines. *)
Definition cosine_window (w : window) (k : win_kind) : Prop :=
  window_iter w = Some k /\ k <> WTriangular /\ k <> WBartlett.

(** 1 for odd sizes, 0 for even ones. *)
Definition odd_part (n : nat) : R := if Nat.odd n then 1 else 0.

(** The sum of the samples of a window of [n] samples ... *)
Definition window_sum (k : win_kind) (n : nat) : R :=
  let x := INR n in
  match k with
  | WTriangular => x / 2 + odd_part n / (2 * x)
  | WBartlett => (x - 1) / 2 - (1 - odd_part n) / (2 * (x - 1))
  | _ => mean k * (x - 1) + end_value k x
  end.

(** ... and the sum of their squares. *)
Definition window_energy (k : win_kind) (n : nat) : R :=
  let x := INR n in
  match k with
  | WTriangular => x / 3 + (3 * odd_part n - 1) / (3 * x)
  | WBartlett => (x - 1) / 3 + (3 * odd_part n - 1) / (3 * (x - 1))
  | _ => (mean k ^ 2 + 2 * (bin_gain k 1 ^ 2 + bin_gain k 2 ^ 2 + bin_gain k 3 ^ 2)) * (x - 1) + end_value k x ^ 2
  end.

(** The distance between two bins. *)
Definition distance (m j : nat) : nat := (m - j + (j - m))%nat.

(** One cycle of a cosine in [f32], for the example of C101. *)
Definition slice101 : list f32 :=
  [fl32 1 0; fl32 1 (-1); fl32 (-1) (-1); fl32 (-1) 0; fl32 (-1) (-1); fl32 1 (-1); fl32 1 0].
