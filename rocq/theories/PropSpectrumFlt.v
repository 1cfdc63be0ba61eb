(** Property C101: [apply_window] and the leakage of tones in [f32] and [f64].

    Vocabulary: [ieee O V] says that [O] is the arithmetic of [f32] or [f64], which
    [V] reads as numbers ([FloatSpec]); [apply_window O p xs w] is the slice after
    the call ([WindowM]); [textbook], [terms], [end_value] are in [WinSpec];
    [cos_close] and [window_error] in [WinAccSpec]; [half_ulp] and [half_tiny] in
    [TrackSpec]; [bin_phase], [correlate] in [SpectrumSpec]. *)
From Coq Require Import ZArith Reals List Bool Lra Lia.
From Flocq Require Import Core.Core IEEE754.BinarySingleNaN.
From Verif Require Import Base Num NumF FloatSpec CrLibm Witness WindowM WinSpec WinAccSpec TrackSpec SpectrumSpec SpectrumFlt.
Import ListNotations.
Open Scope R_scope.

(** C101: in [f32] and [f64], [apply_window] completes, keeps the length, and every
    sample of the slice becomes the textbook gain times the sample up to
    (window_error + 2) 2^-p times the sample (plus underflow). *)
Theorem C101_apply_accurate :
  forall (T : Type) (O : num_ops T) (V : float_view T) (w : window) (k : win_kind) (p : profile) (xs : list T),
    ieee O V -> window_iter w = Some k ->
    match k with WTriangular | WBartlett => True | _ => cos_close O V end ->
    (min_size k <= vlen xs <= usize_max)%Z ->
    Forall (fun x => fin V x = true /\ Rabs (val V x) <= fmax V / 4) xs ->
    exists ys, apply_window O p xs w = Ok ys /\ length ys = length xs
      /\ forall i x, nth_error xs i = Some x -> exists y, nth_error ys i = Some y /\ fin V y = true
           /\ Rabs (val V y - textbook k (IZR (vlen xs)) (INR i) * val V x)
              <= (window_error k + 2) * half_ulp V * Rabs (val V x) + half_tiny V.
Proof. exact C101_apply_accurate_thm. Qed.
Print Assumptions C101_apply_accurate.

(** C101: so the leakage statement C100 holds in [f32] and [f64] up to rounding: with a
    slice that is a tone of amplitude [A] up to [e] per sample, bins further away
    than [terms] see at most the end samples and the rounding noise. *)
Theorem C101_leakage :
  forall (T : Type) (O : num_ops T) (V : float_view T) (w : window) (k : win_kind) (p : profile) (N m j : nat) (A phi psi e : R) (xs : list T),
    ieee O V -> cosine_window w k -> cos_close O V -> (Z.of_nat (N + 1) <= usize_max)%Z ->
    (terms k < m + j)%nat -> (m + j + terms k < N)%nat -> (terms k < distance m j)%nat ->
    0 <= A -> A + e <= fmax V / 4 -> length xs = (N + 1)%nat ->
    (forall i x, nth_error xs i = Some x -> fin V x = true /\ Rabs (val V x - A * cos (bin_phase N m i + phi)) <= e) ->
    exists ys, apply_window O p xs w = Ok ys
      /\ Rabs (correlate N j psi (map (val V) ys))
         <= end_value k (INR (N + 1)) * A + INR (N + 1) * ((window_error k + 2) * half_ulp V * (A + e) + half_tiny V + e).
Proof. exact C101_leakage_thm. Qed.
Print Assumptions C101_leakage.

(** The hypotheses are met by a correctly rounded cosine and the slice
    [slice101]: one cycle of a cosine, whose values are exact in [f32]. *)
Example C101_hyps :
  cosine_window Hann WHann /\ cos_close O90 V90
  /\ (min_size WHann <= vlen slice101 <= usize_max)%Z
  /\ Forall (fun x => fin V90 x = true /\ Rabs (val V90 x) <= fmax V90 / 4) slice101
  /\ (Z.of_nat (6 + 1) <= usize_max)%Z
  /\ (terms WHann < 1 + 3)%nat /\ (1 + 3 + terms WHann < 6)%nat /\ (terms WHann < distance 1 3)%nat
  /\ 1 + 0 <= fmax V90 / 4 /\ length slice101 = (6 + 1)%nat
  /\ (forall i x, nth_error slice101 i = Some x ->
        fin V90 x = true /\ Rabs (val V90 x - 1 * cos (bin_phase 6 1 i + 0)) <= 0).
Proof. exact C101_wit. Qed.
