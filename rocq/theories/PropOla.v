(** Property C109: overlap-add resynthesis with the windows, in exact arithmetic.

    Vocabulary: [OlaSpec] ([overlap_add], [strength]); [cosine_window w k]: [w] is Hann,
    Hamming, Blackman or BlackmanHarris ([SpectrumSpec]); [terms], [end_value] ([WinSpec]). *)
From Coq Require Import ZArith Reals List Bool Lra Lia.
From Verif Require Import Base Num NumR WindowM WinSpec SpectrumSpec OlaSpec OlaLemmas.
Import ListNotations.
Open Scope R_scope.

(** C109: cut any signal into frames of m h + 1 samples every h samples, apply a cosine window
    once or twice (c = 1, 2) to each and add the frames up: nothing panics, and in the steady
    part, where all the frames exist, the result is the signal times the constant
    [m * strength], provided m is more than [c] times the number of cosines of the window;
    except that at every h-th sample, where the last sample of one frame meets the first
    of another, the product of the end samples comes on top (nothing for Hann and
    Blackman). *)

Theorem C109_resynthesis :
  forall (w : window) (k : win_kind) (p : profile) (c m h frames : nat) (x : nat -> R),
    cosine_window w k -> (1 <= c <= 2)%nat -> (1 <= h)%nat -> (c * terms k < m)%nat ->
    let n := (m * h + 1)%nat in
    (Z.of_nat n <= usize_max)%Z ->
    exists out, overlap_add p w c n h x frames = Ok out
      /\ forall t, (m * h <= t < frames * h)%nat ->
           out t = x t * (INR m * strength k c + (if (t mod h =? 0)%nat then end_value k (INR n) ^ c else 0)).
Proof. exact C109_resynthesis_thm. Qed.
Print Assumptions C109_resynthesis.

(** A Hann window applied twice with 75% overlap: 513 samples, hop 128. *)
Example C109_resynthesis_hyps :
  cosine_window Hann WHann /\ (1 <= 2 <= 2)%nat /\ (2 * terms WHann < 4)%nat /\ (Z.of_nat (4 * 128 + 1) <= usize_max)%Z.
Proof. repeat split; try discriminate; cbn; try lia. Qed.

(** C109: with Hann and Blackman the signal comes back unchanged up to the constant. *)

Theorem C109_perfect :
  forall (w : window) (k : win_kind) (p : profile) (c m h frames : nat) (x : nat -> R),
    cosine_window w k -> k = WHann \/ k = WBlackman -> (1 <= c <= 2)%nat -> (1 <= h)%nat -> (c * terms k < m)%nat ->
    (Z.of_nat (m * h + 1) <= usize_max)%Z ->
    exists out, overlap_add p w c (m * h + 1) h x frames = Ok out
      /\ forall t, (m * h <= t < frames * h)%nat -> out t = INR m * strength k c * x t.
Proof. exact C109_perfect_thm. Qed.
Print Assumptions C109_perfect.

Example C109_perfect_hyps :
  cosine_window Blackman WBlackman /\ (1 <= 1 <= 2)%nat /\ (1 * terms WBlackman < 3)%nat /\ (Z.of_nat (3 * 100 + 1) <= usize_max)%Z.
Proof. repeat split; try discriminate; cbn; try lia. Qed.

(** C109, refuted for Hamming and Blackman-Harris: a constant signal comes back with a bump at
    every h-th sample, whatever the overlap. *)

Theorem C109_ripple_refuted :
  forall (w : window) (k : win_kind) (p : profile) (c m h frames : nat),
    cosine_window w k -> k = WHamming \/ k = WBlackmanHarris -> (1 <= c <= 2)%nat -> (2 <= h)%nat -> (c * terms k < m)%nat ->
    (Z.of_nat (m * h + 1) <= usize_max)%Z -> (m < frames)%nat ->
    exists out, overlap_add p w c (m * h + 1) h (fun _ => 1) frames = Ok out
      /\ out (m * h)%nat = out (m * h + 1)%nat + end_value k (INR (m * h + 1)) ^ c
      /\ out (m * h)%nat > out (m * h + 1)%nat.
Proof. exact C109_ripple_refuted_thm. Qed.
Print Assumptions C109_ripple_refuted.

Example C109_ripple_refuted_hyps :
  cosine_window Hamming WHamming /\ (1 <= 1 <= 2)%nat /\ (1 * terms WHamming < 2)%nat /\ (Z.of_nat (2 * 128 + 1) <= usize_max)%Z.
Proof. repeat split; try discriminate; cbn; try lia. Qed.

(** C109: with a Bartlett window of 2 h + 1 samples and hop h the signal comes back unchanged. *)

Theorem C109_bartlett :
  forall (p : profile) (h frames : nat) (x : nat -> R),
    (1 <= h)%nat -> (Z.of_nat (2 * h + 1) <= usize_max)%Z ->
    exists out, overlap_add p Bartlett 1 (2 * h + 1) h x frames = Ok out
      /\ forall t, (2 * h <= t < frames * h)%nat -> out t = x t.
Proof. exact C109_bartlett_thm. Qed.
Print Assumptions C109_bartlett.

Example C109_bartlett_hyps : (1 <= 256)%nat /\ (Z.of_nat (2 * 256 + 1) <= usize_max)%Z.
Proof. split; [lia|vm_compute; discriminate]. Qed.
