(** Property C91: the samples of every window in [f32] and [f64] are the textbook
    values up to a few units in the last place of 1.

    Vocabulary: [yields O k p n i g] says that the iterator made by [new(n)] yields
    [g] as sample number [i], [textbook] is the formula of the window ([WinSpec]);
    [ieee O V] says that [O] is the arithmetic of [f32] or [f64], which [V] reads as
    numbers ([FloatSpec]); [cos_close] and [window_error] are in [WinAccSpec]. *)
From Coq Require Import ZArith Reals List Bool Lra Lia.
From Flocq Require Import Core.Core IEEE754.BinarySingleNaN.
From Verif Require Import Base Num NumF FloatSpec CrLibm Witness WindowM WinSpec WinAccSpec WinAccLemmas.
Import ListNotations.
Open Scope R_scope.

(** C91: in [f32] and [f64], every sample of every window, of every size from the
    smallest for which it is defined, is the textbook value up to 8 (triangular,
    Bartlett), 20 (Hann), 22 (Hamming), 30 (Blackman), 40 (Blackman-Harris) times
    2^-p.  The cosine of the maths library is off by at most 2^(1-p). *)
Theorem C91_window_accurate :
  forall (T : Type) (O : num_ops T) (V : float_view T) (k : win_kind) (p : profile) (n : Z) (i : nat) (g : T),
    ieee O V -> match k with WTriangular | WBartlett => True | _ => cos_close O V end ->
    (min_size k <= n <= usize_max)%Z -> yields O k p n i g ->
    fin V g = true
    /\ Rabs (val V g - textbook k (IZR n) (INR i)) <= window_error k * bpow radix2 (- fprec V).
Proof. exact C91_window_accurate_thm. Qed.
Print Assumptions C91_window_accurate.

(** C91: so no window sample leaves [0, 1] by more than that. *)
Theorem C91_window_range :
  forall (T : Type) (O : num_ops T) (V : float_view T) (k : win_kind) (p : profile) (n : Z) (i : nat) (g : T),
    ieee O V -> match k with WTriangular | WBartlett => True | _ => cos_close O V end ->
    (min_size k <= n <= usize_max)%Z -> yields O k p n i g ->
    - (window_error k * bpow radix2 (- fprec V)) <= val V g <= 1 + window_error k * bpow radix2 (- fprec V).
Proof. exact C91_window_range_thm. Qed.
Print Assumptions C91_window_range.

(** Beside the theorems: the correctly rounded cosine meets the hypothesis, and a
    Blackman window of 512 samples yields a second sample. *)
Example C91_hyps :
  cos_close (f32_ops (cr_libm 24 128) false) (ieee_view 24 128)
  /\ (min_size WBlackman <= 512 <= usize_max)%Z
  /\ (exists g, yields (f32_ops (cr_libm 24 128) false) WBlackman Debug 512 1 g)
  /\ window_error WBlackman * bpow radix2 (- (24)) < 2 / 1000000.
Proof.
  split; [apply cr_cos_close_32|]. split; [vm_compute; split; discriminate|].
  split; [eexists; eexists; eexists; split; reflexivity|]. cbn. lra.
Qed.
