(** Properties C60, C61, C64, C74: windows in [f32] and [f64].

    Vocabulary: [yields O k p n i g] says that the iterator made by [new(n)] yields
    [g] as sample number [i] ([WinSpec]); [ieee O V] that [O] is the arithmetic of
    [f32] or [f64], which [V] reads as numbers ([FloatSpec]). *)
From Coq Require Import ZArith Reals List Bool Lra Lia.
From Flocq Require Import Core.Core IEEE754.BinarySingleNaN.
From Verif Require Import Base Num NumF FloatSpec CrLibm Witness WindowM WinSpec WinLemmasF.
Import ListNotations.
Open Scope R_scope.

(** C60: in [f32] and [f64], triangular and Bartlett windows are symmetric bit for bit
    as long as the sizes are exact (2^24 + 1 and 2^53 + 1 samples). *)
Theorem C60_symmetric_float :
  forall (T : Type) (O : num_ops T) (V : float_view T) (k : win_kind) (p : profile) (n : Z) (i i' : nat) (g g' : T),
    ieee O V -> k = WTriangular \/ k = WBartlett ->
    (min_size k <= n <= usize_max)%Z -> (n - 1 <= 2 ^ fprec V)%Z ->
    yields O k p n i g -> yields O k p n i' g' -> (Z.of_nat i + Z.of_nat i' = n - 1)%Z ->
    g = g'.
Proof. exact C60_symmetric_float_thm. Qed.
Print Assumptions C60_symmetric_float.

Example C60_float_hyps :
  (min_size WBartlett <= 1025 <= usize_max)%Z /\ (1025 - 1 <= 2 ^ fprec (ieee_view 24 128))%Z
  /\ (exists g, yields O32 WBartlett Debug 1025 1 g) /\ (Z.of_nat 1 + Z.of_nat 1023 = 1025 - 1)%Z.
Proof.
  split; [vm_compute; split; discriminate|]. split; [vm_compute; discriminate|]. split; [|reflexivity].
  eexists. eexists. eexists. split; reflexivity.
Qed.

(** C61: in [f32] and [f64], every sample of the triangular and Bartlett windows of any
    size, and of the Hann and Hamming windows when the cosine stays within [-1, 1],
    is a number in [0, 1]. *)
Theorem C61_range_float :
  forall (T : Type) (O : num_ops T) (V : float_view T) (k : win_kind) (p : profile) (n : Z) (i : nat) (g : T),
    ieee O V ->
    match k with
    | WTriangular | WBartlett => True
    | WHann | WHamming => cos_sound O V
    | WBlackman | WBlackmanHarris => False
    end ->
    (min_size k <= n <= usize_max)%Z -> yields O k p n i g ->
    fin V g = true /\ 0 <= val V g <= 1.
Proof. exact C61_range_float_thm. Qed.
Print Assumptions C61_range_float.

(** A correctly rounded cosine stays within [-1, 1]. *)
Example C61_float_hyps :
  cos_sound (f32_ops (cr_libm 24 128) false) (ieee_view 24 128) /\ cos_sound (f64_ops (cr_libm 53 1024) false) (ieee_view 53 1024)
  /\ (min_size WHann <= 512 <= usize_max)%Z /\ exists g, yields (f32_ops (cr_libm 24 128) false) WHann Debug 512 1 g.
Proof.
  split; [exact (cr_cos_sound_32 _)|]. split; [exact (cr_cos_sound_64 _)|]. split; [vm_compute; split; discriminate|].
  eexists. eexists. eexists. split; reflexivity.
Qed.

(** C61: in [f32] and [f64], every sample of every window of a size for which it is
    defined is a number, neither infinite nor NaN. *)
Theorem C61_finite_float :
  forall (T : Type) (O : num_ops T) (V : float_view T) (k : win_kind) (p : profile) (n : Z) (i : nat) (g : T),
    ieee O V -> cos_sound O V ->
    (min_size k <= n <= usize_max)%Z -> yields O k p n i g -> fin V g = true.
Proof. exact C61_finite_float_thm. Qed.
Print Assumptions C61_finite_float.

Example C61_finite_hyps :
  cos_sound (f64_ops (cr_libm 53 1024) true) (ieee_view 53 1024) /\ (min_size WBlackmanHarris <= 512 <= usize_max)%Z
  /\ exists g, yields (f64_ops (cr_libm 53 1024) true) WBlackmanHarris Release 512 1 g.
Proof.
  split; [exact (cr_cos_sound_64 _)|]. split; [vm_compute; split; discriminate|].
  eexists. eexists. eexists. split; reflexivity.
Qed.

(** C74: with a cosine that is right at 0, the first sample of every Blackman window is
    negative: -2^-26 in [f32], -2^-56 in [f64], instead of 0. *)
Theorem C74_blackman_range_refuted :
  (forall (lm : libm f32) (b : bool) (p : profile) (n : Z) (g : f32),
     m_cos lm (B754_zero false) = n_one (f32_ops lm b) ->
     (2 <= n <= usize_max)%Z -> yields (f32_ops lm b) WBlackman p n 0 g ->
     is_finite g = true /\ B2R g = - bpow radix2 (-26))
  /\ (forall (lm : libm f64) (b : bool) (p : profile) (n : Z) (g : f64),
     m_cos lm (B754_zero false) = n_one (f64_ops lm b) ->
     (2 <= n <= usize_max)%Z -> yields (f64_ops lm b) WBlackman p n 0 g ->
     is_finite g = true /\ B2R g = - bpow radix2 (-56)).
Proof. exact C74_blackman_range_refuted_thm. Qed.
Print Assumptions C74_blackman_range_refuted.

(** The correctly rounded cosine is right at 0. *)
Example C74_hyps :
  m_cos (cr_libm 24 128) (B754_zero false) = n_one (f32_ops (cr_libm 24 128) false)
  /\ m_cos (cr_libm 53 1024) (B754_zero false) = n_one (f64_ops (cr_libm 53 1024) false)
  /\ (2 <= 512 <= usize_max)%Z /\ exists g, yields (f32_ops (cr_libm 24 128) false) WBlackman Debug 512 0 g.
Proof.
  split; [exact (cr_cos_0 24 128 wle3_32)|]. split; [exact (cr_cos_0 53 1024 wle3_64)|]. split; [vm_compute; split; discriminate|].
  eexists. eexists. eexists. split; reflexivity.
Qed.

(** C64: on a slice of one sample, [Rectangular] and [Triangular] change nothing, bit
    for bit, and the five other windows put NaN, provided the cosine of NaN is NaN. *)
Theorem C64_size_one :
  forall (p : profile) (w : window),
    (forall (lm : libm f32) (b : bool) (x : f32), m_cos lm B754_nan = B754_nan ->
      apply_window (f32_ops lm b) p [x] w =
        Ok [match w with Rectangular | Triangular => x | _ => B754_nan end])
    /\ (forall (lm : libm f64) (b : bool) (x : f64), m_cos lm B754_nan = B754_nan ->
      apply_window (f64_ops lm b) p [x] w =
        Ok [match w with Rectangular | Triangular => x | _ => B754_nan end]).
Proof. exact C64_size_one_thm. Qed.
Print Assumptions C64_size_one.

Example C64_hyps : m_cos (cr_libm 24 128) B754_nan = B754_nan /\ m_cos (cr_libm 53 1024) B754_nan = B754_nan.
Proof. split; reflexivity. Qed.
