(** Proofs of C91. *)
From Coq Require Import ZArith Reals List Bool Lra Lia Psatz.
From Flocq Require Import Core.Core IEEE754.BinarySingleNaN.
From Verif Require Import Base Num NumR NumF FloatSpec FloatFacts FltFilterFacts CrLibm Witness ConstLemmas
  WindowM WinSpec WinFacts WinLemmas WinLemmasF RbjFltFacts WinAccSpec WinAccFacts.
Import ListNotations.
Open Scope R_scope.
(*@PROP
(** Property C91: the samples of every window in [f32] and [f64] are the textbook
    values up to a few units in the last place of 1.

    Vocabulary: [yields O k p n i g] says that the iterator made by [new(n)] yields
    [g] as sample number [i], [textbook] is the formula of the window ([WinSpec]);
    [ieee O V] says that [O] is the arithmetic of [f32] or [f64], which [V] reads as
    numbers ([FloatSpec]); [cos_close] and [window_error] are in [WinAccSpec]. *)
From Coq Require Import ZArith Reals List Bool Lra Lia.
From Flocq Require Import Core.Core IEEE754.BinarySingleNaN.
From Verif Require Import Base Num NumF FloatSpec CrLibm Witness WindowM WinSpec WinAccSpec WinAccLemmas.
Import ListNotations.
Open Scope R_scope.

@*)

Ltac lit := repeat match goal with |- context[B2R ?x] => rewrite <- (SF2R_B2SF _ _ x);
  let v := eval vm_compute in (B2SF x) in
  replace (B2SF x) with v by (vm_compute; reflexivity); cbn [SF2R cond_Zopp] end; unfold F2R; cbn.

Ltac near_lit := split; [vm_compute; reflexivity|]; split; [apply Rabs_le; unfold uro; lit; lra|apply Rabs_le; lra].

Lemma all32 lm b k n j : cos_close (f32_ops lm b) (ieee_view 24 128) -> k <> WTriangular -> k <> WBartlett ->
  (2 <= n <= usize_max)%Z -> (0 <= j < n)%Z -> good 24 128 13176795 (-22) 4 lm b n j k.
Proof.
  intros Hc K1 K2 Hn Hj.
  assert (Fpi : is_finite (n_pi (f32_ops lm b)) = true) by (vm_compute; reflexivity).
  assert (Vpi : B2R (n_pi (f32_ops lm b)) = round radix2 (SpecFloat.fexp 24 128) (round_mode mode_NE) PI).
  { apply (C86_constants_thm _ _ _ (ieee_f32 lm b)). }
  destruct k; try contradiction.
  - apply (hann_near 24 128 ltac:(lia) ltac:(lia) ltac:(lia) ltac:(lia) 13176795 (-22) 4 lm b Fpi Vpi Hc n j Hn Hj). near_lit.
  - apply (hamming_near 24 128 ltac:(lia) ltac:(lia) ltac:(lia) ltac:(lia) 13176795 (-22) 4 lm b Fpi Vpi Hc n j Hn Hj). near_lit.
  - apply (blackman_near 24 128 ltac:(lia) ltac:(lia) ltac:(lia) ltac:(lia) 13176795 (-22) 4 lm b Fpi Vpi Hc n j Hn Hj); near_lit.
  - apply (blackman_harris_near 24 128 ltac:(lia) ltac:(lia) ltac:(lia) ltac:(lia) 13176795 (-22) 4 lm b Fpi Vpi Hc n j Hn Hj); near_lit.
Qed.
Lemma all64 lm b k n j : cos_close (f64_ops lm b) (ieee_view 53 1024) -> k <> WTriangular -> k <> WBartlett ->
  (2 <= n <= usize_max)%Z -> (0 <= j < n)%Z -> good 53 1024 7074237752028440 (-51) 8 lm b n j k.
Proof.
  intros Hc K1 K2 Hn Hj.
  assert (Fpi : is_finite (n_pi (f64_ops lm b)) = true) by (vm_compute; reflexivity).
  assert (Vpi : B2R (n_pi (f64_ops lm b)) = round radix2 (SpecFloat.fexp 53 1024) (round_mode mode_NE) PI).
  { apply (C86_constants_thm _ _ _ (ieee_f64 lm b)). }
  destruct k; try contradiction.
  - apply (hann_near 53 1024 ltac:(lia) ltac:(lia) ltac:(lia) ltac:(lia) 7074237752028440 (-51) 8 lm b Fpi Vpi Hc n j Hn Hj). near_lit.
  - apply (hamming_near 53 1024 ltac:(lia) ltac:(lia) ltac:(lia) ltac:(lia) 7074237752028440 (-51) 8 lm b Fpi Vpi Hc n j Hn Hj). near_lit.
  - apply (blackman_near 53 1024 ltac:(lia) ltac:(lia) ltac:(lia) ltac:(lia) 7074237752028440 (-51) 8 lm b Fpi Vpi Hc n j Hn Hj); near_lit.
  - apply (blackman_harris_near 53 1024 ltac:(lia) ltac:(lia) ltac:(lia) ltac:(lia) 7074237752028440 (-51) 8 lm b Fpi Vpi Hc n j Hn Hj); near_lit.
Qed.

(** C91: in [f32] and [f64], every sample of every window, of every size from the
    smallest for which it is defined, is the textbook value up to 8 (triangular,
    Bartlett), 20 (Hann), 22 (Hamming), 30 (Blackman), 40 (Blackman-Harris) times
    2^-p.  The cosine of the maths library is off by at most 2^(1-p). *)
Lemma C91_window_accurate_thm :
  forall (T : Type) (O : num_ops T) (V : float_view T) (k : win_kind) (p : profile) (n : Z) (i : nat) (g : T),
    ieee O V -> match k with WTriangular | WBartlett => True | _ => cos_close O V end ->
    (min_size k <= n <= usize_max)%Z -> yields O k p n i g ->
    fin V g = true
    /\ Rabs (val V g - textbook k (IZR n) (INR i)) <= window_error k * bpow radix2 (- fprec V).
Proof.
  intros T O V k p n i g HO Hc Hn Y.
  assert (S : is_size n) by (split; [destruct k; cbn [min_size] in Hn|]; lia).
  apply (yields_iff O k p n i g S) in Y. destruct Y as [Y ->]. rewrite INR_IZR_INZ.
  assert (Hi : (0 <= Z.of_nat i < n)%Z) by lia.
  assert (D : (k = WTriangular \/ k = WBartlett) \/ (k <> WTriangular /\ k <> WBartlett)).
  { destruct k; try (left; auto; fail); right; split; discriminate. }
  destruct D as [Hk|[K1 K2]].
  - assert (E : window_error k = 8) by (destruct Hk as [-> | ->]; reflexivity). rewrite E. destruct HO.
    + exact (tri_near 24 128 ltac:(lia) ltac:(lia) ltac:(lia) ltac:(lia) ltac:(lia) _ _ _ lm b k n (Z.of_nat i) Hk Hn Hi).
    + exact (tri_near 53 1024 ltac:(lia) ltac:(lia) ltac:(lia) ltac:(lia) ltac:(lia) _ _ _ lm b k n (Z.of_nat i) Hk Hn Hi).
  - assert (Hc' : cos_close O V) by (destruct k; assumption || contradiction).
    assert (Hn2 : (2 <= n <= usize_max)%Z) by (destruct k; cbn [min_size] in Hn; try contradiction; lia). destruct HO.
    + exact (all32 lm b k n (Z.of_nat i) Hc' K1 K2 Hn2 Hi).
    + exact (all64 lm b k n (Z.of_nat i) Hc' K1 K2 Hn2 Hi).
Qed.
(** C91: so no window sample leaves [0, 1] by more than that. *)
Lemma C91_window_range_thm :
  forall (T : Type) (O : num_ops T) (V : float_view T) (k : win_kind) (p : profile) (n : Z) (i : nat) (g : T),
    ieee O V -> match k with WTriangular | WBartlett => True | _ => cos_close O V end ->
    (min_size k <= n <= usize_max)%Z -> yields O k p n i g ->
    - (window_error k * bpow radix2 (- fprec V)) <= val V g <= 1 + window_error k * bpow radix2 (- fprec V).
Proof.
  intros T O V k p n i g HO Hc Hn Y. destruct (C91_window_accurate_thm T O V k p n i g HO Hc Hn Y) as [_ G].
  assert (S : is_size n) by (split; [destruct k; cbn [min_size] in Hn|]; lia).
  assert (Y' : yields R_ops k p n i (textbook k (IZR n) (INR i))).
  { apply (yields_iff R_ops k p n i _ S). apply (yields_iff O k p n i g S) in Y. destruct Y as [Y _]. split; [exact Y|].
    rewrite win_val_textbook by lia. rewrite <- INR_IZR_INZ. reflexivity. }
  destruct (C61_range_thm k p n i _ Hn Y') as [R _]. apply Rabs_le_inv in G. lra.
Qed.

Lemma cr_cos_close_32 b : cos_close (f32_ops (cr_libm 24 128) b) (ieee_view 24 128).
Proof.
  intros x Fx _. cbn [fin val fprec ieee_view] in *.
  assert (E : n_cos (f32_ops (cr_libm 24 128) b) x = R2F 24 128 (cos (B2R x))) by (destruct x; try discriminate; reflexivity).
  rewrite E. destruct (cr_cos_R2F 24 128 ltac:(lia) (cos (B2R x)) (COS_bound _)) as [A [B _]]. split; [exact A|]. rewrite B.
  assert (C : Rabs (cos (B2R x)) <= 1) by (apply Rabs_le, COS_bound).
  assert (G := err 24 128 ltac:(lia) _ _ C). assert (H := et_small 24 128 ltac:(lia)). assert (U := u_small 24 ltac:(lia)).
  change (bpow radix2 (1 - 24)) with (/ 8388608). change (uro 24) with (/ 16777216) in *. lra.
Qed.
(*@PROP
(** Beside the theorems: the correctly rounded cosine meets the hypothesis, and a
    Blackman window of 512 samples yields a second sample. *)
Example C91_hyps :
  cos_close (f32_ops (cr_libm 24 128) false) (ieee_view 24 128)
  /\ (min_size WBlackman <= 512 <= usize_max)%Z
  /\ (exists g, yields (f32_ops (cr_libm 24 128) false) WBlackman Debug 512 1 g)
  /\ window_error WBlackman * bpow radix2 (- (24)) < 2 / 1000000.
Proof.
  split; [apply cr_cos_close_32|]. split; [vm_compute; split; discriminate|].
  split; [eexists; eexists; eexists; split; reflexivity|]. cbn. lra.
Qed.
@*)
